{
 "claims": [
  {
   "property": "C01",
   "status": "proved",
   "theorems": [
    "as_stride_row_major",
    "linear_index_is_rank"
   ],
   "note": "With assertions enabled the coordinate types must be able to represent the extents (see C05)."
  },
  {
   "property": "C02",
   "status": "proved",
   "theorems": [
    "coordinates_are_preimage",
    "coordinates_of_linear_index",
    "linear_index_of_coordinates",
    "linear_index_injective"
   ],
   "note": ""
  },
  {
   "property": "C03",
   "status": "proved",
   "theorems": [
    "linear_index_lex"
   ],
   "note": ""
  },
  {
   "property": "C04",
   "status": "proved",
   "theorems": [
    "index_arithmetic_exact",
    "numel_zero_extent_overflow_refuted",
    "numel_truncation_refuted",
    "numel_overflows_iff",
    "numel_of_positive_overflows_iff",
    "numel_of_unsigned",
    "as_stride_overflows_iff"
   ],
   "note": "Exactness on legal shapes; the two _refuted theorems are the counterexamples named in the statement."
  },
  {
   "property": "C05",
   "status": "proved",
   "theorems": [
    "contains_iff_in_box",
    "contains_is_an_upper_bound",
    "contains_negative_refuted",
    "contains_narrow_refuted"
   ],
   "note": ""
  },
  {
   "property": "C06",
   "status": "proved",
   "theorems": [
    "numel_is_product"
   ],
   "note": ""
  },
  {
   "property": "C07",
   "status": "proved",
   "theorems": [
    "nbdims_after_leading_ones",
    "compress_to_nbdims_drops_ones",
    "nbdims_counts_trailing_ones_refuted"
   ],
   "note": ""
  },
  {
   "property": "C08",
   "status": "proved",
   "theorems": [
    "compress_merges_outer_axes",
    "compress_keeps_linear_index",
    "compress_compose"
   ],
   "note": ""
  },
  {
   "property": "C09",
   "status": "proved",
   "theorems": [
    "shape_eq_reflexive",
    "shape_eq_symmetric",
    "shape_eq_pointwise",
    "shape_eq_characterised",
    "shape_eq_same_numel",
    "shape_eq_transitive_refuted",
    "shape_eq_transitive",
    "shape_eq_flat",
    "shape_eq_not_transitive"
   ],
   "note": ""
  },
  {
   "property": "C10",
   "status": "proved",
   "theorems": [
    "shape_conversion_keeps_volume",
    "shape_widen_narrow_roundtrip"
   ],
   "note": "Destination axes are run-time axes able to hold every int32 size (jokers or types of at least 32 bits)."
  },
  {
   "property": "C100",
   "status": "proved",
   "theorems": [
    "any_values_with_failures",
    "any_strong_guarantee",
    "any_nothing_left",
    "any_objects_made"
   ],
   "note": "allocators are copied and moved without change of value and their destructors do not throw; what is left in an rvalue argument after a failure is not stated"
  },
  {
   "property": "C101",
   "status": "proved",
   "theorems": [
    "ctor_accepts",
    "ctor_values",
    "ctor_checks",
    "ctor_any_order",
    "missing_named_extent_refuted",
    "static_shape_ignores_names_refuted"
   ],
   "note": "axes without value as arguments, user types (C95), options whose axis has a content (C57), options for implicit axes (along<-1>) and a keyword given twice are left out"
  },
  {
   "property": "C102",
   "status": "proved",
   "theorems": [
    "bool_reduce",
    "bool_total",
    "bool_products",
    "bool_inner_product",
    "bool_inclusive_scan",
    "bool_exclusive_scan",
    "bool_inclusive_counts",
    "bool_exclusive_counts",
    "bool_transform",
    "bool_copy",
    "bool_copy_if",
    "bool_fill",
    "bool_generate",
    "bool_replace_if",
    "bool_replace",
    "bools_as_numbers",
    "bools_and_back",
    "bool_count",
    "bool_count_mixed",
    "bool_find",
    "bool_iota",
    "bool_iota_step",
    "table_of_bool",
    "table_from_bools",
    "bool_sum_counts_refuted",
    "bool_init_refuted",
    "count_true_refuted",
    "bool_iota_step_refuted"
   ],
   "note": "sums, scans and counters that mix bool and floating point are left out (UB in the model); iota(c) of bools and iota(c, b) do not compile (no ++ of bool)"
  },
  {
   "property": "C103",
   "status": "proved",
   "theorems": [
    "large_axis_range",
    "large_axis_slicer",
    "large_axis_backward",
    "large_backward_bound_refuted",
    "large_backward_view",
    "large_backward_int_step_refuted",
    "large_slice",
    "large_slice_access",
    "large_slice_usable",
    "large_slice_fill",
    "large_joker_abort",
    "large_int_step",
    "large_last_index_refuted",
    "large_fewer_slicers_refuted"
   ],
   "note": "slicers moving backward on such views of several axes, and in debug builds, are left out; no new model definition"
  },
  {
   "property": "C104",
   "status": "proved",
   "theorems": [
    "threads_with_tables",
    "all_shared_at_the_start",
    "table_calls_alone",
    "one_after_the_other_alone",
    "steps_alone",
    "safe_sequence",
    "safe_call",
    "safe_make",
    "safe_copy",
    "safe_drop",
    "safe_assign",
    "threads_with_tables_of_their_own",
    "tables_made_in_threads",
    "table_destroyed_in_use_refuted",
    "table_destroyed_twice_refuted",
    "table_assigned_in_use_refuted"
   ],
   "note": "allocation and release are one step each and do not fail; any_allocator is not part of it; copying a table into one of another kind and assigning static tables are left out"
  },
  {
   "property": "C105",
   "status": "proved",
   "theorems": [
    "generate_recurrence",
    "recurrence_unique",
    "generate_stencil",
    "transform_lookup",
    "reduce_lookup",
    "find_lookup",
    "reading_callables",
    "histogram",
    "state_in_tables",
    "state_in_tables_folds",
    "state_in_tables_searches",
    "reading_works_as",
    "stencil_in_place_refuted",
    "copy_if_copies_untested_refuted"
   ],
   "note": "callables take their arguments by value and make no tables; histogram is for for_each over one container and one kind of callable"
  },
  {
   "property": "C106",
   "status": "proved",
   "theorems": [
    "loop_combines",
    "loop_stores",
    "index_loop_is_shape_loop",
    "matrix_product",
    "transposition",
    "rows_reduced",
    "rows_by_slices",
    "columns_by_slices",
    "reads_compute",
    "independent_calls",
    "rows_filled",
    "rows_scanned",
    "tables_suit",
    "transposition_in_place_refuted",
    "empty_rows_refuted"
   ],
   "note": "callables take the element by value and make no tables; containers written have distinct elements apart from those read"
  },
  {
   "property": "C11",
   "status": "proved",
   "theorems": [
    "positional_construction_total",
    "positional_construction_reads_back",
    "positional_construction_aborts_iff",
    "sizes_keep_types",
    "sizes_of_one_type"
   ],
   "note": "of_size(d...) and of_size<T>(d...): the last two theorems (in Prop_NamedSize)."
  },
  {
   "property": "C12",
   "status": "proved",
   "theorems": [
    "runtime_index_is_get",
    "runtime_index_out_of_range_aborts",
    "runtime_index_mixed_wrong_refuted",
    "runtime_index_mixed_overrun",
    "runtime_index_release",
    "runtime_index_counts_runtime_axes",
    "runtime_index_static_aborts",
    "runtime_index_is_get_iff"
   ],
   "note": ""
  },
  {
   "property": "C13",
   "status": "proved",
   "theorems": [
    "one_slot_per_runtime_axis",
    "slots_increase",
    "slot_number",
    "write_changes_one_axis"
   ],
   "note": ""
  },
  {
   "property": "C14",
   "status": "proved",
   "theorems": [
    "named_construction_any_order",
    "named_construction_total",
    "named_construction_reads_back",
    "named_construction_aborts_iff",
    "duplicate_axis_check",
    "unnamed_axes_distinct",
    "named_static_only_ignored",
    "named_static_mismatch_unnoticed_refuted"
   ],
   "note": ""
  },
  {
   "property": "C15",
   "status": "proved",
   "theorems": [
    "as_array_exact_when_representable",
    "as_array_exact_same_sign",
    "as_array_exact_refuted",
    "as_array_exact_iff",
    "as_array_negative"
   ],
   "note": ""
  },
  {
   "property": "C16",
   "status": "proved",
   "theorems": [
    "fit_constraints_same_order",
    "fit_constraints_different_orders",
    "fit_constraints_different_orders_refuted",
    "constructible_same_order",
    "conversion_same_order",
    "accepted_conversion_changes_extent_refuted",
    "accepted_widening_changes_volume_refuted"
   ],
   "note": ""
  },
  {
   "property": "C17",
   "status": "proved",
   "theorems": [
    "literal_denotes_its_decimal_value",
    "literal_truncated_in_bad_range",
    "literal_exact_refuted",
    "literal_separator_refuted",
    "literal_wraps",
    "literal_prefix_refuted",
    "array_length_exact",
    "literal_one_separator",
    "literal_prefixes"
   ],
   "note": ""
  },
  {
   "property": "C18",
   "status": "proved",
   "theorems": [
    "c_array_shape_is_its_layout",
    "std_array_shape_is_reversed",
    "std_array_layout_refuted",
    "std_array_reads",
    "std_array_palindrome",
    "std_array_right_iff"
   ],
   "note": "std_array_layout_refuted is a family of counterexamples: every non-square nested std::array."
  },
  {
   "property": "C19",
   "status": "proved",
   "theorems": [
    "end_expression_value",
    "end_expression_defined",
    "truncation_unique",
    "end_division_by_zero",
    "end_unsigned_constant_refuted",
    "end_unsigned_modulo",
    "end_minus_unsigned_long",
    "end_divisions"
   ],
   "note": ""
  },
  {
   "property": "C20",
   "status": "proved",
   "theorems": [
    "ratio_add_exact",
    "ratio_sub_exact",
    "ratio_mul_exact",
    "ratio_div_exact",
    "ratio_scale_exact",
    "ratio_divc_exact",
    "ratio_neg_exact",
    "ratio_eq_is_equality",
    "ratio_ops_defined",
    "ratio_operands_commute",
    "ratio_calculation_exact",
    "ratio_calculation_overflows",
    "ratio_nothing_equals_everything",
    "ratio_equality_transitive_refuted",
    "ratio_unsigned_modulo",
    "ratio_unsigned_refuted"
   ],
   "note": "Exactness on integer types signed after promotion, where a defined operation does not overflow; unsigned members separately."
  },
  {
   "property": "C21",
   "status": "proved",
   "theorems": [
    "for_each_visits_every_coordinate_once",
    "for_each_empty_shape"
   ],
   "note": ""
  },
  {
   "property": "C22",
   "status": "proved",
   "theorems": [
    "for_until_stops_at_first_hit",
    "for_until_calls"
   ],
   "note": ""
  },
  {
   "property": "C23",
   "status": "proved",
   "theorems": [
    "default_access_is_row_major_rank",
    "default_access_injective",
    "default_access_surjective",
    "new_table_elements_allocated"
   ],
   "note": ""
  },
  {
   "property": "C24",
   "status": "proved",
   "theorems": [
    "strided_access_exact",
    "strided_table_out_of_bounds_refuted",
    "strided_table_access_iff",
    "strided_table_good_iff_last"
   ],
   "note": "Strides and coordinates non-negative, or all of signed types, with the offsets of in-range coordinates below 2^31."
  },
  {
   "property": "C25",
   "status": "proved",
   "theorems": [
    "table_copy_is_deep"
   ],
   "note": "Source elements initialised."
  },
  {
   "property": "C26",
   "status": "proved",
   "theorems": [
    "view_of_default_is_shallow",
    "reshape_of_default_is_shallow"
   ],
   "note": ""
  },
  {
   "property": "C27",
   "status": "proved",
   "theorems": [
    "view_of_strided_agrees_iff",
    "view_of_any_is_contiguous",
    "table_of_any_copies_contiguous_elements",
    "strided_table_copy_loses_strides",
    "copies_of_strided_views_refuted",
    "table_of_reversed_view_refuted",
    "copies_defined_iff",
    "copies_past_the_end"
   ],
   "note": ""
  },
  {
   "property": "C28",
   "status": "proved",
   "theorems": [
    "heap_assignment_is_deep_copy",
    "heap_assignment_keeps_source",
    "stack_assignment_is_deep_copy",
    "heap_swap_exchanges",
    "stack_swap_exchanges",
    "stack_swap_self"
   ],
   "note": "Self-assignment is the case dst = src. Swap and assignment of run-time order-1 containers do not compile (accessor.hpp calls a member swap that shapes lack); they are modelled as the exchange the other accessors do."
  },
  {
   "property": "C29",
   "status": "proved",
   "theorems": [
    "histories_release_correctly",
    "histories_end_without_memory",
    "histories_never_stuck",
    "histories_as_sizes",
    "copy_of_hollow_table_undefined"
   ],
   "note": "Histories over any number of tables; the contents are abstracted to block sizes; allocators other than any_allocator itself (see C30)."
  },
  {
   "property": "C30",
   "status": "proved",
   "theorems": [
    "any_allocators_are_values",
    "any_allocator_lvalue_copy_diverges",
    "any_allocator_lvalue_assignment_diverges"
   ],
   "note": ""
  },
  {
   "property": "C31",
   "status": "proved",
   "theorems": [
    "moved_from_table",
    "moved_from_table_can_be_assigned"
   ],
   "note": ""
  },
  {
   "property": "C32",
   "status": "proved",
   "theorems": [
    "transform_pointwise",
    "copy_pointwise",
    "transform_smaller_input_refuted",
    "default_layout_can_read",
    "default_layout_can_write",
    "uncovered_undefined",
    "shorter_input_undefined"
   ],
   "note": "The hypotheses hold for every default-layout container by default_layout_can_read and default_layout_can_write; strided layouts are covered too."
  },
  {
   "property": "C33",
   "status": "proved",
   "theorems": [
    "copy_if_exact"
   ],
   "note": ""
  },
  {
   "property": "C34",
   "status": "proved",
   "theorems": [
    "fill_exact",
    "generate_exact",
    "writers_missing_element"
   ],
   "note": ""
  },
  {
   "property": "C35",
   "status": "proved",
   "theorems": [
    "iota_exact",
    "iota_step_exact",
    "iota_default_exact",
    "iota_last_increment_refuted",
    "iota_overflows_iff",
    "iota_wraps",
    "iota_step_overflows_iff",
    "iota_step_wraps",
    "iota_is_iota_step"
   ],
   "note": "Integer start values, steps and elements."
  },
  {
   "property": "C36",
   "status": "proved",
   "theorems": [
    "replace_if_exact",
    "replace_exact",
    "replace_missing_element"
   ],
   "note": ""
  },
  {
   "property": "C37",
   "status": "proved",
   "theorems": [
    "reduce_row_major",
    "reduce_missing_element"
   ],
   "note": ""
  },
  {
   "property": "C38",
   "status": "proved",
   "theorems": [
    "all_of_exact",
    "any_of_exact",
    "none_of_exact",
    "count_if_exact",
    "count_exact",
    "predicates_missing_element"
   ],
   "note": ""
  },
  {
   "property": "C39",
   "status": "proved",
   "theorems": [
    "transform_reduce_row_major",
    "inner_product_row_major",
    "inner_product_shape_mismatch_aborts",
    "inner_product_release"
   ],
   "note": "Shapes of the same order (others do not compile)."
  },
  {
   "property": "C40",
   "status": "proved",
   "theorems": [
    "inclusive_scan_exact",
    "exclusive_scan_exact",
    "plain_inclusive_scan_exact",
    "plain_exclusive_scan_exact",
    "exclusive_scan_in_place_refuted",
    "exclusive_scan_same_elements",
    "exclusive_sum_in_place",
    "exclusive_scan_in_place_right_iff"
   ],
   "note": ""
  },
  {
   "property": "C41",
   "status": "proved",
   "theorems": [
    "find_if_first",
    "find_first",
    "find_if_not_first",
    "find_first_of_first"
   ],
   "note": "Extents at most 2^31, since positions are made of ints."
  },
  {
   "property": "C42",
   "status": "proved",
   "theorems": [
    "reverse_mirrors",
    "find_last_if_last",
    "find_last_last",
    "find_last_if_not_last",
    "reverse_typed",
    "find_last_typed",
    "find_last_u32_fails",
    "reverse_twice_out_of_bounds_refuted",
    "find_last_strided_refuted",
    "find_last_unsigned_refuted",
    "default_strides_are_signed",
    "reverse_right_iff",
    "reverse_twice_displaces",
    "reverse_twice_outside",
    "find_last_right",
    "find_last_displaced"
   ],
   "note": ""
  },
  {
   "property": "C43",
   "status": "proved",
   "theorems": [
    "lower_bound_first_not_less",
    "upper_bound_first_greater",
    "binary_search_finds_equivalent",
    "searches_safe_on_any_contents",
    "lower_bound_partitioned",
    "upper_bound_partitioned",
    "bounds_are_boundaries",
    "binary_search_sound",
    "binary_search_unsorted_refuted"
   ],
   "note": "Shapes of less than 2^31 elements."
  },
  {
   "property": "C44",
   "status": "proved",
   "theorems": [
    "slice_range_selects",
    "slice_backward_selects",
    "slice_length_selects",
    "joker_selects_all",
    "index_selects_one",
    "end_index_selects_one",
    "between_selects",
    "first_selects",
    "drop_first_selects",
    "last_selects",
    "drop_last_selects",
    "every_selects",
    "every_backward_selects",
    "at_selects_nothing",
    "to_length_starts_at_zero",
    "backward_ignores_to",
    "zero_step_divides_by_zero",
    "descending_bounds_negative",
    "slicers_outside_refuted",
    "between_unsigned_wraps",
    "to_with_length_ignored"
   ],
   "note": "The indexes selected are compared with a predicate on integers (SlicerSpec.selects). Axes, bounds and steps of any integer types; last, drop_last and end-k need a constant of a type that is signed after promotion (see C19). The departures from the names are proved for all inputs where they are general, by witnesses otherwise."
  },
  {
   "property": "C45",
   "status": "proved",
   "theorems": [
    "slice_of_default_layout",
    "slice_reads_and_writes_the_source",
    "drop_everything_aborts",
    "slicing_empty_container_aborts",
    "indexes_alone_are_no_slice",
    "constant_index_is_no_slice",
    "shapes_take_constants",
    "slice_limits_refuted"
   ],
   "note": "Any number of slicers up to the order, leading axes merged; also negative steps when all types are signed. The steps must not be longer than the axis (a longer one may overflow, slice_limits_refuted) and, when assertions are on, bounds must be of types at least as large as int."
  },
  {
   "property": "C46",
   "status": "proved",
   "theorems": [
    "slice_of_strided",
    "slice_of_slice",
    "slice_of_slice_at_origin",
    "slice_of_contiguous_slice",
    "slice_of_slice_refuted"
   ],
   "note": "Exact condition under which a slice of a strided view selects the composed elements; corollary when the second slice starts at the origin; witness of the failure, with two and with one slicer."
  },
  {
   "property": "C47",
   "status": "proved",
   "theorems": [
    "preserve_reachability_sound_1_2",
    "preserve_reachability_refuted",
    "contiguous_slices",
    "contiguous_pattern",
    "reachability_of_three",
    "reachability_of_four_unsound"
   ],
   "note": "Soundness for one and two slicers on any default-layout container; contiguity characterised for any number of slicers."
  },
  {
   "property": "C48",
   "status": "proved",
   "theorems": [
    "linear_multilinear",
    "linear_at_element",
    "linear_between",
    "linear_reproduces",
    "linear_last_line_overruns",
    "linear_last_column_refuted",
    "linear_infinite_neighbour_refuted"
   ],
   "note": "Exact rational arithmetic for the general theorems (rounding is not modelled there); binary64 by computation for the witness. Coordinates strictly before the last grid line; on it the extra read is proved undefined (outermost axis) or shown to mix in the next row."
  },
  {
   "property": "C49",
   "status": "proved",
   "theorems": [
    "floor_reads",
    "floor_inside",
    "floor_negative_refuted"
   ],
   "note": "All rational coordinates greater than -1 and below the extents."
  },
  {
   "property": "C50",
   "status": "proved",
   "theorems": [
    "default_stride_maps_everything_to_zero",
    "default_stride_aliases_elements",
    "default_stride_is_not_ones_refuted"
   ],
   "note": ""
  },
  {
   "property": "C51",
   "status": "proved",
   "theorems": [
    "print_text",
    "print_empty",
    "print_faithful"
   ],
   "note": "The whole text is given by a recursive layout (OutputSpec.text); the text of an element is a parameter. Format flags of the stream are not modelled."
  },
  {
   "property": "C52",
   "status": "proved",
   "theorems": [
    "for_each_row_major",
    "for_each_index_row_major"
   ],
   "note": ""
  },
  {
   "property": "C53",
   "status": "proved",
   "theorems": [
    "shape_text",
    "position_letter",
    "position_text"
   ],
   "note": "Decimal texts of the standard library."
  },
  {
   "property": "C54",
   "status": "proved",
   "theorems": [
    "slice_can_read_and_write",
    "fill_slice",
    "transform_slice",
    "reduce_slice",
    "any_of_slice",
    "reverse_can_read_and_write",
    "reduce_reverse",
    "predicates_of_reverse",
    "copy_reverse_mirrors",
    "copy_reverse_in_place_refuted",
    "reduce_reshape"
   ],
   "note": "Slices and reversed views of default-layout sources (slices of slices are wrong: C46)."
  },
  {
   "property": "C55",
   "status": "proved",
   "theorems": [
    "view_on_range",
    "view_on_c_array",
    "table_from_range",
    "table_from_sized_source",
    "table_overruns_short_source",
    "view_on_long_range",
    "table_from_long_range_too_small",
    "pointer_source_is_empty",
    "default_container_is_empty",
    "default_static_view_dangles",
    "default_static_table_uninitialised"
   ],
   "note": "The reversed default shape of nested std::array sources is C18's; const std::array sources are not modelled."
  },
  {
   "property": "C56",
   "status": "proved",
   "theorems": [
    "linear_index_aborts_iff_outside",
    "linear_index_unchecked",
    "coordinates_aborts_iff_beyond",
    "coordinates_of_negative",
    "access_overruns_to_another_element",
    "access_beyond_the_block",
    "linear_index_of_negative",
    "linear_index_aborts_iff_not_below",
    "access_at_negative",
    "access_before_the_block",
    "negative_unsigned_refuted"
   ],
   "note": ""
  },
  {
   "property": "C57",
   "status": "proved",
   "theorems": [
    "named_sizes_read_back",
    "named_sizes_any_order",
    "bare_axis_size_is_zero",
    "typed_axis_converts_constant",
    "typed_axis_constant_changes_refuted",
    "numbered_axis_joker_is_zero_refuted",
    "bare_axis_with_options_rejected",
    "typed_axis_rejects_number"
   ],
   "note": "Arguments that do not compile (bare axis next to an option, run-time value for an axis with content) are modelled as UB."
  },
  {
   "property": "C58",
   "status": "proved",
   "theorems": [
    "similar_shapes_iff",
    "similar_shapes_reflexive",
    "similar_shapes_transitive",
    "similar_shapes_symmetric_refuted",
    "similar_shapes_convert",
    "similar_narrow_axis_refuted",
    "similar_ignores_names_refuted"
   ],
   "note": "Conversions between run-time shapes with different axis names are rejected later (is_contructible_from), so the last witness is fully static."
  },
  {
   "property": "C59",
   "status": "proved",
   "theorems": [
    "linear_at_element_ieee",
    "floor_reads_ieee",
    "linear_constant_field_refuted",
    "coordinate_beyond_precision_refuted"
   ],
   "note": "weights, coordinates and result in one format; no contraction into fused operations"
  },
  {
   "property": "C60",
   "status": "proved",
   "theorems": [
    "strides_read_back",
    "as_stride_keeps_axes",
    "unit_stride_is_one",
    "unit_stride_run_time_refuted",
    "compress_stride_keeps_inner",
    "stride_equality",
    "stride_equality_mixed_signs_refuted"
   ],
   "note": ""
  },
  {
   "property": "C61",
   "status": "proved",
   "theorems": [
    "cpu_visits_each_coordinate_once",
    "default_context_is_cpu",
    "transform_any_context",
    "copy_any_context",
    "generators_any_context",
    "replace_any_context",
    "reduce_some_order",
    "inner_product_some_order",
    "reduce_any_context",
    "predicates_any_context",
    "inner_product_any_context",
    "find_first_of_any_context",
    "reduce_order_refuted",
    "iota_order_refuted",
    "scan_order_refuted",
    "overlapping_copy_order_refuted"
   ],
   "note": "Calls of the callable do not overlap in time: data races are not modelled."
  },
  {
   "property": "C62",
   "status": "proved",
   "theorems": [
    "stack_tables_are_values",
    "stack_tables_leave_nothing",
    "heap_tables_hold_no_object_refuted",
    "heap_tables_from_a_source_refuted",
    "heap_tables_do_not_destroy_refuted"
   ],
   "note": "Exceptions thrown by the operations of the class are not modelled."
  },
  {
   "property": "C63",
   "status": "proved",
   "theorems": [
    "sum_exact",
    "sum_wraps",
    "sum_overflow",
    "sum_of_elements",
    "dot_exact",
    "dot_of_elements",
    "inner_product_is_dot",
    "inner_product_checks",
    "inclusive_sums_exact",
    "exclusive_sums_exact",
    "sum_order_refuted",
    "narrow_sum_refuted",
    "unsigned_dot_refuted",
    "exclusive_scan_overflow_refuted",
    "scans_wrap",
    "scans_overflow",
    "dot_product_overflow",
    "dot_sum_overflow",
    "dot_wraps"
   ],
   "note": ""
  },
  {
   "property": "C64",
   "status": "proved",
   "theorems": [
    "count_by_value",
    "count_modulo",
    "find_by_value",
    "find_first_of_by_value",
    "replace_by_value",
    "copy_converts",
    "negative_elements_refuted",
    "find_first_of_signs_refuted"
   ],
   "note": ""
  },
  {
   "property": "C65",
   "status": "proved",
   "theorems": [
    "linear_error_ieee",
    "linear_within_ieee",
    "linear_error_float",
    "linear_error_double",
    "linear_overflow_refuted",
    "linear_underflow_refuted"
   ],
   "note": "Uses the axioms of the standard library's real numbers (through Flocq): sig_not_dec, sig_forall_dec, functional_extensionality_dep, classic. Elements, coordinates, weights and result of one floating-point type."
  },
  {
   "property": "C66",
   "status": "proved",
   "theorems": [
    "transform_calls",
    "generate_calls",
    "copy_if_calls",
    "replace_if_calls",
    "reduce_calls",
    "all_of_calls",
    "any_of_calls",
    "none_of_calls",
    "count_if_calls",
    "transform_reduce_calls",
    "inner_product_calls",
    "inner_product_no_call",
    "inclusive_scan_calls",
    "exclusive_scan_calls",
    "find_if_calls",
    "find_if_not_calls",
    "find_last_if_calls",
    "find_last_if_not_calls",
    "effect_free_writers",
    "effect_free_readers"
   ],
   "note": "The callable's state is shared by its copies (reference semantics); callables do not touch the elements of the containers; find_last_if for containers of default layout with sizes of any type but 32-bit unsigned (see C42)"
  },
  {
   "property": "C67",
   "status": "proved",
   "theorems": [
    "lower_bound_calls",
    "upper_bound_calls",
    "binary_search_calls",
    "sorted_searches_count",
    "searches_answers"
   ],
   "note": ""
  },
  {
   "property": "C68",
   "status": "proved",
   "theorems": [
    "labelled_text",
    "relabel_shows",
    "deduced_view_shows",
    "deduced_table_shows",
    "derived_without_label",
    "copy_shows",
    "assign_shows",
    "view_assign_shows",
    "labelled_copy_rejected",
    "swap_exchanges_labels",
    "stack_swap_exchanges_labels",
    "move_takes_label",
    "relabel_strided_refuted"
   ],
   "note": "Operations that do not compile are UB in the model."
  },
  {
   "property": "C69",
   "status": "proved",
   "theorems": [
    "throwing_operation_changes_nothing",
    "failing_histories_release_correctly",
    "failing_histories_without_leak",
    "failing_deleter_leaks",
    "leaked_blocks_stay_leaked",
    "failing_histories_as_sizes",
    "table_without_memory_is_hollow",
    "copy_without_memory_undefined",
    "default_table_without_deleter_ends_refuted"
   ],
   "note": ""
  },
  {
   "property": "C70",
   "status": "proved",
   "theorems": [
    "transform_exception",
    "copy_if_exception",
    "replace_if_exception",
    "generate_exception",
    "for_each_exception",
    "reduce_exception",
    "inclusive_scan_exception",
    "exclusive_scan_exception"
   ],
   "note": ""
  },
  {
   "property": "C71",
   "status": "proved",
   "theorems": [
    "const_data_is_protected",
    "const_views_are_writable",
    "heap_tables_never_protected",
    "static_tables_direct",
    "slices_of_static_tables_read_only",
    "const_static_tables_written",
    "copies_share_nothing",
    "chains_compile",
    "tables_of_const_elements_written",
    "tables_of_const_elements_have_no_view"
   ],
   "note": "compile-time model: const qualifications only"
  },
  {
   "property": "C72",
   "status": "proved",
   "theorems": [
    "mixed_error",
    "mixed_error_integers",
    "mixed_error_float",
    "mixed_error_double",
    "mixed_error_extended",
    "mixed_error_integers_float",
    "whole_coordinates_exact",
    "whole_coordinates_integers",
    "double_accuracy_refuted",
    "integer_element_refuted",
    "whole_last_refuted"
   ],
   "note": "all but the three refutations use the standard library's axioms of the reals: sig_not_dec, sig_forall_dec, functional_extensionality_dep, classic; long double is the x86-64 80-bit format"
  },
  {
   "property": "C73",
   "status": "proved",
   "theorems": [
    "converted_table",
    "converted_range",
    "converted_table_exact",
    "converted_table_sorted",
    "conversion_out_of_range",
    "conversion_overruns_short_source",
    "integer_order_refuted",
    "float_overflow_refuted"
   ],
   "note": "the first four use the standard library's axioms of the reals: sig_not_dec, sig_forall_dec, functional_extensionality_dep, classic; bool as an element type is C102"
  },
  {
   "property": "C74",
   "status": "proved",
   "theorems": [
    "transform_object",
    "for_each_object",
    "for_each_index_object",
    "for_each_shape_object",
    "reduce_object",
    "transform_reduce_object",
    "inner_product_object",
    "inclusive_scan_object",
    "exclusive_scan_object",
    "find_if_object",
    "find_last_if_object",
    "bounds_object",
    "binary_search_object",
    "generate_object",
    "copy_if_object",
    "replace_if_object",
    "predicates_object",
    "find_not_object",
    "constant_calls",
    "changing_operators_rejected",
    "binary_search_restarts_refuted"
   ],
   "note": "function objects passed as lvalues; binary_search_restarts_refuted shows that sharing the state gives another answer; find_last_if for containers of default layout with sizes of any type but 32-bit unsigned (see C42)"
  },
  {
   "property": "C75",
   "status": "proved",
   "theorems": [
    "positions_checked",
    "searches_checked",
    "shapes_checked",
    "sources_checked",
    "typed_shapes_checked",
    "other_slices_checked",
    "options_checked",
    "own_extents_checked",
    "own_extents_confirmed",
    "coordinates_checked",
    "inner_product_checked",
    "sums_checked",
    "sums_confirmed",
    "results_confirmed",
    "programs_confirmed",
    "programs_checked",
    "assertion_overflow_refuted"
   ],
   "note": "all eight assertions in the library are covered; assertion_overflow_refuted is the overflow inside an assertion"
  },
  {
   "property": "C76",
   "status": "proved",
   "theorems": [
    "predicates_agree",
    "finds_agree",
    "searches_agree",
    "scans_agree",
    "transforms_fuse",
    "transform_then_reduce_fuses",
    "replaced_values_are_gone",
    "numbered_positions_are_found"
   ],
   "note": "no new model: relations between the functions of Algo.v and Search.v"
  },
  {
   "property": "C77",
   "status": "proved",
   "theorems": [
    "tiles_hold_every_element_once",
    "tiles_share_no_element",
    "reduce_over_tiles",
    "count_over_tiles",
    "predicates_over_tiles",
    "transform_over_tiles",
    "fill_over_tiles",
    "blocks_of_rows_are_tiles",
    "blocks_of_rows_in_order",
    "reduce_over_blocks_of_rows",
    "blocks_of_rows_slice_like_tables",
    "quarters_by_cutting_twice_refuted"
   ],
   "note": "no new model of library code; the loops over the slices are the caller's and are in SplitSpec.v. quarters_by_cutting_twice_refuted is the defect of C46 as it appears here"
  },
  {
   "property": "C78",
   "status": "proved",
   "theorems": [
    "end_text_exact",
    "end_text_fraction_wrong",
    "end_text_tells",
    "slice_range_text",
    "slice_length_text",
    "end_text_letter",
    "ratio_text",
    "slice_length_letter",
    "slice_stop_length_text",
    "fraction_text_refuted",
    "unsigned_offset_text_refuted",
    "slicer_text_refuted"
   ],
   "note": "format flags other than showpos are not modelled; sizes of the axis of a type that is signed after promotion, as in C19"
  },
  {
   "property": "C79",
   "status": "proved",
   "theorems": [
    "transform_overlapping",
    "copy_overlapping",
    "transform_reading_ahead",
    "tile_moved_backwards",
    "rows_moved_forwards_repeat",
    "shift_backwards",
    "shift_forwards_repeats",
    "transform_on_previous_is_running",
    "tile_moved_forwards_refuted"
   ],
   "note": "sequential context; elements may overlap between arguments, not within the output"
  },
  {
   "property": "C80",
   "status": "proved",
   "theorems": [
    "options_in_any_order",
    "view_from_options",
    "view_without_source_has_no_elements",
    "view_needs_source_or_type",
    "table_from_options",
    "table_from_options_typed",
    "table_from_options_blank",
    "other_options_are_neutral",
    "strides_do_not_avoid_overflow",
    "merged_options",
    "known_calls_are_built"
   ],
   "note": "table_from_options_typed uses the axioms of the standard library's real numbers (sig_not_dec, sig_forall_dec, functional_extensionality_dep, classic) through C73; keywords given twice and tables without type and source are not modelled"
  },
  {
   "property": "C81",
   "status": "proved",
   "theorems": [
    "axes_equal_iff",
    "axes_equal_negative_refuted",
    "combined_axes",
    "compress_loses_names",
    "compressed_axes_not_found",
    "shape_equality_ignores_names",
    "equal_shapes_not_convertible_refuted",
    "converted_axes_read_the_same",
    "added_axes_read_one",
    "other_axes_do_not_convert",
    "named_axes_do_not_narrow"
   ],
   "note": "the refuted theorems show the stated failures; that conversions with fitting axes compile is C10"
  },
  {
   "property": "C82",
   "status": "proved",
   "theorems": [
    "slice_kinds",
    "static_slice_static",
    "runtime_slice_dynamic",
    "constant_start_rejected",
    "starts_at_run_time",
    "helpers_are_runtime",
    "helpers_plain",
    "largest_bound_rejected",
    "index_and_end_are_constant",
    "slice_loses_names",
    "slice_unit_stride",
    "stepped_constants",
    "stepped_constants_refuted"
   ],
   "note": "the refuted theorem is the range with a constant step whose extent is not constant; stepped_constants is for one axis and bounds and steps whose types promote to int"
  },
  {
   "property": "C83",
   "status": "proved",
   "theorems": [
    "programs_on_arrays",
    "tables_stay_apart",
    "programs_do_not_leak",
    "calls_keep_other_cells",
    "views_are_left_behind",
    "assignment_copies_values",
    "assertions_confirm_programs",
    "assertions_only_stop_programs",
    "view_after_assignment_refuted",
    "table_from_slice_refuted",
    "backward_arrays_refuted"
   ],
   "note": "the meaning on arrays is the relation wruns of ProgramSpec.v; callables of for_each are trees of reads and writes of the elements they are given; the refuted theorems are calls without a meaning on arrays"
  },
  {
   "property": "C84",
   "status": "proved",
   "theorems": [
    "float_sum_error",
    "float_sum_default",
    "float_dot_error",
    "float_inner_error",
    "float_inclusive_scan",
    "float_exclusive_scan",
    "float_inclusive_scan_as",
    "float_exclusive_scan_as",
    "float_sum_exact",
    "float_inner_exact",
    "float_count_stops",
    "integer_init_drops",
    "nan_spreads",
    "float_inner_checks",
    "integer_products",
    "float_sum_order_refuted",
    "integer_init_refuted",
    "float_sum_overflow_refuted"
   ],
   "note": "IEC 60559 arithmetic to nearest even without wider intermediate results; all but nan_spreads, float_inner_checks, integer_products and the refuted theorems use the four axioms of the real numbers listed in DESIGN.md; transform_reduce of integers is C63"
  },
  {
   "property": "C85",
   "status": "proved",
   "theorems": [
    "throwing_tables_are_values",
    "throwing_tables_leave_nothing",
    "throwing_table_operation_changes_nothing",
    "elements_with_safe_moves",
    "tables_without_exceptions",
    "throwing_move_loses_values_refuted",
    "throwing_swap_ends_refuted",
    "throwing_copy_assignment_ends_refuted"
   ],
   "note": "destructors and copy construction for by-value arguments do not throw; a move of an element is one operation whether it constructs or assigns"
  },
  {
   "property": "C86",
   "status": "proved",
   "theorems": [
    "default_format",
    "shapes_in_formats",
    "positions_in_formats",
    "axes_in_formats",
    "containers_in_formats",
    "first_of_ratios_ends_slicers",
    "ratios_keep_format",
    "ends_clear_showpos",
    "slicers_clear_showpos",
    "shapes_told",
    "positions_told",
    "axes_told",
    "based_integers",
    "hexadecimal_strides_refuted",
    "hexadecimal_ends_refuted",
    "showpos_tells_types_refuted",
    "axis_names_mistaken_refuted",
    "slicer_texts_change_refuted"
   ],
   "note": "classic locale and a stream in a good state; the insertion of an element of a container is any function of the format that resets the width and keeps the flags"
  },
  {
   "property": "C87",
   "status": "proved",
   "theorems": [
    "separate_threads",
    "same_as_one_after_the_other",
    "readers",
    "several_calls",
    "touches_more",
    "writers_alone",
    "scans_alone",
    "iota_alone",
    "readers_alone",
    "searches_alone",
    "for_each_alone",
    "accesses_alone",
    "writers_touch",
    "scans_touch",
    "iota_touches",
    "readers_touch",
    "searches_touch",
    "find_last_touches",
    "for_each_touches",
    "for_each_index_touches",
    "accesses_touch",
    "other_tables_apart",
    "transform_in_threads",
    "fill_in_threads",
    "count_in_threads",
    "reduce_in_threads",
    "shared_table_races_refuted"
   ],
   "note": "threads interleave after every access to an element (sequential consistency, which C++ guarantees for programs without data races); tables and views are made before the threads start; callables touch only the elements they get; find_last_if for containers of default layout with sizes of any type but 32-bit unsigned (see C42)"
  },
  {
   "property": "C88",
   "status": "proved",
   "theorems": [
    "position_equality",
    "found_element_is_read",
    "find_and_replace",
    "find_and_replace_forever",
    "found_last_is_read",
    "find_far_wraps",
    "find_far_refuted",
    "strict_find_compiles",
    "strict_find_last_compiles"
   ],
   "note": "a position is passed to a container coordinate by coordinate; narrowing is the rule of [dcl.init.list] applied to the types of the loop variables"
  },
  {
   "property": "C89",
   "status": "proved",
   "theorems": [
    "documented_calls_reach",
    "calls_with_a_context_reach",
    "other_calls_rejected",
    "temporary_outputs_rejected",
    "only_for_each_and_transform",
    "for_each_named_callable_rejected",
    "for_each_temporary_callable"
   ],
   "note": "arguments are reduced to kind, value category and constness; signatures of fixed arity are checked exhaustively over these finitely many combinations, the variadic ones by proof"
  },
  {
   "property": "C90",
   "status": "proved",
   "theorems": [
    "settled_programs_exact",
    "settled_calls_left_out",
    "settled_successes_exact",
    "other_functions_exact",
    "plain_execution_allowed",
    "compressing_calls_may_be_stale",
    "comparison_may_be_stale_refuted",
    "unused_check_may_vanish_refuted"
   ],
   "note": "the permission modelled is the one documented for the attributes: an earlier result with the same argument values may be used again, a call whose result is not used may be left out; other consequences of a wrong const attribute, such as stores removed because the function is said to read no memory, are not modelled"
  },
  {
   "property": "C91",
   "status": "proved",
   "theorems": [
    "user_allocators_untouched",
    "allocate_calls",
    "deallocate_finds_state",
    "all_states_released",
    "allocator_objects_end_once",
    "allocating_object_is_temporary",
    "worlds_threaded",
    "usable_histories"
   ],
   "note": "calls that throw are C69 and C30; the objects a copy passes through on its way into any_allocator are left out, they get no call"
  },
  {
   "property": "C92",
   "status": "proved",
   "theorems": [
    "float_iota_error",
    "float_iota_as",
    "float_iota_exact",
    "float_iota_stops",
    "integer_iota_converts",
    "integer_iota_stuck",
    "float_iota_drift_refuted",
    "float_iota_range_refuted",
    "integer_iota_last_step_refuted"
   ],
   "note": "the first six use the four standard library axioms of DESIGN section 3; integer elements and values only are C35 and C63"
  },
  {
   "property": "C93",
   "status": "proved",
   "theorems": [
    "float_count",
    "float_find",
    "float_find_last",
    "float_find_first_of",
    "float_replace",
    "float_searches",
    "exact_values_stand",
    "nan_matches_nothing",
    "nan_never_last",
    "nan_not_replaced",
    "nan_searches",
    "find_rounded_value_refuted",
    "find_less_precise_refuted",
    "search_among_nan_refuted"
   ],
   "note": "the first six use the four standard library axioms of DESIGN section 3; integers only are C64"
  },
  {
   "property": "C94",
   "status": "proved",
   "theorems": [
    "transform_converts",
    "transform_refused",
    "copy_converts",
    "copy_refused",
    "copy_if_converts",
    "copy_if_refused",
    "fill_converts",
    "fill_refused",
    "replace_if_converts",
    "replace_if_refused",
    "generate_converts",
    "generate_refused",
    "copy_keeps_numbers",
    "copy_round_trip",
    "copy_keeps_order",
    "copy_wraps_refuted",
    "round_trip_refuted",
    "fill_then_count_refuted"
   ],
   "note": "the nine that describe the converted numbers (names in _converts, copy_keeps_numbers, copy_round_trip, copy_keeps_order) use the four standard library axioms of DESIGN section 3"
  },
  {
   "property": "C95",
   "status": "proved",
   "theorems": [
    "own_values_read_back",
    "own_values_refused_iff",
    "own_values_rejected_iff",
    "own_named_read_back",
    "own_named_refused_iff",
    "own_named_rejected_iff",
    "own_named_order",
    "own_as_numbers",
    "own_as_numbers_named",
    "own_sizes",
    "own_sizes_and_strides",
    "own_sizes_runtime_total",
    "own_sizes_static_unchecked",
    "own_sizes_static_checked",
    "own_size_is_that_of_the_object_refuted",
    "own_sizes_rejected",
    "convertible_sizes_accepted_refuted",
    "own_named_sizes_rejected",
    "own_sizes_forced",
    "forced_type_of_own_size_refuted"
   ],
   "note": "a type is described by what it customises; one type per call"
  },
  {
   "property": "C96",
   "status": "proved",
   "theorems": [
    "loops_end",
    "writers_end",
    "iotas_end",
    "readers_end",
    "searches_end",
    "bisections_end",
    "throwing_end",
    "for_each_tests",
    "for_until_tests",
    "tests_per_element",
    "bisection_turns",
    "empty_costs_nothing_refuted",
    "empty_costs"
   ],
   "note": "a call that does not end would be NoFuel in the model; the loops with counters are shown to compute what those of ForEach.v and Search.v do; the infinite recursion of any_allocator (C30) is not a loop of the algorithms"
  },
  {
   "property": "C97",
   "status": "proved",
   "theorems": [
    "accesses_happen",
    "writers_accesses",
    "iota_accesses",
    "scans_accesses",
    "readers_accesses",
    "for_each_accesses",
    "searches_accesses",
    "bisections_accesses",
    "writers_counts",
    "readers_counts",
    "any_of_stops_refuted",
    "exclusive_in_place_refuted"
   ],
   "note": "one access per use of the reference to an element in the code of the algorithm; what compilers merge and what callables with reference parameters do more is not counted; all_of, any_of, none_of and count are the reductions they are in the code"
  },
  {
   "property": "C98",
   "status": "proved",
   "theorems": [
    "user_slice_selects",
    "user_slice_addressable",
    "user_slicer_stands_for",
    "shape_asks_reshape",
    "container_needs_reindex",
    "user_start_checked",
    "user_reachability",
    "user_extent_checked_refuted",
    "has_step_checked_refuted",
    "no_has_step"
   ],
   "note": "members are pure functions of the merged shape (or strides) and of the number of the axis that return run-time integers; types are no jokers, end expressions or integers themselves"
  },
  {
   "property": "C99",
   "status": "proved",
   "theorems": [
    "large_strides",
    "large_linear_index",
    "large_coordinates_inverse",
    "large_view_access",
    "large_view_usable",
    "large_fill",
    "large_reduce",
    "large_numel_truncated",
    "large_numel_refuted",
    "large_table_too_short",
    "large_coordinates_assertion_refuted",
    "large_index_assertion_refuted",
    "large_int_extents_refuted",
    "large_reverse_misplaced",
    "large_search_from_end_refuted"
   ],
   "note": "tables whose truncated number of elements is negative are left out: the allocation of that size is not modelled"
  }
 ]
}