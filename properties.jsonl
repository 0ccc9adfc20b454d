{"id": "C01", "title": "Default strides and linear_index are the row-major layout", "statement": "For every shape whose extents are non-negative and whose product of positive extents fits a 32-bit int, as_stride(shape) succeeds and its k-th stride is the product of the extents after axis k; for every coordinate inside the shape, linear_index(shape, i0..in) succeeds and equals the row-major rank of the coordinate (Horner form), whatever mix of integer types the extents and the coordinates use (with assertions enabled, provided each coordinate type can represent the extent of its axis).", "quantifier": "all orders >= 1, all extent values in the stated range, all mixes of 8/16/32/64-bit signed or unsigned extent and coordinate types, all coordinates inside the shape, both with assertions on and off", "why_tests_cant": "Tests fix a handful of shapes of order <= 4 with int extents; the claim ranges over every order, every extent and every mix of integer types.", "anchors": ["include/kwk/utility/container/stride.hpp: as_stride, stride::linearize", "include/kwk/utility/linear_index.hpp: linear_index"]}
{"id": "C02", "title": "linear_index and coordinates are inverse bijections", "statement": "For every legal shape, coordinates(idx, shape) of any rank idx in [0, numel) is a coordinate inside the shape whose linear_index is idx, and coordinates(linear_index(shape,i...), shape) gives back i... . (With assertions enabled each coordinate type, for the first direction that of idx, must be able to represent the extents.) Two distinct in-range coordinates never have the same linear index.", "quantifier": "all legal shapes, all ranks, all in-range coordinates", "why_tests_cant": "A round trip on sampled shapes says nothing of the remaining shapes; the bijection is over an unbounded family.", "anchors": ["include/kwk/utility/coordinates.hpp: coordinates", "include/kwk/utility/linear_index.hpp: linear_index"]}
{"id": "C03", "title": "linear_index follows lexicographic order", "statement": "For two coordinates inside a legal shape, the linear index of the first is smaller than that of the second exactly when the first precedes the second lexicographically (outermost axis first).", "quantifier": "all legal shapes and all pairs of in-range coordinates", "why_tests_cant": "Quantifies over all pairs of coordinates of all shapes.", "anchors": ["include/kwk/utility/linear_index.hpp: linear_index", "include/kwk/utility/container/stride.hpp: as_stride"]}
{"id": "C04", "title": "No overflow in stride/index arithmetic for legal shapes; numel is not protected otherwise", "statement": "If all extents are >= 0 and the product of the non-zero ones fits a 32-bit int, no operation performed by numel, as_stride, linear_index, coordinates or compress overflows a signed type or wraps, for any mix of extent types. The hypothesis on the product of the non-zero extents is needed: there is a shape with zero elements (an outer extent of 0) for which computing numel overflows int, and there is a shape with 64-bit extents whose numel is silently truncated to a wrong value. In general, with extents of type int or narrower, or all of type long, numel is undefined exactly when the product of the last k extents is not representable in int (resp. long) for some k - without empty axes, when the number of elements is not - and is otherwise the product converted to int; as_stride likewise, without the first extent, so a shape may have strides and no numel. With unsigned extents numel is always defined and is the product modulo 2^32.", "quantifier": "all shapes satisfying the bound, all mixes of extent types; plus two concrete counterexample shapes", "why_tests_cant": "Overflow appears only at particular magnitude/type combinations that example tests do not hit.", "anchors": ["include/kwk/utility/container/shape.hpp: numel, compress", "include/kwk/utility/container/stride.hpp: as_stride"]}
{"id": "C05", "title": "contains is a bounds check only for non-negative coordinates of wide enough type", "statement": "For non-negative coordinates whose type can represent every extent, shape.contains(p...) is true exactly when every p_k is smaller than the k-th extent. Outside this domain it is not a bounds check: some negative coordinates are accepted by contains (so the assertion guarding linear_index lets them through and linear_index returns a negative index), and some in-range coordinates of a narrow type are rejected. In general, for coordinates of types able to represent the extents, contains is true exactly when every p_k is smaller than the k-th extent: there is no lower bound.", "quantifier": "all shapes, all coordinates, all coordinate/extent type mixes", "why_tests_cant": "Needs every coordinate value and every type combination, including negative values.", "anchors": ["include/kwk/utility/container/shape.hpp: contains", "include/kwk/utility/linear_index.hpp: linear_index assertion"]}
{"id": "C06", "title": "numel is the product of extents", "statement": "For every legal shape of order >= 1, numel() succeeds, equals the product of the extents, and is zero exactly when some extent is zero; the order-0 shape has numel 0.", "quantifier": "all legal shapes of any order and type mix", "why_tests_cant": "Unbounded family of shapes.", "anchors": ["include/kwk/utility/container/shape.hpp: numel"]}
{"id": "C07", "title": "nbdims counts the axes after the leading unit axes", "statement": "nbdims() equals the order minus the number of leading extents equal to 1; in particular it is 0 exactly when all extents are 1, prepending unit axes does not change it, and compressing to nbdims axes loses nothing. It is not the number of non-unit extents: a trailing unit axis is counted.", "quantifier": "all shapes of any order", "why_tests_cant": "All orders and positions of unit extents.", "anchors": ["include/kwk/utility/container/shape.hpp: nbdims"]}
{"id": "C08", "title": "compress keeps the element count and the linear index", "statement": "For every legal shape and every 1 <= N <= order, compress<N>(shape) has order N, keeps the last N-1 extents, has the same numel, and the linear index of a coordinate equals the linear index in the compressed shape of the coordinate whose leading part is replaced by its own rank (with assertions enabled, for coordinates whose types can represent the extents). Compressing twice equals compressing once.", "quantifier": "all legal shapes, all N, all in-range coordinates", "why_tests_cant": "All orders, all N and all extents.", "anchors": ["include/kwk/utility/container/shape.hpp: compress"]}
{"id": "C09", "title": "Shape equality", "statement": "On legal shapes (non-negative extents whose product of non-zero extents fits a 32-bit int) operator== is reflexive and symmetric; on shapes of the same order it holds exactly when all extents are equal, on shapes of different orders exactly when the extents are equal after merging the outer axes of the longer one into one; equal shapes have the same numel. It is not transitive: there are shapes a == b and b == c with a != c. A one-dimensional shape equals every shape with as many elements, so this is so for any two different shapes a and c of the same order with as many elements; a == b and b == c imply a == c whenever b does not have fewer axes than both a and c.", "quantifier": "all pairs (and triples) of legal shapes of any orders", "why_tests_cant": "An equivalence-like law over all pairs of shapes of all orders; non-transitivity needs three different orders.", "anchors": ["include/kwk/utility/container/shape.hpp: operator==, compress"]}
{"id": "C10", "title": "Converting a shape to another order", "statement": "Constructing an n-D all-dynamic shape from an m-D one, the axes of the smaller one being the innermost axes of the other (and, if n < m, without names), succeeds and keeps the number of elements: for n >= m the result is the source preceded by n-m ones; for n < m it is the source compressed to n axes. The result compares equal to the source, and widening followed by narrowing to the original order returns the original.", "quantifier": "all legal shapes, all target orders", "why_tests_cant": "All pairs of orders and all extents.", "anchors": ["include/kwk/utility/container/shape.hpp: converting constructor", "include/kwk/detail/sequence/shape_constraints.hpp: construct"]}
{"id": "C11", "title": "Constructing a shape from positional extents", "statement": "Constructing a shape from as many values as it has axes makes every run-time axis read back the supplied value (converted to the axis type, jokers reading 0 for shapes), leaves every compile-time axis at its compile-time value, and, with assertions enabled, aborts exactly when a supplied value for a compile-time axis is neither a joker nor equal to it. Supplying fewer values fills the outermost missing run-time axes with 1. of_size(d...) keeps every extent with its own type, compile-time extents staying compile-time and jokers being 0; of_size<T>(d...) does the same with every extent converted to T.", "quantifier": "all descriptor lists (any mix of static, typed and joker axes, any order), all value lists", "why_tests_cant": "The number of static/dynamic layouts is exponential in the order.", "anchors": ["include/kwk/detail/sequence/prefilled.hpp: __construct, constructors, __get", "include/kwk/detail/sequence/helpers.hpp: map_descriptor", "include/kwk/utility/traits/extent.hpp: as_dimension"]}
{"id": "C12", "title": "Run-time indexing of a shape", "statement": "For a shape whose axes are all run-time, shape[i] equals get<i>(shape) for all i < order, and with assertions enabled an out-of-range i aborts. For shapes mixing compile-time and run-time axes, shape[i] is not get<i>(shape): there are shapes for which shape[i] is another axis's extent, and shapes for which it reads outside the stored extents although the assertions pass. Without assertions, an i not below the number of run-time axes is undefined behaviour, except that a shape with one run-time axis gives the extent of that axis for every i. In general shape[i] is the extent of the run-time axis that has i run-time axes before it (with one run-time axis, of that axis); with assertions enabled the number of a compile-time axis aborts; and with two or more run-time axes a type of shape gives get<i>(shape) at a run-time axis i, whatever the extents, if and only if no compile-time axis precedes it.", "quantifier": "all descriptor lists, all positions", "why_tests_cant": "Needs all mixes of static and run-time axes and every position.", "anchors": ["include/kwk/detail/sequence/prefilled.hpp: operator[](std::integral auto), __get"]}
{"id": "C13", "title": "Storage layout of run-time extents", "statement": "The storage of a shape holds exactly one slot per run-time axis: the slot numbers of the run-time axes are 0,1,...,n-1 in axis order, no two axes share a slot, and writing one run-time axis changes the value read for that axis only.", "quantifier": "all descriptor lists, all writes", "why_tests_cant": "All mixes of static and run-time axes of any order.", "anchors": ["include/kwk/detail/sequence/helpers.hpp: map_descriptor", "include/kwk/detail/sequence/prefilled.hpp: make_storage, __get"]}
{"id": "C14", "title": "Named axes can be given in any order", "statement": "Constructing a shape from named extents assigns every named value to the axis of that name whatever the order in which the options are passed: any permutation of the same options gives the same shape, and reading an axis by name returns the value given for it. Run-time axes that are not named read 0. With assertions enabled, construction aborts exactly when a named value contradicts a compile-time axis, except for shapes with compile-time axes only: those ignore contradicting named values silently.", "quantifier": "all sets of distinct axis names, all permutations of options, all values", "why_tests_cant": "All permutations for all orders.", "anchors": ["include/kwk/detail/sequence/prefilled.hpp: __construct (named), __find_axis, operator[] (axis)", "include/kwk/settings/axis.hpp"]}
{"id": "C15", "title": "as_array gives the extents as an array", "statement": "as_array(shape) holds at position i the extent get<i>(shape) whenever all extents are representable in the widest extent type; in particular whenever all extent types are signed or all are unsigned. It silently changes values when signed and unsigned extent types of the same width are mixed, even for small legal shapes ({int8_t 3, uint8_t 200} reads back 3, -56). In general the array has the leftmost of the widest extent types, and it holds the extents if and only if each is a value of that type; an extent too large for it has an unsigned type of the same width and is read as a negative number.", "quantifier": "all shapes and type mixes", "why_tests_cant": "All combinations of extent types and values.", "anchors": ["include/kwk/detail/sequence/prefilled.hpp: as_array", "include/kwk/utility/fixed.hpp: largest_type"]}
{"id": "C16", "title": "fit_constraints / conversion checks between static and run-time shapes", "statement": "For shapes of the same order, fit_constraints(ref) is true exactly when every compile-time extent of ref equals the extent of the shape on that axis. For different orders the documented answer is false, but fit_constraints returns true when ref is all run-time (and false otherwise). Compile-time constructibility accepts a conversion between shapes of the same order exactly when both have the same axes in the same order and no axis pairs two different compile-time extents; an accepted conversion then either keeps all extents or, when a run-time value contradicts a compile-time extent, aborts with assertions enabled and silently keeps the compile-time extent otherwise; the same holds for conversions to a larger order when an added outer axis is a compile-time extent other than 1, which changes the number of elements.", "quantifier": "all pairs of descriptor lists and all run-time values", "why_tests_cant": "All combinations of static and run-time axes of both shapes.", "anchors": ["include/kwk/detail/sequence/shape_constraints.hpp: fit_constraints, is_contructible_from, construct", "include/kwk/detail/sequence/prefilled.hpp: is_compatible, is_similar, __checker"]}
{"id": "C17", "title": "Integer literals and static sizes", "statement": "The `_c` literal of a decimal digit string d1..dn without digit separators denotes the decimal value of the string, in the smallest unsigned type that can hold it, for every value below 2^64 that does not lie in [65536, 524287]; for those values the chosen 16-bit type truncates it (70000_c is 4464), and statically sized arrays of such lengths get a truncated default shape. A literal of 2^64 or more silently denotes its value modulo 2^64. Digit separators and prefixes are treated as digits: 2'000_c is 11000, 010_c is 10 (not 8), 0x10_c is 7210 and 0b11_c is 5011. In general a separator counts as the digit -9, so that a literal with one separator is right exactly when the digits before it denote 1 (1'500_c is 1500) and too large otherwise; and the letter c of a prefix before n decimal digits adds (c-'0')*10^n to their decimal value.", "quantifier": "all digit strings / all array lengths below 2^64", "why_tests_cant": "All 64-bit values.", "anchors": ["include/kwk/utility/fixed.hpp: clamp, b10, operator\"\"_c", "include/kwk/detail/range.hpp: array_traits"]}
{"id": "C18", "title": "Default shape of nested arrays", "statement": "The default shape deduced from a nested C array lists the extents from the outermost to the innermost dimension, so that its row-major layout is the memory layout of the array. For nested std::array the list is reversed: for a non-square nested std::array element (i,j) of the container is not element [i][j] of the array. In general, in every order, the container reads the element at the row-major rank in the reversed extents: the right one when the extents read the same from both ends; and with two dimensions exactly in row 0 or when the array is square.", "quantifier": "all nesting depths and extents", "why_tests_cant": "All depths and sizes.", "anchors": ["include/kwk/detail/range.hpp: array_traits, std::array and C array specialisations"]}
{"id": "C19", "title": "end expressions", "statement": "Every expression built from `end` and integers with + - * / evaluates, when the slicer is applied to an axis of size n, to the exact rational value of the expression at n truncated toward zero (once, not at every step), as long as no intermediate overflows and the constants have types that are signed after promotion; since truncation happens once, end/2*2 on an axis of size 5 is 5. With a 32-bit unsigned constant the offset wraps: end - 1u on an axis of 64-bit size 10 denotes 4294967305, and end - u for any unsigned u > 0 on an axis of 64-bit size is 2^32 too far. Sums, differences and products of end and unsigned constants on an axis of unsigned size are the exact value modulo 2^32. end / d1 / d2 / ... with positive int divisors divides once by their product, and is undefined exactly when this product is not an int, although no quotient overflows. Dividing end by 0 is undefined behaviour.", "quantifier": "all expressions of any depth, all axis sizes", "why_tests_cant": "Expressions of any depth; requires structural induction.", "anchors": ["include/kwk/utility/end.hpp: extremum operators, size"]}
{"id": "C20", "title": "ratio is exact rational arithmetic", "statement": "The operators + - * / and unary - on kwk::ratio compute exact rational arithmetic on signed integers whenever denominators are non-zero (for /, the divisor non-zero) and no product or sum overflows, == holds exactly when two ratios denote the same rational number, and != is its negation. +, *, == and != do not depend on the order of the operands. Ratios are never simplified: a calculation of sums, differences and products has the product of all denominators as denominator, so that none with 64 ratios (32 with int members) of denominators other than 1 and -1 is defined, whatever its value. The ratio 0/0 equals every ratio, so == is not transitive with it. With unsigned members everything is computed modulo 2^32: different ratios can be equal, a sum can have the denominator 0, and -1 equals 4294967295.", "quantifier": "all integer numerators and non-zero denominators within range", "why_tests_cant": "Field laws over all integers.", "anchors": ["include/kwk/utility/ratio.hpp"]}
{"id": "C21", "title": "for_each visits each coordinate exactly once, in order", "statement": "for_each over a shape calls the function exactly once for every coordinate inside the shape and for no other, in lexicographic order (outermost axis slowest), for any order of shape and any integer type of extents; it terminates, performs exactly numel calls, and calls nothing if some extent is zero.", "quantifier": "all shapes with non-negative extents of any integer types and any order, any callback and callback state", "why_tests_cant": "All shapes; termination and order of visits for every type of loop variable.", "anchors": ["include/kwk/detail/algorithm/for_each.hpp: for_each", "include/kwk/context/cpu/context.hpp: map"]}
{"id": "C22", "title": "for_until stops at the first hit", "statement": "for_until calls the predicate on coordinates in lexicographic order, stops right after the first coordinate for which it answers true, never calls it again, and reports found exactly when such a coordinate exists.", "quantifier": "all shapes, all predicates (with state)", "why_tests_cant": "All shapes and all predicates, including when the hit is in the middle of nested loops.", "anchors": ["include/kwk/detail/algorithm/for_until.hpp: for_until"]}
{"id": "C23", "title": "Element access of a default-layout container is safe and injective", "statement": "For a container with default strides on a legal shape, every in-range coordinate is mapped by every accessor specialisation (static, 1-D, 2-D, general) to the same offset - its row-major rank - which lies inside the allocated numel elements; distinct coordinates map to distinct elements and every element is reached.", "quantifier": "all legal shapes, all orders, all accessor specialisations, all in-range coordinates", "why_tests_cant": "All shapes and specialisations.", "anchors": ["include/kwk/detail/container/accessor.hpp: accessor specialisations", "include/kwk/detail/container/builder.hpp", "include/kwk/container/container.hpp: operator()"]}
{"id": "C24", "title": "Tables with user strides are not protected", "statement": "A strided view whose strides keep every coordinate inside the underlying buffer reads and writes only the elements at sum(stride_k*i_k). A table built with explicit strides allocates numel elements whatever the strides, so there is a table and an in-range coordinate for which the access lies outside the allocation. In general an access inside the shape of such a table is good exactly when 0 <= sum(stride_k*i_k) < numel and undefined otherwise; with strides that are not negative all accesses are good exactly when the one to the last coordinate is.", "quantifier": "all strided layouts within the buffer; one counterexample", "why_tests_cant": "All stride values.", "anchors": ["include/kwk/detail/container/accessor.hpp", "include/kwk/detail/memory/heap_block.hpp: constructor", "include/kwk/container/table.hpp"]}
{"id": "C25", "title": "Copying a default-layout table is a deep copy", "statement": "Copying a default-layout table (heap or stack) yields a table of the same shape with equal elements in fresh memory: no later write through either of the two changes any element of the other, and the source is unchanged.", "quantifier": "all legal shapes, all contents, all later writes", "why_tests_cant": "Independence must hold for all later writes.", "anchors": ["include/kwk/container/table.hpp: copy constructor", "include/kwk/container/container.hpp: settings", "include/kwk/detail/memory/heap_block.hpp", "include/kwk/detail/memory/stack_block.hpp"]}
{"id": "C26", "title": "A view of a default-layout container is shallow", "statement": "A view built from a default-layout container (table or view) denotes the same elements: reading any coordinate through it gives the source's element, and a write through either is seen through the other; a view with another shape of the same number of elements (reshape) denotes at each coordinate the element of equal row-major rank.", "quantifier": "all legal shapes, all coordinates, all writes", "why_tests_cant": "All shapes and write histories.", "anchors": ["include/kwk/container/view.hpp: constructors", "include/kwk/detail/memory/shallow_block.hpp"]}
{"id": "C27", "title": "Containers built from a strided container lose its strides", "statement": "settings() keeps the data pointer and the shape only. Consequently a table built from a strided or sliced container, a copy of a strided table with run-time strides, and a view of another type built from such a container (also by relabel and reshape) denote the first numel contiguous elements from its origin: they agree with the source exactly at the coordinates where the strides give the row-major rank. There is a strided view whose copies have different elements, and a view with a negative stride whose copy reads outside the buffer although all its elements are inside: in general a table built from a container of any strides and a copy of a table are defined if and only if the numel cells from the origin on hold values, so that both are undefined whenever the origin is less than numel cells before the end of its block. (Copying a view into a view of the same type is memberwise and keeps the strides.)", "quantifier": "all strided views", "why_tests_cant": "Depends on all stride/shape combinations.", "anchors": ["include/kwk/container/container.hpp: settings", "include/kwk/algorithm/views/relabel.hpp", "include/kwk/algorithm/views/reshape.hpp", "include/kwk/container/view.hpp"]}
{"id": "C28", "title": "Table assignment and swap", "statement": "Assigning a default-layout table to another leaves the target equal to a deep copy of the source (also under self-assignment) and the source unchanged; swapping two tables exchanges shapes and elements (a table swapped with itself is unchanged). For tables of order 1 with a run-time shape, and tables of order 1 or 2 with given strides, both calls do not compile (accessor::swap calls a member that shapes and strides lack).", "quantifier": "all pairs of tables, including the same table twice", "why_tests_cant": "All pairs, aliasing included.", "anchors": ["include/kwk/container/table.hpp: operator=", "include/kwk/container/container.hpp: swap"]}
{"id": "C29", "title": "Heap memory is released exactly once, by the allocator that provided it", "statement": "In any sequence of constructions, copies, moves, assignments, swaps and destructions of heap tables, every block is released at most once, by an allocator equal to the one that provided it, never while a live table still owns it, and once all tables are destroyed no block is left. Each table reports the number of elements it was given, also after its elements were moved away, and only copying from such a table is undefined.", "quantifier": "all finite histories of container life-cycle operations over any number of tables and allocators", "why_tests_cant": "All interleavings of life-cycle operations.", "anchors": ["include/kwk/detail/memory/heap_block.hpp", "include/kwk/utility/memory/any_allocator.hpp", "include/kwk/container/table.hpp"]}
{"id": "C30", "title": "any_allocator value semantics", "statement": "Copying an any_allocator gives an allocator that allocates and releases like the original without sharing state with it; swapping exchanges them; assignment and self-assignment leave the target behaving like the source. Copying a default-constructed or moved-from any_allocator dereferences a null pointer. Copying or assigning from a non-const any_allocator lvalue selects the forwarding template instead of the copy constructor and recurses without end.", "quantifier": "all allocators and all operation sequences", "why_tests_cant": "All sequences, including on moved-from values.", "anchors": ["include/kwk/utility/memory/any_allocator.hpp"]}
{"id": "C31", "title": "Moved-from tables", "statement": "Moving a heap table transfers the memory without copying or leaking it; the moved-from table keeps its shape but has no data, so it still reports a non-zero numel and is not empty, and reading any element of it dereferences a null pointer.", "quantifier": "all legal non-empty shapes", "why_tests_cant": "All shapes; an invariant between size and data.", "anchors": ["include/kwk/container/table.hpp: move constructor", "include/kwk/container/container.hpp: empty", "include/kwk/detail/memory/heap_block.hpp"]}
{"id": "C32", "title": "transform / copy are pointwise with a frame", "statement": "transform(f, out, in...) makes out(i...) = f(in(i...)...) for every coordinate of out computed from the original inputs, and changes nothing else, provided every input covers out's shape and no input element is aliased with an output element at another coordinate (so in-place use is allowed); copy is the case f = identity. No shape check is done: there is an input smaller than the output for which transform reads outside the input. In general transform, copy, copy_if, transform_reduce and the scans are undefined, whatever the callables are, as soon as c(is...) is not an element in memory for one of the containers at one coordinate of the first; in one dimension that is so for every input that is shorter than the output and followed by nothing.", "quantifier": "all layouts (default or strided), all shapes, all functions, all contents", "why_tests_cant": "All shapes, layouts and functions; frame condition.", "anchors": ["include/kwk/algorithm/algos/transform.hpp", "include/kwk/algorithm/algos/copy.hpp: copy"]}
{"id": "C33", "title": "copy_if", "statement": "copy_if(f, in, out) sets out(i...) = in(i...) exactly at coordinates where f(in(i...)) holds and leaves every other element unchanged.", "quantifier": "all layouts, shapes, predicates, contents", "why_tests_cant": "All shapes and predicates.", "anchors": ["include/kwk/algorithm/algos/copy.hpp: copy_if"]}
{"id": "C34", "title": "fill and generate", "statement": "fill sets every element of the container to the value and generate sets the element at each coordinate to f(coordinate); nothing outside the container's elements changes. If the container lacks an element at one of its coordinates (its memory is too short), both are undefined.", "quantifier": "all layouts and shapes with distinct element addresses", "why_tests_cant": "All shapes and layouts.", "anchors": ["include/kwk/algorithm/algos/generator.hpp: fill, generate"]}
{"id": "C35", "title": "iota", "statement": "iota(c, v, step) stores v + r*step at the coordinate of row-major rank r for every coordinate of c (v and step defaulting to 0 and 1) and changes nothing else, whenever v + n*step for all n up to and including the number of elements is representable. The running value is advanced once more after the last store, so there is a container all of whose values are representable for which iota overflows. In general a running value of type int or long overflows exactly when the container has elements and v + (number of elements) is not representable, and with a step of no larger type exactly when some v + k*step with 0 < k <= number of elements is not; a running value of any other type wraps around in its own type (then the value is converted to the element type), as does one with a step if the type of the sum is unsigned or has room for every sum. iota(c,v) is iota(c,v,1).", "quantifier": "all layouts, shapes, start values and steps", "why_tests_cant": "All shapes.", "anchors": ["include/kwk/algorithm/algos/generator.hpp: iota"]}
{"id": "C36", "title": "replace / replace_if", "statement": "replace_if(f,c,v) replaces exactly the elements satisfying f by v and leaves others unchanged; replace(c,a,b) leaves no element equal to a when a differs from b. If the container lacks an element at one of its coordinates, both are undefined whatever f and v.", "quantifier": "all layouts, shapes, contents, predicates", "why_tests_cant": "All contents.", "anchors": ["include/kwk/algorithm/algos/replace.hpp"]}
{"id": "C37", "title": "reduce folds the elements in row-major order", "statement": "reduce(c, f, init) returns f applied from init over the elements of c in row-major coordinate order, each exactly once, without modifying memory. If the container lacks an element at one of its coordinates, the call is undefined.", "quantifier": "all layouts, shapes, functions (not necessarily commutative)", "why_tests_cant": "All shapes and non-commutative functions.", "anchors": ["include/kwk/algorithm/algos/reduce.hpp"]}
{"id": "C38", "title": "all_of / any_of / none_of / count / count_if", "statement": "all_of, any_of, none_of are the universal, existential and negated existential quantifiers over the elements at all coordinates; count_if is the number of coordinates whose element satisfies the predicate; memory is unchanged. None of them stops early: if the container lacks an element at one of its coordinates, each is undefined even when the elements before it settle the answer.", "quantifier": "all layouts, shapes, predicates, contents (also empty containers)", "why_tests_cant": "All contents.", "anchors": ["include/kwk/algorithm/algos/predicates.hpp"]}
{"id": "C39", "title": "inner_product / transform_reduce", "statement": "inner_product on containers of equal shapes combines the products of corresponding elements in row-major order; with assertions enabled it aborts when shapes of the same order differ; without assertions the shapes are not looked at. transform_reduce combines transformed corresponding elements in row-major order.", "quantifier": "all layouts, shapes, functions", "why_tests_cant": "All shapes and functions.", "anchors": ["include/kwk/algorithm/algos/numeric.hpp: inner_product, transform_reduce"]}
{"id": "C40", "title": "Scans", "statement": "After inclusive_scan (resp. exclusive_scan) the output element of row-major rank r is the fold of the (transformed) inputs of rank 0..r (resp. 0..r-1) from init; nothing else changes. inclusive_scan may be done in place; exclusive_scan may not: it writes the output element before reading the input element, so there is a container whose in-place exclusive scan is wrong. In general an exclusive scan whose output elements are its input elements ignores them, initialised or not: the element of rank k becomes the k-th iterate of a => f1(a,f2(a)) from init (with a sum, init times 2^k), which is the expected value for every k exactly when all the folds of the elements happen to be these iterates.", "quantifier": "all layouts, shapes, functions, contents", "why_tests_cant": "All shapes, all prefixes.", "anchors": ["include/kwk/algorithm/algos/numeric.hpp: inclusive_scan, exclusive_scan, transform_*_scan"]}
{"id": "C41", "title": "find family", "statement": "find_if returns the lexicographically first coordinate whose element satisfies the predicate, and std::nullopt exactly if there is none, without modifying memory; find, find_if_not and find_first_of are the corresponding specialisations. This holds for extents of at most 2^31 (see C88 for larger ones, and for the types of extents with which these functions compile).", "quantifier": "all layouts, shapes, predicates, contents", "why_tests_cant": "All contents.", "anchors": ["include/kwk/algorithm/algos/find.hpp: find_if, find, find_if_not, find_first_of"]}
{"id": "C42", "title": "find_last family and reverse", "statement": "On default-layout containers with extents of any types but unsigned int, reverse(c) at coordinate i denotes the element of c at coordinate extent-1-i on every axis, and find_last_if returns the lexicographically last coordinate whose element satisfies the predicate. This fails elsewhere: reversing a reversed view points outside the buffer, reversing a sliced (strided) view or a container with an extent of type unsigned int reads other memory, so find_last is wrong on these: with an unsigned int extent (and none of 64 bits) and at least two elements, find_last_if reads 2^32 elements too far whenever the last element does not satisfy the predicate. In general, with any strides of signed types, all elements of the reversal are (numel - 1 - offset of the last element) away from the mirrored ones, so it is right exactly when the last element is at the offset numel - 1, and find_last_if is right there as well (also on column-major views); elsewhere it finds the last one among the elements that far away instead of those of the container; reversing twice moves all elements 2*(numel - 1) further, so that every access to a default-layout container of more than one element reversed twice is undefined when nothing follows it in memory.", "quantifier": "all default-layout containers; counterexamples for others", "why_tests_cant": "All shapes and contents; layouts not covered by tests.", "anchors": ["include/kwk/algorithm/views/reverse.hpp", "include/kwk/algorithm/algos/find.hpp: find_last_if, find_last, find_last_if_not"]}
{"id": "C43", "title": "lower_bound / upper_bound / binary_search", "statement": "On any container whose elements are sorted in row-major order, lower_bound returns the coordinate of the first element not less than the value, upper_bound of the first greater one (std::nullopt if there is none), binary_search answers whether an equivalent element exists; they terminate and access only in-range elements, even if the container is not sorted. It is enough that the container is partitioned with respect to the value, by any callable. Whatever the contents, the element found does not satisfy the condition (e < value, or not value < e) and the one before it does, the last element does if none is found, and binary_search never answers true without an equivalent element (but it may answer false with one).", "quantifier": "all shapes, all sorted contents, all values, any strict weak order", "why_tests_cant": "All sizes and contents; termination of the bisection.", "anchors": ["include/kwk/algorithm/algos/binary_search.hpp"]}
{"id": "C44", "title": "Slice extents", "statement": "For an axis of size n: joker keeps n; slice(from=b,to=e,by=s) with 0<=b<=e<=n, s>0 has ceil((e-b)/s) elements, every selected index b+i*s lies in [b,e) and the next one does not; first(k), last(k), drop_first(k), drop_last(k), every(s), between select exactly the indexes their names say. Outside this domain: at(i) has extent 0 although it denotes one element; slice(to=,length=) starts at 0 instead of ending at `to`; so that slice(to=,length=l,by=s) selects 0, s, ..., (l-1)s whatever `to` is; a zero step with begin/end divides by zero; e<b gives a negative extent, or with unsigned bounds of 32 or 64 bits an extent that wraps around.", "quantifier": "all axis sizes, bounds and steps", "why_tests_cant": "All combinations of bounds and steps.", "anchors": ["include/kwk/utility/slicer.hpp: slicer::reshape, reindex, restride, slice, between, at, every, first, drop_first, last, drop_last"]}
{"id": "C45", "title": "Slicing a default-layout container", "statement": "Slicing a default-layout container with positive-step in-range slicers yields a view whose element at coordinate j is the source's element at coordinate begin_k + j_k*step_k on every axis (leading axes flattened if fewer slicers are given), all inside the buffer, with the extents of C44. One slicer at least must not be an integer: integers alone name an element (as many as axes) or do not compile. An index known at compile time, which shapes accept, does not compile as a slicer of a container.", "quantifier": "all orders, shapes, slicer tuples within bounds", "why_tests_cant": "All combinations of slicers per axis.", "anchors": ["include/kwk/container/container.hpp: slicing operator()", "include/kwk/utility/slicer.hpp: origin", "include/kwk/utility/container/stride.hpp: operator()(slicers)"]}
{"id": "C46", "title": "Slicing a slice", "statement": "Slicing a view whose strides are not the default ones computes its origin with shape-derived strides: there is a slice of a slice whose elements are not the composition of the two slices. Composition holds when the second slice starts at the origin on every axis or the first slice keeps the default strides.", "quantifier": "all pairs of slices", "why_tests_cant": "No test slices a slice; the claim ranges over all pairs.", "anchors": ["include/kwk/container/container.hpp: slicing operator()", "include/kwk/utility/slicer.hpp: origin"]}
{"id": "C47", "title": "Reachability trait of slices", "statement": "preserve_reachability is sound for one and two slicers: when true, the sliced view's elements are addressable contiguously with unit innermost stride. It is incomplete for three jokers (answers false) and unsound for four unit slicers: it answers true for a slice whose elements are not contiguous. In general the elements of a slice of a default-layout container that is not empty are contiguous exactly when every axis on which more than one index is selected has step 1 and is followed by axes selected completely, as with single indexes, then one slicer of step 1, then jokers. The trait answers false for every number of slicers divisible by 3, and true for three jokers and an index on any four axes, where the elements are not contiguous once the last two extents are 2 or more.", "quantifier": "all slicer tuples", "why_tests_cant": "All combinations of slicers.", "anchors": ["include/kwk/utility/traits/reachable.hpp"]}
{"id": "C48", "title": "Linear interpolation", "statement": "Linear interpolation at an integral coordinate strictly inside the container returns the element; the weights used are non-negative and sum to 1 so the result lies between the minimum and maximum of the 2^n neighbours; it reproduces any function affine in each coordinate. At a coordinate on the last grid line it reads one element past the extent on that axis: undefined on the outermost axis of a table, an element of the next row on the others. In floating point an infinite element without weight turns the result into NaN.", "quantifier": "all orders, shapes, coordinates in exact arithmetic", "why_tests_cant": "All coordinates and orders.", "anchors": ["include/kwk/utility/container/interpolator.hpp: setup, linear_"]}
{"id": "C49", "title": "Nearest-below (floor) interpolation", "statement": "floor interpolation at coordinates inside the container returns the element at the floor of every coordinate; for negative coordinates it truncates toward zero, so coordinates in (-1,0) silently read element 0.", "quantifier": "all coordinates", "why_tests_cant": "All coordinates.", "anchors": ["include/kwk/utility/container/interpolator.hpp: floor_"]}
{"id": "C50", "title": "Default-constructed stride", "statement": "A default-constructed run-time stride holds zeros (the documentation says ones), so a container indexed with it maps every coordinate to element 0.", "quantifier": "all orders and coordinates", "why_tests_cant": "Every coordinate of every order.", "anchors": ["include/kwk/utility/container/stride.hpp: default constructor"]}
{"id": "C51", "title": "Stream output of containers", "statement": "Printing a container writes every element exactly once in row-major order, one bracketed row per innermost line, with an empty line between the matrices of an order of at least 3, after the label if there is one, and an empty container as \"[ ]\". From the text of two containers of the same shape the elements can be told apart (if their own texts have no spaces and differ).", "quantifier": "all shapes and contents", "why_tests_cant": "All shapes.", "anchors": ["include/kwk/container/container.hpp: operator<<"]}
{"id": "C52", "title": "for_each on several containers and with indexes", "statement": "for_each(f, c0, cs...) calls f on corresponding elements of all containers exactly once per coordinate of c0, in row-major order; for_each_index also passes the coordinate.", "quantifier": "all layouts and shapes, all stateful callbacks", "why_tests_cant": "All shapes; all callbacks.", "anchors": ["include/kwk/algorithm/algos/for_each.hpp", "include/kwk/context/cpu/context.hpp: map, map_index"]}
{"id": "C53", "title": "Text of shapes, strides and positions", "statement": "Two shapes (or strides) print the same text exactly when they have the same order, the same extents and the same compile-time axes (marked _c), whatever the integer types of the extents; two positions print the same text only if they are equal.", "quantifier": "all shapes, strides and positions", "why_tests_cant": "Injectivity over all values.", "anchors": ["include/kwk/utility/container/shape.hpp: operator<<", "include/kwk/utility/container/stride.hpp: operator<<", "include/kwk/utility/position.hpp: operator<<", "include/kwk/utility/fixed.hpp: constant"]}
{"id": "C54", "title": "Algorithms through slices, reversed and reshaped views", "statement": "A slice of a container (positive steps, or signed types) can be given to every algorithm: fill and in-place transform through the slice change exactly the elements of the source that the slicers select and leave every other cell as it was; reduce and any_of through the slice see exactly the selected elements, in row-major order of the selection. A reversed view visits the values of its source in exactly the opposite order (reduce folds the reversed sequence; count_if, all_of, any_of, none_of give the same answer as on the source; copying it into another container mirrors the source), and a reshaped view visits them in the same order. Copying a reversed view onto its own source does not reverse the source.", "quantifier": "all containers in the default layout, all slicers inside it, all memories, functions and predicates", "why_tests_cant": "Combinations of arbitrary slicers, shapes and algorithms; that all other cells are untouched is a statement about the whole memory.", "anchors": ["include/kwk/utility/slicer.hpp", "include/kwk/container/view.hpp", "include/kwk/algorithm/views/reverse.hpp", "include/kwk/algorithm/algos/generator.hpp", "include/kwk/algorithm/algos/reduce.hpp", "include/kwk/algorithm/algos/predicates.hpp"]}
{"id": "C55", "title": "Containers on a data source, and default-constructed containers", "statement": "A view on a contiguous range without a size option has one axis of the length of the range and designates exactly its elements; a view on a C array has the array's extents and (i,j,...) designates the scalar a[i][j]...; a table built from a source holds exactly the first numel elements of the source, in order, in cells of its own, and existing memory is untouched. The length of the source is never checked: a source with fewer elements than the requested size is read past its end. A range of 2^31 elements or more gives a wrong number of elements, and a table of 2^32 elements or more may be allocated too small for the size it reports. A pointer without a size gives an empty container. A default-constructed container with a run-time extent is empty and without data; a default-constructed view of a fully static shape is not empty but has no data (every access is undefined), and a default-constructed table of a fully static shape has writable but uninitialised elements.", "quantifier": "all sources, contents, sizes and shape types; all memories", "why_tests_cant": "Quantifies over all source lengths (including those beyond 2^31) and all shape types; reading past the end of a source may go unnoticed in a test.", "anchors": ["include/kwk/settings/source.hpp", "include/kwk/settings/source/range_source.hpp", "include/kwk/settings/source/array_source.hpp", "include/kwk/settings/source/ptr_source.hpp", "include/kwk/container/settings/size.hpp: pick", "include/kwk/container/table.hpp: table", "include/kwk/container/view.hpp: view", "include/kwk/detail/memory/heap_block.hpp", "include/kwk/detail/memory/stack_block.hpp"]}
{"id": "C56", "title": "Indexes out of range", "statement": "With assertions on, linear_index stops the program exactly when a (non-negative) coordinate is outside of the shape, and coordinates exactly when the index is not below the number of elements; with assertions off, linear_index returns the row-major position of the out-of-range coordinate. A negative signed index passes the assertion of coordinates and gives coordinates outside of the shape (whose row-major position is the index). Element access c(i,j,...) is never checked, whatever the build mode: a coordinate outside of the shape whose row-major position is below the number of elements reads the element at that position; beyond it the access is undefined. The same holds of signed coordinates some of which are negative: linear_index stops exactly when one of them is not below its extent and otherwise gives the row-major position, which may be negative; the element at such a coordinate is the one at that position (in a table of 2x3, (1,-1) is (0,2)), or the access is undefined. With unsigned extents the position is a large number instead.", "quantifier": "all legal shapes, all integer types, all coordinates and indexes (nothing claimed when the position exceeds 2^31-1)", "why_tests_cant": "Quantifies over all out-of-range values; an overrun that lands on another element gives a plausible value.", "anchors": ["include/kwk/utility/linear_index.hpp: linear_index", "include/kwk/utility/coordinates.hpp: coordinates", "include/kwk/detail/assert.hpp: KIWAKU_ASSERT", "include/kwk/container/container.hpp: operator()", "include/kwk/detail/container/accessor.hpp: index"]}
{"id": "C57", "title": "of_size with named axes: every size is read back under its name, except for axes written with a content", "statement": "For any list of of_size arguments that are numbers, constants, jokers or options `axis = value`, on distinct axes without content, the shape holds the given sizes in the given order with their types (0 for a joker), the assertions never fire, and reading an axis by name gives the value given to it, whatever the order of the arguments. Not so for axes written with a content: an axis given without `=`, such as width[5], has size 0 although the documentation says its value is used; a constant given to an axis with a declared type is converted to it without diagnostic (axis<\"width\">[as<std::int8_t>] = 300_c has size 44); width[5] = _ has the compile-time size 0; and a run-time number for such an axis does not compile, nor does an axis without `=` next to an option.", "quantifier": "all argument lists, all integer types and values, both assertion modes; witnesses for the conversions", "why_tests_cant": "The number of argument mixes, orders and types is unbounded and every mix is a different instantiation; tests write a handful of them.", "anchors": ["include/kwk/utility/container/shape.hpp:338-342", "include/kwk/utility/traits/to_descriptor.hpp:74-107", "include/kwk/utility/traits/as_dimension.hpp:66-92", "include/kwk/detail/sequence/prefilled.hpp:103-186"]}
{"id": "C58", "title": "A container is accepted for a shape exactly when no compile-time extent of that shape is left open", "statement": "concepts::container<type<T>, shape> (the check made by copies and assignments between containers) accepts a shape exactly when it has the same order and every compile-time extent expected is a compile-time extent of the same value; the relation is reflexive and transitive but not symmetric. Converting an accepted shape never fails an assertion and keeps every extent that the expected axis's type can hold; an extent the type cannot hold is changed without diagnostic. The names of the axes are not compared, so a compile-time height x width shape is accepted for width x height and the two extents are exchanged.", "quantifier": "all descriptor lists, all extents, both assertion modes; witnesses for the failures", "why_tests_cant": "Relations between all pairs (triples) of shape types; each is a separate instantiation.", "anchors": ["include/kwk/concepts/container.hpp:48-73", "include/kwk/detail/sequence/prefilled.hpp:395-418", "include/kwk/detail/sequence/prefilled.hpp:186-204"]}
{"id": "C59", "title": "Interpolation in floating-point arithmetic", "statement": "In IEEE arithmetic of any precision (rounding to nearest even, so float and double in particular), linear interpolation at the coordinates of an element strictly inside a container whose neighbouring elements are finite returns exactly that element, whatever the order, provided the coordinates are below 2^precision; floor interpolation at finite coordinates returns the element at their exact floor. Elsewhere rounding shows: between two equal elements the interpolated value may be above or below both, and coordinates beyond the precision name a neighbouring element.", "quantifier": "for all precisions, containers of any order, layouts, element types, integral or finite floating-point coordinates in range", "why_tests_cant": "tests sample a few small grids with exactly representable weights, for which rounding never occurs", "anchors": ["include/kwk/utility/container/interpolator.hpp: setup_linear_interpolation, linear_, floor_"]}
{"id": "C60", "title": "Strides: construction, strides of a shape, compression, equality", "statement": "with_strides holds the values given, in order and under the axis they were given for, and 1 where a joker is given. The strides of a shape have the axes of the shape, each is the product of the inner extents, it is known at compile time exactly when all inner extents are, and the innermost is the compile-time 1 (is_unit); is_unit implies that the innermost value is 1, but a run-time 1 or the default is not a unit. compress<N> keeps the N innermost values and what is known of them at compile time but loses the axes. Two strides of the same order are equal exactly when their values are, unless negative and unsigned values are mixed: -1 equals 4294967295u.", "quantifier": "for all numbers of axes, mixes of named, numbered and anonymous axes, run-time and compile-time values, integer types", "why_tests_cant": "each mix of compile-time and run-time values is another type: tests instantiate a handful of them", "anchors": ["include/kwk/utility/container/stride.hpp: stride, with_strides, as_stride, compress, operator==, is_unit", "include/kwk/detail/sequence/prefilled.hpp: constructors"]}
{"id": "C61", "title": "Algorithms give the same result on every evaluation context that visits each coordinate once", "statement": "Let a context's map call the callable exactly once for each coordinate of the shape, in any order (which may depend on the shape, the callable and the state). Then transform, copy, copy_if, fill, generate, replace and replace_if leave exactly the memory that the CPU context leaves, as long as no input element is an output element at another coordinate; all_of, any_of, none_of, count, count_if, find_first_of give what the CPU gives; reduce, transform_reduce and inner_product do so when the combining function does not care about the order of two values, and in general fold some permutation of the values. The CPU is such a context and is the default of every algorithm. The result depends on the order for other reductions, for iota, for the scans and for a copy between overlapping views.", "quantifier": "for all visiting orders, shapes, layouts, element types, callables and memories", "why_tests_cant": "only the CPU context exists in the repository: no test can run the algorithms on another order, let alone on all of them", "anchors": ["include/kwk/context/base.hpp: base_context", "include/kwk/context/cpu/context.hpp: cpu_context, cpu", "include/kwk/algorithm/algos/transform.hpp: overloads taking a context", "include/kwk/algorithm/algos/copy.hpp: overloads taking a context", "include/kwk/algorithm/algos/generator.hpp: overloads taking a context", "include/kwk/algorithm/algos/replace.hpp: overloads taking a context", "include/kwk/algorithm/algos/reduce.hpp: overloads taking a context", "include/kwk/algorithm/algos/predicates.hpp: overloads taking a context", "include/kwk/algorithm/algos/numeric.hpp: overloads taking a context", "include/kwk/algorithm/algos/find.hpp: overloads taking a context"]}
{"id": "C62", "title": "Tables of objects: static tables construct and destroy every element, heap tables do not", "statement": "Let the elements be objects of a class type (default constructor, copies, moves that may change their source, any behaviour when moved to themselves). After any sequence of declarations, constructions from a source, copies, moves, copy and move assignments (also to itself), swaps (also with itself), writes and ends of life, the tables of static size hold what variables of a value type would hold; each element lives in storage of its own table, every object is used only while alive, is never constructed twice, and no object outlives the tables. A sequence that is invalid for variables of a value type is undefined. For heap tables this fails: the elements of a new heap table are not objects, so that reading or assigning any of them is undefined; filling one from a source or copying one is undefined as soon as it has an element; and an object constructed in its storage by other means is never destroyed.", "quantifier": "for all classes, sizes, numbers of tables and sequences of operations", "why_tests_cant": "tests use arithmetic elements, for which assignment to raw memory is harmless, and a leak or a use outside a lifetime is not an observable failure", "anchors": ["include/kwk/detail/memory/stack_block.hpp: stack_block, assign, swap", "include/kwk/detail/memory/heap_block.hpp: heap_block, assign, the deleter", "include/kwk/container/table.hpp: constructors, operator=", "include/kwk/container/container.hpp: swap"]}
{"id": "C63", "title": "Sums of integers are computed in the type of the accumulator, from first to last", "statement": "For elements of any integer type: reduce(in, +, init) is init plus the sum of the elements whenever every partial sum, in row-major order, is a value of the type of init. If the arithmetic is unsigned, or if both types are narrower than int, it is that sum modulo the width of the type of init. If the type of init is signed and the type of the computation, the call is undefined as soon as one partial sum is not a value of it, even when the whole sum is: the result depends on the order of the elements. reduce(in) adds in the type of the elements, so that three int8_t elements 100 sum to 44. transform_reduce and inner_product compute the products in the common type of the elements (uint16_t elements may overflow int, whatever init is) and, without init, the sum as well; with assertions inner_product aborts when two shapes of the same order differ. The scans store the partial sums converted to the type of the outputs; exclusive_scan adds the last element too, and may overflow although every output is representable. If the arithmetic is unsigned, or if both types are narrower than int, the scans store the partial sums modulo the width of the type of init, converted to the type of the outputs; if the type of init is signed and the type of the computation, both scans are undefined as soon as one partial sum, that of all elements included, is not a value of it. A single product outside a signed common type of the elements makes transform_reduce undefined whatever init is, and so does a partial sum of products outside a signed type of init that is the type of the computation; if all the arithmetic is unsigned, the products are taken modulo the width of the common type of the elements and their sum modulo that of the type of init.", "quantifier": "for all integer types of elements, of init and of outputs, all shapes and layouts, and all values", "why_tests_cant": "the outcome depends on every partial sum for every combination of types; tests use small values, and overflow is silent", "anchors": ["include/kwk/algorithm/algos/reduce.hpp: reduce", "include/kwk/algorithm/algos/numeric.hpp: transform_reduce, inner_product, exclusive_scan, inclusive_scan"]}
{"id": "C64", "title": "Elements and values of different integer types are compared modulo the width of their common type", "statement": "When the common type of the elements and of the value is signed, or when no element and no value is negative: count gives the number of elements that are the value, find the first coordinate of such an element, find_first_of the first element that is one of the values, and replace replaces exactly the elements that are the value by the new value converted to the type of the elements. copy converts each element to the type of the output. In all cases count gives the number of elements equal to the value modulo 2^w, w being the width of the common type: an element -1 of a table of int is found, counted and replaced as 4294967295u, and so in find_first_of.", "quantifier": "for all pairs of integer types, shapes, layouts and values", "why_tests_cant": "the compiler chooses the common type for each pair of types; tests compare values of one type, or small ones", "anchors": ["include/kwk/algorithm/algos/predicates.hpp: count", "include/kwk/algorithm/algos/find.hpp: find, find_first_of", "include/kwk/algorithm/algos/replace.hpp: replace", "include/kwk/algorithm/algos/copy.hpp: copy"]}
{"id": "C65", "title": "Linear interpolation in floating-point arithmetic is the exact interpolation up to a bounded rounding error", "statement": "In any binary IEEE format with rounding to nearest even, at any point inside the grid whose coordinates are numbers of the format, linear interpolation of finite elements of absolute value at most V returns a finite number, and differs from the exact multilinear interpolation of the elements at that very point by at most ((1+u)^k - 1) V plus an underflow term, where u = 2^-prec and k is two roundings per axis plus one per neighbour, provided V enlarged by that error is below the largest number. Hence it leaves the interval spanned by the neighbours by at most that error. With at most four axes the error is at most V 2^-19 + 2^-145 in float and V 2^-48 + 2^-1070 in double. Neither restriction can be dropped: four elements equal to the largest float interpolate to infinity, and half way between two elements equal to the smallest positive float the result is zero.", "quantifier": "for all formats, ranks, shapes, layouts, points inside the grid and finite elements", "why_tests_cant": "the rounding errors depend on every bit of the coordinates and elements; tests compare a few results with a tolerance chosen by hand", "anchors": ["include/kwk/utility/container/interpolator.hpp: setup_linear_interpolation, linear_::interpolate"]}
{"id": "C66", "title": "Callables with effects are called once per element, in row-major order, and no more than needed", "statement": "Let the callable given to an algorithm have effects: a state that each call reads and updates, or a call that does not return. transform, generate, copy_if, replace_if, reduce, count_if, transform_reduce, inner_product and both scans make exactly one call (one of each callable) per position of the container they iterate over, in row-major order, each with the elements at that position as arguments; the results are those of the calls and the final state of the callable is the one after these calls and no others. all_of calls its predicate up to the first false answer, any_of and none_of up to the first true one, and make no further call although they visit every element. find_if and find_if_not call it up to the first element found, find_last_if and find_last_if_not from the last element backwards. If a call does not return, the algorithm stops at that call. inner_product of shapes that differ makes no call. A callable without effects gives exactly the algorithm of the other properties.", "quantifier": "for all callables, states, element types, shapes, layouts and contents meeting the aliasing conditions of the algorithms", "why_tests_cant": "the callable's state and behaviour are arbitrary; a test fixes one callable and, mostly, only looks at the results", "anchors": ["include/kwk/algorithm/algos/transform.hpp", "include/kwk/algorithm/algos/generator.hpp", "include/kwk/algorithm/algos/copy.hpp", "include/kwk/algorithm/algos/replace.hpp", "include/kwk/algorithm/algos/reduce.hpp", "include/kwk/algorithm/algos/numeric.hpp", "include/kwk/algorithm/algos/predicates.hpp", "include/kwk/algorithm/algos/find.hpp"]}
{"id": "C67", "title": "The binary searches make a logarithmic number of comparisons, whatever the comparison answers", "statement": "On a non-empty searchable container of n elements, lower_bound and upper_bound with any comparison that returns on the elements (it may have effects, be no order at all, or contradict itself) end, return a position of the container or none, and make between floor(log2(n+1)) and ceil(log2(n+1)) calls; binary_search makes at most one more. Every call compares an element of the container with the value: element first in lower_bound, value first in upper_bound. On a sorted container with a strict weak order the answer is the right one within that many comparisons. Only the answers of the comparison, not its effects, decide the result.", "quantifier": "for all comparisons, states, values, ranks, shapes and contents", "why_tests_cant": "the number of comparisons depends on the number of elements and on every answer; tests neither count them nor pass inconsistent comparisons", "anchors": ["include/kwk/algorithm/algos/binary_search.hpp"]}
{"id": "C68", "title": "Labels follow the container they were given to, and nothing derived from it", "statement": "Inserting a labelled container in a stream gives its label, a colon and the rows of its elements indented. relabel(c, l) of a container with the default layout is a view whose text is that of the same elements under the label l, whatever the label of c; of a container with strides it shows other elements. Views deduced from a labelled table, tables deduced from a labelled view, and the reshaped, reversed and sliced views of a labelled container, have no label and show the elements without one. Copying or assigning a table without label gives the text of the source; a view without label assigned a container refers to the elements of that container and shows them. Copying a table that has a label, assigning to it, or assigning a container of another type to a labelled view, does not compile: the settings of a container do not hold its label. swap exchanges labels together with the elements (heap tables, views and static tables). A moved table takes its label along; a label that is a std::string is left unspecified in the source.", "quantifier": "for all shapes, element types, contents and labels", "why_tests_cant": "labels meet every way of constructing, copying and exchanging containers; tests only read back a label just given", "anchors": ["include/kwk/detail/container/metadata.hpp", "include/kwk/container/container.hpp: swap, settings, archetype, operator<<", "include/kwk/algorithm/views/relabel.hpp", "include/kwk/settings/label.hpp", "include/kwk/container/table.hpp", "include/kwk/container/view.hpp"]}
{"id": "C69", "title": "Failing allocations and throwing element copies leave tables unchanged and lose no memory, except when the deleter cannot be made; a null allocation is not noticed", "statement": "In any history of constructions, copies, moves, assignments, swaps and destructions of heap tables, in which the program catches exceptions and goes on, and in which any allocation may find no memory, any deleter may fail to be made and any copy of an element may throw: an operation left by an exception changes no table and releases no earlier memory (strong guarantee, also for copy assignment); no block is released twice, released by another allocator, read after its release or owned by two tables; every block is released by the end, except those allocated just before the construction of the deleter (std::make_unique of the type-erased allocator) throws: each such failure of an operation with elements leaks exactly its block, for ever. Which operations throw and what each table reports afterwards follow from the sizes alone. When an allocator returns null for want of memory, as heap_allocator does, the table is constructed without exception and reports elements it does not have, and a copy construction or copy assignment of elements is undefined. The default constructor lets no exception out (container's constructor from its kind is noexcept): when the deleter of an empty table cannot be made, the program ends (std::terminate).", "quantifier": "for all histories of any length, any number of tables, allocators and elements, and every combination of failures", "why_tests_cant": "each failure at each step of each history is a separate execution; tests do not make malloc, make_unique or element copies fail", "anchors": ["include/kwk/detail/memory/heap_block.hpp: deleter, heap_block(Settings const&), assign", "include/kwk/utility/memory/heap_allocator.hpp: allocate", "include/kwk/utility/memory/any_allocator.hpp", "include/kwk/container/table.hpp: copy constructor, operator="]}
{"id": "C70", "title": "An exception thrown by a callable leaves exactly the elements before it written and makes no further call", "statement": "When the callable given to transform, copy_if, replace_if, generate, reduce or a scan throws, the exception leaves the algorithm at once: the calls made are those for the elements up to and including the one it throws at, in row-major order, with their effects; the output holds the results for the elements before it, and that element, the later ones and all other memory are unchanged. Two cases differ: an exclusive scan has already written the element its callable throws at (with the sum of the elements before), and for_each leaves in that element what the callable has put there. A reduction changes no element. No rollback happens, and nothing else is lost. If nothing is thrown all elements are processed.", "quantifier": "for all ranks, shapes and layouts, all element values, all callables with any effects throwing at any element, inputs and outputs sharing memory in the ways the algorithms support", "why_tests_cant": "the element at which a callable throws, and what had been written then, differ for each input; the tests have no throwing callable", "anchors": ["include/kwk/detail/algorithm/for_each.hpp: __::for_each", "include/kwk/context/cpu/context.hpp: map, map_index", "include/kwk/algorithm/algos/transform.hpp", "include/kwk/algorithm/algos/numeric.hpp: transform_inclusive_scan, transform_exclusive_scan", "include/kwk/algorithm/algos/copy.hpp: copy_if", "include/kwk/algorithm/algos/for_each.hpp"]}
{"id": "C71", "title": "Which chains of views give write access to the elements: const protects static tables accessed directly and const data, not heap tables nor views", "statement": "Take a container and derive others from it, in any number of steps: reference to const, slice, reverse, reshape, relabel, view{...}, table{...}. Views on const data never give write access to it, through any chain; views on other data always do, also when the view itself is const. A heap table is never protected: a const one can be written directly and through every chain. A static table that is const cannot be assigned to directly; slices and reversed views of a static table, and all views derived from them, are read-only even when the table is not const; but the elements of a const static table (const objects: writing them is undefined) can be written exactly through the chains whose first view is made by reshape, relabel or view{...}. A table{...} shares nothing with what it was made from. Every such chain compiles, except view{...} of a table with const elements, which is what a table constructed on a const range is; the elements of such a heap table can nevertheless be written, directly, sliced or reversed.", "quantifier": "for all chains of derivations of any length, static and dynamic shapes, const and non-const objects and sources", "why_tests_cant": "const-correctness is about what does not compile, for every combination of derivations; tests only contain code that compiles", "anchors": ["include/kwk/detail/memory/heap_block.hpp: get_data", "include/kwk/detail/memory/stack_block.hpp: get_data", "include/kwk/detail/memory/shallow_block.hpp: get_data", "include/kwk/container/container.hpp: settings, archetype, operator(), get_data", "include/kwk/container/settings/type.hpp", "include/kwk/algorithm/views/reshape.hpp", "include/kwk/algorithm/views/relabel.hpp", "include/kwk/algorithm/views/reverse.hpp"]}
{"id": "C72", "title": "Linear interpolation with coordinates and elements of different types: the type of the result is the widest, its accuracy that of the least precise coordinate", "statement": "Give linear interpolation coordinates each of which is a float, a double, a long double or an int, and elements of one floating-point type or of an integer type. The result has the most precise of float, the types of the coordinates and the floating-point type of the elements. At any point inside the grid it is finite and differs from the exact multilinear interpolation by at most the bound of C65 taken in the format of the least precise floating-point coordinate (float if all are ints), for floating-point elements, and for integer elements below 2^p in absolute value, p being the precision of the result; provided that bound leaves the result in range. With at most four axes: V 2^-19 + 2^-145 if one of the coordinates is a float, V 2^-48 + 2^-1070 if the least precise is a double, V 2^-59 + 2^-16441 if all are long doubles, whatever the type of the elements. With int coordinates only, before the last index of every axis, the result is exactly the element, also when it is an integer below 2^24. It is not what the type of the result suggests: two doubles equal to 1 interpolated at the float 0.1 give a double that is not 1 and is wrong from the 9th digit; the integer element 16777217 comes out as 16777216 with a float or an int coordinate; and an int coordinate equal to the last index reads past the axis.", "quantifier": "for all ranks, shapes, layouts, mixes of coordinate types, points inside the grid and finite elements", "why_tests_cant": "the rounding errors depend on every bit of the coordinates and elements and on where conversions happen; tests use one type and compare with a tolerance", "anchors": ["include/kwk/utility/container/interpolator.hpp: setup_linear_interpolation, linear_::interpolate"]}
{"id": "C73", "title": "Tables that convert their source to their element type: one conversion per element, exact when it can be, undefined or silent when it cannot", "statement": "table{source = s, as<T>} and table{source = s, size = sh, as<T>}, for an arithmetic type T and a source of integers or floating-point numbers, hold in order the first elements of the source converted to T, in storage of their own, the source untouched. An integer becomes the value of an integer type T congruent to it modulo 2^width; a floating-point number becomes the integer without the fraction if that is a value of T; any number within the range of a floating-point T becomes a value of T such that none is nearer. So each number that T can represent is kept exactly, and an increasing source gives an increasing table when T is a floating-point type or the source is one. One element whose integer part is not a value of T (or an infinity or NaN), or a source shorter than the table, makes the construction undefined; nothing checks. Nor is there a warning for the rest: -1, 7, 300 become 255, 7, 44 in a table of unsigned char, a double beyond the range of float becomes an infinity and 0.1 another number.", "quantifier": "for all element types, sources, values, sizes and layouts", "why_tests_cant": "the result depends on every bit of each element; tests convert a few small integers", "anchors": ["include/kwk/container/settings/type.hpp: pick_(table_, type_)", "include/kwk/container/table.hpp: constructors", "include/kwk/detail/memory/heap_block.hpp", "include/kwk/detail/memory/stack_block.hpp"]}
{"id": "C74", "title": "Function objects that keep a state of their own: which algorithms call the caller's object and which a copy", "statement": "Let f be an object whose call operator may change the object. transform(f, out, in...) and for_each(f, c...) call the caller's own f, in the order of C66: afterwards f holds the state after all calls, all other objects are as before, and for_each returns a second object in the same state; so does for_each_index(ctx, f, c) with a context. Without a context for_each_index(f, c) calls a copy: the same elements are written and the same state is returned, but the caller's f is as before. for_each over a shape always calls a copy; with a context it returns it, without one it returns nothing, so that the state is lost. reduce, transform_reduce, inner_product, the scans, find_if, find_last_if, lower_bound and upper_bound give the results that their calls in turn give when starting from the state of f, and leave every object of the caller as before; where two functions are passed each copy keeps its own state, also when both are copies of one object. binary_search makes its last comparison on a copy in the initial state again, so it can answer otherwise than when the state is shared. generate, copy_if, replace_if, all_of, any_of, none_of, count_if, find_if_not and find_last_if_not accept only objects with a const call operator; there each call sees the state f was passed with.", "quantifier": "for all function objects, states, containers and contents", "why_tests_cant": "tests pass lambdas without state; where a copy is made shows only through the state", "anchors": ["include/kwk/algorithm/algos/transform.hpp", "include/kwk/algorithm/algos/for_each.hpp", "include/kwk/algorithm/algos/reduce.hpp", "include/kwk/algorithm/algos/numeric.hpp", "include/kwk/algorithm/algos/find.hpp", "include/kwk/algorithm/algos/predicates.hpp", "include/kwk/algorithm/algos/binary_search.hpp", "include/kwk/algorithm/algos/generator.hpp", "include/kwk/algorithm/algos/copy.hpp", "include/kwk/algorithm/algos/replace.hpp", "include/kwk/context/cpu/context.hpp", "include/kwk/detail/algorithm/for_each.hpp"]}
{"id": "C75", "title": "Assertions only stop a program: a call that returns with them returns the same without", "statement": "Each function of the library that contains an assertion, directly or in what it calls (linear_index, coordinates, slicing, the constructors and conversions of shapes and strides, run-time indexing of shapes, views and tables on a source, the binary searches, inner_product), gives with assertions enabled either exactly what it gives without, including every write and every call made, or stops the program. In particular a call that returns in a build with assertions returns the same in a build without. This holds also of shapes built from arguments of several types, of merged axes and comparisons of shapes, of slices with constants and with slicers of the user's types, of views and tables built from options, of inner products of integers, bools and numbers of mixed types, of shapes with extents of a type of the user (which, if it cannot be compared with integers, compile only without assertions), and of a whole program that makes views and tables, slices them, indexes them and calls algorithms on them in an order that depends on what the calls return: what it has returned and written after n calls with assertions it has without, and, unless it calls inner_product, after n calls it is in the same state in both builds or was stopped in the one with assertions. The one way in which assertions can add anything else: coordinates and inner_product compute the number of elements or a compressed shape only to compare them, and where that overflows the call with assertions is undefined although without them it works: coordinates(65537, of_size(65536, 65536)) is {1, 1} without assertions.", "quantifier": "for all arguments, containers, contents, callables and programs of any length", "why_tests_cant": "tests are built in one of the two modes; agreement is a statement about pairs of builds and all arguments", "anchors": ["include/kwk/detail/assert.hpp", "include/kwk/utility/linear_index.hpp", "include/kwk/utility/coordinates.hpp", "include/kwk/detail/sequence/prefilled.hpp", "include/kwk/algorithm/algos/numeric.hpp: inner_product", "include/kwk/algorithm/algos/binary_search.hpp", "include/kwk/utility/slicer.hpp: origin"]}
{"id": "C76", "title": "The algorithms agree with one another", "statement": "On any readable container: none_of is the negation of any_of, all_of(f) is none_of(not f), any_of(f) holds exactly if count_if(f) is positive, all_of(f) exactly if count_if(not f) is 0, count_if(f) and count_if(not f) add up to numel, find_if finds something exactly if any_of holds and find_if_not exactly if all_of does not. On a container without strides and with extents of any type but unsigned int find_if and find_last_if find something exactly if count_if is positive, the first position is never after the last, and they are the same position exactly if count_if is 1. On a sorted container lower_bound(x) is find_if(not less than x), upper_bound(x) is find_if(greater than x), binary_search(x) is any_of(equivalent to x), and the distance in row-major order between upper_bound and lower_bound (nothing found counting as the end) is count_if(equivalent to x). Each value of an inclusive scan is the value of the exclusive scan at the same place combined with the element, and the value of the exclusive scan at the next place; the exclusive scan starts with init and the inclusive scan ends with what reduce returns. Two transforms in a row give what the transform with the composed function gives, and a transform followed by a reduce gives what reduce with the composed function gives. After replace_if with a value that does not satisfy the predicate, count_if is 0 and none_of holds. After iota, lower_bound finds the row-major rank of every position at that position.", "quantifier": "for all containers of any order, layout and contents, all predicates, orders and functions, subject to the conditions named", "why_tests_cant": "tests compare each algorithm with a few expected values; the agreement of two algorithms is over all contents and functions, and relies on both using the same order of visit and the same coordinates", "anchors": ["include/kwk/algorithm/algos/predicates.hpp", "include/kwk/algorithm/algos/find.hpp", "include/kwk/algorithm/algos/binary_search.hpp", "include/kwk/algorithm/algos/numeric.hpp", "include/kwk/algorithm/algos/reduce.hpp", "include/kwk/algorithm/algos/transform.hpp", "include/kwk/algorithm/algos/replace.hpp", "include/kwk/algorithm/algos/generator.hpp"]}
{"id": "C77", "title": "A container can be cut into slices and processed slice by slice, if all slices are made from the container itself", "statement": "Take any slices of a container without strides, one slicer per axis and going forward, such that every coordinate is selected by exactly one of them (tiles, even and odd columns, ...). Making them succeeds, no two share an element, and together they hold each element of the container once. Calling transform or fill on one slice after the other leaves exactly the memory that one call on the container leaves; the results of count_if add up to that of the container, all_of holds on the container exactly if it holds on all slices and any_of exactly if on one; reduce with its result passed on from slice to slice gives what reduce on the container gives if the function does not depend on the order of the elements. Consecutive blocks of whole rows (first, between, drop_first, last, ... on the outermost axis) hold the elements in the order of the container, so that reduce agrees for every function, and each block can be sliced again like a table. This is not so for other slices: cutting by columns and then each half by rows does not give the four quarters, but slices that start in the wrong row.", "quantifier": "for all containers of any order with the default layout, all contents, all numbers and kinds of forward slices", "why_tests_cant": "tests slice a few small containers; that every element is processed exactly once, for every way to cut, is a statement about all families of slices", "anchors": ["include/kwk/utility/slicer.hpp", "include/kwk/container/container.hpp: operator()", "include/kwk/algorithm/algos/reduce.hpp", "include/kwk/algorithm/algos/transform.hpp", "include/kwk/algorithm/algos/predicates.hpp", "include/kwk/algorithm/algos/generator.hpp"]}
{"id": "C78", "title": "The text of an end expression or a slicer says which elements are meant, except for fractions with an offset and unsigned integers", "statement": "Inserting an expression of `end` and integers (signed after promotion) in a stream writes a formula such as `2 * end/3` or `end-1` whose value, read with the usual precedence, is what the expression is worth on an axis of any size, provided its divisor is 1 or its offset 0; two expressions with the same text are worth the same on every axis. To the letter, the text is the factor unless 1, the divisor unless 1 and the offset unless 0, and each of these numbers has the suffix _c exactly when everything it is computed from is a constant; a ratio is written numerator/denominator with the same suffixes. If it has both a divisor and an offset the text is wrong for every such expression: the offset is written after having been multiplied by the divisor, so that end/2 + 1 is written end/2+2. With unsigned integers the text has no sign and shows the wrapped offset: end - 1ul is written end18446744073709551615. A slicer is written begin:step:end; for the slices going forward made by between, first, last, drop_first, drop_last, every and slice(from=, to=, by=) or slice(from=, length=, by=), with bounds without division, the range read from this text is exactly the range of elements selected. Not so for slice(to=, length=) (the text says from stop - length * step to stop, the slice starts at 0) nor for negative steps; a run-time bound of an 8-bit type is written as a character, and slice(from=end-3, length=end/2) cannot be written at all.", "quantifier": "for all expressions of end, all slicers of the listed forms, all integer types and sizes", "why_tests_cant": "tests compare a few printed strings; that the text always denotes the selection needs all expressions and axis sizes", "anchors": ["include/kwk/utility/end.hpp: operator<<", "include/kwk/utility/slicer.hpp: operator<<", "include/kwk/utility/ratio.hpp: operator<<", "include/kwk/utility/fixed.hpp: operator<<"]}
{"id": "C79", "title": "What an algorithm computes when its output shares elements with its inputs", "statement": "transform and copy never fail because the output view shares elements with input views; their result is fixed: the function applied at coordinate b sees, for each input, the value already given at an earlier coordinate (row-major order) if the element it reads is one the output has there, and the old value otherwise; nothing but the output's elements changes. So if no element read has been written at an earlier coordinate the result is that of non-overlapping arguments. In particular copying one slice of a table onto another of the same counts and steps moves all its elements faithfully whenever the destination's first element does not come after the source's, even if they overlap. In the other direction overlapping slices need not be moved faithfully, elements being repeated instead: copying h rows k rows further down writes the k first rows again and again (row r receives old row r mod k), and a shift by k elements towards higher addresses likewise has period k. A transform of f over a view and the same view one element earlier computes the running results f(a,v1), f(f(a,v1),v2), ... in place.", "quantifier": "for all element types, functions, shapes, memories, slices and distances", "why_tests_cant": "tests use separate arrays; the effect of overlaps depends on the traversal order for every shape and distance", "anchors": ["include/kwk/algorithm/algos/transform.hpp: transform", "include/kwk/algorithm/algos/copy.hpp: copy", "include/kwk/algorithm/algos/for_each.hpp: for_each", "include/kwk/container/container.hpp: operator()"]}
{"id": "C80", "title": "A container built from options depends on which options are given and not on their order", "statement": "view{options...} and table{options...} give the same container for every order of options with different keywords. The element type of a table is the one of `as<T>` if given and else the one of the source (whose elements are then converted or copied, in order); a view takes it from its source, or from `as<T>` without a source; with both, or neither, it does not compile. The size is the one given, else the one of the source (of_size(0) for a pointer); the strides are those given, else row-major ones; label and `unreachable` are those given. A static table ignores the allocator, any other gets its memory from it, by default from the heap; nothing else is written. Label, allocator and `unreachable` do not change the elements. In merged settings the left ones win; reshape, relabel, and views or tables made from other containers are instances. A view built from a type and a size alone has no elements to access although it is not empty. Giving strides does not avoid the computation of the row-major ones: a view of order 3 whose two inner extents have a product above 2^31-1 is undefined behaviour whatever its strides.", "quantifier": "for all lists of options with different keywords, all shapes, sources and memories", "why_tests_cant": "tests use one order of the options per constructor; there are thousands of combinations and orders", "anchors": ["include/kwk/container/pick.hpp", "include/kwk/container/settings/type.hpp", "include/kwk/container/settings/size.hpp", "include/kwk/container/settings/strides.hpp", "include/kwk/container/settings/source.hpp", "include/kwk/container/settings/allocator.hpp", "include/kwk/detail/container/builder.hpp", "include/kwk/container/view.hpp", "include/kwk/container/table.hpp", "include/kwk/detail/memory/heap_block.hpp"]}
{"id": "C81", "title": "Names of axes are kept by conversions of shapes, lost by compress and ignored by ==", "statement": "Two axes are equal exactly when they are the same axis (same name or number) with the same content, for contents that are not negative numbers; width[-1] equals width[4294967295u]. Axes with sizes combined by compress have the product of the sizes, and are the axis with the last name, or, if none has a name, the one with the smallest number. compress<N>(shape) has the values of the merged shape, and unless N is the order of the shape none of its axes has a name any more: get with a name or a given number does not compile; its outer extent is known at compile time exactly when all the merged ones are, any other when it was. Equality of shapes depends on the values only: shapes with exchanged names are equal, although neither converts to the other. A conversion to the same or a larger order keeps names: every axis of the source reads the same under its name (converted to the type of the axis), the added run-time axes read 1; with other axes, or the same in another order, it does not compile. A conversion to a smaller order compiles only to axes without names, although the constructor's constraint also accepts named ones.", "quantifier": "for all shapes and axes", "why_tests_cant": "names are compile-time values; tests fix a few of them, mostly with positions and names in agreement", "anchors": ["include/kwk/settings/axis.hpp", "include/kwk/utility/joker.hpp", "include/kwk/settings/type.hpp", "include/kwk/utility/container/shape.hpp", "include/kwk/detail/sequence/prefilled.hpp"]}
{"id": "C82", "title": "What is known at compile time about a slice", "statement": "Slicing a container whose shape and strides are described by axes of any kinds (known at compile time or not) gives a view described in the same way, with the extents of the slice and no named axis, provided the first index on every axis is a run-time number; if one of them is a constant - a constant index, a constant first bound, or an expression of end and constants alone on axes of constant sizes - the call does not compile, so that the last column of a static table is t(_, end - 1) and not t(_, end - 1_c). In the view asking for an axis by its name or given number does not compile, even when every axis is sliced by _. The extent of a sliced axis is known at compile time only if everything it is computed from is: for _ the axes merged into it, for a length that length, for a range its bounds, its step and, when it depends on the end, the axis; an index or an end expression always gives the constant 1, even with run-time numbers. Conversely it is known in all these cases, except for a range with a step and a bound: then it is known exactly when counting down from the first bound would give the same number of elements, so that a shape of one axis of constant size 8 sliced by slice(from=0_c,to=8_c,by=2_c) has a run-time extent. A stride is known exactly when the stride of the axis and the step are. The view is of the fully static kind exactly when all extents and strides are known: so a static container sliced by _, indexes, end expressions and constants without steps stays static, and one run-time number anywhere else makes it dynamic; between, at, every, first, drop_first, last and drop_last take no constants and always make it dynamic. A range with a step from the largest int, given as a constant, does not compile, although the same range with a run-time bound is defined. A unit stride of the last axis stays unit when the last slicer has no step; with a run-time step it is not unit, with a constant step exactly when the step is 1.", "quantifier": "for all containers with default layout, all kinds of axes, all slicers and steps", "why_tests_cant": "which of the values are types is invisible in the values tests compare; every combination of kinds is a different instantiation", "anchors": ["include/kwk/utility/slicer.hpp", "include/kwk/utility/end.hpp", "include/kwk/utility/fixed.hpp", "include/kwk/utility/container/shape.hpp", "include/kwk/utility/container/stride.hpp", "include/kwk/container/container.hpp"]}
{"id": "C83", "title": "Programs of tables, views, slices and algorithms compute what they compute on arrays", "statement": "A program that makes any number of calls of the library, with any loops and branches on the results - making tables of given sizes, copying, moving, assigning, swapping and destroying them, making views of user memory and of containers, reshaping, slicing, reversing, and calling for_each and for_each_index with callables that read and write the elements they get, transform, copy, copy_if, fill, generate, replace_if, inclusive and exclusive scans, reduce, all_of, any_of, none_of, count_if, inner_product, find_if, find_last_if, lower_bound, upper_bound, binary_search, reading and writing elements and asking for numel - gives the results, and leaves in memory the values, of the same program on mathematical arrays, where a container is a box of coordinates with one cell each, algorithms go through the box in row-major order, a slice is a selection of coordinates and overlapping arguments share cells. This holds for calls with a meaning there: arrays live and large enough, copies, views, reversals and slices taken of containers whose elements are contiguous, one slicer per axis, everything of signed types - sizes, slicers, coordinates - where an array runs backwards (a reversal, a negative step), sorted arrays and a strict weak order for the binary searches, assigned and swapped tables of the same order, 2 or more, with run-time shapes (or with the same static shape). Assignment gives the table the dimensions and values its source had before, even through a view of the table itself; tables of static shapes keep their elements in place, so that assignment, swap and move copy values, views of them stay good and see the new values and a moved-from table keeps its values, while moving or swapping tables of run-time shapes moves the elements and the views follow them. In every state of such a program two tables never share a cell, the live cells are exactly those the program started with and those of the tables that are left, and a call changes no other cells than those of the containers it writes to or the table it destroys or assigns to. With assertions any program gives what it gives without them or does not finish, and a program that has a meaning without them gives the same or is stopped by an assertion (which does happen: a bound of type signed char on a long axis). Outside these rules programs go wrong: destruction, and assignment if the shape is a run-time one, end all cells of a table while its views still designate them, so reading through a view after the table was assigned the same values is undefined; a table made from a slice has other elements than the slice; an array that runs backwards is not found with unsigned coordinates, and its reversal is outside of the memory.", "quantifier": "for all programs, numbers of calls, contents of memory, callables, shapes and slicers", "why_tests_cant": "tests run a few fixed sequences of calls; errors in the composition of calls (aliasing, ownership, strides that survive from one call to the next) show up only in sequences nobody wrote down", "anchors": ["include/kwk/container/table.hpp", "include/kwk/container/view.hpp", "include/kwk/container/container.hpp", "include/kwk/algorithm/algos/for_each.hpp", "include/kwk/algorithm/algos/transform.hpp", "include/kwk/algorithm/algos/copy.hpp", "include/kwk/algorithm/algos/reduce.hpp", "include/kwk/algorithm/algos/find.hpp", "include/kwk/algorithm/views/reshape.hpp", "include/kwk/algorithm/views/reverse.hpp", "include/kwk/algorithm/algos/binary_search.hpp", "include/kwk/utility/slicer.hpp"]}
{"id": "C84", "title": "Sums, inner products and scans of floating-point elements are the exact ones up to a bounded rounding error", "statement": "reduce(in, +, init) with an init of a floating-point type and n elements of any arithmetic type, transform_reduce and inner_product of floating-point elements of any two types with an init of any third, and each output of inclusive_scan and exclusive_scan give a finite number that differs from the exact sum of the init and the elements (products) read by at most ((1+u)^k-1) times the sum of the absolute values, k being n when the init takes the elements as they are and 2n when they are converted first (one more for products), plus n times half the smallest number where results may be subnormal; u is the unit roundoff of the type of the init. It is enough that that sum of absolute values, so enlarged, is below the largest number. For reduce(in) with no more than 2^(precision-1) elements this is at most n*2^(1-precision) times the sum of the absolute values. Outputs of any other type get these partial sums converted one by one, the sum going on in the type of init. The outputs of a scan of non-negative elements never decrease, those of non-positive elements never increase. Sums and inner products are exact when everything is a multiple of one power of two and the partial sums fit the precision. Inner products of elements of integral types, into an init of any type, are the sums of the integer products. Beyond these bounds sums go wrong: the sum of n ones is n up to 2^precision (16777216 for float) and stays there for every larger n; the order of the elements matters; a sum that overflows on the way is infinite although the exact sum is a number; an init 0 of integer type drops every element between -1 and 1, and is undefined behaviour when a sum does not fit; a NaN among the elements makes the sum NaN. With assertions inner_product aborts when two shapes of the same order differ.", "quantifier": "for all floating-point types of init, elements and outputs, all numbers of elements, finite values, shapes and containers", "why_tests_cant": "tests compare sums of a few small integers, which are exact; how the error grows with the number of elements and where sums stop growing needs more elements than tests have and is not visible in any one of them", "anchors": ["include/kwk/algorithm/algos/reduce.hpp", "include/kwk/algorithm/algos/numeric.hpp"]}
{"id": "C85", "title": "Tables of static size whose elements throw destroy what they made, and end the program in swap, copy assignment and default construction", "statement": "In every program that makes, copies, moves, assigns, swaps, writes and destroys tables of a static shape whose elements are objects of a class type, with any default constructions, copies and moves of elements throwing and the exceptions caught, the tables at any time hold the values one computes from the list of operations alone: an operation that fails at its k-th element operation leaves what is said here, every table owns its elements, no element is made in a place that holds one or destroyed twice, and when all tables are gone no element is left. When making a table (from settings, a source or a copy) or copying one onto another throws, every table is where it was with the values it had. For elements whose moves do not throw the same holds of moves, move assignments and swaps, and only default construction can end the program. Otherwise: an exception of an element in the default construction table() calls std::terminate, as the constructor of container it uses is noexcept, although the same exception leaves table(options) normally; a throwing move of an element in a swap, or in the swap that ends a copy assignment, calls std::terminate; a throwing move of the k-th element leaves the source of a move construction without its first k values, which are in no table; a move assignment that throws leaves the first k elements assigned.", "quantifier": "for all element classes (their default value, what moves and failures leave), all choices of throwing operations, static sizes and histories", "why_tests_cant": "needs an exception at each single operation of an element of each operation of each history, and what is wrong (a leaked object, a double destruction, a value lost) shows only in what is left later; std::terminate ends the test itself", "anchors": ["include/kwk/detail/memory/stack_block.hpp", "include/kwk/container/table.hpp", "include/kwk/container/container.hpp"]}
{"id": "C86", "title": "What is inserted in a stream whose format was changed: widths, bases, signs, and the format afterwards", "statement": "Shapes, strides, positions, axes, ratios, end expressions, slicers and containers can be inserted in a stream with any base, sign, showbase, uppercase, adjustment, fill character and width. In the default format the texts are those of C51, C53 and C78. For shapes, strides, positions, axes and containers the width fills up only what is inserted first (an opening bracket, the word position<, the name of the axis, the label, or the empty text before the first line of an unlabelled container): the rest of the text is as without width, no element of a container is ever padded, and every other setting is the same afterwards. For ratios, end expressions and slicers the width fills up the word (begin, end) or the number that comes first, counting its sign or base prefix and filling between them and the digits with internal adjustment. In every format, two shapes or strides have the same text exactly when they have the same values and the same compile-time axes - with showpos in decimal also the same signedness of the types - except that in octal and hexadecimal this is for values of the same types or not negative; two positions with the same text are equal; axes have the same text exactly when they compare equal, in formats without showpos and width and with names without < and [. What fails: inserting an end expression with an offset, alone or in a slicer, clears showpos in the caller's stream, so the second insertion of a slicer can differ from the first and the bounds written after it lose their sign; in hexadecimal the offset of an end has no sign (end-1 is written endffffffff, as is end+4294967295 with a long); strides -1 of type int and 4294967295 of type unsigned int are then written alike; with showpos equal axes width[3] and width[3u] have different texts; an axis named along<0> is written as along<0>.", "quantifier": "for all formats (flags, fill, width), shapes, strides, positions, axes, ratios, end expressions, slicers, containers with any elements, and texts already written", "why_tests_cant": "the settings of a stream are independent and unbounded in number (any width and fill) and persist: what an insertion does to later insertions by other code shows elsewhere, and telling texts apart compares all pairs of objects", "anchors": ["include/kwk/utility/container/shape.hpp", "include/kwk/utility/container/stride.hpp", "include/kwk/utility/position.hpp", "include/kwk/settings/axis.hpp", "include/kwk/utility/ratio.hpp", "include/kwk/utility/end.hpp", "include/kwk/utility/slicer.hpp", "include/kwk/container/container.hpp"]}
{"id": "C87", "title": "Calls of the algorithms made by several threads at the same time", "statement": "Threads that make any sequences of calls - for_each, for_each_index, transform, copy, copy_if, fill, generate, iota, replace_if, reduce and what is made of it (all_of, any_of, none_of, count, count_if), transform_reduce, inner_product, the scans, find_if, find_first_of, find_last_if, lower_bound, upper_bound, binary_search, c(is...) read or written - on existing containers need no lock if no thread writes an element another one reads or writes: whatever the order of their accesses there is no data race and no undefined access, no thread waits for another, every thread returns what it returns alone and the elements end up as when the threads run one after the other. What a call touches is known: it writes only elements of its outputs at the coordinates of the container it loops over, and reads only elements of its arguments there; the algorithms that return a result write nothing, so any number of threads may query the same table. Different tables never share elements; nor do the slices of a tiling (C77): transforming or filling every tile in a thread of its own gives the elements that the call on the whole container gives, counts of the tiles add up to that of the whole, and reductions of blocks of rows by an associative function with a neutral element, combined in order, give the reduction of the whole. What fails: nothing protects an element that is shared; a fill while another thread reduces the same table is a data race, and the result can be the sum of the old elements, of the new ones, or of some of both.", "quantifier": "for all numbers of threads, orders of their accesses, containers, memories, callables that touch nothing but the elements they are given, element types, and tilings", "why_tests_cant": "the orders of the accesses of several threads are exponentially many and a test cannot choose them; a data race may never show in a test", "anchors": ["include/kwk/algorithm/algos", "include/kwk/context/cpu/context.hpp: map, map_index", "include/kwk/detail/algorithm/for_each.hpp", "include/kwk/detail/algorithm/for_until.hpp", "include/kwk/container/container.hpp: operator()"]}
{"id": "C88", "title": "Positions found by searches", "statement": "What a search returns can be used: for extents of at most 2^31, c(p[0], p[1], ...) at the position p returned by find_if is the element that was found, it satisfies the condition, and every other element that does comes later in row-major order; without a position no element satisfies it. Two positions of the same order are equal exactly if all their coordinates are. The loop while(auto p = find_if(c, f)) c((*p)[0], ...) = x, on any container whose elements are distinct, ends after one call more than there are matches if f(x) is false, and leaves x exactly where f held and everything else unchanged; if f(x) is true and some element satisfies f it never ends. The same reading holds for find_last_if on containers without strides and without extents of type unsigned int. What fails: coordinates are converted to int, so on a container of more than 2^31 elements along one axis the position of a match beyond 2^31 is negative and c(p[0]) is outside of the memory. And find_if, with everything made of it, initialises an array of unsigned long from the loop variables with braces: that is a narrowing conversion, which C++ forbids, for every container with an extent known at compile time or of a signed type, int included; it compiles as the standard requires exactly if all extents have unsigned types (g++ accepts it with a warning, clang++ does not, nor g++ with the warning flags of this repository).", "quantifier": "for all containers, memories, element types, conditions and values written, and all types of extents", "why_tests_cant": "tests search a few tables whose sizes are all std::size_t, and never use the position they get", "anchors": ["include/kwk/algorithm/algos/find.hpp: find_if", "include/kwk/utility/position.hpp", "include/kwk/detail/algorithm/for_until.hpp", "include/kwk/algorithm/views/reverse.hpp", "include/kwk/container/container.hpp: operator()"]}
{"id": "C89", "title": "Which overload a call of an algorithm reaches", "statement": "The context of an algorithm is an optional first argument whose type is not constrained, so a call is settled by the rules of overload resolution alone. For all 32 algorithms, all their signatures, all combinations of named objects, const objects and temporaries, and any number of containers for for_each and transform: a call made as a signature suggests, with named (or const) objects where the signature has a reference T& (contexts and outputs), selects exactly that signature, and every algorithm it calls in turn is found, and all the work is done on the context that was given or, without one, on kwk::cpu. The objects given arrive at every algorithm called on the way in the order in which they were given, none of them twice, and at every further signature of the same algorithm all of them arrive. There are two exceptions, which do not compile: for_each(f, a, b, ...) with a callable that has a name and two containers or more selects the signature with a context and takes the callable for the context; transform(f, out, a, b, ...) with such a callable is ambiguous if a is an lvalue and b and all that follow are const lvalues. Both compile if the callable is a temporary (a lambda written in the call) or if kwk::cpu is given explicitly. Calls with a temporary where the signature has a reference do not compile; in particular none of the twelve algorithms that write a table accepts a temporary for it, as in fill(reverse(c), 0) or copy(view{source = a}, d): a view that is written through must be named first.", "quantifier": "for all algorithms, signatures, kinds of value of each argument, and numbers of containers", "why_tests_cant": "a test exercises calls that compile; that no documented combination of arguments picks another overload or none cannot be tested call by call, and tests only pass lambdas by temporary or one container", "anchors": ["include/kwk/algorithm/algos/for_each.hpp", "include/kwk/algorithm/algos/transform.hpp", "include/kwk/algorithm/algos/copy.hpp", "include/kwk/algorithm/algos/generator.hpp", "include/kwk/algorithm/algos/reduce.hpp", "include/kwk/algorithm/algos/numeric.hpp", "include/kwk/algorithm/algos/find.hpp", "include/kwk/algorithm/algos/binary_search.hpp", "include/kwk/algorithm/algos/predicates.hpp", "include/kwk/algorithm/algos/replace.hpp", "include/kwk/context/cpu/context.hpp"]}
{"id": "C90", "title": "What the const and pure attributes allow a compiler to do with calls on shapes", "statement": "numel, nbdims, contains, == and as_stride are declared pure, compress, linear_index and coordinates are declared const: a compiler may use the result of an earlier call with the same argument values, for pure functions as long as nothing is written in between, for const functions at any time, and it may leave out a call whose result is not used. For every program that assigns shapes and calls these functions, slices shapes, asks for the origin of a slice or converts a shape to fewer axes: if no shape is assigned any more once it was compared, compressed, sliced or converted, every allowed execution in which all results are used gives exactly the results of the calls as written; if some results are not used, some of these calls may be left out and nothing else changes, which cannot be seen unless one of them fails. Programs that only use numel, nbdims, contains, as_stride, linear_index and coordinates are exact whatever they assign. But compress takes its shape by reference, so for a compiler its argument does not change when the shape does: after a first call, compress, ==, slicing, origin and conversion to fewer axes may give the result of the first call for ever, whatever is assigned to the shape; a comparison may give the answer from before an assignment, and a loop that waits for two shapes to be equal need not end. The bounds check of linear_index in a call whose result is not used may vanish even with assertions enabled.", "quantifier": "for all programs of assignments and calls, shapes, indexes, slices, and all executions the attributes allow", "why_tests_cant": "what a compiler does with an attribute depends on its version, its options and on inlining; a test sees one of the allowed executions, usually the plain one", "anchors": ["include/kwk/detail/abi.hpp", "include/kwk/utility/container/shape.hpp", "include/kwk/utility/linear_index.hpp", "include/kwk/utility/coordinates.hpp", "include/kwk/utility/container/stride.hpp", "include/kwk/utility/slicer.hpp", "include/kwk/detail/sequence/shape_constraints.hpp"]}
{"id": "C91", "title": "Heap tables with stateful allocators", "statement": "For every allocator type, with any state of its own and anything its objects share, and every history in which a program makes and changes allocators, makes tables with them, copies, moves, assigns, swaps and destroys tables: an allocator object of the program never gets a call and is never changed by a table. Making a table calls allocate exactly once, on a copy of the allocator in the state it has at that time, with the number of bytes of the elements; making or assigning a copy of a table calls allocate once on a heap_allocator, whatever allocator the source uses; default construction, moves and swaps call none. Each block is given back once, to an allocator object whose own state is exactly the one the call to allocate left, with the pointer this call returned; once all tables are gone every block was given back so. Null pointers are not given back. The object that allocates is a temporary: it is gone when the table is made, and another object, a copy, gives the block back; so allocators have to be handles on what they manage, one that holds the storage itself leaves the table with memory that is gone. Every allocator object made ends exactly once, none outlives the tables. What the allocators share is changed by these calls only, each of which finds what the one before left. With allocators that give memory for every request but empty ones, these histories run exactly when names are declared once and used while they live, allocators are made before they are used, and no moved-from table is copied unless it is empty.", "quantifier": "for all allocator behaviours, states and shared worlds, all histories of operations on any number of tables and allocators", "why_tests_cant": "the state an allocator copy has when it gives a block back depends on the whole history of moves, swaps and assignments; tests use stateless allocators or one history", "anchors": ["include/kwk/detail/memory/heap_block.hpp", "include/kwk/utility/memory/any_allocator.hpp", "include/kwk/utility/memory/heap_allocator.hpp", "include/kwk/container/table.hpp", "include/kwk/container/settings/allocator.hpp", "include/kwk/container/container.hpp"]}
{"id": "C92", "title": "iota with floating-point elements, values and steps", "statement": "iota(out, value, step) keeps its running value in the type of value. When that type is a floating-point one and the elements are not less precise, the element of rank k (row-major) is within the error of k additions (sum_error, for n elements of float with a float step about k^2 times 2^-24 times the step) of value + k*step, nothing else changes, and with a step that is not negative the elements never decrease, with one that is not positive they never increase; elements of another type get the running values converted one by one. When value and step are multiples of a power of two and value + n*step fits the precision, every element is exactly value + k*step. iota(out) on floating-point elements gives min(k, 2^precision): a float table with more than 2^24 elements ends in equal elements. iota(out, v) with an integer v counts in the integer type and converts, so float elements are the nearest floats to v + k also beyond 2^24, but the value advances once more after the last element and must still fit its type. iota(out, 0, step) with a step between -1 and 1 fills the table with zeros, since the running value is an integer. Refuted: iota(out, 0.0f, 0.1f) does not give the float nearest to 10*0.1f at rank 10; converting a running value that does not fit an integer element is undefined, and so is the last step from the largest int.", "quantifier": "for all containers that can be written, floating-point and integer types of value, step and elements, values and steps", "why_tests_cant": "rounding errors depend on the values, the number of elements and the types; the elements that stop growing need tables of more than 2^24 elements", "anchors": ["include/kwk/algorithm/algos/generator.hpp", "include/kwk/context/base.hpp", "include/kwk/context/cpu/context.hpp"]}
{"id": "C93", "title": "Comparisons of floating-point elements and values", "statement": "count, find, find_last, find_first_of, replace, lower_bound, upper_bound and binary_search compare elements of one arithmetic type with a value of another in the more precise floating-point type of the two (the floating-point one if the other is an integer). Elements that this type has exactly, infinities and NaN included, are counted, found and replaced exactly when they are the same number as the value: both zeros are one number, each infinity equals itself only, and nothing equals NaN; an integer value takes part as a number of that type nearest to it, which is the value itself when the type has it. Bisection in a table sorted by value and without NaN gives the first element not less, the first greater, and whether one is equal. replace converts the new value to the element type. With NaN as the value count gives 0, find and find_last nothing and replace leaves the table alone, even where elements are NaN; lower_bound gives the first position, upper_bound none, and binary_search answers true on every table that is not empty. Refuted: find(table of doubles, 2^53+1 as long) finds the element 2^53; find(table of floats having 0.1f, 0.1) finds nothing; a NaN in an otherwise sorted table makes binary_search find a number that is not there.", "quantifier": "for all containers, arithmetic types of elements and value of which at least one is a floating-point type, elements and values", "why_tests_cant": "the result depends on the values, their types and rounding; NaN and infinities can be anywhere in the table", "anchors": ["include/kwk/algorithm/algos/predicates.hpp", "include/kwk/algorithm/algos/find.hpp", "include/kwk/algorithm/algos/replace.hpp", "include/kwk/algorithm/algos/binary_search.hpp"]}
{"id": "C94", "title": "Assignments between element types: what copy, transform, fill, generate and replace_if leave in elements of another arithmetic type", "statement": "copy, copy_if, transform, fill, generate and replace_if assign a number of one arithmetic type to elements of another without a check. Each element assigned to becomes the number converted as in C73 (integers modulo 2^width, floating-point numbers to integers without the fraction, anything within the range of a floating-point type to a nearest value; infinities and NaN stay what they are in a floating-point type), nothing else changes, and the call is defined exactly as long as no number that is assigned is a floating-point number whose integer part is not a value of the integer type (or an infinity or NaN): one such number anywhere makes the whole call undefined, while elements that copy_if or replace_if does not select are never converted, and an empty container can be filled with anything. Numbers that the element type has are copied exactly; copying to a type that has all the numbers and back leaves them as they were; rounding and dropping fractions keep the order of the elements. Refuted: 200, 300 copied to unsigned char are not in order any more; the long 2^53+1 does not survive a copy to double and back; fill(t, 0.1) followed by count(t, 0.1) on a table of floats gives 0.", "quantifier": "for all containers, element types, functions giving arithmetic values, numbers and memories meeting the aliasing conditions of the algorithms", "why_tests_cant": "the outcome depends on every value and on both types; an undefined conversion shows nothing in a test on values that fit", "anchors": ["include/kwk/algorithm/algos/transform.hpp", "include/kwk/algorithm/algos/copy.hpp", "include/kwk/algorithm/algos/generator.hpp", "include/kwk/algorithm/algos/replace.hpp", "include/kwk/context/cpu/context.hpp"]}
{"id": "C95", "title": "Extents of user types: as_dimension and to_descriptor customised by tag_invoke", "statement": "Shapes and strides can be given objects of a program's own types. On a shape or stride whose axes are given, a run-time axis gets what as_dimension returns for the object and the default (0 for shapes, 1 for strides), converted to the type of the axis; a compile-time axis keeps its number, and with assertions the call aborts exactly if a value given for such an axis says it is a different number. Values given by name do the same in any order, and the run-time axes not named are 0. A type that stands for a number and compares as it is interchangeable with that number. of_size and with_strides make the axis from the type alone: an axis of the type to_descriptor names, or of the very number it gives, in which case the object has no say without assertions and must compare equal with them; the axis also takes the name the descriptor has. What compiles is exactly this: positional values must be convertible to size_t, those for run-time axes need as_dimension, those for compile-time axes need a comparison only with assertions, of_size and with_strides need to_descriptor; values given by name need not be convertible. Refuted: any type convertible to an integer will do, as the concept and its documentation say (a double cannot be given for a run-time axis or to of_size, but can for a compile-time axis); of_size(x) has the size of x; of_size<T> makes all axes of type T (those of user types keep theirs, and 70000 becomes 4464 in a short); of_size(axis = x) with an object of a user type (it never compiles).", "quantifier": "for all user types, given by what they customise, all objects, axes, values and orders of named values, with and without assertions", "why_tests_cant": "the types are the user's: the unit tests customise one type for each customisation point, call the point itself, and never build a shape from it", "anchors": ["include/kwk/utility/traits/as_dimension.hpp", "include/kwk/utility/traits/to_descriptor.hpp", "include/kwk/utility/invoke/tag_invoke.hpp", "include/kwk/utility/invoke/protocol.hpp", "include/kwk/concepts/extent.hpp", "include/kwk/detail/sequence/prefilled.hpp", "include/kwk/detail/sequence/helpers.hpp", "include/kwk/utility/container/shape.hpp", "include/kwk/utility/container/stride.hpp"]}
{"id": "C96", "title": "Calls end, and how often the loops test", "statement": "for_each, for_until and every algorithm end (return, abort, throw, or reach undefined behaviour) whenever the callable they are given does, whatever the sizes are: negative, the largest of a narrow type, or with a product that cannot be counted; also when tables are too small, overlap or are gone, and when the callable throws. lower_bound, upper_bound and binary_search end on tables that are not sorted, for comparisons that are no orders, and on any sizes. The loop over a shape tests its conditions a number of times that depends on the sizes alone, (n+1) + n * (those of the inner axes), which for a table of d dimensions that is not empty is between one and 2d per element; find and the other searches test at most as often, and as often if nothing is found. A bisection of n elements takes at most 1 + log2 n turns. Refuted: a table without elements costs nothing (the loop runs through all sizes before the first 0: shape (2147483647, 0) tests 4294967295 times, shape (0, 2147483647) once).", "quantifier": "for all shapes, containers, memories, callables that end, with and without assertions", "why_tests_cant": "a test that hangs or does not shows it for its own sizes only; nothing in the tests counts the turns, and unsorted input is not tried", "anchors": ["include/kwk/detail/algorithm/for_each.hpp", "include/kwk/detail/algorithm/for_until.hpp", "include/kwk/algorithm/algos/binary_search.hpp", "include/kwk/algorithm/algos/for_each.hpp", "include/kwk/algorithm/algos/find.hpp", "include/kwk/algorithm/algos/reduce.hpp"]}
{"id": "C97", "title": "Which elements the algorithms read and write, how often and in which order", "statement": "The accesses of a call to elements, listed in their order, explain what it does: each read gives the value the element has then, and the writes lead to the memory left behind. fill, generate and iota write each element of the table once in row-major order and read none. transform and copy read, per element, the inputs from the first to the last once each and then write the output once; copy_if and replace_if read each element once and write only where the predicate holds (copy_if reads a value that it copies a second time). reduce, all_of, any_of, none_of, count, transform_reduce and inner_product read each element once in row-major order and write nothing; inclusive_scan reads before it writes the element of the output, exclusive_scan after. for_each does what the callable does, once per coordinate. find reads up to the first hit in row-major order and find_last up to the last one in the opposite order, and neither reads on; find_first_of reads all values for each element that it looks at. lower_bound and upper_bound read at most 1 + log2 n elements, binary_search one more. All this also when tables overlap or are the same. Refuted: any_of stops at the first hit (it reads on to the end, as all_of does); exclusive_scan works in place (it reads back what it just wrote, and all sums are the initial value).", "quantifier": "for all element types, tables of any order and layout within the range of the index types, memories and callables", "why_tests_cant": "the tests look at results, not at accesses: a second read or a read after the hit changes no result; it matters for mapped memory, for elements that count, for threads and for tables that overlap", "anchors": ["include/kwk/algorithm/algos/transform.hpp", "include/kwk/algorithm/algos/copy.hpp", "include/kwk/algorithm/algos/generator.hpp", "include/kwk/algorithm/algos/replace.hpp", "include/kwk/algorithm/algos/reduce.hpp", "include/kwk/algorithm/algos/predicates.hpp", "include/kwk/algorithm/algos/numeric.hpp", "include/kwk/algorithm/algos/find.hpp", "include/kwk/algorithm/algos/binary_search.hpp", "include/kwk/context/cpu/context.hpp"]}
{"id": "C98", "title": "Slicers of user types", "statement": "A class with members reindex (first index), reshape (number of indexes, 1 if missing) and restride (distance, the one of the axis if missing) slices containers as the slicers of the library do, alone or together with them: when on every axis the first index and all indexes named exist, the slice is made, has these extents, and reading or writing an element of it is reading or writing the element of the container with first index + index times distance on every axis (axes merged first when there are fewer slicers than axes; the members are asked about the merged axes); a distance of 0 repeats an element. A type answering as a slicer of the library does may replace it: the two slices are equal. A shape asks for reshape only; a container cannot be sliced by a type without reindex or by one that also converts to an integer. With assertions on, a first index outside of its axis stops the program. For one or two slicers preserve_reachability answers yes only if the elements of the slice follow each other in memory, provided that has_step is false only for types that do not skip; without has_step the answer is no. Refuted: the number of indexes is checked against the axis (a slice of 10 elements of an axis of 4 is made with assertions on, reading its fifth element is outside of the memory); has_step is checked against restride.", "quantifier": "for all containers in the default layout, all user types (any functions as members) and mixtures with slicers of the library, any number of slicers up to the order, with and without assertions", "why_tests_cant": "the only test with a user type calls one member on shapes of fixed extents; the member functions are arbitrary code", "anchors": ["include/kwk/utility/slicer.hpp", "include/kwk/concepts/slicer.hpp", "include/kwk/utility/traits/reachable.hpp", "include/kwk/utility/container/shape.hpp", "include/kwk/utility/container/stride.hpp", "include/kwk/container/container.hpp: slicing operator()"]}
{"id": "C99", "title": "Views of more than 2^31 elements", "statement": "Shapes whose last extent is of a 64-bit type and whose non-zero extents multiply to at most 2^63-1 (any shape of order one): the default strides, linear_index of every coordinate of the shape (with assertions on: of coordinates whose types hold the extents) and, without assertions, coordinates are exact and inverse to each other. A view made on such a shape without strides reads and writes, at every coordinate of any integer types, the element with the row-major rank of the coordinate and no other; the algorithms work on such views: everything stated of them for containers whose elements can be reached holds, for instance fill writes all of the elements and nothing else and reduce combines all of them in row-major order. numel() is the number of elements truncated to an int; hence, when there are more than 2^31-1 elements and the truncated number is not negative, a table of such a shape is made with too few elements: exactly the ranks below the truncated number exist, and reading or writing at some coordinate of the shape is undefined. Refuted: numel() is the number of elements (65536 for 65536 x 65537); coordinates accepts every index of the shape with assertions on; linear_index does, with assertions on, for int coordinates on extents beyond int; a 64-bit first extent suffices (65536 x 65536 with an int last extent: undefined at (40000, 0)); reverse and searches from the end work on large views (the reversal of a view of more than 2^31-1 elements never starts at its last element but where the truncated number says; searches may read before the first element).", "quantifier": "for all shapes of any order and integer types with a 64-bit last extent, all coordinates, memories, element types and operations; no bound on sizes but 2^63-1", "why_tests_cant": "tests cannot allocate such arrays; the largest extent in the tests is below 100", "anchors": ["include/kwk/utility/container/shape.hpp: numel, as_stride, linear_index, coordinates", "include/kwk/utility/container/stride.hpp: linearize", "include/kwk/detail/container/accessor.hpp", "include/kwk/container/view.hpp", "include/kwk/container/table.hpp", "include/kwk/detail/memory/heap_block.hpp", "include/kwk/algorithm/views/reverse.hpp", "include/kwk/algorithm/algos/find.hpp"]}
{"id": "C100", "title": "any_allocator with failing allocations and throwing allocators", "statement": "In every program of any_allocator objects (default construction, construction and assignment from an allocator, copies, moves, swaps, allocate, deallocate, destruction) that catches all exceptions, where in each construction the operator new, the initialisation of the constructor's parameter or that of the stored allocator may throw, and allocate and deallocate of the allocators may throw: the program is defined exactly if the one on plain values is (no copy from or use of an empty object, no use of an object before its construction) and gives the same results and values, an operation that fails to make its allocator having no effect but the exception (strong guarantee, also for assignments, including self-assignment). At any time each any_allocator has its value in an allocator object and storage of its own, and no other allocator object or storage exists; when all are destroyed nothing is left. Making, copying or assigning constructs two allocator objects, of which one remains; moves, swaps, default construction and destruction construct none and never throw.", "quantifier": "for all allocator types (any state, any behaviour of allocate and deallocate), all programs and all places of failure; no bound on lengths", "why_tests_cant": "the tests never make an allocation or an allocator fail", "anchors": ["include/kwk/utility/memory/any_allocator.hpp", "include/kwk/concepts/allocator.hpp"]}
{"id": "C101", "title": "Shapes and strides of a given type constructed from named and unnamed extents", "statement": "shape<D...>(args...) and the strides alike, where an argument is a value or an option axis = value, compile exactly for: no argument; at most as many values as places; at most as many options as places, all naming axes of the type (or any axes at all if the type is fully static); or a mixture with, place by place, an option of the same name where the type has a name and a value where it has none. The object then holds at each place the compile-time size of the type, or what is given there, converted to the type of the place: without options the values fill the last places and the others become 1; otherwise each named place takes the option of its name and the others the value at their position. An option may be left out, but the extent is then 0, not 1 as for values; a joker gives the default value. Options may come in any order. With assertions enabled a value other than the compile-time size of its place aborts, except that a fully static type ignores all options, their names and values. The documentation's program that gives a name behind all values is rejected, as its comment says.", "quantifier": "for all types (names, compile-time sizes, value types at any places) with distinct names, all arguments with distinct names, all values, with and without assertions", "why_tests_cant": "the tests construct a few types; which of the three constructors is chosen depends on a constraint over all argument lists, and accepting a wrong one is invisible to tests that compile", "anchors": ["include/kwk/detail/sequence/prefilled.hpp", "include/kwk/utility/container/shape.hpp", "include/kwk/utility/container/stride.hpp", "include/kwk/detail/sequence/helpers.hpp"]}
{"id": "C102", "title": "Containers of bool and values of type bool in the algorithms", "statement": "Elements of type bool take part in sums and comparisons as 0 and 1 and accept any arithmetic value as whether it is not zero. reduce(c) of bools is true exactly if one element is (it does not count them), reduce(c, +, init) with an integer adds the number of true elements, modulo the width for unsigned or narrow types and undefined where it leaves a signed type of at least 32 bits. transform_reduce and inner_product without init give the number of positions where both are true, as an int. Scans with a bool are true from the first true element on, with an integer they count. copy, copy_if, transform, fill, generate, replace, replace_if and table{source, as<bool>} store false for zeros (negative zero too) and true for everything else, infinities and NaN too, and are never undefined; bools stored as numbers are 0 and 1 in every arithmetic type and come back unchanged. count, find and replace compare a bool with an integer as 0 or 1: count(c, true) of integers counts the ones, not the nonzero elements. iota(c, n) from an integer into bools is false exactly where the count passes through zero; iota(c, b, step) from a bool stays for step 0, alternates for step -1 and is true from the second element on for every other step, and is undefined for steps whose sum with 1 overflows (INT_MAX). A bool init in a sum of integers is neither the or of the elements nor whether the sum is nonzero, and is undefined for true followed by INT_MAX.", "quantifier": "for all shapes, strides and memories, all contents, all integer types and values of init, all arithmetic types on the other side, all steps of integer type", "why_tests_cant": "the tests have no container of bool; the surprising cases need a second true element, a particular order of the signs, or the largest int", "anchors": ["include/kwk/algorithm/algos/reduce.hpp", "include/kwk/algorithm/algos/numeric.hpp", "include/kwk/algorithm/algos/generator.hpp", "include/kwk/algorithm/algos/copy.hpp", "include/kwk/algorithm/algos/replace.hpp", "include/kwk/algorithm/algos/transform.hpp", "include/kwk/algorithm/algos/predicates.hpp", "include/kwk/algorithm/algos/find.hpp", "include/kwk/detail/container/block.hpp"]}
{"id": "C103", "title": "Slices of views of more than 2^31 elements", "statement": "On an axis of any extent of any integer type, slicers moving forward select exactly the indexes they mean, computed without overflow. Slicing a view whose last extent is of a 64-bit type (at most 2^63-1 elements), with one forward slicer per axis that selects inside its axis, gives a view whose elements are the selected ones: accesses with indexes of any integer types read and write the element of the sliced view, and the algorithms work on it (fill writes exactly the selected elements). This asks that a step on the last axis be 1 or of a 64-bit type, that the extents of the slice have a small product or a last one of a 64-bit type, and in debug builds that every extent fit in int. Slicers moving backward also select the indexes they mean on an axis of any extent, when the bound they start from can be incremented in its own type, and on a view of one axis a negative step of type std::int64_t gives, in release builds, the elements meant for indexes of any integer type. Otherwise it fails: from int 2147483647 backward the extent is undefined and from unsigned 4294967295 it is 0 although the axis is longer; with a negative step of type int an unsigned index designates an element 2^32 places too far and an int one can overflow; in debug builds taking whole an axis of 2^31 to 2^32 elements with _ aborts; with a step of type int on the last axis, an access with an int index beyond 2^31 elements is undefined; taking an index on the last axis can be undefined because strides that are not used are computed in int; and so is giving fewer slicers than axes when the first extents do not fit in their type once multiplied.", "quantifier": "for all shapes with a 64-bit last extent and at most 2^63-1 elements, all forward slicers of any integer types, all backward ones on one axis, all indexes, memories and contents, debug and release builds", "why_tests_cant": "such slices need views of gigabytes and failures show only for particular extents and types", "anchors": ["include/kwk/utility/slicer.hpp", "include/kwk/utility/linear_index.hpp", "include/kwk/container/container.hpp", "include/kwk/utility/container/shape.hpp", "include/kwk/utility/container/stride.hpp", "include/kwk/detail/container/accessor.hpp"]}
{"id": "C104", "title": "Tables made, copied, assigned and destroyed by several threads", "statement": "Threads can make, copy, fill, transform, reduce, assign and destroy tables of their own at the same time, and copy containers all of them read, as long as nobody writes what another one uses: in every order of their steps there is no data race and no access to memory that is not there, every thread ends, with the results it gives alone; the tables of different threads share no element with one another nor with anything that existed; in the end all memory that existed holds what it held (except what a thread was allowed to write), and if the threads destroyed their tables nothing else is left. A copy of a table made this way, returned by its thread, holds what the thread computed. It fails when a thread destroys a table, or assigns to it, while another one reads it, and when two threads destroy the same table: there is a data race and an order in which memory is used after its release.", "quantifier": "for all numbers of threads, all orders of their steps, all shapes, values, functions and operations, all programs built from these operations", "why_tests_cant": "a test runs few of the orders in which the threads can take turns, and a race can go unnoticed in all of them", "anchors": ["include/kwk/container/table.hpp", "include/kwk/detail/memory/heap_block.hpp", "include/kwk/detail/memory/stack_block.hpp", "include/kwk/utility/memory/heap_allocator.hpp", "include/kwk/container/container.hpp"]}
{"id": "C105", "title": "Callables that use containers themselves", "statement": "The callable given to an algorithm may read and write elements of containers. generate with a callable that reads elements of the very container it fills, all of them before the current one in row-major order, and anything outside of it, works as a recurrence: afterwards every element is what the callable returns for its coordinates in the final memory, nothing else has changed, and no other contents satisfy this. With a callable that reads nothing of the output (sums of neighbours of another table, a lookup table) generate and transform store at every coordinate what it returns in the memory before the call; reduce and find_if with such a callable combine, or find the first of, the elements as it answers. for_each with a callable that combines every element with the element of another table chosen by its value (a histogram) leaves in every place of that table its old value combined with all values sent to it, in row-major order, and changes nothing else. A callable that keeps its state in tables of its own (not in the blocks of the containers given to the algorithm) does the same as one that keeps it elsewhere: generate, transform, copy_if, replace_if, reduce, all_of, any_of, none_of, count_if, transform_reduce, inner_product, the scans, find_if, find_if_not, find_last_if, find_last_if_not and the searches by bisection end in the same way with the same results, the same contents outside of these tables and the same state; so do callables that only read such tables, whose results are those they give at the start. What does not work: generate with a callable that reads later elements of the output in place; it may see new values instead of old ones; and copy_if with a predicate that changes the element it is asked about, which copies a value that was not tested.", "quantifier": "for all containers, contents, element types and callables that read and write memory in these ways", "why_tests_cant": "the order of calls and writes matters for every callable and shape; tests use callables without effects on containers", "anchors": ["include/kwk/algorithm/algos/generator.hpp: generate", "include/kwk/algorithm/algos/transform.hpp", "include/kwk/algorithm/algos/copy.hpp: copy_if", "include/kwk/algorithm/algos/replace.hpp: replace_if", "include/kwk/algorithm/algos/reduce.hpp", "include/kwk/algorithm/algos/find.hpp: find_if", "include/kwk/algorithm/algos/for_each.hpp", "include/kwk/algorithm/algos/predicates.hpp", "include/kwk/algorithm/algos/numeric.hpp", "include/kwk/algorithm/algos/binary_search.hpp", "include/kwk/context/cpu/context.hpp"]}
{"id": "C106", "title": "Loops over coordinates that accumulate into containers", "statement": "for_each over a shape, with a callable that for every coordinate combines one element of a container, chosen from the coordinate, with a value that does not depend on that container, leaves in every element its old value combined with all the values sent to it, in row-major order of the coordinates that chose it, and changes nothing else; with a callable that stores the value instead, every element is the value sent to it last, and those to which nothing was sent are as before. for_each_index is the loop over the shape of the container whose callable reads the element first. So the loops users write this way do what they mean, for all extents, layouts, element types and operations: the loop over (i,j,k) with c(i,j) = add(c(i,j), mul(a(i,k), b(k,j))) adds the matrix product to c, the terms in the order of k; the loop with t(j,i) = a(i,j) transposes; for_each_index with r(i) = g(r(i), x) reduces every row in order; and the loops whose callable calls an algorithm on a slice, r(i) = reduce(init, a(i,_), f) and r(j) = reduce(init, a(_,j), f), reduce every row and every column in order; calls that work on regions of memory of their own do, together, what each of them does alone and nothing else: fill(a(i,_), w(i)) for all i fills every row, and inclusive_scan(a(i,_), a(i,_), init, f) for all i leaves in every row, in place, its running results. This asks that the container written have distinct elements, none of them an element of those read, as is so for tables. A container transposed into itself in this way is not transposed, and in debug builds taking the rows of a container whose rows are empty aborts.", "quantifier": "for all shapes, containers and layouts, contents, element types, operations and choices of the element", "why_tests_cant": "the result depends on the order of all calls and on all elements; holds for all shapes and operations", "anchors": ["include/kwk/algorithm/algos/for_each.hpp", "include/kwk/context/cpu/context.hpp: map", "include/kwk/detail/algorithm/for_each.hpp", "include/kwk/algorithm/algos/reduce.hpp", "include/kwk/container/container.hpp: operator()"]}
