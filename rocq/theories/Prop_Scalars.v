(** Properties C17-C20: literals, array sizes, ratios and end expressions. *)
From Coq Require Import ZArith QArith List Bool Lia.
From Verif Require Import Outcome CInt CIntFacts Spec SpecFacts ShapeSpec Shape
  Literals LiteralsSpec LiteralsFacts EndRatio EndRatioSpec EndRatioFacts.
Import ListNotations.
Open Scope Z_scope.

(** C17 *)
Theorem literal_denotes_its_decimal_value : forall ds,
  Forall digit ds -> decimal ds < 18446744073709551616 -> ~ bad_width (decimal ds) ->
  cval (literal_c (chars ds)) = decimal ds /\ wfc (literal_c (chars ds)) /\
  is_signed (cty (literal_c (chars ds))) = false /\
  forall t, is_signed t = false -> in_ty t (decimal ds) ->
    width (cty (literal_c (chars ds))) <= width t.
Proof. exact literal_exact_l. Qed.
Print Assumptions literal_denotes_its_decimal_value.

Example literal_ex : literal_c (chars [1; 2; 3; 4]) = CI U16 1234 /\ decimal [1; 2; 3; 4] = 1234.
Proof. vm_compute. split; reflexivity. Qed.

Theorem literal_truncated_in_bad_range : forall ds,
  Forall digit ds -> bad_width (decimal ds) ->
  cval (literal_c (chars ds)) = decimal ds mod 65536 /\ cval (literal_c (chars ds)) <> decimal ds.
Proof. exact literal_bad_l. Qed.
Print Assumptions literal_truncated_in_bad_range.
Example literal_bad_ex : Forall digit [1; 2; 3; 4; 5; 6] /\ bad_width (decimal [1; 2; 3; 4; 5; 6]) /\
  literal_c (chars [1; 2; 3; 4; 5; 6]) = CI U16 57920.
Proof. split; [repeat constructor; discriminate|]. split; [change (bad_width 123456); unfold bad_width; lia|vm_compute; reflexivity]. Qed.

Theorem literal_exact_refuted :
  decimal [7; 0; 0; 0; 0] = 70000 /\ literal_c (chars [7; 0; 0; 0; 0]) = CI U16 4464.
Proof. vm_compute. split; reflexivity. Qed.
Print Assumptions literal_exact_refuted.

(** The characters of a literal include digit separators: 2'000_c is 11000. *)
Theorem literal_separator_refuted : literal_c [50; 39; 48; 48; 48] = CI U16 11000.
Proof. vm_compute. reflexivity. Qed.
Print Assumptions literal_separator_refuted.

(** A literal of 2^64 or more is taken modulo 2^64, without any diagnostic. *)
Theorem literal_wraps : forall ds ds', Forall digit ds -> Forall digit ds' ->
  decimal ds' = decimal ds mod 18446744073709551616 -> literal_c (chars ds) = literal_c (chars ds').
Proof. exact literal_wraps_l. Qed.
Print Assumptions literal_wraps.

Example literal_wraps_ex :
  let ds := [1; 8; 4; 4; 6; 7; 4; 4; 0; 7; 3; 7; 0; 9; 5; 5; 1; 6; 2; 0] in
  Forall digit ds /\ decimal ds mod 18446744073709551616 = 4 /\ literal_c (chars ds) = CI U8 4.
Proof. split; [repeat constructor; discriminate|]. vm_compute. split; reflexivity. Qed.

(** Prefixes are digits too: 010_c is 10 where 010 is 8, 0x10_c is 7210 where 0x10 is 16, and 0b11_c is
    5011 where 0b11 is 3. *)
Theorem literal_prefix_refuted :
  literal_c [48; 49; 48] = CI U8 10 /\ literal_c [48; 120; 49; 48] = CI U16 7210 /\
  literal_c [48; 98; 49; 49] = CI U16 5011.
Proof. vm_compute. repeat split; reflexivity. Qed.
Print Assumptions literal_prefix_refuted.

Theorem array_length_exact : forall n, 0 <= n < 18446744073709551616 ->
  (~ bad_width n ->
     vals (array_sizes (CArray Elem n)) = [n] /\ vals (array_sizes (StdArray Elem n)) = [n]) /\
  (bad_width n ->
     vals (array_sizes (CArray Elem n)) <> [n] /\ vals (array_sizes (StdArray Elem n)) <> [n]).
Proof. exact array_length_l. Qed.
Print Assumptions array_length_exact.
Example array_length_ex : ~ bad_width 1000 /\ array_sizes (CArray Elem 1000) = [CI U16 1000] /\
  bad_width 100000 /\ array_sizes (StdArray Elem 100000) = [CI U16 34464].
Proof. split; [unfold bad_width; lia|]. split; [vm_compute; reflexivity|]. split; [unfold bad_width; lia|vm_compute; reflexivity]. Qed.

(** C18 *)
Theorem c_array_shape_is_its_layout : forall a is_,
  only_c a -> a <> Elem -> fine_extents a -> posprod (extents a) <= 2147483647 ->
  wfs is_ -> in_box (extents a) (vals is_) ->
  vals (array_sizes a) = extents a /\
  exists c, linear_index false (array_sizes a) is_ = Ok c /\ cval c = mem_offset a (vals is_).
Proof. exact carray_layout_l. Qed.
Print Assumptions c_array_shape_is_its_layout.

(** int a[2][3][4] *)
Definition ex_carray : arr := CArray (CArray (CArray Elem 4) 3) 2.
Example ex_carray_ok : only_c ex_carray /\ fine_extents ex_carray /\ extents ex_carray = [2; 3; 4]
  /\ posprod (extents ex_carray) <= 2147483647
  /\ linear_index false (array_sizes ex_carray) [int 1; int 2; int 3] = Ok (int 23)
  /\ mem_offset ex_carray [1; 2; 3] = 23.
Proof.
  split; [exact I|]. split; [unfold fine_extents; simpl; repeat constructor; unfold bad_width; lia|].
  vm_compute. repeat split; try reflexivity; discriminate.
Qed.

Theorem std_array_shape_is_reversed : forall a, only_std a -> fine_extents a ->
  vals (array_sizes a) = rev (extents a).
Proof. exact (fun a O F => proj1 (std_sizes a O F)). Qed.
Print Assumptions std_array_shape_is_reversed.

Theorem std_array_layout_refuted : forall n m,
  2 <= n -> 2 <= m -> n <> m -> ~ bad_width n -> ~ bad_width m -> n * m <= 2147483647 ->
  let a := StdArray (StdArray Elem m) n in
  in_box (extents a) [1; 0] /\ in_box (vals (array_sizes a)) [1; 0] /\
  exists c, linear_index true (array_sizes a) [int 1; int 0] = Ok c /\ cval c <> mem_offset a [1; 0].
Proof. exact stdarray_layout_l. Qed.
Print Assumptions std_array_layout_refuted.

(** std::array<std::array<T,3>,2>: element (1,0) of the container is a[0][2], not a[1][0]. *)
Example std_array_ex : let a := StdArray (StdArray Elem 3) 2 in
  linear_index true (array_sizes a) [int 1; int 0] = Ok (int 2) /\
  mem_offset a [1; 0] = 3 /\ mem_offset a [0; 2] = 2.
Proof. vm_compute. repeat split; reflexivity. Qed.

(** C19 *)
Theorem end_expression_value : forall e n c, sgn_expr e -> sgn_ty n -> end_value e n = Ok c ->
  truncates (evalue e (cval n)) (cval c).
Proof. exact end_value_exact_l. Qed.
Print Assumptions end_expression_value.

Theorem end_expression_defined : forall e n, sgn_expr e -> sgn_ty n ->
  (1 + Z.abs (cval n)) * weight e <= max31 ->
  exists c, end_value e n = Ok c /\ truncates (evalue e (cval n)) (cval c).
Proof. exact end_value_total_l. Qed.
Print Assumptions end_expression_defined.

Theorem truncation_unique : forall x a b, truncates x a -> truncates x b -> a = b.
Proof. exact truncates_fun. Qed.
Print Assumptions truncation_unique.

(** 3 - (end/2 * 3 - 7) on an axis of size 5; and end/2*2, which is 5 and not 4. *)
Definition ex_end : eexpr := ESubL (int 3) (ESub (EMul (EDiv EEnd (CI U8 2)) (int 3)) (CI I16 7)).
Example ex_end_ok : sgn_expr ex_end /\ sgn_ty (CI U8 5) /\ (1 + 5) * weight ex_end <= max31
  /\ end_value ex_end (CI U8 5) = Ok (int 2).
Proof.
  split; [|split; [|split]].
  - unfold ex_end, sgn_expr, sgn_ty, wfc, in_ty; simpl. repeat split; try lia.
  - unfold sgn_ty, wfc, in_ty; simpl. repeat split; lia.
  - vm_compute. discriminate.
  - vm_compute. reflexivity.
Qed.
Example end_truncates_once : end_value (EMul (EDiv EEnd (int 2)) (int 2)) (int 5) = Ok (int 5).
Proof. vm_compute. reflexivity. Qed.

Theorem end_division_by_zero : forall n, end_value (EDiv EEnd (int 0)) n = UB.
Proof. exact end_div_zero_ub. Qed.
Print Assumptions end_division_by_zero.

(** With a 32-bit unsigned constant the offset wraps: end - 1u on an axis of size 10. *)
Theorem end_unsigned_constant_refuted :
  end_value (ESub EEnd (CI U32 1)) (CI I64 10) = Ok (CI I64 4294967305) /\
  end_value (ESub EEnd (CI U32 1)) (CI I32 10) = Ok (CI U32 9).
Proof. vm_compute. split; reflexivity. Qed.
Print Assumptions end_unsigned_constant_refuted.

(** C20 *)
Theorem ratio_add_exact : forall a b r, sgn_ratio a -> sgn_ratio b -> radd a b = Ok r ->
  sgn_ratio r /\ (rvalue r == rvalue a + rvalue b)%Q.
Proof. exact radd_exact_l. Qed.
Print Assumptions ratio_add_exact.

Theorem ratio_sub_exact : forall a b r, sgn_ratio a -> sgn_ratio b -> rsub a b = Ok r ->
  sgn_ratio r /\ (rvalue r == rvalue a - rvalue b)%Q.
Proof. exact rsub_exact_l. Qed.
Print Assumptions ratio_sub_exact.

Theorem ratio_mul_exact : forall a b r, sgn_ratio a -> sgn_ratio b -> rmul a b = Ok r ->
  sgn_ratio r /\ (rvalue r == rvalue a * rvalue b)%Q.
Proof. exact rmul_exact_l. Qed.
Print Assumptions ratio_mul_exact.

Theorem ratio_div_exact : forall a b r, sgn_ratio a -> sgn_ratio b -> cval (num b) <> 0 ->
  rdiv a b = Ok r -> sgn_ratio r /\ (rvalue r == rvalue a / rvalue b)%Q.
Proof. exact rdiv_exact_l. Qed.
Print Assumptions ratio_div_exact.

Theorem ratio_scale_exact : forall a c r, sgn_ratio a -> sgn_ty c -> rscale a c = Ok r ->
  sgn_ratio r /\ (rvalue r == rvalue a * q (cval c))%Q.
Proof. exact rscale_exact_l. Qed.
Print Assumptions ratio_scale_exact.

Theorem ratio_divc_exact : forall a c r, sgn_ratio a -> sgn_ty c -> cval c <> 0 ->
  rdivc a c = Ok r -> sgn_ratio r /\ (rvalue r == rvalue a / q (cval c))%Q.
Proof. exact rdivc_exact_l. Qed.
Print Assumptions ratio_divc_exact.

Theorem ratio_neg_exact : forall r r', sgn_ratio r -> rneg r = Ok r' ->
  sgn_ratio r' /\ (rvalue r' == - rvalue r)%Q.
Proof. exact rneg_exact_l. Qed.
Print Assumptions ratio_neg_exact.

Theorem ratio_eq_is_equality : forall a b e, sgn_ratio a -> sgn_ratio b -> req a b = Ok e ->
  (e = true <-> (rvalue a == rvalue b)%Q) /\ rneq a b = Ok (negb e).
Proof. exact req_exact_l. Qed.
Print Assumptions ratio_eq_is_equality.

Theorem ratio_ops_defined : forall a b, sgn_ratio a -> sgn_ratio b ->
  (Z.abs (cval (num a)) + Z.abs (cval (denum a))) * (Z.abs (cval (num b)) + Z.abs (cval (denum b)))
    <= max31 ->
  (exists r, radd a b = Ok r) /\ (exists r, rsub a b = Ok r) /\ (exists r, rmul a b = Ok r) /\
  (exists r, rdiv a b = Ok r) /\ (exists e, req a b = Ok e) /\ (exists r, rneg a = Ok r).
Proof. exact ratio_total_l. Qed.
Print Assumptions ratio_ops_defined.

Definition ex_ra : ratio := Rt (int (-3)) (CI U8 4).
Definition ex_rb : ratio := Rt (int 6) (int (-8)).
Example ex_ratio : sgn_ratio ex_ra /\ sgn_ratio ex_rb /\ req ex_ra ex_rb = Ok true /\
  radd ex_ra ex_rb = Ok (Rt (int 48) (int (-32))).
Proof.
  split; [|split; [|split]]; try (vm_compute; reflexivity);
    unfold sgn_ratio, sgn_ty, wfc, in_ty; simpl; repeat split; lia.
Qed.
Example ratio_ops_ex : (Z.abs (cval (num ex_ra)) + Z.abs (cval (denum ex_ra))) * (Z.abs (cval (num ex_rb)) + Z.abs (cval (denum ex_rb))) <= max31 /\
  cval (num ex_rb) <> 0 /\ sgn_ty (CI U16 5) /\
  rsub ex_ra ex_rb = Ok (Rt (int 0) (int (-32))) /\ rmul ex_ra ex_rb = Ok (Rt (int (-18)) (int (-32))) /\
  rdiv ex_ra ex_rb = Ok (Rt (int 24) (int 24)) /\ rscale ex_ra (CI U16 5) = Ok (Rt (int (-15)) (CI U8 4)) /\
  rdivc ex_ra (CI U16 5) = Ok (Rt (int (-3)) (int 20)) /\ rneg ex_ra = Ok (Rt (int 3) (CI U8 4)).
Proof.
  split; [vm_compute; discriminate|]. split; [discriminate|]. split; [unfold sgn_ty, wfc, in_ty; simpl; repeat split; lia|].
  vm_compute. repeat split; reflexivity.
Qed.
