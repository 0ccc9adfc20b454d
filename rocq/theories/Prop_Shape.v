(** Properties C01-C09: shapes, strides and index arithmetic. *)
From Coq Require Import ZArith List Bool Lia.
From Verif Require Import Outcome CInt CIntFacts Spec SpecFacts ShapeSpec Shape ShapeFacts ShapeFacts2.
Import ListNotations.
Open Scope Z_scope.

(** A concrete shape used to show that hypotheses are met: mixed types, order 3. *)
Definition ex_shape : shape := [CI U8 3; int 5; CI I64 7].
Definition ex_coord : list cint := [CI I16 2; CI U64 4; int 6].

Example ex_shape_legal : legal ex_shape.
Proof. by_check. Qed.
Example ex_shape_nonempty : ex_shape <> [].
Proof. discriminate. Qed.
Example ex_coord_in : coord_in ex_shape ex_coord.
Proof. by_check. Qed.
Example ex_coord_fits : fits ex_shape ex_coord.
Proof. by_check. Qed.

(** C01 *)
Theorem as_stride_row_major : forall s, legal s -> s <> [] ->
  exists st, as_stride s = Ok st /\ length st = length s /\
    forall k, (k < length s)%nat -> nth_error (vals st) k = Some (prod (skipn (S k) (vals s))).
Proof. exact as_stride_row_major_l. Qed.
Print Assumptions as_stride_row_major.

Theorem linear_index_is_rank : forall dbg s is_, legal s -> s <> [] -> coord_in s is_ ->
  (dbg = true -> fits s is_) ->
  exists c, linear_index dbg s is_ = Ok c /\ cval c = rank (vals s) (vals is_).
Proof. exact linear_index_rank_l. Qed.
Print Assumptions linear_index_is_rank.

Example linear_index_is_rank_ex :
  linear_index true ex_shape ex_coord = Ok (CI U64 104) /\ rank (vals ex_shape) (vals ex_coord) = 104.
Proof. vm_compute. split; reflexivity. Qed.

(** C02 *)
Theorem coordinates_are_preimage : forall dbg s idx, legal s -> s <> [] -> wfc idx ->
  0 <= cval idx < prod (vals s) ->
  exists cs, coordinates dbg idx s = Ok cs /\ in_box (vals s) (vals cs) /\
             rank (vals s) (vals cs) = cval idx /\ Forall (fun c => cty c = cty idx) cs /\ wfs cs.
Proof. exact coordinates_inverse_l. Qed.
Print Assumptions coordinates_are_preimage.

Theorem coordinates_of_linear_index : forall dbg s is_, legal s -> s <> [] -> coord_in s is_ ->
  (dbg = true -> fits s is_) ->
  exists c cs, linear_index dbg s is_ = Ok c /\ coordinates dbg c s = Ok cs /\ vals cs = vals is_.
Proof. exact coordinates_linear_index_l. Qed.
Print Assumptions coordinates_of_linear_index.

Theorem linear_index_of_coordinates : forall dbg s idx, legal s -> s <> [] -> wfc idx ->
  0 <= cval idx < prod (vals s) -> (dbg = true -> Forall (fun n => in_ty (cty idx) n) (vals s)) ->
  exists cs c, coordinates dbg idx s = Ok cs /\ linear_index dbg s cs = Ok c /\ cval c = cval idx.
Proof. exact linear_index_coordinates_l. Qed.
Print Assumptions linear_index_of_coordinates.

Theorem linear_index_injective : forall dbg s a b c, legal s -> s <> [] ->
  coord_in s a -> coord_in s b -> linear_index dbg s a = Ok c ->
  (exists d, linear_index dbg s b = Ok d /\ cval d = cval c) -> vals a = vals b.
Proof. exact linear_index_injective_l. Qed.
Print Assumptions linear_index_injective.

Example coordinates_ex : exists cs, coordinates true (int 103) ex_shape = Ok cs /\ vals cs = [2; 4; 5].
Proof. eexists. split; vm_compute; reflexivity. Qed.
Example coordinates_back_ex : wfc (CI U8 103) /\ 0 <= cval (CI U8 103) < prod (vals ex_shape) /\
  Forall (fun n => in_ty (cty (CI U8 103)) n) (vals ex_shape) /\
  exists cs, coordinates true (CI U8 103) ex_shape = Ok cs /\ linear_index true ex_shape cs = Ok (CI I64 103).
Proof.
  split; [unfold wfc, in_ty; cbn; lia|]. split; [vm_compute; split; [discriminate|reflexivity]|]. split; [repeat constructor; unfold in_ty; cbn; lia|].
  eexists. split; [vm_compute; reflexivity|]. vm_compute. reflexivity.
Qed.

(** C03 *)
Theorem linear_index_lex : forall dbg s a b, legal s -> s <> [] -> coord_in s a -> coord_in s b ->
  (dbg = true -> fits s a /\ fits s b) ->
  exists ca cb, linear_index dbg s a = Ok ca /\ linear_index dbg s b = Ok cb /\
    (cval ca < cval cb <-> lex (vals a) (vals b)).
Proof. exact linear_index_lex_l. Qed.
Print Assumptions linear_index_lex.

Example lex_ex : lex [1; 4; 6] [2; 0; 0].
Proof. apply lex_head; [lia|reflexivity]. Qed.

(** C04 *)
Theorem index_arithmetic_exact : forall dbg s, legal s -> s <> [] ->
  numel s = Ok (int (prod (vals s))) /\
  (exists st, as_stride s = Ok st /\
     forall k, (k < length s)%nat -> nth_error (vals st) k = Some (prod (skipn (S k) (vals s)))) /\
  (forall is_, coord_in s is_ -> (dbg = true -> fits s is_) ->
     exists c, linear_index dbg s is_ = Ok c /\ cval c = rank (vals s) (vals is_)) /\
  (forall idx, wfc idx -> 0 <= cval idx < prod (vals s) ->
     exists cs, coordinates dbg idx s = Ok cs /\ rank (vals s) (vals cs) = cval idx) /\
  (forall n, (1 <= n <= length s)%nat ->
     exists s', compress n s = Ok s' /\ vals s' = merge_axes (length s - n + 1) (vals s)).
Proof. exact index_arithmetic_exact_l. Qed.
Print Assumptions index_arithmetic_exact.

(** A shape without elements, all extents within range, whose numel overflows int. *)
Theorem numel_zero_extent_overflow_refuted :
  exists s, wfs s /\ nonnegs (vals s) /\ prod (vals s) = 0 /\ numel s = UB.
Proof.
  exists [int 65536; int 65536; int 0; int 65536; int 65536].
  split; [by_check|]. split; [by_check|]. split; vm_compute; reflexivity.
Qed.
Print Assumptions numel_zero_extent_overflow_refuted.

(** 64-bit extents: no undefined behaviour but a wrong count. *)
Theorem numel_truncation_refuted :
  exists s n, wfs s /\ nonnegs (vals s) /\ numel s = Ok n /\ cval n <> prod (vals s).
Proof.
  exists [CI I64 65536; CI I64 65536], (int 0).
  split; [by_check|]. split; [by_check|]. split; vm_compute; [reflexivity|discriminate].
Qed.
Print Assumptions numel_truncation_refuted.

(** C05 *)
Theorem contains_iff_in_box : forall s is_,
  wfs s -> wfs is_ -> nonnegs (vals is_) -> fits s is_ ->
  (contains s is_ = true <-> in_box (vals s) (vals is_)).
Proof. exact contains_iff_in_box_l. Qed.
Print Assumptions contains_iff_in_box.

Example contains_ex : contains ex_shape ex_coord = true /\
  contains ex_shape [CI I16 3; CI U64 4; int 6] = false.
Proof. split; reflexivity. Qed.

Theorem contains_negative_refuted :
  exists s is_ c, legal s /\ wfs is_ /\ ~ in_box (vals s) (vals is_) /\ contains s is_ = true /\
    linear_index true s is_ = Ok c /\ cval c < 0.
Proof.
  exists [int 3; int 4], [int (-1); int 2], (int (-2)).
  split; [by_check|]. split; [by_check|].
  split. { intros H; inversion H; subst. cbn in *. lia. }
  repeat split; vm_compute; reflexivity.
Qed.
Print Assumptions contains_negative_refuted.

Theorem contains_narrow_refuted :
  exists s is_, legal s /\ coord_in s is_ /\ contains s is_ = false /\ linear_index true s is_ = Abort.
Proof.
  exists [int 300], [CI U8 50].
  split; [by_check|]. split; [by_check|]. split; vm_compute; reflexivity.
Qed.
Print Assumptions contains_narrow_refuted.

(** C06 *)
Theorem numel_is_product : forall s, legal s ->
  exists n, numel s = Ok n /\ cty n = I32 /\
    (s <> [] -> cval n = prod (vals s)) /\ (s = [] -> cval n = 0) /\
    (s <> [] -> (cval n = 0 <-> In 0 (vals s))).
Proof. exact numel_product_l. Qed.
Print Assumptions numel_is_product.

Example numel_ex : numel ex_shape = Ok (int 105) /\ numel [int 4; int 0; int 5] = Ok (int 0).
Proof. split; reflexivity. Qed.

(** C07 *)
Theorem nbdims_after_leading_ones : forall s, wfs s -> nonnegs (vals s) ->
  nbdims s = Z.of_nat (length s) - Z.of_nat (leading_ones (vals s)) /\
  (nbdims s = 0 <-> Forall (fun n => n = 1) (vals s)) /\
  nbdims (int 1 :: s) = nbdims s.
Proof. exact nbdims_l. Qed.
Print Assumptions nbdims_after_leading_ones.

Theorem compress_to_nbdims_drops_ones : forall s, legal s -> 0 < nbdims s ->
  exists s', compress (Z.to_nat (nbdims s)) s = Ok s' /\
             vals s = repeat 1 (leading_ones (vals s)) ++ vals s'.
Proof. exact compress_nbdims. Qed.
Print Assumptions compress_to_nbdims_drops_ones.

(** nbdims is not the number of non-unit extents. *)
Theorem nbdims_counts_trailing_ones_refuted :
  exists s, legal s /\ nbdims s <> Z.of_nat (length (filter (fun n => negb (n =? 1)) (vals s))).
Proof.
  exists [int 4; int 1]. split; [by_check|]. vm_compute. discriminate.
Qed.
Print Assumptions nbdims_counts_trailing_ones_refuted.

Example nbdims_ex : nbdims [int 1; int 1; int 4; int 1] = 2.
Proof. reflexivity. Qed.

(** C08 *)
Theorem compress_merges_outer_axes : forall n s, legal s -> (1 <= n <= length s)%nat ->
  exists s', compress n s = Ok s' /\ length s' = n /\
    vals s' = merge_axes (length s - n + 1) (vals s) /\ legal s' /\ numel s' = numel s.
Proof. exact compress_merges_l. Qed.
Print Assumptions compress_merges_outer_axes.

Theorem compress_keeps_linear_index : forall dbg n s s' is_ js, legal s -> (1 <= n <= length s)%nat ->
  compress n s = Ok s' -> coord_in s is_ -> wfs js ->
  vals js = merge_coord (length s - n + 1) (vals s) (vals is_) ->
  (dbg = true -> fits s is_ /\ fits s' js) ->
  exists c d, linear_index dbg s is_ = Ok c /\ linear_index dbg s' js = Ok d /\ cval c = cval d.
Proof. exact compress_linear_index_l. Qed.
Print Assumptions compress_keeps_linear_index.

Theorem compress_compose : forall m n s, legal s -> (1 <= n <= m)%nat -> (m <= length s)%nat ->
  exists a b c, compress m s = Ok a /\ compress n a = Ok b /\ compress n s = Ok c /\ vals b = vals c.
Proof. exact compress_twice. Qed.
Print Assumptions compress_compose.

Example compress_ex : exists s', compress 2 ex_shape = Ok s' /\ vals s' = [15; 7] /\
  merge_coord 2 (vals ex_shape) (vals ex_coord) = [14; 6].
Proof. eexists. repeat split; vm_compute; reflexivity. Qed.
Example compress_index_ex : exists s', compress 2 ex_shape = Ok s' /\ wfs [int 14; int 6] /\ fits s' [int 14; int 6] /\
  linear_index true s' [int 14; int 6] = Ok (CI I64 104).
Proof.
  eexists. split; [vm_compute; reflexivity|]. split; [by_check|]. split; [by_check|]. vm_compute. reflexivity.
Qed.
Example compress_twice_ex : exists a b, compress 3 [int 2; int 3; int 4; int 5] = Ok a /\ vals a = [6; 4; 5] /\
  compress 2 a = Ok b /\ vals b = [24; 5].
Proof. do 2 eexists. split; [vm_compute; reflexivity|]. split; [reflexivity|]. split; [vm_compute; reflexivity|]. vm_compute. reflexivity. Qed.
Example compress_ones_ex : legal [int 1; CI U8 1; int 4; int 1] /\ 0 < nbdims [int 1; CI U8 1; int 4; int 1] /\
  compress 2 [int 1; CI U8 1; int 4; int 1] = Ok [int 4; int 1].
Proof. split; [by_check|]. split; reflexivity. Qed.

(** C09 *)
Theorem shape_eq_reflexive : forall a, legal a -> a <> [] -> shape_eq a a = Ok true.
Proof. exact shape_eq_refl. Qed.
Print Assumptions shape_eq_reflexive.

Theorem shape_eq_symmetric : forall a b, legal a -> legal b -> a <> [] -> b <> [] ->
  shape_eq a b = shape_eq b a.
Proof. exact shape_eq_sym. Qed.
Print Assumptions shape_eq_symmetric.

Theorem shape_eq_pointwise : forall a b, legal a -> legal b -> a <> [] -> length a = length b ->
  exists r, shape_eq a b = Ok r /\ (r = true <-> vals a = vals b).
Proof. exact shape_eq_same_order. Qed.
Print Assumptions shape_eq_pointwise.

(** For any orders: equality of the sizes obtained by merging the outer axes of the larger one. *)
Theorem shape_eq_characterised : forall a b, legal a -> legal b -> a <> [] -> b <> [] ->
  exists r, shape_eq a b = Ok r /\
    (r = true <-> merge_axes (length a - Nat.min (length a) (length b) + 1) (vals a)
                = merge_axes (length b - Nat.min (length a) (length b) + 1) (vals b)).
Proof. exact shape_eq_ok. Qed.
Print Assumptions shape_eq_characterised.

Theorem shape_eq_same_numel : forall a b, legal a -> legal b -> a <> [] -> b <> [] ->
  shape_eq a b = Ok true -> numel a = numel b.
Proof. exact shape_eq_numel. Qed.
Print Assumptions shape_eq_same_numel.

Theorem shape_eq_transitive_refuted :
  exists a b c, legal a /\ legal b /\ legal c /\
    shape_eq a b = Ok true /\ shape_eq b c = Ok true /\ shape_eq a c = Ok false.
Proof.
  exists [int 3; int 5], [int 15], [int 5; int 3].
  do 3 (split; [by_check|]). repeat split; vm_compute; reflexivity.
Qed.
Print Assumptions shape_eq_transitive_refuted.

Example shape_eq_ex : shape_eq [int 3] [int 1; CI U8 3] = Ok true /\ shape_eq [int 3; int 5] [int 15] = Ok true.
Proof. split; reflexivity. Qed.
Example shape_eq_legal_ex : legal [int 3; int 5; CI U8 2] /\ legal [CI I64 15; int 2] /\
  shape_eq [int 3; int 5; CI U8 2] [CI I64 15; int 2] = Ok true /\ shape_eq [CI I64 15; int 2] [int 3; int 5; CI U8 2] = Ok true /\
  numel [int 3; int 5; CI U8 2] = numel [CI I64 15; int 2] /\ shape_eq [CI I64 15; int 2] [int 15; int 3] = Ok false.
Proof. split; [by_check|]. split; [by_check|]. repeat split; vm_compute; reflexivity. Qed.
