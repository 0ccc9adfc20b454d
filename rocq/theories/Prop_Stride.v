(** C60: strides given by a user, and strides of a shape, with their axes. *)
From Coq Require Import ZArith String List Bool Lia.
From Verif Require Import Outcome CInt Spec Shape ShapeSpec ShapeFacts2 Prefilled PrefilledSpec NamedSize NamedSizeSpec NamedStride
  NamedStrideSpec NamedStrideFacts.
Import ListNotations.
Open Scope Z_scope.
Open Scope string_scope.

Theorem strides_read_back : forall dbg l es, Forall2 given_size l es -> NoDup (names l) ->
  exists p, with_strides_args dbg l = Ok p /\ wfp p /\ to_values p = Ok (map (value_or (int 1)) es) /\
    forall a c e, In (ANamed a c e) l -> pget_axis p a = Ok (value_or (int 1) e).
Proof. exact with_strides_l. Qed.
Print Assumptions strides_read_back.

Definition ex_strides := [APos (EInt (int 70)); ANamed (AName "height") CJoker (EInt (CI I64 (-10)));
                          ANamed (AName "width") CJoker EJoker].
Example strides_ex :
  Forall2 given_size ex_strides [EInt (int 70); EInt (CI I64 (-10)); EJoker] /\ NoDup (names ex_strides) /\
  exists p, with_strides_args true ex_strides = Ok p /\ to_values p = Ok [int 70; CI I64 (-10); int 1] /\
            pget_axis p (AName "height") = Ok (CI I64 (-10)).
Proof.
  split; [repeat constructor; cbv; discriminate|].
  split; [repeat constructor; cbn; intuition discriminate|].
  eexists. split; [reflexivity|split; reflexivity].
Qed.

(** The strides of a shape are named as its axes; each is the product of the inner extents, and is known at
    compile time exactly when all of these are. *)
Theorem as_stride_keeps_axes : forall dbg p s, wfp p -> distinct_axes (pdesc p) -> to_values p = Ok s -> legal s ->
  s <> [] ->
  exists q st, pas_stride dbg p = Ok q /\ wfp q /\ to_values q = Ok st /\
    map aid (pdesc q) = map aid (pdesc p) /\
    (forall k, (k < length s)%nat -> nth_error (vals st) k = Some (prod (skipn (S k) (vals s)))) /\
    (forall k d, nth_error (pdesc q) k = Some d -> (known d <-> Forall known (skipn (S k) (pdesc p)))) /\
    is_unit (pdesc q) = true.
Proof. exact pas_stride_l. Qed.
Print Assumptions as_stride_keeps_axes.

(** depth = 4 (run-time), height = 3 (compile-time), width = 5 (compile-time). *)
Definition ex_mixed := [ANamed (AName "depth") CJoker (EInt (int 4)); ANamed (AName "height") CJoker (EConst (int 3));
                        ANamed (AName "width") CJoker (EConst (CI U8 5))].
Example as_stride_ex : exists p, of_size_args true ex_mixed = Ok p /\ wfp p /\ distinct_axes (pdesc p) /\
  to_values p = Ok [int 4; int 3; CI U8 5] /\ legal [int 4; int 3; CI U8 5] /\
  exists q, pas_stride true p = Ok q /\ to_values q = Ok [int 15; int 5; int 1] /\ Forall known (pdesc q) /\
    pget_axis q (AName "height") = Ok (int 5).
Proof.
  eexists. split; [reflexivity|]. split; [split; [reflexivity|repeat constructor; cbv; discriminate]|].
  split; [unfold distinct_axes; repeat constructor; cbn; intuition discriminate|].
  split; [reflexivity|]. split; [by_check|].
  eexists. split; [reflexivity|]. split; [reflexivity|]. split; [repeat constructor; eexists; reflexivity|reflexivity].
Qed.

(** A unit stride reads 1 on its last axis. *)
Theorem unit_stride_is_one : forall p d, wfp p -> is_unit (pdesc p) = true ->
  nth_error (pdesc p) (length (pdesc p) - 1) = Some d -> (forall v, acont d = CStatic v -> wfc v) ->
  exists v, pget p (length (pdesc p) - 1) = Ok v /\ cval v = 1.
Proof. exact unit_l. Qed.
Print Assumptions unit_stride_is_one.

Example unit_ex : exists p, with_strides_args true [APos (EInt (int 7)); APos (EConst (CI U8 1))] = Ok p /\ wfp p /\
  is_unit (pdesc p) = true /\ pget p 1 = Ok (CI U8 1).
Proof.
  eexists. split; [reflexivity|]. split; [split; [reflexivity|repeat constructor; cbv; discriminate]|]. split; reflexivity.
Qed.

(** A run-time 1 is not a unit stride, nor is the default. *)
Theorem unit_stride_run_time_refuted :
  (exists p, with_strides_args true [APos (EInt (int 7)); APos (EInt (int 1))] = Ok p /\ pget p 1 = Ok (int 1) /\
             is_unit (pdesc p) = false) /\
  (exists p, with_strides_args true [APos (EInt (int 7)); APos EJoker] = Ok p /\ pget p 1 = Ok (int 1) /\
             is_unit (pdesc p) = false).
Proof. split; (eexists; split; [reflexivity|split; reflexivity]). Qed.
Print Assumptions unit_stride_run_time_refuted.

(** compress<N>: the N innermost strides, what is known of them at compile time, without their axes. *)
Theorem compress_stride_keeps_inner : forall dbg p st n, wfp p -> to_values p = Ok st -> Forall wfc st ->
  (n <= length st)%nat ->
  exists q, pcompress_stride dbg n p = Ok q /\ wfp q /\ to_values q = Ok (skipn (length st - n) st) /\
    Forall anonymous (pdesc q) /\
    (forall k d e, nth_error (pdesc q) k = Some d -> nth_error (pdesc p) (length st - n + k) = Some e ->
       (known d <-> known e)).
Proof. exact pcompress_l. Qed.
Print Assumptions compress_stride_keeps_inner.

Example compress_stride_ex : exists p q r, of_size_args true ex_mixed = Ok p /\ pas_stride true p = Ok q /\ wfp q /\
  to_values q = Ok [int 15; int 5; int 1] /\ Forall wfc [int 15; int 5; int 1] /\
  pcompress_stride true 2 q = Ok r /\ to_values r = Ok [int 5; int 1] /\ pget_axis r (AName "width") = UB.
Proof.
  do 3 eexists. split; [reflexivity|]. split; [reflexivity|]. split; [split; [reflexivity|repeat constructor]|].
  split; [reflexivity|]. split; [repeat constructor; cbv; discriminate|]. split; [reflexivity|]. split; reflexivity.
Qed.

(** Equality of strides. *)
Theorem stride_equality : forall a b, wfs a -> wfs b ->
  Forall2 (fun x y => (is_signed (cty x) = true /\ is_signed (cty y) = true) \/ (0 <= cval x /\ 0 <= cval y)) a b ->
  stride_eq a b = true <-> vals a = vals b.
Proof. exact stride_eq_l. Qed.
Print Assumptions stride_equality.

Example stride_equality_ex :
  let a := [CI I64 (-4); int 1] in let b := [int (-4); CI U8 1] in
  wfs a /\ wfs b /\
  Forall2 (fun x y => (is_signed (cty x) = true /\ is_signed (cty y) = true) \/ (0 <= cval x /\ 0 <= cval y)) a b /\
  stride_eq a b = true.
Proof.
  split; [repeat constructor; cbv; discriminate|]. split; [repeat constructor; cbv; discriminate|].
  split; [|reflexivity]. constructor; [left; split; reflexivity|]. constructor; [right; cbn; lia|constructor].
Qed.

(** Walking backward compares equal to walking forward by nearly 2^32. *)
Theorem stride_equality_mixed_signs_refuted :
  wfs [int (-1)] /\ wfs [CI U32 4294967295] /\ stride_eq [int (-1)] [CI U32 4294967295] = true /\
  vals [int (-1)] <> vals [CI U32 4294967295].
Proof.
  split; [repeat constructor; cbv; discriminate|]. split; [repeat constructor; cbv; discriminate|].
  split; [reflexivity|discriminate].
Qed.
Print Assumptions stride_equality_mixed_signs_refuted.
