(** Property C63, continued: scans and products of integers that wrap around or overflow. *)
From Coq Require Import ZArith List Bool Lia.
From Verif Require Import Outcome CInt CIntFacts Spec SpecFacts ShapeSpec Shape ShapeFacts2 Memory MemFacts Container ContainerSpec
  ContainerFacts3 Algo AlgoSpec AlgoFacts AlgoFacts2 AlgoFacts3 AlgoFacts4 Sums SumsSpec SumsFacts ScanSumsFacts.
Import ListNotations.
Open Scope Z_scope.

(** Scans whose arithmetic is unsigned or narrower than int: the partial sums modulo the width of the type of init, converted to the
    type of the outputs. *)
Theorem scans_wrap : forall t e ot in_ out z m vs,
  can_read m in_ in_ -> can_write m in_ out -> values m in_ in_ vs -> typed e vs -> in_ty t z ->
  is_signed (CInt.common t e) = false \/ CInt.width t < 32 /\ CInt.width e < 32 ->
  (no_cross_alias in_ in_ out -> exists m', inclusive_sums ot in_ out (CI t z) m = Ok m' /\
    (forall is_, in_box (dims in_) is_ ->
       value m' out is_ (CI ot (cast ot (cast t (z + total (map cval (firstn (Z.to_nat (rank (dims in_) is_) + 1) vs))))))) /\
    frame in_ out m m') /\
  (no_alias in_ in_ out -> exists m', exclusive_sums ot in_ out (CI t z) m = Ok m' /\
    (forall is_, in_box (dims in_) is_ ->
       value m' out is_ (CI ot (cast ot (cast t (z + total (map cval (firstn (Z.to_nat (rank (dims in_) is_)) vs))))))) /\
    frame in_ out m m').
Proof. exact scans_wrap_l. Qed.
Print Assumptions scans_wrap.

(** Both scans are undefined as soon as one partial sum, that of all elements included, is not a value of a signed type of init
    that is the type of the computation. *)
Theorem scans_overflow : forall t e ot in_ out z m vs,
  can_read m in_ in_ -> can_write m in_ out -> values m in_ in_ vs -> typed e vs -> in_ty t z ->
  CInt.common t e = t -> is_signed t = true -> ~ partial_sums_in t z (map cval vs) ->
  (no_cross_alias in_ in_ out -> inclusive_sums ot in_ out (CI t z) m = UB) /\
  (no_alias in_ in_ out -> exclusive_sums ot in_ out (CI t z) m = UB).
Proof. exact scans_overflow_l. Qed.
Print Assumptions scans_overflow.

(** One product that is not a value of the common type of the elements, if that is signed: undefined whatever init is. *)
Theorem dot_product_overflow : forall c1 c2 t1 t2 init m vs1 vs2,
  can_read m c1 c1 -> can_read m c1 c2 -> values m c1 c1 vs1 -> values m c1 c2 vs2 -> typed t1 vs1 -> typed t2 vs2 ->
  is_signed (CInt.common t1 t2) = true -> ~ Forall (in_ty (CInt.common t1 t2)) (products (map cval vs1) (map cval vs2)) ->
  dot_from c1 c2 init m = UB.
Proof. exact dot_product_overflow_l. Qed.
Print Assumptions dot_product_overflow.

(** One partial sum of the products that is not a value of the type of init. *)
Theorem dot_sum_overflow : forall c1 c2 t t1 t2 z m vs1 vs2,
  can_read m c1 c1 -> can_read m c1 c2 -> values m c1 c1 vs1 -> values m c1 c2 vs2 -> typed t1 vs1 -> typed t2 vs2 -> in_ty t z ->
  Forall (in_ty (CInt.common t1 t2)) (products (map cval vs1) (map cval vs2)) ->
  CInt.common t (CInt.common t1 t2) = t -> is_signed t = true ->
  ~ partial_sums_in t z (products (map cval vs1) (map cval vs2)) -> dot_from c1 c2 (CI t z) m = UB.
Proof. exact dot_sum_overflow_l. Qed.
Print Assumptions dot_sum_overflow.

(** Unsigned products are taken modulo the width of the common type of the elements, their sum modulo that of the type of init. *)
Theorem dot_wraps : forall c1 c2 t t1 t2 z m vs1 vs2,
  can_read m c1 c1 -> can_read m c1 c2 -> values m c1 c1 vs1 -> values m c1 c2 vs2 -> typed t1 vs1 -> typed t2 vs2 -> in_ty t z ->
  is_signed (CInt.common t1 t2) = false -> is_signed (CInt.common t (CInt.common t1 t2)) = false ->
  dot_from c1 c2 (CI t z) m =
  Ok (CI t (cast t (z + total (map (cast (CInt.common t1 t2)) (products (map cval vs1) (map cval vs2))))), m).
Proof. exact dot_wraps_l. Qed.
Print Assumptions dot_wraps.

(** Two arrays of three elements of types [t] and [u]. *)
Definition sa : container := Cn K1 [int 3] [] (Ptr 0 0).
Definition sb : container := Cn K1 [int 3] [] (Ptr 1 0).
Definition smem (t u : ity) (xs ys : list Z) : mem cint := [Some (map (fun z => Some (CI t z)) xs); Some (map (fun z => Some (CI u z)) ys)].
Example sa_default : default_layout sa. Proof. by_default false. Qed.
Example sb_default : default_layout sb. Proof. by_default false. Qed.
Example sab_no_alias : no_alias sa sa sb.
Proof. apply (other_block_no_alias sa sa sb 0 0 1 0); try reflexivity. discriminate. Qed.
(** unsigned chars 200 100 50 from 0 of type unsigned char, stored as ints; and from 0 of type unsigned. *)
Example scans_wrap_ex : inclusive_sums I32 sa sb (CI U8 0) (smem U8 I32 [200; 100; 50] [0; 0; 0]) =
    Ok (smem U8 I32 [200; 100; 50] [200; 44; 94]) /\
  exclusive_sums I32 sa sb (CI U32 4294967295) (smem U8 I32 [200; 100; 50] [0; 0; 0]) =
    Ok (smem U8 I32 [200; 100; 50] [-1; 199; 299]).
Proof. split; vm_compute; reflexivity. Qed.
Example scans_hyps : let m := smem U8 I32 [200; 100; 50] [0; 0; 0] in
  can_read m sa sa /\ can_write m sa sb /\ values m sa sa [CI U8 200; CI U8 100; CI U8 50] /\ typed U8 [CI U8 200; CI U8 100; CI U8 50].
Proof.
  cbv zeta. split; [apply default_can_read; [exact sa_default|reflexivity|by_box]|].
  split; [apply default_can_write; [exact sb_default|reflexivity|apply readable_writable; by_box]|].
  split; [repeat (constructor; [reflexivity|]); constructor|].
  repeat (constructor; [split; [reflexivity|unfold wfc, in_ty; cbn; lia]|]); constructor.
Qed.
Example scans_overflow_ex : let m := smem I32 I64 [2147483647; 1; -5] [0; 0; 0] in
  inclusive_sums I64 sa sb (int 0) m = UB /\ exclusive_sums I64 sa sb (int 0) m = UB /\
  inclusive_sums I64 sa sb (CI I64 0) m = Ok (smem I32 I64 [2147483647; 1; -5] [2147483647; 2147483648; 2147483643]).
Proof. cbv zeta. split; [vm_compute; reflexivity|]. split; vm_compute; reflexivity. Qed.
(** ints 65536 65536: the product overflows even for an init of type long. Unsigned: it is 0. *)
Example dot_ex : dot_from sa sb (CI I64 0) (smem I32 I32 [65536; 1; 1] [65536; 1; 1]) = UB /\
  dot_from sa sb (CI U64 0) (smem U32 U32 [65536; 1; 1] [65536; 1; 1]) = Ok (CI U64 2, smem U32 U32 [65536; 1; 1] [65536; 1; 1]).
Proof. split; vm_compute; reflexivity. Qed.
Example dot_sum_ex : dot_from sa sb (int 0) (smem I32 I32 [2147483647; 1; -1] [1; 1; 1]) = UB.
Proof. vm_compute. reflexivity. Qed.
(** Those meet the hypotheses of the theorems on overflow. *)
Example overflow_hyps : let m := smem I32 I64 [2147483647; 1; -5] [0; 0; 0] in let vs := [int 2147483647; int 1; int (-5)] in
  can_read m sa sa /\ can_write m sa sb /\ values m sa sa vs /\ typed I32 vs /\ CInt.common I32 I32 = I32 /\
  ~ partial_sums_in I32 0 (map cval vs).
Proof.
  cbv zeta. split; [apply default_can_read; [exact sa_default|reflexivity|by_box]|].
  split; [apply default_can_write; [exact sb_default|reflexivity|apply readable_writable; by_box]|].
  split; [repeat (constructor; [reflexivity|]); constructor|].
  split; [repeat (constructor; [split; [reflexivity|unfold wfc, in_ty; cbn; lia]|]); constructor|].
  split; [reflexivity|]. intros H. specialize (H 2%nat). unfold in_ty in H. cbn in H. lia.
Qed.
Example dot_hyps : let m := smem I32 I32 [65536; 1; 1] [65536; 1; 1] in let vs := [int 65536; int 1; int 1] in
  can_read m sa sa /\ can_read m sa sb /\ values m sa sa vs /\ values m sa sb vs /\ typed I32 vs /\
  ~ Forall (in_ty (CInt.common I32 I32)) (products (map cval vs) (map cval vs)).
Proof.
  cbv zeta. split; [apply default_can_read; [exact sa_default|reflexivity|by_box]|].
  split; [apply default_can_read; [exact sb_default|reflexivity|by_box]|].
  split; [repeat (constructor; [reflexivity|]); constructor|].
  split; [repeat (constructor; [reflexivity|]); constructor|].
  split; [repeat (constructor; [split; [reflexivity|unfold wfc, in_ty; cbn; lia]|]); constructor|].
  intros H. inversion H as [|? ? B]. unfold in_ty in B. cbn in B. lia.
Qed.
