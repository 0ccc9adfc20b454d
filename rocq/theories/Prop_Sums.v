(** C63: sums, products and scans of integers. *)
From Coq Require Import ZArith List Bool Lia.
From Verif Require Import Outcome CInt CIntFacts Spec SpecFacts ShapeSpec Shape ShapeFacts ShapeFacts2
  ForEach ForEachSpec ForEachFacts Memory MemFacts Container ContainerSpec ContainerFacts ContainerFacts2
  ContainerFacts3 Algo AlgoSpec AlgoFacts AlgoFacts2 AlgoFacts3 AlgoFacts4 Sums SumsSpec SumsFacts.
Import ListNotations.
Open Scope Z_scope.

(** reduce(in, +, init) is the sum when every partial sum is a value of the type of init. *)
Theorem sum_exact : forall c t z m vs, can_read m c c -> values m c c vs -> Forall wfc vs -> in_ty t z ->
  partial_sums_in t z (map cval vs) -> sum_from c (CI t z) m = Ok (CI t (z + total (map cval vs)), m).
Proof. exact sum_exact_l. Qed.
Print Assumptions sum_exact.

(** It is the sum modulo the width of that type when the arithmetic is unsigned or narrower than int. *)
Theorem sum_wraps : forall c t e z m vs, can_read m c c -> values m c c vs -> typed e vs -> in_ty t z ->
  is_signed (common t e) = false \/ width t < 32 /\ width e < 32 ->
  sum_from c (CI t z) m = Ok (CI t (cast t (z + total (map cval vs))), m).
Proof. exact sum_wraps_l. Qed.
Print Assumptions sum_wraps.

(** It is undefined as soon as one partial sum is not a value of that type, when it is signed and the type of
    the computation. *)
Theorem sum_overflow : forall c t e z m vs, can_read m c c -> values m c c vs -> typed e vs -> in_ty t z ->
  common t e = t -> is_signed t = true -> ~ partial_sums_in t z (map cval vs) -> sum_from c (CI t z) m = UB.
Proof. exact sum_overflow_l. Qed.
Print Assumptions sum_overflow.

(** reduce(in) adds in the type of the elements. *)
Theorem sum_of_elements : forall c e m vs, can_read m c c -> values m c c vs -> typed e vs ->
  (partial_sums_in e 0 (map cval vs) -> sum e c m = Ok (CI e (total (map cval vs)), m)) /\
  (is_signed e = false \/ width e < 32 -> sum e c m = Ok (CI e (cast e (total (map cval vs))), m)) /\
  (is_signed e = true -> 32 <= width e -> ~ partial_sums_in e 0 (map cval vs) -> sum e c m = UB).
Proof. exact sum_default_l. Qed.
Print Assumptions sum_of_elements.

(** transform_reduce and inner_product: the products are computed in the common type of the elements. *)
Theorem dot_exact : forall c1 c2 t t1 t2 z m vs1 vs2,
  can_read m c1 c1 -> can_read m c1 c2 -> values m c1 c1 vs1 -> values m c1 c2 vs2 ->
  typed t1 vs1 -> typed t2 vs2 -> in_ty t z ->
  Forall (in_ty (common t1 t2)) (products (map cval vs1) (map cval vs2)) ->
  partial_sums_in t z (products (map cval vs1) (map cval vs2)) ->
  dot_from c1 c2 (CI t z) m = Ok (CI t (z + total (products (map cval vs1) (map cval vs2))), m).
Proof. exact dot_exact_l. Qed.
Print Assumptions dot_exact.

Theorem dot_of_elements : forall c1 c2 t1 t2 m vs1 vs2,
  can_read m c1 c1 -> can_read m c1 c2 -> values m c1 c1 vs1 -> values m c1 c2 vs2 ->
  typed t1 vs1 -> typed t2 vs2 ->
  Forall (in_ty (common t1 t2)) (products (map cval vs1) (map cval vs2)) ->
  partial_sums_in (common t1 t2) 0 (products (map cval vs1) (map cval vs2)) ->
  dot t1 t2 c1 c2 m = Ok (CI (common t1 t2) (total (products (map cval vs1) (map cval vs2))), m).
Proof. exact dot_default_l. Qed.
Print Assumptions dot_of_elements.

Theorem inner_product_is_dot : forall dbg c1 c2 init m,
  legal (c_shape c1) -> legal (c_shape c2) -> c_shape c1 <> [] -> dims c1 = dims c2 ->
  inner_from dbg c1 c2 init m = dot_from c1 c2 init m.
Proof. exact inner_dot_l. Qed.
Print Assumptions inner_product_is_dot.

(** Shapes of the same order that differ: aborted by the assertion, and not looked at without assertions. *)
Theorem inner_product_checks : forall c1 c2 init m,
  inner_from false c1 c2 init m = dot_from c1 c2 init m /\
  (legal (c_shape c1) -> legal (c_shape c2) -> c_shape c1 <> [] -> length (c_shape c1) = length (c_shape c2) ->
   dims c1 <> dims c2 -> inner_from true c1 c2 init m = Abort).
Proof. exact inner_checks_l. Qed.
Print Assumptions inner_product_checks.

(** The scans: each output element is the partial sum, converted to the type [ot] of the outputs. *)
Theorem inclusive_sums_exact : forall t ot in_ out z m vs,
  can_read m in_ in_ -> can_write m in_ out -> no_cross_alias in_ in_ out ->
  values m in_ in_ vs -> Forall wfc vs -> partial_sums_in t z (map cval vs) ->
  exists m', inclusive_sums ot in_ out (CI t z) m = Ok m' /\
    (forall is_, in_box (dims in_) is_ ->
       value m' out is_ (CI ot (cast ot (z + total (map cval (firstn (Z.to_nat (rank (dims in_) is_) + 1) vs)))))) /\
    frame in_ out m m'.
Proof. exact inclusive_sums_l. Qed.
Print Assumptions inclusive_sums_exact.

Theorem exclusive_sums_exact : forall t ot in_ out z m vs,
  can_read m in_ in_ -> can_write m in_ out -> no_alias in_ in_ out ->
  values m in_ in_ vs -> Forall wfc vs -> partial_sums_in t z (map cval vs) ->
  exists m', exclusive_sums ot in_ out (CI t z) m = Ok m' /\
    (forall is_, in_box (dims in_) is_ ->
       value m' out is_ (CI ot (cast ot (z + total (map cval (firstn (Z.to_nat (rank (dims in_) is_)) vs)))))) /\
    frame in_ out m m'.
Proof. exact exclusive_sums_l. Qed.
Print Assumptions exclusive_sums_exact.

(** Tables of three elements. *)
Definition za : container := Cn K1 [int 3] [] (Ptr 0 0).
Definition zb : container := Cn K1 [int 3] [] (Ptr 1 0).
Definition zmem (t u : ity) (xs ys : list Z) : mem cint :=
  [Some (map (fun x => Some (CI t x)) xs); Some (map (fun y => Some (CI u y)) ys)].
Definition zm : mem cint := zmem I16 U8 [-30000; 30000; 7] [200; 100; 50].
Definition zvs : list cint := [CI I16 (-30000); CI I16 30000; CI I16 7].
Definition zws : list cint := [CI U8 200; CI U8 100; CI U8 50].
Example za_default : default_layout za. Proof. by_default false. Qed.
Example zb_default : default_layout zb. Proof. by_default false. Qed.
Example za_read : can_read zm za za.
Proof. apply default_can_read; [exact za_default|reflexivity|by_box]. Qed.
Example zb_read : can_read zm za zb.
Proof. apply default_can_read; [exact zb_default|reflexivity|by_box]. Qed.
Example zb_write : can_write zm za zb.
Proof. apply default_can_write; [exact zb_default|reflexivity|]. apply readable_writable. by_box. Qed.
Example zab_no_alias : no_alias za za zb.
Proof. apply (other_block_no_alias za za zb 0 0 1 0); try reflexivity. discriminate. Qed.
Example za_values : values zm za za zvs.
Proof. repeat (constructor; [reflexivity|]); constructor. Qed.
Example zb_values : values zm za zb zws.
Proof. repeat (constructor; [reflexivity|]); constructor. Qed.
Example zvs_typed : typed I16 zvs /\ typed U8 zws.
Proof. split; repeat (constructor; [split; [reflexivity|unfold wfc, in_ty; cbn; lia]|]); constructor. Qed.
Example zvs_partial : partial_sums_in I16 (-1) (map cval zvs).
Proof. intros k Hk. cbn in Hk. assert (k = 0 \/ k = 1 \/ k = 2 \/ k = 3)%nat as [->|[->|[->| ->]]] by lia; unfold in_ty; cbn; lia. Qed.
Example zvs_products : Forall (in_ty (common I16 U8)) (products (map cval zvs) (map cval zws)) /\
  partial_sums_in (common I16 U8) 0 (products (map cval zvs) (map cval zws)).
Proof.
  split; [repeat (constructor; [unfold in_ty; cbn; lia|]); constructor|].
  intros k Hk. cbn in Hk. assert (k = 0 \/ k = 1 \/ k = 2 \/ k = 3)%nat as [->|[->|[->| ->]]] by lia; unfold in_ty; cbn; lia.
Qed.
Example sums_ex :
  (sum_from za (CI I16 (-1)) zm, sum I16 za zm, sum U8 zb zm, dot I16 U8 za zb zm, inner true I16 U8 za zb zm,
   exclusive_sums U8 za zb (CI I16 (-1)) zm, inclusive_sums I64 za zb (CI U32 1) zm)
  = (Ok (CI I16 6, zm), Ok (CI I16 7, zm), Ok (CI U8 94, zm), Ok (CI I32 (-2999650), zm), Ok (CI I32 (-2999650), zm),
     Ok (zmem I16 U8 [-30000; 30000; 7] [255; 207; 255]), Ok (zmem I16 I64 [-30000; 30000; 7] [4294937297; 1; 8])).
Proof. vm_compute. reflexivity. Qed.

(** ** What goes wrong *)

(** The sum is a value of the type, and yet undefined: the order of the elements matters. *)
Theorem sum_order_refuted : exists c m m' vs vs', can_read m c c /\ values m c c vs /\ can_read m' c c /\ values m' c c vs' /\
  typed I32 vs /\ typed I32 vs' /\ (exists x y z, vs = [x; y; z] /\ vs' = [x; z; y]) /\
  in_ty I32 (total (map cval vs)) /\ sum I32 c m = UB /\ sum I32 c m' = Ok (CI I32 (total (map cval vs)), m').
Proof.
  exists za, (zmem I32 I32 [2147483647; 1; -1] []), (zmem I32 I32 [2147483647; -1; 1] []),
    [int 2147483647; int 1; int (-1)], [int 2147483647; int (-1); int 1].
  split; [apply default_can_read; [exact za_default|reflexivity|by_box]|].
  split; [repeat (constructor; [reflexivity|]); constructor|].
  split; [apply default_can_read; [exact za_default|reflexivity|by_box]|].
  split; [repeat (constructor; [reflexivity|]); constructor|].
  split; [repeat (constructor; [split; [reflexivity|unfold wfc, in_ty; cbn; lia]|]); constructor|].
  split; [repeat (constructor; [split; [reflexivity|unfold wfc, in_ty; cbn; lia]|]); constructor|].
  split; [do 3 eexists; split; reflexivity|].
  split; [unfold in_ty; cbn; lia|]. split; vm_compute; reflexivity.
Qed.
Print Assumptions sum_order_refuted.

(** The sum of a table of bytes is not the sum. *)
Theorem narrow_sum_refuted : exists c m vs, can_read m c c /\ values m c c vs /\ typed I8 vs /\
  total (map cval vs) = 300 /\ sum I8 c m = Ok (CI I8 44, m).
Proof.
  exists za, (zmem I8 I8 [100; 100; 100] []), [CI I8 100; CI I8 100; CI I8 100].
  split; [apply default_can_read; [exact za_default|reflexivity|by_box]|].
  split; [repeat (constructor; [reflexivity|]); constructor|].
  split; [repeat (constructor; [split; [reflexivity|unfold wfc, in_ty; cbn; lia]|]); constructor|].
  split; vm_compute; reflexivity.
Qed.
Print Assumptions narrow_sum_refuted.

(** Products of unsigned 16-bit elements may be undefined, whatever the type of init. *)
Theorem unsigned_dot_refuted : exists c m vs, can_read m c c /\ values m c c vs /\ typed U16 vs /\
  dot U16 U16 c c m = UB /\ forall t, dot_from c c (CI t 0) m = UB.
Proof.
  exists za, (zmem U16 U16 [65535; 1; 1] []), [CI U16 65535; CI U16 1; CI U16 1].
  split; [apply default_can_read; [exact za_default|reflexivity|by_box]|].
  split; [repeat (constructor; [reflexivity|]); constructor|].
  split; [repeat (constructor; [split; [reflexivity|unfold wfc, in_ty; cbn; lia]|]); constructor|].
  split; [vm_compute; reflexivity|]. intros t; destruct t; vm_compute; reflexivity.
Qed.
Print Assumptions unsigned_dot_refuted.

(** exclusive_scan adds the last element as well: undefined although every output would be a value of the type. *)
Theorem exclusive_scan_overflow_refuted : exists in_ out m vs, can_read m in_ in_ /\ can_write m in_ out /\
  no_alias in_ in_ out /\ values m in_ in_ vs /\ typed I32 vs /\
  (forall is_, in_box (dims in_) is_ -> in_ty I32 (total (map cval (firstn (Z.to_nat (rank (dims in_) is_)) vs)))) /\
  exclusive_sums I32 in_ out (CI I32 0) m = UB.
Proof.
  exists za, zb, (zmem I32 I32 [1; 2147483646; 1] [0; 0; 0]), [int 1; int 2147483646; int 1].
  split; [apply default_can_read; [exact za_default|reflexivity|by_box]|].
  split; [apply default_can_write; [exact zb_default|reflexivity|apply readable_writable; by_box]|].
  split; [exact zab_no_alias|].
  split; [repeat (constructor; [reflexivity|]); constructor|].
  split; [repeat (constructor; [split; [reflexivity|unfold wfc, in_ty; cbn; lia]|]); constructor|].
  split; [|vm_compute; reflexivity].
  intros is_ B. apply box_In in B. vm_compute in B.
  repeat (destruct B as [<-|B]; [split; vm_compute; discriminate|]). contradiction.
Qed.
Print Assumptions exclusive_scan_overflow_refuted.
