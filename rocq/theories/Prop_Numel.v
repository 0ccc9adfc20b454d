(** Property C04, continued: when counting the elements of a shape overflows. *)
From Coq Require Import ZArith List Bool Lia.
From Verif Require Import Outcome CInt CIntFacts Spec SpecFacts ShapeSpec Shape ShapeFacts ShapeFacts2 NumelFacts.
Import ListNotations.
Open Scope Z_scope.

(** Extents of type int or narrower ([t] = int) or all of type long ([t] = long): numel is undefined exactly when the product of the
    last extents, for some number of them, is not representable, and the product as an int otherwise. *)
Theorem numel_overflows_iff : forall t s, t = I32 \/ t = I64 -> s <> [] -> wfs s -> Forall (fun c => CInt.common I32 (cty c) = t) s ->
  (numel s = UB <-> exists pre suf, vals s = pre ++ suf /\ ~ in_ty t (prod suf)) /\
  ((forall pre suf, vals s = pre ++ suf -> in_ty t (prod suf)) -> numel s = Ok (int (cast I32 (prod (vals s))))).
Proof. exact numel_overflows_l. Qed.
Print Assumptions numel_overflows_iff.

(** Without empty axes: exactly when the number of elements is not representable. *)
Theorem numel_of_positive_overflows_iff : forall t s, t = I32 \/ t = I64 -> s <> [] -> wfs s ->
  Forall (fun c => CInt.common I32 (cty c) = t) s -> Forall (fun n => 0 < n) (vals s) ->
  (numel s = UB <-> tmax t < prod (vals s)).
Proof. exact numel_positive_l. Qed.
Print Assumptions numel_of_positive_overflows_iff.

(** Unsigned extents: never undefined, the product modulo 2^32 as an int. *)
Theorem numel_of_unsigned : forall s, s <> [] -> Forall (fun c => cty c = U32 \/ cty c = U64) s ->
  numel s = Ok (int (cast I32 (prod (vals s)))).
Proof. exact numel_unsigned_l. Qed.
Print Assumptions numel_of_unsigned.

(** The strides are these products as well, but the first extent [d] has no part in them: a shape may have strides and no numel. *)
Theorem as_stride_overflows_iff : forall t d s, t = I32 \/ t = I64 -> s <> [] -> wfs s ->
  Forall (fun c => CInt.common I32 (cty c) = t) s ->
  (as_stride (d :: s) = UB <-> exists pre suf, vals s = pre ++ suf /\ ~ in_ty t (prod suf)) /\
  ((forall pre suf, vals s = pre ++ suf -> in_ty t (prod suf)) ->
   exists st, as_stride (d :: s) = Ok st /\ forall k, (k <= length s)%nat -> nth_error (vals st) k = Some (prod (skipn k (vals s)))).
Proof. exact as_stride_overflows_l. Qed.
Print Assumptions as_stride_overflows_iff.

Definition hn (ns : list Z) : shape := map (CI I16) ns.
(** Three axes of 2000 shorts: too many for an int, although the strides exist. *)
Example overflow_ex : wfs (hn [2000; 2000; 2000]) /\ Forall (fun c => CInt.common I32 (cty c) = I32) (hn [2000; 2000; 2000]) /\
  numel (hn [2000; 2000; 2000]) = UB /\ as_stride (hn [2000; 2000; 2000]) = Ok [int 4000000; int 2000; int 1].
Proof.
  split; [repeat constructor; unfold wfc, in_ty; cbn; lia|]. split; [repeat (constructor; [reflexivity|]); constructor|]. split; vm_compute; reflexivity.
Qed.
(** An empty axis hides an overflow before it, not one after it. *)
Example hidden_ex : numel (hn [2000; 2000; 2000; 0]) = Ok (int 0) /\ numel (hn [0; 2000; 2000; 2000]) = UB.
Proof. split; vm_compute; reflexivity. Qed.
(** In type long there is room, but the result is an int. *)
Example long_ex : numel (map (CI I64) [2000; 2000; 2000]) = Ok (int (-589934592)).
Proof. vm_compute. reflexivity. Qed.
Example unsigned_ex : numel (map (CI U32) [65536; 65536; 3]) = Ok (int 0) /\ numel [CI U32 65536; CI U64 65537] = Ok (int 65536).
Proof. split; vm_compute; reflexivity. Qed.
