(** Property C44, continued: slicers outside of their documented domain. *)
From Coq Require Import ZArith List Bool Lia.
From Verif Require Import Outcome CInt CIntFacts Spec SpecFacts ShapeSpec Shape ShapeFacts2 EndRatio Slicer SlicerSpec SlicerFacts SlicerFacts2
  SliceOutsideFacts.
Import ListNotations.
Open Scope Z_scope.

(** Descending unsigned bounds: the extent wraps around. *)
Theorem between_unsigned_wraps : forall n b e t, t = U32 \/ t = U64 -> wfc b -> wfc e -> cty b = t -> cty e = t -> cval e < cval b ->
  reshape1 n (between b (BInt e)) = Ok (CI t (cval e - cval b + 2 ^ width t)).
Proof. exact between_wraps_l. Qed.
Print Assumptions between_unsigned_wraps.

Example between_wraps_ex : wfc (CI U64 5) /\ reshape1 (int 10) (between (CI U64 5) (BInt (CI U64 3))) = Ok (CI U64 18446744073709551614).
Proof. split; [unfold wfc, in_ty; cbn; lia|vm_compute; reflexivity]. Qed.

(** slice(to=e, length=l): `to` is not looked at, and the indexes start at 0. *)
Theorem to_with_length_ignored : forall n s e l lz sz, axis n ->
  bound_is n (Some l) 0 lz -> step_is s sz -> 0 <= lz -> 0 < sz ->
  exists co ck, reindex1 n (SSlice None s (Some e) (Some l)) = Ok co /\ reshape1 n (SSlice None s (Some e) (Some l)) = Ok ck /\
    selects (cval co) (cval ck) sz (fun x => 0 <= x < lz * sz /\ (sz | x)).
Proof. exact to_length_selects_l. Qed.
Print Assumptions to_with_length_ignored.

(** slice(to=8, length=3, by=2) on an axis of size 10: 0, 2, 4. *)
Example to_ignored_ex : axis (int 10) /\ bound_is (int 10) (Some (BInt (int 3))) 0 3 /\ step_is (Some (int 2)) 2 /\
  let sl := SSlice None (Some (int 2)) (Some (BInt (int 8))) (Some (BInt (int 3))) in
  reindex1 (int 10) sl = Ok (int 0) /\ reshape1 (int 10) sl = Ok (int 3).
Proof. repeat split; try reflexivity; try (cbn; lia); unfold wfc, in_ty; cbn; lia. Qed.
