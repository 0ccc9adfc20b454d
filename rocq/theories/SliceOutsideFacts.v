(** Facts about slicers outside their documented domain, for property C44, continued. *)
From Coq Require Import ZArith List Bool Lia.
From Verif Require Import Outcome CInt CIntFacts Spec SpecFacts ShapeSpec Shape ShapeFacts2 EndRatio Slicer SlicerSpec SlicerFacts SlicerFacts2.
Import ListNotations.
Open Scope Z_scope.

Lemma common_self_unsigned t : t = U32 \/ t = U64 -> CInt.common t t = t /\ CInt.common t I32 = t /\ CInt.common I32 t = t.
Proof. intros [-> | ->]; repeat split. Qed.

Lemma between_wraps_l n b e t : t = U32 \/ t = U64 -> wfc b -> wfc e -> cty b = t -> cty e = t -> cval e < cval b ->
  reshape1 n (between b (BInt e)) = Ok (CI t (cval e - cval b + 2 ^ width t)).
Proof.
  intros Ht Wb We Tb Te R. unfold between. cbn [reshape1 fix_extremum bind].
  unfold wfc, in_ty in Wb, We. rewrite Tb in Wb. rewrite Te in We.
  set (w := cval e - cval b + 2 ^ width t).
  assert (Rw : 0 < w <= tmax t) by (unfold w; destruct Ht as [-> | ->]; cbn in *; lia).
  assert (I : in_ty t w) by (unfold in_ty; destruct Ht as [-> | ->]; cbn in *; lia).
  destruct (common_self_unsigned t Ht) as (C1 & C2 & C3).
  assert (Ed : csub e b = Ok (CI t w)).
  { unfold csub, arith. rewrite Tb, Te, C1.
    rewrite (cast_id t (cval e)) by exact We. rewrite (cast_id t (cval b)) by exact Wb.
    assert (Ec : cast t (cval e - cval b) = w).
    { unfold cast. replace (modulus t) with (2 ^ width t) by (destruct Ht as [-> | ->]; reflexivity).
      assert (E : (cval e - cval b) mod 2 ^ width t = w).
      { symmetry. apply Z.mod_unique with (-1); [|unfold w; lia].
        left. destruct Ht as [-> | ->]; cbn in *; lia. }
      rewrite E. destruct (Z.leb_spec w (tmax t)); lia. }
    rewrite Ec. destruct Ht as [-> | ->]; reflexivity. }
  rewrite Ed. cbn [bind]. unfold eval_count. rewrite ceqb_zero by exact I. cbn [cval].
  destruct (Z.eqb_spec w 0); [lia|]. unfold fix_count.
  change (clt (int 1) (int 0)) with false. cbv iota. change (conv (promote (cty (int 1))) (int 1)) with (int 1). cbn [bind].
  assert (K1 : cast t 1 = 1) by (destruct Ht as [-> | ->]; reflexivity).
  assert (K0 : cast t 0 = 0) by (destruct Ht as [-> | ->]; reflexivity).
  assert (Hq : cdiv (CI t w) (int 1) = Ok (CI t w) /\ cmod (CI t w) (int 1) = Ok (CI t 0)).
  { unfold cdiv, cmod. cbn [cty cval int]. rewrite C2, (cast_id t w I), K1. cbn [Z.eqb].
    rewrite Z.quot_1_r, Z.rem_1_r, (proj2 (in_tyb_spec t w) I). split; reflexivity. }
  destruct Hq as [-> ->]. cbn [bind].
  rewrite ceqb_zero by (unfold wfc, in_ty; destruct Ht as [-> | ->]; cbn; lia). cbn [cval]. change (0 =? 0) with true. cbv iota.
  unfold cadd, arith. cbn [cty cval int]. rewrite C3, (cast_id t w I), K0, Z.add_0_l.
  rewrite (cast_id t w I). destruct Ht as [-> | ->]; reflexivity.
Qed.

Lemma to_ignored_l n b s e l : reshape1 n (SSlice b s (Some e) (Some l)) = reshape1 n (SSlice b s None (Some l)) /\
  reindex1 n (SSlice b s (Some e) (Some l)) = reindex1 n (SSlice b s None (Some l)).
Proof. split; destruct b, s; reflexivity. Qed.

Lemma to_length_selects_l n s e l lz sz : axis n ->
  bound_is n (Some l) 0 lz -> step_is s sz -> 0 <= lz -> 0 < sz ->
  exists co ck, reindex1 n (SSlice None s (Some e) (Some l)) = Ok co /\ reshape1 n (SSlice None s (Some e) (Some l)) = Ok ck /\
    selects (cval co) (cval ck) sz (fun x => 0 <= x < lz * sz /\ (sz | x)).
Proof.
  intros A Hl Hs R P. destruct (to_ignored_l n None s e l) as [-> ->].
  destruct (slice_length_l n None s l 0 lz sz A eq_refl Hl Hs (Z.le_refl 0) R P) as (co & ck & E1 & E2 & S1 & S2).
  exists co, ck. split; [exact E1|]. split; [exact E2|]. split; [exact S1|].
  intros x. rewrite <- S2, Z.sub_0_r, Z.add_0_l. reflexivity.
Qed.
