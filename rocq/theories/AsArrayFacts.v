(** Facts about as_array for property C15, continued. *)
From Coq Require Import ZArith List Bool Lia.
From Verif Require Import Outcome CInt CIntFacts Spec ShapeSpec Shape Prefilled PrefilledSpec PrefilledFacts PrefilledFacts3 AsArraySpec.
Import ListNotations.
Open Scope Z_scope.

Lemma fold_larger_stays t r : Forall (fun u => width u <= width t) r -> fold_left larger r t = t.
Proof.
  induction 1 as [|u r H Hr IH]; [reflexivity|]. cbn [fold_left]. unfold larger at 2.
  destruct (Z.ltb_spec (width t) (width u)); [lia|exact IH].
Qed.

Lemma fold_larger_reaches t l r : Forall (fun u => width u < width t) l -> Forall (fun u => width u <= width t) r ->
  forall t0, width t0 < width t -> fold_left larger (l ++ t :: r) t0 = t.
Proof.
  intros Hl Hr. induction Hl as [|u l H Hl IH]; intros t0 H0; cbn [app fold_left].
  - unfold larger at 2. destruct (Z.ltb_spec (width t0) (width t)); [|lia]. apply fold_larger_stays, Hr.
  - apply IH. unfold larger. destruct (width t0 <? width u); assumption.
Qed.

Lemma largest_first_widest t ts : first_widest t ts -> largest_type ts = t.
Proof.
  intros (l & r & -> & Hl & Hr). destruct l as [|t0 l]; cbn [app largest_type].
  - apply fold_larger_stays, Hr.
  - inversion Hl; subst. apply fold_larger_reaches; assumption.
Qed.

Lemma cast_congruent t z : (modulus t | cast t z - z).
Proof.
  assert (Hm : modulus t <> 0) by (destruct t; discriminate).
  pose proof (Z.div_mod z (modulus t) Hm) as E. unfold cast.
  destruct (z mod modulus t <=? tmax t).
  - exists (- (z / modulus t)). lia.
  - exists (- (z / modulus t) - 1). lia.
Qed.

Lemma as_array_reads_l p vs t : to_values p = Ok vs -> first_widest t (map cty vs) ->
  exists a, as_array p = Ok a /\
    Forall2 (fun x v => cty x = t /\ in_ty t (cval x) /\ (2 ^ width t | cval x - cval v)) a vs /\
    (vals a = vals vs <-> Forall (fun v => in_ty t (cval v)) vs).
Proof.
  intros Hv Hw. unfold as_array. rewrite Hv. cbn [bind]. rewrite (largest_first_widest t _ Hw).
  eexists. split; [reflexivity|]. clear Hv Hw. split.
  - induction vs as [|v vs IH]; constructor; [|exact IH]. split; [reflexivity|]. split; [apply cast_range|].
    replace (2 ^ width t) with (modulus t) by (destruct t; reflexivity). apply cast_congruent.
  - induction vs as [|v vs IH]; [split; [constructor|reflexivity]|].
    unfold vals in *. cbn [map]. split.
    + intros E. injection E as E1 E2. constructor; [|apply IH, E2].
      rewrite <- E1. apply cast_range.
    + intros F. inversion F as [|x l H1 H2]; subst. f_equal; [|apply IH, H2]. apply cast_id, H1.
Qed.

Lemma as_array_signed_l p vs t a v : to_values p = Ok vs -> first_widest t (map cty vs) -> wfs vs -> as_array p = Ok a ->
  In v vs -> 0 <= cval v -> tmax t < cval v ->
  is_signed t = true /\ is_signed (cty v) = false /\ width (cty v) = width t /\ In (CI t (cval v - 2 ^ width t)) a /\
  cval v - 2 ^ width t < 0.
Proof.
  intros Hv Hw Hs Ha Hi H0 Hb. unfold as_array in Ha. rewrite Hv in Ha. cbn [bind] in Ha.
  rewrite (largest_first_widest t _ Hw) in Ha. injection Ha as <-.
  assert (Hwd : width (cty v) <= width t).
  { destruct Hw as (l & r & E & Hl & Hr).
    assert (In (cty v) (l ++ t :: r)) as X by (rewrite <- E; apply in_map, Hi).
    apply in_app_or in X. destruct X as [X|[<-|X]]; [|lia|].
    - pose proof (proj1 (Forall_forall _ _) Hl _ X). cbn in *. lia.
    - exact (proj1 (Forall_forall _ _) Hr _ X). }
  pose proof (proj1 (Forall_forall _ _) Hs v Hi) as W. unfold wfc, in_ty in W.
  assert (C : is_signed t = true /\ is_signed (cty v) = false /\ width (cty v) = width t /\ cval v < 2 ^ width t).
  { destruct t, (cty v); cbn in *; repeat split; try reflexivity; try lia. }
  destruct C as (C1 & C2 & C3 & C4). split; [exact C1|]. split; [exact C2|]. split; [exact C3|]. split; [|lia].
  apply in_map_iff. exists v. split; [|exact Hi]. unfold conv. f_equal. unfold cast.
  replace (modulus t) with (2 ^ width t) by (destruct t; reflexivity).
  rewrite Z.mod_small by lia. destruct (Z.leb_spec (cval v) (tmax t)); lia.
Qed.
