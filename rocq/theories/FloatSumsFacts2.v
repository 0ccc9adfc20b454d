(** Facts about sums of numbers of any arithmetic type (C84): sums, products, scans. *)
From Coq Require Import ZArith QArith Qreals Qpower Qabs Reals Lia Lra Psatz List Bool.
From Coq Require Import Floats.SpecFloat.
From Flocq Require Import Core Relative BinarySingleNaN.
From Verif Require Import Outcome CInt CIntFacts Spec SpecFacts ShapeSpec Shape ShapeFacts ForEach ForEachSpec ForEachFacts
  Memory MemFacts Container ContainerSpec ContainerFacts ContainerFacts2 ContainerFacts3 Algo AlgoSpec AlgoFacts AlgoFacts2 AlgoFacts3 AlgoFacts4
  Interp IeeeSpec RoundSpec RoundFacts ErrorFacts
  Mixed MixedSpec MixedFacts Convert ConvertSpec ConvertFacts Sums SumsFacts FloatSums FloatSumsSpec FloatSumsFacts.
Import ListNotations.
Open Scope R_scope.

(** ** Rational and real sums *)
Lemma sum_R qs : Q2R (sum_of qs) = fold_right (fun q r => Q2R q + r) 0 qs.
Proof. induction qs as [|q qs IH]; cbn [sum_of fold_right]; [apply Q2R_0|]. rewrite Q2R_plus, IH. reflexivity. Qed.
Lemma size_cons q qs : Q2R (size_of (q :: qs)) = Rabs (Q2R q) + Q2R (size_of qs).
Proof. unfold size_of. cbn [map sum_of]. rewrite Q2R_plus, Q2R_abs. reflexivity. Qed.
Lemma size_pos qs : 0 <= Q2R (size_of qs).
Proof. induction qs as [|q qs IH]; [unfold size_of; cbn; rewrite Q2R_0; lra|]. rewrite size_cons. pose proof (Rabs_pos (Q2R q)). lra. Qed.
Lemma sum_cons q qs : Q2R (sum_of (q :: qs)) = Q2R q + Q2R (sum_of qs).
Proof. cbn [sum_of]. apply Q2R_plus. Qed.
Lemma size_nil : Q2R (size_of []) = 0. Proof. exact Q2R_0. Qed.
Lemma sum_nil : Q2R (sum_of []) = 0. Proof. exact Q2R_0. Qed.

Lemma pow_ge1 D n : 1 <= D -> 1 <= D ^ n. Proof. apply pow_R1_Rle. Qed.

(** ** A sum *)
Section Sum.
Variables (f : ftype) (te : atype).
Notation D := (stepD f te).
Notation E := (stepE f te).
Notation stp := (accumulate (AFloat f) te).

Definition room (a : spec_float) (vs : list number) (qs : list Q) : Prop :=
  D ^ length vs * (Rabs (rv a) + Q2R (size_of qs) + INR (length vs) * E) < bpow radix2 (f_emax f).

Lemma step_room v q vs qs a : value_of_type te v -> number_value v = Some q -> finite_of f a -> room a (v :: vs) (q :: qs) ->
  exists r, stp (NFloat a) v = Ok (NFloat r) /\ finite_of f r /\
    Rabs (rv r - (rv a + Q2R q)) <= (D - 1) * (Rabs (rv a) + Rabs (Q2R q)) + E /\
    ((0 <= Q2R q -> rv a <= rv r) /\ (Q2R q <= 0 -> rv r <= rv a)) /\ room r vs qs.
Proof.
  unfold room. intros Vv Vq Fa B. pose proof (stepD_1 f te) as H1. pose proof (stepE_0 f te) as H0.
  cbn [length] in B. rewrite size_cons in B. rewrite S_INR in B. cbn [pow] in B.
  set (n := length vs) in *. set (s := Q2R (size_of qs)) in *. pose proof (size_pos qs) as Ps. fold s in Ps.
  pose proof (Rabs_pos (rv a)) as Pa. pose proof (Rabs_pos (Q2R q)) as Pq. pose proof (pow_ge1 D n H1) as G. pose proof (pos_INR n) as Pn.
  set (G' := D ^ n) in *. set (d := D) in *. set (e := E) in *.
  assert (Pe : 0 <= INR n * e) by (apply Rmult_le_pos; assumption).
  assert (Q1 : d <= d * G') by (rewrite <- (Rmult_1_r d) at 1; apply Rmult_le_compat_l; lra).
  assert (Q2 : G' <= d * G') by (rewrite <- (Rmult_1_l G') at 1; apply Rmult_le_compat_r; lra).
  set (x := Rabs (rv a) + Rabs (Q2R q)) in *. assert (Px : 0 <= x) by (unfold x; lra).
  assert (K1 : d * x <= d * G' * x) by (apply Rmult_le_compat_r; lra).
  assert (K2 : 1 * e <= G' * e) by (apply Rmult_le_compat_r; lra).
  assert (K3 : G' * e <= d * G' * e) by (apply Rmult_le_compat_r; lra).
  assert (K4 : 0 <= d * G' * s) by (apply Rmult_le_pos; lra).
  assert (K5 : G' * (INR n * e) <= d * G' * (INR n * e)) by (apply Rmult_le_compat_r; lra).
  assert (K6 : 0 <= G' * (INR n * e)) by (apply Rmult_le_pos; lra).
  assert (K7 : G' * s <= d * G' * s) by (apply Rmult_le_compat_r; lra).
  assert (B' : d * G' * x + d * G' * s + d * G' * (INR n * e) + d * G' * e < bpow radix2 (f_emax f)).
  { eapply Rle_lt_trans; [|exact B]. apply Req_le. unfold x. ring. }
  destruct (step_near f te a v q Fa Vv Vq) as (a' & y & E1 & Fa' & Er & [Py Ny] & (h & L & Eh)).
  { fold d e x. lra. }
  fold d e x in Er. pose proof (abs_near _ _ _ Er) as Aa. pose proof (Rabs_triang (rv a) (Q2R q)) as Tr. fold x in Tr.
  assert (Aa' : Rabs (rv a') <= d * x + e) by lra.
  assert (K8 : G' * Rabs (rv a') <= G' * (d * x + e)) by (apply Rmult_le_compat_l; lra).
  exists a'. split; [exact E1|]. split; [exact Fa'|]. split; [exact Er|]. split.
  - rewrite Eh.
    pose proof (finite_fmt _ _ a Fa) as Fma. destruct (conv_ok f h a L Fa) as [Fh Ehh]. pose proof (finite_fmt _ _ _ Fh) as Fmh. rewrite Ehh in Fmh.
    pose proof (rnd_id (f_prec f) (f_emax f) (rv a) Fma) as I1. pose proof (rnd_id (f_prec h) (f_emax h) (rv a) Fmh) as I2.
    split; intros P0.
    + specialize (Py P0). apply (Rle_trans _ (rndF f (rndF h (rv a)))); [rewrite I2, I1; lra|].
      apply rnd_le; [apply fp_ok|]. apply rnd_le; [apply fp_ok|]. lra.
    + specialize (Ny P0). apply (Rle_trans _ (rndF f (rndF h (rv a)))); [|rewrite I2, I1; lra].
      apply rnd_le; [apply fp_ok|]. apply rnd_le; [apply fp_ok|]. lra.
  - rewrite !Rmult_plus_distr_l in *. lra.
Qed.

Lemma fold_near vs qs : stand_for te vs qs -> forall a, finite_of f a -> room a vs qs ->
  exists r, foldo stp vs (NFloat a) = Ok (NFloat r) /\ finite_of f r /\
    Rabs (rv r - (rv a + Q2R (sum_of qs))) <= (D ^ length vs - 1) * (Rabs (rv a) + Q2R (size_of qs)) + D ^ length vs * (INR (length vs) * E).
Proof.
  pose proof (stepD_1 f te) as H1. pose proof (stepE_0 f te) as H0.
  induction 1 as [|v q vs qs [Vv Vq] _ IH]; intros a Fa B.
  - exists a. cbn [foldo length pow INR]. split; [reflexivity|]. split; [exact Fa|]. rewrite sum_nil, size_nil.
    replace (rv a - (rv a + 0)) with 0 by ring. rewrite Rabs_R0. lra.
  - destruct (step_room v q vs qs a Vv Vq Fa B) as (a' & E1 & Fa' & Er & _ & B').
    destruct (IH a' Fa' B') as (r & E2 & Fr & Err).
    exists r. cbn [foldo]. rewrite E1, bind_ok. split; [exact E2|]. split; [exact Fr|].
    cbn [length]. rewrite size_cons, sum_cons, S_INR. cbn [pow].
    set (n := length vs) in *. set (s := Q2R (size_of qs)) in *. pose proof (size_pos qs) as Ps. fold s in Ps.
    pose proof (Rabs_pos (rv a)) as Pa. pose proof (Rabs_pos (Q2R q)) as Pq. pose proof (pow_ge1 D n H1) as G. pose proof (pos_INR n) as Pn.
    set (G' := D ^ n) in *. set (d := D) in *. set (e := E) in *.
    assert (Pe : 0 <= INR n * e) by (apply Rmult_le_pos; assumption).
    assert (Q2 : G' <= d * G') by (rewrite <- (Rmult_1_l G') at 1; apply Rmult_le_compat_r; lra).
    set (x := Rabs (rv a) + Rabs (Q2R q)) in *.
    assert (K3 : G' * e <= d * G' * e) by (apply Rmult_le_compat_r; lra).
    assert (K5 : G' * (INR n * e) <= d * G' * (INR n * e)) by (apply Rmult_le_compat_r; lra).
    assert (K7 : G' * s <= d * G' * s) by (apply Rmult_le_compat_r; lra).
    pose proof (abs_near _ _ _ Er) as Aa. pose proof (Rabs_triang (rv a) (Q2R q)) as Tr. fold x in Tr.
    assert (Aa' : Rabs (rv a') <= d * x + e) by lra.
    replace (rv r - (rv a + (Q2R q + Q2R (sum_of qs)))) with ((rv r - (rv a' + Q2R (sum_of qs))) + (rv a' - (rv a + Q2R q))) by ring.
    eapply Rle_trans; [apply Rabs_triang|].
    assert (X : (G' - 1) * (Rabs (rv a') + s) <= (G' - 1) * (d * x + e + s)) by (apply Rmult_le_compat_l; lra).
    rewrite <- Rplus_assoc. fold x. lra.
Qed.

(** The accumulators of all prefixes. *)
Lemma room_prefix vs qs k a : stand_for te vs qs -> room a vs qs -> room a (firstn k vs) (firstn k qs).
Proof.
  unfold room. intros S B. eapply Rle_lt_trans; [|exact B].
  assert (L : (length (firstn k vs) <= length vs)%nat) by (rewrite firstn_length; lia).
  assert (Sz : forall l k, Q2R (size_of (firstn k l)) <= Q2R (size_of l)).
  { induction l as [|x l IH]; intros j; [rewrite firstn_nil; lra|]. destruct j; cbn [firstn].
    - pose proof (size_pos (x :: l)). rewrite size_nil. lra.
    - rewrite !size_cons. specialize (IH j). lra. }
  pose proof (stepD_1 f te) as H1. pose proof (stepE_0 f te) as H0. pose proof (Rabs_pos (rv a)). pose proof (size_pos (firstn k qs)).
  pose proof (pow_ge1 D (length (firstn k vs)) H1). pose proof (pos_INR (length (firstn k vs))).
  apply Rmult_le_compat.
  - lra.
  - assert (0 <= INR (length (firstn k vs)) * E) by (apply Rmult_le_pos; assumption). lra.
  - apply Rle_pow; assumption.
  - specialize (Sz qs k). apply le_INR in L. assert (INR (length (firstn k vs)) * E <= INR (length vs) * E) by (apply Rmult_le_compat_r; assumption). lra.
Qed.
Lemma stand_prefix vs qs k : stand_for te vs qs -> stand_for te (firstn k vs) (firstn k qs).
Proof. intros S. revert k. induction S as [|v q vs qs H _ IH]; intros [|k]; cbn [firstn]; constructor; [exact H|apply IH]. Qed.

Definition partial (vs : list number) (a : spec_float) (k : nat) : number :=
  match foldo stp (firstn k vs) (NFloat a) with Ok r => r | _ => NFloat a end.

Lemma partial_near vs qs a k : stand_for te vs qs -> finite_of f a -> room a vs qs ->
  exists r, partial vs a k = NFloat r /\ foldo stp (firstn k vs) (NFloat a) = Ok (NFloat r) /\ finite_of f r /\
    Rabs (rv r - (rv a + Q2R (sum_of (firstn k qs)))) <= (D ^ length (firstn k vs) - 1) * (Rabs (rv a) + Q2R (size_of (firstn k qs)))
       + D ^ length (firstn k vs) * (INR (length (firstn k vs)) * E).
Proof.
  intros S Fa B. destruct (fold_near _ _ (stand_prefix vs qs k S) a Fa (room_prefix vs qs k a S B)) as (r & E1 & Fr & Er).
  exists r. unfold partial. rewrite E1. auto.
Qed.
Lemma partial_step vs qs a k v : stand_for te vs qs -> finite_of f a -> room a vs qs -> nth_error vs k = Some v ->
  stp (partial vs a k) v = Ok (partial vs a (S k)).
Proof.
  intros S Fa B Ev. destruct (partial_near vs qs a k S Fa B) as (r & Ek & E1 & _).
  destruct (partial_near vs qs a (Datatypes.S k) S Fa B) as (r' & Ek' & E1' & _).
  rewrite (firstn_snoc _ _ _ Ev), foldo_app, E1, bind_ok in E1'. cbn [foldo] in E1'.
  rewrite Ek, Ek'. destruct (stp (NFloat r) v) as [w| | |]; cbn [bind] in E1'; congruence.
Qed.
Lemma partial_ordered (ok : R -> Prop) (ord : R -> R -> Prop) vs qs : (forall x, ord x x) -> (forall x y z, ord x y -> ord y z -> ord x z) ->
  (forall q x y, ok (Q2R q) -> (0 <= Q2R q -> x <= y) /\ (Q2R q <= 0 -> y <= x) -> ord x y) ->
  stand_for te vs qs -> Forall (fun q => ok (Q2R q)) qs -> forall a, finite_of f a -> room a vs qs ->
  forall i j, (i <= j)%nat -> exists x y, partial vs a i = NFloat x /\ partial vs a j = NFloat y /\ ord (rv x) (rv y).
Proof.
  intros Or Ot Os S P a Fa B. assert (K : forall k, exists x, partial vs a k = NFloat x) by (intros k; destruct (partial_near vs qs a k S Fa B) as (r & E1 & _); eauto).
  assert (St : forall i x y, partial vs a i = NFloat x -> partial vs a (Datatypes.S i) = NFloat y -> ord (rv x) (rv y)).
  { revert a Fa B K. induction S as [|v q vs qs [Vv Vq] S IH]; intros a Fa B K i x y Ex Ey.
    - unfold partial in *. rewrite firstn_nil in *. cbn [foldo] in *. replace y with x by congruence. apply Or.
    - inversion P as [|? ? Pq P']; subst. destruct (step_room v q vs qs a Vv Vq Fa B) as (a' & E1 & Fa' & _ & Mo & B').
      assert (Sh : forall j, partial (v :: vs) a (Datatypes.S j) = partial vs a' j).
      { intros j. unfold partial. cbn [firstn foldo]. rewrite E1, bind_ok.
        destruct (partial_near vs qs a' j S Fa' B') as (r & _ & -> & _). reflexivity. }
      destruct i as [|i].
      + rewrite Sh in Ey. unfold partial in Ex, Ey. cbn [firstn foldo] in Ex, Ey. injection Ex as <-. injection Ey as <-. exact (Os q _ _ Pq Mo).
      + rewrite Sh in Ex, Ey. apply (IH P' a' Fa' B') with (i := i); try assumption.
        intros j. destruct (partial_near vs qs a' j S Fa' B') as (r & E2 & _). eauto. }
  intros i j L. induction L as [|j L IH].
  - destruct (K i) as [x Ex]. exists x, x. auto.
  - destruct IH as (x & y & Ex & Ey & H). destruct (K (Datatypes.S j)) as [z Ez]. exists x, z. split; [exact Ex|]. split; [exact Ez|].
    exact (Ot _ _ _ H (St j y z Ey Ez)).
Qed.
Lemma partial_mono vs qs : stand_for te vs qs -> Forall (fun q => 0 <= Q2R q) qs -> forall a, finite_of f a -> room a vs qs ->
  forall i j, (i <= j)%nat -> exists x y, partial vs a i = NFloat x /\ partial vs a j = NFloat y /\ rv x <= rv y.
Proof.
  apply (partial_ordered (fun q => 0 <= q) Rle); [intros; lra|intros; lra|]. intros q x y Pq [H _]. exact (H Pq).
Qed.
Lemma partial_anti vs qs : stand_for te vs qs -> Forall (fun q => Q2R q <= 0) qs -> forall a, finite_of f a -> room a vs qs ->
  forall i j, (i <= j)%nat -> exists x y, partial vs a i = NFloat x /\ partial vs a j = NFloat y /\ rv y <= rv x.
Proof.
  apply (partial_ordered (fun q => q <= 0) (fun x y => y <= x)); [intros; lra|intros; lra|]. intros q x y Pq [_ H]. exact (H Pq).
Qed.
End Sum.

(** The bounds in rational numbers. *)
Lemma growth_stepD f te n : Q2R (sum_growth f te n) = stepD f te ^ n.
Proof. unfold sum_growth, stepD. rewrite growth_Q. destruct (takes_as_is f te); [reflexivity|]. apply pow_mult. Qed.
Lemma INR_Q n : Q2R (inject_Z (Z.of_nat n)) = INR n.
Proof. rewrite Q2R_inject. symmetry. apply INR_IZR_INZ. Qed.
Lemma loss_stepE f te n : Q2R (sum_loss f te n) = INR n * stepE f te.
Proof. unfold sum_loss, stepE. destruct (wider_than f te); [rewrite Q2R_mult, INR_Q, h_Q; reflexivity|rewrite Q2R_0; ring]. Qed.
Lemma error_R f te n s : Q2R (sum_error f te n s) = (stepD f te ^ n - 1) * Q2R s + stepD f te ^ n * (INR n * stepE f te).
Proof. unfold sum_error. rewrite Q2R_plus, !Q2R_mult, Q2R_minus, growth_stepD, loss_stepE, Q2R_1. reflexivity. Qed.
Lemma limit_R f te n s : Q2R (sum_limit f te n s) = stepD f te ^ n * (Q2R s + INR n * stepE f te).
Proof. unfold sum_limit. rewrite Q2R_mult, Q2R_plus, growth_stepD, loss_stepE. reflexivity. Qed.

Lemma below_max f q : (q < 2 ^ f_emax f)%Q -> Q2R q < bpow radix2 (f_emax f).
Proof. intros H. apply Qlt_Rlt in H. rewrite Q2R_pow2 in H. exact H. Qed.

Lemma fold_sum f te vs qs a qa : stand_for te vs qs -> finite_of f a -> float_value a = Some qa ->
  (sum_limit f te (length vs) (Qabs qa + size_of qs) < 2 ^ f_emax f)%Q ->
  exists r p, foldo (accumulate (AFloat f) te) vs (NFloat a) = Ok (NFloat r) /\ finite_of f r /\ float_value r = Some p /\
    within (sum_error f te (length vs) (Qabs qa + size_of qs)) (qa + sum_of qs) p.
Proof.
  intros S Fa Va B. apply below_max in B. rewrite limit_R, Q2R_plus, Q2R_abs in B. pose proof (float_value_R _ _ Va) as Ra. rewrite Ra in B.
  destruct (fold_near f te vs qs S a Fa B) as (r & E1 & Fr & Er). destruct (finite_float_value _ _ r Fr) as [p Vp].
  exists r, p. split; [exact E1|]. split; [exact Fr|]. split; [exact Vp|]. unfold within. apply Rle_Qle.
  rewrite Q2R_abs, error_R, Q2R_minus, !Q2R_plus, Q2R_abs, Ra, (float_value_R _ _ Vp). exact Er.
Qed.

Lemma nsum_error_l f te c m vs qs a qa : can_read m c c -> values m c c vs -> stand_for te vs qs ->
  finite_of f a -> float_value a = Some qa -> (sum_limit f te (length vs) (Qabs qa + size_of qs) < 2 ^ f_emax f)%Q ->
  exists r p, nsum_from (AFloat f) te c (NFloat a) m = Ok (NFloat r, m) /\ finite_of f r /\ float_value r = Some p /\
    within (sum_error f te (length vs) (Qabs qa + size_of qs)) (qa + sum_of qs) p.
Proof.
  intros CR V S Fa Va B. destruct (fold_sum f te vs qs a qa S Fa Va B) as (r & p & E1 & Fr & Vp & W).
  exists r, p. unfold nsum_from. rewrite (reduce_by_l c _ _ m vs CR V), E1, bind_ok. auto.
Qed.
