(** Facts about rounding: the specification floats of the standard library against the real numbers (C65). *)
From Coq Require Import ZArith QArith Qreals Reals Lia Lra Psatz List Bool.
From Coq Require Import Floats.SpecFloat.
From Flocq Require Import Core BinarySingleNaN Plus_error Relative.
From Verif Require Import IeeeSpec.
Import ListNotations.
Open Scope R_scope.

Section Format.
Variables prec emax : Z.
Hypothesis Hp : (1 < prec)%Z.
Hypothesis Hm : (prec < emax)%Z.

Local Instance prec_pos : Prec_gt_0 prec. Proof. unfold Prec_gt_0. lia. Qed.
Local Instance prec_lt : Prec_lt_emax prec emax. Proof. exact Hm. Qed.

Definition fe : Z -> Z := SpecFloat.fexp prec emax.
Definition rnd (x : R) : R := round radix2 fe ZnearestE x.
Definition rv (x : spec_float) : R := SF2R radix2 x.
Definition fmt (x : R) : Prop := generic_format radix2 fe x.

Local Instance fe_valid : Valid_exp fe := FLT_exp_valid (SpecFloat.emin prec emax) prec.
Local Instance fe_mono : Monotone_exp fe := FLT_exp_monotone (SpecFloat.emin prec emax) prec.

Lemma fe_flt : fe = FLT_exp (3 - emax - prec) prec.
Proof. reflexivity. Qed.

(** ** The operations *)
Lemma round_aux_equiv sx mx ex lx :
  SpecFloat.binary_round_aux prec emax sx mx ex lx = binary_round_aux prec emax mode_NE sx mx ex lx.
Proof.
  unfold SpecFloat.binary_round_aux, binary_round_aux.
  set (mrse' := shr_fexp _ _ _). case mrse'; intros mrs' e'; simpl.
  assert (E : round_nearest_even (shr_m mrs') (loc_of_shr_record mrs') =
    choice_mode mode_NE sx (shr_m mrs') (loc_of_shr_record mrs')).
  { case (loc_of_shr_record mrs'); [reflexivity|intro c]. case c; [|reflexivity..].
    now simpl; unfold Round.cond_incr; case Z.even. }
  now rewrite E.
Qed.

Lemma round_equiv s m e : SpecFloat.binary_round prec emax s m e = binary_round prec emax mode_NE s m e.
Proof.
  unfold SpecFloat.binary_round, binary_round, shl_align_fexp.
  set (mez := shl_align _ _ _); case mez as [mz ez]. apply round_aux_equiv.
Qed.

Lemma normalize_equiv m e szero :
  SpecFloat.binary_normalize prec emax m e szero = B2SF (binary_normalize prec emax prec_pos prec_lt mode_NE m e szero).
Proof.
  case m as [|p|p].
  - now simpl.
  - simpl; rewrite B2SF_SF2B; apply round_equiv.
  - simpl; rewrite B2SF_SF2B; apply round_equiv.
Qed.

Lemma mul_equiv (x y : binary_float prec emax) : SFmul prec emax (B2SF x) (B2SF y) = B2SF (Bmult mode_NE x y).
Proof.
  case x as [sx|sx| |sx mx ex Bx]; case y as [sy|sy| |sy my ey By]; [now trivial..|].
  simpl. rewrite B2SF_SF2B. apply round_aux_equiv.
Qed.

Lemma add_equiv (x y : binary_float prec emax) : SFadd prec emax (B2SF x) (B2SF y) = B2SF (Bplus mode_NE x y).
Proof.
  case x as [sx|sx| |sx mx ex Bx]; case y as [sy|sy| |sy my ey By]; [now (trivial || simpl; case Bool.eqb)..|].
  apply normalize_equiv.
Qed.

Lemma sub_equiv (x y : binary_float prec emax) : SFsub prec emax (B2SF x) (B2SF y) = B2SF (Bminus mode_NE x y).
Proof.
  case x as [sx|sx| |sx mx ex Bx]; case y as [sy|sy| |sy my ey By]; [now (trivial || simpl; case Bool.eqb)..|].
  simpl. unfold Zminus. rewrite <- cond_Zopp_negb. apply normalize_equiv.
Qed.

Lemma finite_B x : finite_number prec emax x -> exists b : binary_float prec emax, B2SF b = x /\ is_finite b = true /\ B2R b = rv x.
Proof.
  intros [V F]. exists (SF2B x V). split; [apply B2SF_SF2B|]. split; [|apply B2R_SF2B].
  rewrite is_finite_SF2B. destruct x; try contradiction; reflexivity.
Qed.
Lemma B_finite (b : binary_float prec emax) : is_finite b = true -> finite_number prec emax (B2SF b) /\ rv (B2SF b) = B2R b.
Proof.
  intros F. split; [|apply SF2R_B2SF]. split; [apply valid_binary_B2SF|]. destruct b; try discriminate; exact I.
Qed.

Lemma finite_fmt x : finite_number prec emax x -> fmt (rv x).
Proof. intros F. destruct (finite_B x F) as (b & <- & _ & <-). apply generic_format_B2R. Qed.

Lemma finite_lt x : finite_number prec emax x -> Rabs (rv x) < bpow radix2 emax.
Proof. intros F. destruct (finite_B x F) as (b & <- & _ & <-). apply abs_B2R_lt_emax. Qed.

Lemma mul_ok x y : finite_number prec emax x -> finite_number prec emax y ->
  Rabs (rnd (rv x * rv y)) < bpow radix2 emax ->
  finite_number prec emax (SFmul prec emax x y) /\ rv (SFmul prec emax x y) = rnd (rv x * rv y).
Proof.
  intros Fx Fy H. destruct (finite_B x Fx) as (a & <- & Fa & Ea). destruct (finite_B y Fy) as (b & <- & Fb & Eb).
  rewrite mul_equiv. pose proof (Bmult_correct prec emax _ _ mode_NE a b) as C.
  rewrite Ea, Eb in C. rewrite Rlt_bool_true in C by exact H. destruct C as (C1 & C2 & _).
  rewrite Fa, Fb in C2. destruct (B_finite _ C2) as [F E]. split; [exact F|]. rewrite E. exact C1.
Qed.
Lemma add_ok x y : finite_number prec emax x -> finite_number prec emax y ->
  Rabs (rnd (rv x + rv y)) < bpow radix2 emax ->
  finite_number prec emax (SFadd prec emax x y) /\ rv (SFadd prec emax x y) = rnd (rv x + rv y).
Proof.
  intros Fx Fy H. destruct (finite_B x Fx) as (a & <- & Fa & Ea). destruct (finite_B y Fy) as (b & <- & Fb & Eb).
  rewrite add_equiv. pose proof (Bplus_correct prec emax _ _ mode_NE a b Fa Fb) as C.
  rewrite Ea, Eb in C. rewrite Rlt_bool_true in C by exact H. destruct C as (C1 & C2 & _).
  destruct (B_finite _ C2) as [F E]. split; [exact F|]. rewrite E. exact C1.
Qed.
Lemma sub_ok x y : finite_number prec emax x -> finite_number prec emax y ->
  Rabs (rnd (rv x - rv y)) < bpow radix2 emax ->
  finite_number prec emax (SFsub prec emax x y) /\ rv (SFsub prec emax x y) = rnd (rv x - rv y).
Proof.
  intros Fx Fy H. destruct (finite_B x Fx) as (a & <- & Fa & Ea). destruct (finite_B y Fy) as (b & <- & Fb & Eb).
  rewrite sub_equiv. pose proof (Bminus_correct prec emax _ _ mode_NE a b Fa Fb) as C.
  rewrite Ea, Eb in C. rewrite Rlt_bool_true in C by exact H. destruct C as (C1 & C2 & _).
  destruct (B_finite _ C2) as [F E]. split; [exact F|]. rewrite E. exact C1.
Qed.
Lemma of_int_ok z : Rabs (rnd (IZR z)) < bpow radix2 emax ->
  finite_number prec emax (SpecFloat.binary_normalize prec emax z 0 false) /\
  rv (SpecFloat.binary_normalize prec emax z 0 false) = rnd (IZR z).
Proof.
  intros H. rewrite normalize_equiv. pose proof (binary_normalize_correct prec emax prec_pos prec_lt mode_NE z 0 false) as C.
  cbv zeta in C. assert (E0 : F2R (Float radix2 z 0) = IZR z) by (unfold F2R; simpl; ring). rewrite E0 in C.
  rewrite Rlt_bool_true in C by exact H. destruct C as (C1 & C2 & _).
  destruct (B_finite _ C2) as [F E]. split; [exact F|]. rewrite E. exact C1.
Qed.

(** ** Rounding errors *)
Definition ur : R := / 2 * bpow radix2 (- prec + 1).
Definition er : R := / 2 * bpow radix2 (3 - emax - prec).

Lemma ur_pos : 0 < ur. Proof. unfold ur. pose proof (bpow_gt_0 radix2 (- prec + 1)). lra. Qed.
Lemma er_pos : 0 < er. Proof. unfold er. pose proof (bpow_gt_0 radix2 (3 - emax - prec)). lra. Qed.

Lemma rnd_err x : Rabs (rnd x - x) <= ur * Rabs x + er.
Proof.
  destruct (error_N_FLT radix2 (3 - emax - prec) prec prec_pos (fun z => negb (Z.even z)) x) as (e & h & He & Hh & _ & E).
  unfold rnd. rewrite fe_flt. rewrite E.
  replace (x * (1 + e) + h - x) with (x * e + h) by ring.
  eapply Rle_trans; [apply Rabs_triang|]. rewrite Rabs_mult. unfold ur, er.
  pose proof (Rabs_pos x). nra.
Qed.

Lemma rnd_plus_err x y : fmt x -> fmt y -> Rabs (rnd (x + y) - (x + y)) <= ur * Rabs (x + y).
Proof.
  intros Fx Fy.
  destruct (FLT_plus_error_N_ex radix2 (3 - emax - prec) prec (fun z => negb (Z.even z)) x y Fx Fy) as (e & He & E).
  unfold rnd. rewrite fe_flt. rewrite E.
  replace ((x + y) * (1 + e) - (x + y)) with (e * (x + y)) by ring. rewrite Rabs_mult.
  apply Rmult_le_compat_r; [apply Rabs_pos|]. eapply Rle_trans; [exact He|].
  unfold u_ro. fold ur. pose proof ur_pos as U. unfold Rdiv. rewrite <- (Rmult_1_r ur) at 3.
  apply Rmult_le_compat_l; [lra|]. rewrite <- Rinv_1. apply Rinv_le; lra.
Qed.

Lemma rnd_id x : fmt x -> rnd x = x.
Proof. intros F. apply round_generic; [apply valid_rnd_N|exact F]. Qed.
Lemma rnd_le x y : x <= y -> rnd x <= rnd y.
Proof. intros H. apply round_le; [exact fe_valid|apply valid_rnd_N|exact H]. Qed.

Lemma fmt_scaled m e : (Z.abs m < 2 ^ prec)%Z -> (3 - emax - prec <= e)%Z -> fmt (F2R (Float radix2 m e)).
Proof.
  intros H1 H2. apply (generic_format_FLT radix2 (3 - emax - prec) prec).
  exists (Float radix2 m e); [reflexivity|exact H1|exact H2].
Qed.
Lemma fmt_int z : (Z.abs z < 2 ^ prec)%Z -> fmt (IZR z).
Proof.
  intros H. replace (IZR z) with (F2R (Float radix2 z 0)) by (unfold F2R; simpl; ring). apply fmt_scaled; [exact H|lia].
Qed.
Lemma pow_prec : (2 < 2 ^ prec)%Z.
Proof. change 2%Z with (2 ^ 1)%Z at 1. apply Z.pow_lt_mono_r; lia. Qed.
Lemma fmt_0 : fmt 0. Proof. apply fmt_int. pose proof pow_prec. simpl. lia. Qed.
Lemma fmt_1 : fmt 1. Proof. apply fmt_int. pose proof pow_prec. simpl. lia. Qed.
Lemma one_lt : 1 < bpow radix2 emax.
Proof. change 1 with (bpow radix2 0). apply bpow_lt. lia. Qed.

(** ** The values of floats *)
Lemma float_value_R x q : float_value x = Some q -> Q2R q = rv x.
Proof.
  destruct x as [s|s| |s m e]; cbn [float_value]; intros H; try discriminate; injection H as <-.
  - unfold Q2R. simpl. lra.
  - unfold rv, SF2R, F2R. cbn [Fnum Fexp].
    assert (C : cond_Zopp s (Zpos m) = (if s then Zneg m else Zpos m)%Z) by (destruct s; reflexivity). rewrite C.
    destruct e as [|k|k].
    + unfold Q2R, inject_Z. cbn [Qnum Qden]. rewrite Z.mul_1_r. simpl. lra.
    + unfold Q2R, inject_Z. cbn [Qnum Qden]. rewrite mult_IZR, (IZR_Zpower radix2) by lia. simpl (IZR 1). lra.
    + unfold Q2R. cbn [Qnum Qden]. f_equal.
      rewrite Pos2Z.inj_pow. simpl. reflexivity.
Qed.
Lemma finite_float_value x : finite_number prec emax x -> exists q, float_value x = Some q.
Proof. intros [_ F]. destruct x; try contradiction; eexists; reflexivity. Qed.
Lemma float_value_finite x q : valid_binary prec emax x = true -> float_value x = Some q -> finite_number prec emax x.
Proof. intros V F. split; [exact V|]. destruct x; try discriminate; exact I. Qed.
End Format.
