(** Facts about sums of numbers of any arithmetic type (C84): one addition. *)
From Coq Require Import ZArith QArith Qreals Qpower Qabs Reals Lia Lra Psatz List Bool.
From Coq Require Import Floats.SpecFloat.
From Flocq Require Import Core Relative BinarySingleNaN.
From Verif Require Import Outcome CInt CIntFacts Interp IeeeSpec RoundSpec RoundFacts ErrorFacts
  Mixed MixedSpec MixedFacts Convert ConvertSpec ConvertFacts SumsFacts FloatSums FloatSumsSpec.
Import ListNotations.
Open Scope R_scope.

Lemma to_float f v q : number_value v = Some q -> Rabs (rndF f (Q2R q)) < bpow radix2 (f_emax f) ->
  exists x, convert (AFloat f) v = Ok (NFloat x) /\ finite_of f x /\ rv x = rndF f (Q2R q).
Proof.
  intros V Rd. destruct v as [z|x]; cbn [convert number_value] in *.
  - injection V as <-. rewrite Q2R_inject in *. eexists. split; [reflexivity|].
    exact (of_int_ok (f_prec f) (f_emax f) (fp_ok f) (fm_ok f) z Rd).
  - exists (to_ftype f x). split; [reflexivity|]. rewrite (float_value_R _ _ V) in *. destruct x as [s|s| |s m e]; try discriminate V.
    + split; [split; [reflexivity|exact I]|]. cbn [to_ftype]. change (rv (S754_zero s)) with 0. symmetry. apply round_0, valid_rnd_N.
    + cbn [to_ftype]. assert (E : F2R (Defs.Float radix2 (if s then Zneg m else Zpos m) e) = rv (S754_finite s m e)) by (destruct s; reflexivity).
      destruct (norm_ok (f_prec f) (f_emax f) (fp_ok f) (fm_ok f) (if s then Zneg m else Zpos m) e s) as [N1 N2].
      * rewrite E. exact Rd.
      * split; [exact N1|]. etransitivity; [exact N2|]. rewrite E. reflexivity.
Qed.
Lemma to_float_id f g x : le g f -> finite_of g x -> exists y, convert (AFloat f) (NFloat x) = Ok (NFloat y) /\ finite_of f y /\ rv y = rv x.
Proof. intros L F. destruct (conv_ok g f x L F) as [A B]. exists (to_ftype f x). auto. Qed.

Lemma rnd_int_err f z : Rabs (rndF f (IZR z) - IZR z) <= uF f * Rabs (IZR z).
Proof.
  destruct (Z.eq_dec z 0) as [->|N].
  - rewrite rnd_id by (apply fmt_0; apply fp_ok || apply fm_ok). rewrite Rminus_0_r, Rabs_R0. lra.
  - apply (relative_error_N_FLT radix2 (3 - f_emax f - f_prec f) (f_prec f) (prec_pos _ (fp_ok f)) (fun z => negb (Z.even z))).
    rewrite <- abs_IZR. apply Rle_trans with (bpow radix2 0).
    + apply bpow_le. pose proof (fp_ok f). pose proof (fm_ok f). lia.
    + simpl. apply IZR_le. lia.
Qed.
Lemma abs_near x y d : Rabs (x - y) <= d -> Rabs x <= Rabs y + d.
Proof. intros H. replace x with (y + (x - y)) by ring. eapply Rle_trans; [apply Rabs_triang|lra]. Qed.

Lemma common_take f g : le g f -> common f g = f.
Proof. unfold le, common. intros L. destruct (Z.ltb_spec (f_prec f) (f_prec g)); [lia|reflexivity]. Qed.
Lemma common_wide f g : (f_prec f < f_prec g)%Z -> common f g = g.
Proof. unfold common. intros L. destruct (Z.ltb_spec (f_prec f) (f_prec g)); [reflexivity|lia]. Qed.

(** Adding two numbers of a format. *)
Lemma add_near f a b : finite_of f a -> finite_of f b -> (1 + uF f) * (Rabs (rv a) + Rabs (rv b)) < bpow radix2 (f_emax f) ->
  finite_of f (SFadd (f_prec f) (f_emax f) a b) /\ rv (SFadd (f_prec f) (f_emax f) a b) = rndF f (rv a + rv b) /\
  Rabs (rndF f (rv a + rv b) - (rv a + rv b)) <= uF f * (Rabs (rv a) + Rabs (rv b)).
Proof.
  intros Fa Fb H. pose proof (Rabs_triang (rv a) (rv b)) as T. pose proof (ur_pos (f_prec f)) as U.
  pose proof (rnd_plus_err (f_prec f) (f_emax f) (fp_ok f) (rv a) (rv b)
    (finite_fmt _ _ a Fa) (finite_fmt _ _ b Fb)) as E.
  assert (E' : Rabs (rndF f (rv a + rv b) - (rv a + rv b)) <= uF f * (Rabs (rv a) + Rabs (rv b))).
  { eapply Rle_trans; [exact E|]. apply Rmult_le_compat_l; [lra|exact T]. }
  destruct (add_ok (f_prec f) (f_emax f) (fp_ok f) (fm_ok f) a b Fa Fb) as [A B].
  - eapply Rle_lt_trans; [apply abs_near, E'|]. lra.
  - auto.
Qed.

(** One step of a sum: factor and loss. *)
Definition stepD (f : ftype) (te : atype) : R := if takes_as_is f te then 1 + uF f else (1 + uF f) ^ 2.
Definition stepE (f : ftype) (te : atype) : R := if wider_than f te then hF f else 0.

Lemma stepD_1 f te : 1 <= stepD f te.
Proof. unfold stepD. pose proof (ur_pos (f_prec f)). destruct (takes_as_is f te); [lra|nra]. Qed.
Lemma stepE_0 f te : 0 <= stepE f te.
Proof. unfold stepE. pose proof (er_pos (f_prec f) (f_emax f)). destruct (wider_than f te); lra. Qed.

Lemma step_near f te a e q : finite_of f a -> value_of_type te e -> number_value e = Some q ->
  stepD f te * (Rabs (rv a) + Rabs (Q2R q)) + stepE f te < bpow radix2 (f_emax f) ->
  exists r y, accumulate (AFloat f) te (NFloat a) e = Ok (NFloat r) /\ finite_of f r /\
    Rabs (rv r - (rv a + Q2R q)) <= (stepD f te - 1) * (Rabs (rv a) + Rabs (Q2R q)) + stepE f te /\
    ((0 <= Q2R q -> 0 <= y) /\ (Q2R q <= 0 -> y <= 0)) /\ (exists h, le f h /\ rv r = rndF f (rndF h (rv a + y))).
Proof.
  intros Fa Ve Vq B. pose proof (ur_pos (f_prec f)) as U. pose proof (Rabs_pos (rv a)) as Pa. pose proof (Rabs_pos (Q2R q)) as Pq.
  destruct te as [t|g]; destruct e as [z|x]; try contradiction; cbn [value_of_type number_value] in *.
  - (* integers *)
    unfold stepD, stepE in *. cbn [takes_as_is wider_than] in *. injection Vq as <-. rewrite Q2R_inject in *.
    pose proof (rnd_int_err f z) as Ez. pose proof (abs_near _ _ _ Ez) as Az.
    destruct (of_int_ok (f_prec f) (f_emax f) (fp_ok f) (fm_ok f) z) as [Fz Rz].
    { eapply Rle_lt_trans; [exact Az|]. nra. }
    set (y := SpecFloat.binary_normalize (f_prec f) (f_emax f) z 0 false) in *.
    destruct (to_float_id f f a (le_refl f) Fa) as (a' & Ca & Fa' & Ra).
    destruct (add_near f a' y Fa' Fz) as (Fr & Rr & Er).
    { rewrite Ra, Rz. eapply Rle_lt_trans; [|exact B]. rewrite Rplus_0_r. nra. }
    set (s := SFadd (f_prec f) (f_emax f) a' y) in *.
    destruct (to_float_id f f s (le_refl f) Fr) as (r & Cr & Fr' & Rr').
    exists r, (rndF f (IZR z)). unfold accumulate, plus, operate. cbn [usual]. rewrite Ca, bind_ok.
    change (convert (AFloat f) (NInt z)) with (Ok (NFloat y)). rewrite !bind_ok. fold s. split; [exact Cr|].
    split; [exact Fr'|]. rewrite Rr', Rr, Ra, Rz. rewrite Ra, Rz in Er. split; [|split].
    + replace (rndF f (rv a + rndF f (IZR z)) - (rv a + IZR z)) with
        ((rndF f (rv a + rndF f (IZR z)) - (rv a + rndF f (IZR z))) + (rndF f (IZR z) - IZR z)) by ring.
      eapply Rle_trans; [apply Rabs_triang|]. nra.
    + split; intros P; rewrite <- (round_0 radix2 (fe (f_prec f) (f_emax f)) ZnearestE); (apply rnd_le; [apply fp_ok|exact P]).
    + exists f. split; [apply le_refl|]. symmetry. apply rnd_id. rewrite <- Ra at 1. rewrite <- Rz at 1. rewrite <- Rr. apply finite_fmt, Fr.
  - (* floating-point numbers *)
    rewrite (float_value_R _ _ Vq) in *. unfold accumulate, plus, operate. cbn [usual].
    destruct (Z_le_gt_dec (f_prec g) (f_prec f)) as [L|L].
    + assert (T : takes_as_is f (AFloat g) = true) by (cbn; apply Z.leb_le; lia).
      assert (W : wider_than f (AFloat g) = false) by (cbn; apply Z.ltb_ge; lia).
      unfold stepD, stepE in *. rewrite T, W in *. rewrite (common_take f g L).
      destruct (to_float_id f f a (le_refl f) Fa) as (a' & Ca & Fa' & Ra).
      destruct (to_float_id f g x L Ve) as (y & Cy & Fy & Ry).
      destruct (add_near f a' y Fa' Fy) as (Fr & Rr & Er); [rewrite Ra, Ry; lra|].
      set (s := SFadd (f_prec f) (f_emax f) a' y) in *.
      destruct (to_float_id f f s (le_refl f) Fr) as (r & Cr & Fr' & Rr').
      exists r, (rv x). rewrite Ca, bind_ok, Cy, !bind_ok. fold s. split; [exact Cr|]. split; [exact Fr'|].
      rewrite Rr', Rr, Ra, Ry. rewrite Ra, Ry in Er. split; [lra|]. split; [auto|].
      exists f. split; [apply le_refl|]. symmetry. apply rnd_id. rewrite <- Ra at 1. rewrite <- Ry at 1. rewrite <- Rr. apply finite_fmt, Fr.
    + assert (L' : le f g) by (unfold le; lia). assert (T : takes_as_is f (AFloat g) = false) by (cbn; apply Z.leb_gt; lia).
      assert (W : wider_than f (AFloat g) = true) by (cbn; apply Z.ltb_lt; lia).
      unfold stepD, stepE in *. rewrite T, W in *. rewrite (common_wide f g) by lia.
      pose proof (u_le _ _ L') as Ug. pose proof (ur_pos (f_prec g)) as U'.
      assert (M : bpow radix2 (f_emax f) <= bpow radix2 (f_emax g)) by (apply bpow_le, le_emax, L').
      pose proof (er_pos (f_prec f) (f_emax f)) as Hh.
      destruct (to_float_id g f a L' Fa) as (a' & Ca & Fa' & Ra).
      destruct (to_float_id g g x (le_refl g) Ve) as (y & Cy & Fy & Ry).
      destruct (add_near g a' y Fa' Fy) as (Fs & Rs & Es); [rewrite Ra, Ry; eapply Rlt_le_trans; [|exact M]; eapply Rle_lt_trans; [|exact B]; nra|].
      set (s := SFadd (f_prec g) (f_emax g) a' y) in *. rewrite Ra, Ry in Es. rewrite Ra, Ry in Rs.
      assert (Vs : exists p, float_value s = Some p) by exact (finite_float_value _ _ s Fs). destruct Vs as [p Vs].
      pose proof (rnd_err (f_prec f) (f_emax f) (fp_ok f) (rv s)) as Er.
      pose proof (Rabs_triang (rv a) (rv x)) as Tr. pose proof (abs_near _ _ _ Es) as As. rewrite <- Rs in As, Es.
      assert (As' : Rabs (rv s) <= (1 + uF f) * (Rabs (rv a) + Rabs (rv x))) by nra.
      destruct (to_float f (NFloat s) p Vs) as (r & Cr & Fr & Rr).
      { rewrite (float_value_R _ _ Vs). eapply Rle_lt_trans; [apply abs_near, Er|]. eapply Rle_lt_trans; [|exact B]. nra. }
      rewrite (float_value_R _ _ Vs) in Rr.
      exists r, (rv x). rewrite Ca, bind_ok, Cy, !bind_ok. fold s. split; [exact Cr|]. split; [exact Fr|]. rewrite Rr. split; [|split; [auto|]].
      * replace (rndF f (rv s) - (rv a + rv x)) with ((rndF f (rv s) - rv s) + (rv s - (rv a + rv x))) by ring.
        eapply Rle_trans; [apply Rabs_triang|]. nra.
      * exists g. split; [exact L'|]. rewrite Rs. reflexivity.
Qed.
