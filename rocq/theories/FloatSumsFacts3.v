(** Facts about sums of numbers of any arithmetic type (C84): inner products. *)
From Coq Require Import ZArith QArith Qreals Qpower Qabs Reals Lia Lra Psatz List Bool.
From Coq Require Import Floats.SpecFloat.
From Flocq Require Import Core Relative BinarySingleNaN.
From Verif Require Import Outcome CInt CIntFacts Spec SpecFacts ShapeSpec Shape ShapeFacts ShapeFacts2 ForEach ForEachSpec ForEachFacts
  Memory MemFacts Container ContainerSpec ContainerFacts ContainerFacts2 ContainerFacts3 Algo AlgoSpec AlgoFacts AlgoFacts2 AlgoFacts3 AlgoFacts4
  Interp IeeeSpec RoundSpec RoundFacts ErrorFacts
  Mixed MixedSpec MixedFacts Convert ConvertSpec ConvertFacts Sums SumsFacts FloatSums FloatSumsSpec FloatSumsFacts FloatSumsFacts2.
Import ListNotations.
Open Scope R_scope.

Lemma ndot_from_l ta t1 t2 c1 c2 init m vs1 vs2 : can_read m c1 c1 -> can_read m c1 c2 -> values m c1 c1 vs1 -> values m c1 c2 vs2 ->
  ndot_from ta t1 t2 c1 c2 init m =
  (a <- foldo (fun a p => q <- times t1 t2 (fst p) (snd p) ;; accumulate ta (usual t1 t2) a q) (combine vs1 vs2) init ;; Ok (a, m)).
Proof.
  intros CR1 CR2 V1 V2. unfold ndot_from. rewrite loop_run; [|apply can_read_live; exact CR1| |].
  - unfold values in *. revert vs2 V2 init. induction V1 as [|is_ v1 l vs1 H1 _ IH]; intros vs2 V2 a.
    + reflexivity.
    + inversion V2 as [|? v2 ? vs2' H2 V2']; subst. cbn [run map combine foldo fst snd].
      rewrite (load_peek _ _ _ H1), bind_ok, (load_peek _ _ _ H2), bind_ok.
      destruct (times t1 t2 v1 v2) as [q| | |]; try reflexivity. rewrite !bind_ok.
      destruct (accumulate ta (usual t1 t2) a q) as [b| | |]; try reflexivity. rewrite !bind_ok. apply IH. exact V2'.
  - constructor; [apply can_read_live; exact CR2|constructor].
  - intros ps [s mm] sm'. destruct ps as [|p [|q [|? ?]]]; try discriminate. cbn [fst snd].
    destruct (load mm p) as [v| | |]; try discriminate. rewrite bind_ok. destruct (load mm q) as [w| | |]; try discriminate.
    rewrite bind_ok. destruct (times t1 t2 v w) as [x| | |]; try discriminate. rewrite bind_ok.
    destruct (accumulate ta (usual t1 t2) s x); try discriminate. rewrite bind_ok.
    intros E. injection E as <-. apply same_refl.
Qed.

Lemma ninner_from_l dbg ta t1 t2 c1 c2 init m : legal (c_shape c1) -> legal (c_shape c2) -> c_shape c1 <> [] -> dims c1 = dims c2 ->
  ninner_from dbg ta t1 t2 c1 c2 init m = ndot_from ta t1 t2 c1 c2 init m.
Proof.
  intros L1 L2 Ne Eq. unfold ninner_from.
  assert (Hl : length (c_shape c1) = length (c_shape c2)).
  { apply (f_equal (@length Z)) in Eq. unfold dims, vals in Eq. rewrite !map_length in Eq. exact Eq. }
  destruct (shape_eq_same_order _ _ L1 L2 Ne Hl) as (r & E & H).
  assert (r = true) by (apply H; exact Eq). subst r. rewrite E, kassert_ok, bind_ok. reflexivity.
Qed.

Lemma ninner_checks_l ta t1 t2 c1 c2 init m :
  ninner_from false ta t1 t2 c1 c2 init m = ndot_from ta t1 t2 c1 c2 init m /\
  ninner false t1 t2 c1 c2 m = ndot t1 t2 c1 c2 m /\
  (legal (c_shape c1) -> legal (c_shape c2) -> c_shape c1 <> [] -> length (c_shape c1) = length (c_shape c2) ->
   dims c1 <> dims c2 ->
   ninner_from true ta t1 t2 c1 c2 init m = Abort /\ ninner true t1 t2 c1 c2 m = Abort).
Proof.
  split; [reflexivity|]. split; [reflexivity|]. intros L1 L2 Ne Hl Eq. unfold ninner, ninner_from.
  destruct (shape_eq_same_order _ _ L1 L2 Ne Hl) as (r & E & H). rewrite E.
  destruct r; [exfalso; apply Eq, H; reflexivity|]. split; reflexivity.
Qed.

Section Dot.
Variables (f1 f2 : ftype).
Notation h := (common f1 f2).

Lemma times_near v1 v2 x y : value_of_type (AFloat f1) v1 -> number_value v1 = Some x ->
  value_of_type (AFloat f2) v2 -> number_value v2 = Some y ->
  (1 + uF h) * Rabs (Q2R x * Q2R y) + hF h < bpow radix2 (f_emax h) ->
  exists p q, times (AFloat f1) (AFloat f2) v1 v2 = Ok (NFloat p) /\ finite_of h p /\ float_value p = Some q /\
    Rabs (Q2R q - Q2R x * Q2R y) <= uF h * Rabs (Q2R x * Q2R y) + hF h.
Proof.
  intros W1 N1 W2 N2 B. destruct v1 as [|a]; [contradiction|]. destruct v2 as [|b]; [contradiction|]. cbn [value_of_type number_value] in *.
  destruct (to_float_id h f1 a (common_l f1 f2) W1) as (a' & Ea & Fa & Ra).
  destruct (to_float_id h f2 b (common_r f1 f2) W2) as (b' & Eb & Fb & Rb).
  rewrite (float_value_R _ _ N1), (float_value_R _ _ N2) in *.
  pose proof (rnd_errF h h (rv a * rv b) (le_refl h)) as Er.
  destruct (mul_ok (f_prec h) (f_emax h) (fp_ok h) (fm_ok h) a' b' Fa Fb) as [Fp Rp].
  { rewrite Ra, Rb. eapply Rle_lt_trans; [apply abs_near, Er|]. lra. }
  destruct (finite_float_value _ _ _ Fp) as [q Vq]. eexists _, q. split; [|split; [exact Fp|split; [exact Vq|]]].
  - unfold times, operate. cbn [usual]. rewrite Ea, bind_ok, Eb, bind_ok. reflexivity.
  - rewrite (float_value_R _ _ Vq), Rp, Ra, Rb. exact Er.
Qed.

Lemma products_cons x y xs ys : products (x :: xs) (y :: ys) = (x * y)%Q :: products xs ys.
Proof. reflexivity. Qed.

Lemma products_near vs1 qs1 : stand_for (AFloat f1) vs1 qs1 -> forall vs2 qs2, stand_for (AFloat f2) vs2 qs2 -> length vs1 = length vs2 ->
  (1 + uF h) * Q2R (size_of (products qs1 qs2)) + INR (length vs1) * hF h < bpow radix2 (f_emax h) ->
  exists ps pqs, stand_for (AFloat h) ps pqs /\ length ps = length vs1 /\
    (forall ta a, foldo (fun a p => q <- times (AFloat f1) (AFloat f2) (fst p) (snd p) ;; accumulate ta (AFloat h) a q) (combine vs1 vs2) a
                  = foldo (accumulate ta (AFloat h)) ps a) /\
    Rabs (Q2R (sum_of pqs) - Q2R (sum_of (products qs1 qs2))) <= uF h * Q2R (size_of (products qs1 qs2)) + INR (length vs1) * hF h /\
    Q2R (size_of pqs) <= (1 + uF h) * Q2R (size_of (products qs1 qs2)) + INR (length vs1) * hF h.
Proof.
  induction 1 as [|v1 x vs1 qs1 [W1 N1] _ IH]; intros vs2 qs2 S2 L B.
  - exists [], []. split; [constructor|]. split; [reflexivity|]. cbn [combine foldo length INR].
    replace (products [] qs2) with (@nil Q) by reflexivity. rewrite sum_nil, size_nil, Rminus_0_r, Rabs_R0. split; [reflexivity|]. split; lra.
  - inversion S2 as [|v2 y vs2' qs2' [W2 N2] S2' Ev Eq]; subst; [discriminate L|]. cbn [length] in L. injection L as L.
    rewrite products_cons, size_cons in *. rewrite Q2R_mult in *. cbn [length] in B. rewrite S_INR in B.
    pose proof (size_pos (products qs1 qs2')) as P1. pose proof (Rabs_pos (Q2R x * Q2R y)) as P2.
    pose proof (ur_pos (f_prec h)) as U. pose proof (er_pos (f_prec h) (f_emax h)) as Hp. pose proof (pos_INR (length vs1)) as Pn.
    set (s := Q2R (size_of (products qs1 qs2'))) in *. set (n := INR (length vs1)) in *. set (u := uF h) in *. set (w := hF h) in *.
    assert (Q1 : 0 <= (1 + u) * s) by (apply Rmult_le_pos; lra).
    assert (Q2 : 0 <= (1 + u) * Rabs (Q2R x * Q2R y)) by (apply Rmult_le_pos; lra).
    assert (Q3 : 0 <= n * w) by (apply Rmult_le_pos; lra).
    assert (Q4 : 0 <= w) by lra.
    rewrite Rmult_plus_distr_l in B.
    destruct (IH vs2' qs2' S2' L) as (ps & pqs & Sp & Lp & Ef & Es & Ez).
    { fold u w n s. lra. }
    destruct (times_near v1 v2 x y W1 N1 W2 N2) as (p & q & Et & Fp & Vq & Eq).
    { fold u w. lra. }
    exists (NFloat p :: ps), (q :: pqs). split; [constructor; [split; [exact Fp|exact Vq]|exact Sp]|].
    split; [cbn [length]; rewrite Lp; reflexivity|]. split.
    { intros ta a. cbn [combine foldo fst snd]. rewrite Et, bind_ok. destruct (accumulate ta (AFloat h) a (NFloat p)) as [b| | |]; try reflexivity.
      rewrite !bind_ok. apply Ef. }
    rewrite !sum_cons, size_cons, Q2R_mult. cbn [length]. rewrite S_INR. fold u w n s in Es, Ez, Eq |- *. split.
    + replace (Q2R q + Q2R (sum_of pqs) - (Q2R x * Q2R y + Q2R (sum_of (products qs1 qs2'))))
        with ((Q2R q - Q2R x * Q2R y) + (Q2R (sum_of pqs) - Q2R (sum_of (products qs1 qs2')))) by ring.
      eapply Rle_trans; [apply Rabs_triang|]. rewrite Rmult_plus_distr_l. lra.
    + pose proof (abs_near _ _ _ Eq). rewrite Rmult_plus_distr_l. lra.
Qed.

Lemma fold_dot_near f vs1 vs2 qs1 qs2 a qa : stand_for (AFloat f1) vs1 qs1 -> stand_for (AFloat f2) vs2 qs2 -> length vs1 = length vs2 ->
  finite_of f a -> float_value a = Some qa ->
  (dot_limit f h (length vs1) (Qabs qa + size_of (products qs1 qs2)) < 2 ^ f_emax f)%Q ->
  (dot_limit f h (length vs1) (Qabs qa + size_of (products qs1 qs2)) < 2 ^ f_emax h)%Q ->
  exists r p, foldo (fun a p => q <- times (AFloat f1) (AFloat f2) (fst p) (snd p) ;; accumulate (AFloat f) (AFloat h) a q) (combine vs1 vs2) (NFloat a)
      = Ok (NFloat r) /\ finite_of f r /\ float_value r = Some p /\
    within (dot_error f h (length vs1) (Qabs qa + size_of (products qs1 qs2))) (qa + sum_of (products qs1 qs2)) p.
Proof.
  intros S1 S2 L Fa Va Bf Bh. pose proof (float_value_R _ _ Va) as Ra. unfold dot_limit, dot_growth, dot_loss in Bf, Bh.
  apply below_max in Bf, Bh. rewrite !Q2R_plus, !Q2R_mult, !Q2R_plus, !Q2R_mult, !growth_stepD, !loss_stepE, !INR_Q, !u_Q, !h_Q, !Q2R_abs, !Q2R_1, !Ra in Bf, Bh.
  pose proof (stepD_1 f (AFloat h)) as H1. pose proof (stepE_0 f (AFloat h)) as H0. pose proof (pow_ge1 _ (length vs1) H1) as G.
  pose proof (pos_INR (length vs1)) as Pn. pose proof (ur_pos (f_prec h)) as U. pose proof (er_pos (f_prec h) (f_emax h)) as Hp.
  pose proof (size_pos (products qs1 qs2)) as Ps. pose proof (Rabs_pos (rv a)) as Pa.
  set (g := stepD f (AFloat h) ^ length vs1) in *. set (E := stepE f (AFloat h)) in *. set (s := Q2R (size_of (products qs1 qs2))) in *.
  set (x := Rabs (rv a)) in *. set (n := INR (length vs1)) in *.
  change (er (f_prec h) (f_emax h)) with (hF h) in *. change (ur (f_prec h)) with (uF h) in *. set (u := uF h) in *. set (w := hF h) in *.
  assert (K1 : 0 <= n * w) by (apply Rmult_le_pos; lra). assert (K2 : 0 <= n * E) by (apply Rmult_le_pos; lra).
  assert (K3 : 1 * (1 + u) <= g * (1 + u)) by (apply Rmult_le_compat_r; lra).
  assert (K4 : (1 + u) * s <= g * (1 + u) * (x + s)) by (apply Rmult_le_compat; lra).
  assert (K5 : 1 * (n * w + n * E) <= g * (n * w + n * E)) by (apply Rmult_le_compat_r; lra).
  destruct (products_near vs1 qs1 S1 vs2 qs2 S2 L) as (ps & pqs & Sp & Lp & Ef & Es & Ez).
  { fold u w n s. lra. }
  fold u w n s in Es, Ez.
  assert (K6 : g * (x + Q2R (size_of pqs) + n * E) <= g * (1 + u) * (x + s) + g * (n * w + n * E)).
  { replace (g * (1 + u) * (x + s) + g * (n * w + n * E)) with (g * ((1 + u) * (x + s) + (n * w + n * E))) by ring.
    apply Rmult_le_compat_l; [lra|]. assert (0 <= u * x) by (apply Rmult_le_pos; lra).
    replace ((1 + u) * (x + s)) with (x + u * x + (1 + u) * s) by ring. lra. }
  destruct (fold_near f (AFloat h) ps pqs Sp a Fa) as (r & E1 & Fr & Er).
  { unfold room. rewrite Lp. fold g E n x. lra. }
  rewrite Lp in Er. fold g E n x in Er.
  destruct (finite_float_value _ _ r Fr) as [p Vp].
  exists r, p. split; [rewrite Ef; exact E1|]. split; [exact Fr|]. split; [exact Vp|]. unfold within. apply Rle_Qle.
  unfold dot_error, dot_growth, dot_loss.
  rewrite Q2R_abs, Q2R_minus, !Q2R_plus, !Q2R_mult, !Q2R_plus, Q2R_minus, !Q2R_mult, !Q2R_plus, growth_stepD, loss_stepE, INR_Q, u_Q, h_Q, Q2R_abs, Q2R_1, Ra, (float_value_R _ _ Vp).
  fold g E s x n.
  change (er (f_prec h) (f_emax h)) with w. change (ur (f_prec h)) with u.
  replace (rv r - (rv a + Q2R (sum_of (products qs1 qs2))))
    with ((rv r - (rv a + Q2R (sum_of pqs))) + (Q2R (sum_of pqs) - Q2R (sum_of (products qs1 qs2)))) by ring.
  eapply Rle_trans; [apply Rabs_triang|].
  assert (K7 : (g - 1) * (x + Q2R (size_of pqs)) <= (g - 1) * (x + ((1 + u) * s + n * w))) by (apply Rmult_le_compat_l; lra).
  assert (K8 : 0 <= u * x) by (apply Rmult_le_pos; lra). assert (K9 : 0 <= g * (u * x)) by (apply Rmult_le_pos; lra).
  apply Rle_trans with ((g - 1) * (x + ((1 + u) * s + n * w)) + g * (n * E) + (u * s + n * w)); [lra|].
  replace ((g * (1 + u) - 1) * (x + s) + g * (n * w + n * E))
    with ((g - 1) * (x + ((1 + u) * s + n * w)) + g * (n * E) + (u * s + n * w) + g * (u * x)) by ring. lra.
Qed.
End Dot.

Lemma values_length {T} (m : mem T) c1 c2 vs : values m c1 c2 vs -> length vs = length (box (dims c1)).
Proof. unfold values. induction 1; cbn [length]; congruence. Qed.

Lemma ndot_error_l f f1 f2 c1 c2 m vs1 vs2 qs1 qs2 a qa : can_read m c1 c1 -> can_read m c1 c2 -> values m c1 c1 vs1 -> values m c1 c2 vs2 ->
  stand_for (AFloat f1) vs1 qs1 -> stand_for (AFloat f2) vs2 qs2 -> finite_of f a -> float_value a = Some qa ->
  (dot_limit f (common f1 f2) (length vs1) (Qabs qa + size_of (products qs1 qs2)) < 2 ^ f_emax f)%Q ->
  (dot_limit f (common f1 f2) (length vs1) (Qabs qa + size_of (products qs1 qs2)) < 2 ^ f_emax (common f1 f2))%Q ->
  exists r p, ndot_from (AFloat f) (AFloat f1) (AFloat f2) c1 c2 (NFloat a) m = Ok (NFloat r, m) /\ finite_of f r /\ float_value r = Some p /\
    within (dot_error f (common f1 f2) (length vs1) (Qabs qa + size_of (products qs1 qs2))) (qa + sum_of (products qs1 qs2)) p.
Proof.
  intros CR1 CR2 V1 V2 S1 S2 Fa Va Bf Bh.
  assert (L : length vs1 = length vs2) by (rewrite (values_length _ _ _ _ V1), (values_length _ _ _ _ V2); reflexivity).
  destruct (fold_dot_near f1 f2 f vs1 vs2 qs1 qs2 a qa S1 S2 L Fa Va Bf Bh) as (r & p & E & Fr & Vp & W).
  exists r, p. rewrite (ndot_from_l _ _ _ c1 c2 _ m vs1 vs2 CR1 CR2 V1 V2). cbn [usual]. rewrite E, bind_ok. auto.
Qed.

Lemma zero_ok f : finite_of f (S754_zero false) /\ float_value (S754_zero false) = Some 0%Q.
Proof. split; [split; [reflexivity|exact I]|reflexivity]. Qed.

Lemma common_common f1 f2 : common f1 (common f1 f2) = common f1 f2.
Proof. unfold common. destruct (Z.ltb_spec (f_prec f1) (f_prec f2)) as [H|H]; [|rewrite Z.ltb_irrefl; reflexivity]. apply Z.ltb_lt in H. rewrite H. reflexivity. Qed.

(** The same with a zero as initial value. *)
Lemma plus_0 e e' q q' p : (e == e')%Q -> (q == q')%Q -> within e q p -> within e' q' p.
Proof. unfold within. intros E1 E2 H. rewrite <- E1, <- E2. exact H. Qed.
Lemma zero_size s : (Qabs 0 + s == s)%Q. Proof. change (Qabs 0) with 0%Q. ring. Qed.

Global Instance sum_limit_eq f te n : Proper (Qeq ==> Qeq) (sum_limit f te n).
Proof. intros x y H. unfold sum_limit. rewrite H. reflexivity. Qed.
Global Instance sum_error_eq f te n : Proper (Qeq ==> Qeq) (sum_error f te n).
Proof. intros x y H. unfold sum_error. rewrite H. reflexivity. Qed.
Global Instance dot_limit_eq f h n : Proper (Qeq ==> Qeq) (dot_limit f h n).
Proof. intros x y H. unfold dot_limit. rewrite H. reflexivity. Qed.
Global Instance dot_error_eq f h n : Proper (Qeq ==> Qeq) (dot_error f h n).
Proof. intros x y H. unfold dot_error. rewrite H. reflexivity. Qed.

Lemma nsum_default_l g c m vs qs : can_read m c c -> values m c c vs -> stand_for (AFloat g) vs qs ->
  (sum_limit g (AFloat g) (length vs) (size_of qs) < 2 ^ f_emax g)%Q ->
  exists r p, nsum (AFloat g) c m = Ok (NFloat r, m) /\ finite_of g r /\ float_value r = Some p /\
    within (sum_error g (AFloat g) (length vs) (size_of qs)) (sum_of qs) p.
Proof.
  intros CR V S B. destruct (zero_ok g) as [F0 V0].
  destruct (nsum_error_l g (AFloat g) c m vs qs (S754_zero false) 0%Q CR V S F0 V0) as (r & p & E & Fr & Vp & W).
  { rewrite zero_size. exact B. }
  exists r, p. split; [exact E|]. split; [exact Fr|]. split; [exact Vp|]. eapply plus_0; [| |exact W]; [rewrite zero_size; reflexivity|ring].
Qed.

Lemma ninner_default_l dbg f1 f2 c1 c2 m vs1 vs2 qs1 qs2 : can_read m c1 c1 -> can_read m c1 c2 -> values m c1 c1 vs1 -> values m c1 c2 vs2 ->
  stand_for (AFloat f1) vs1 qs1 -> stand_for (AFloat f2) vs2 qs2 ->
  legal (c_shape c1) -> legal (c_shape c2) -> c_shape c1 <> [] -> dims c1 = dims c2 ->
  (dot_limit (common f1 f2) (common f1 f2) (length vs1) (size_of (products qs1 qs2)) < 2 ^ f_emax (common f1 f2))%Q ->
  exists r p, ninner dbg (AFloat f1) (AFloat f2) c1 c2 m = Ok (NFloat r, m) /\
    ndot (AFloat f1) (AFloat f2) c1 c2 m = Ok (NFloat r, m) /\ finite_of (common f1 f2) r /\ float_value r = Some p /\
    within (dot_error (common f1 f2) (common f1 f2) (length vs1) (size_of (products qs1 qs2))) (sum_of (products qs1 qs2)) p.
Proof.
  intros CR1 CR2 V1 V2 S1 S2 L1 L2 Ne Eq B. destruct (zero_ok (common f1 f2)) as [F0 V0].
  destruct (ndot_error_l (common f1 f2) f1 f2 c1 c2 m vs1 vs2 qs1 qs2 (S754_zero false) 0%Q CR1 CR2 V1 V2 S1 S2 F0 V0) as (r & p & E & Fr & Vp & W).
  { rewrite zero_size. exact B. }
  { rewrite zero_size. exact B. }
  exists r, p. unfold ninner, ndot. cbn [usual zero]. rewrite common_common, (ninner_from_l dbg _ _ _ c1 c2 _ m L1 L2 Ne Eq), E.
  split; [reflexivity|]. split; [reflexivity|]. split; [exact Fr|]. split; [exact Vp|].
  eapply plus_0; [| |exact W]; [rewrite zero_size; reflexivity|ring].
Qed.
