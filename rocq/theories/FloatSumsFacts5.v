(** Facts about sums of numbers of any arithmetic type (C84): integer accumulators, NaN, sums of ones. *)
From Coq Require Import ZArith QArith Qreals Qpower Qabs Reals Lia Lra Psatz List Bool.
From Coq Require Import Floats.SpecFloat.
From Flocq Require Import Core Relative BinarySingleNaN.
From Verif Require Import Outcome CInt CIntFacts Spec SpecFacts ShapeSpec Shape ShapeFacts ShapeFacts2 ForEach ForEachSpec ForEachFacts
  Memory MemFacts Container ContainerSpec ContainerFacts ContainerFacts2 ContainerFacts3 Algo AlgoSpec AlgoFacts AlgoFacts2 AlgoFacts3 AlgoFacts4
  Interp IeeeSpec RoundSpec RoundFacts ErrorFacts
  Mixed MixedSpec MixedFacts Convert ConvertSpec ConvertFacts Sums SumsFacts FloatSums FloatSumsSpec FloatSumsFacts FloatSumsFacts2 FloatSumsFacts3 FloatSumsFacts4.
Import ListNotations.
Open Scope R_scope.

(** ** Integer accumulators *)
Lemma in_0 t : in_ty t 0. Proof. destruct t; split; vm_compute; discriminate. Qed.
Lemma int_step t g v q : value_of_type (AFloat g) v -> number_value v = Some q -> (Qabs q < 1)%Q ->
  accumulate (AInt t) (AFloat g) (NInt 0) v = Ok (NInt 0).
Proof.
  intros Wv Nv B. destruct v as [|x]; [contradiction|]. cbn [value_of_type number_value] in *.
  destruct (int_exact g 0) as [F0 R0]; [apply Z.pow_pos_nonneg; [lia|]; pose proof (fp_ok g); lia|].
  destruct (to_float_id g g x (le_refl g) Wv) as (y & Ey & Fy & Ry).
  assert (Es : rv (of_int (arith_of g) 0) + rv y = rv x) by (rewrite R0, Ry; ring).
  pose proof (finite_fmt _ _ _ Wv) as Fx. pose proof (finite_lt _ _ _ Wv) as Lx.
  destruct (add_ok (f_prec g) (f_emax g) (fp_ok g) (fm_ok g) (of_int (arith_of g) 0) y F0 Fy) as [Fp Rp].
  { rewrite Es, rnd_id by exact Fx. exact Lx. }
  rewrite Es, rnd_id in Rp by exact Fx.
  destruct (same_value _ _ _ q Fp) as (p & Vp & Ep).
  { rewrite Rp. symmetry. apply float_value_R, Nv. }
  unfold accumulate, plus, operate. cbn [usual]. rewrite Ey. cbn [convert]. rewrite !bind_ok.
  set (s := SFadd _ _ _ _) in *.
  assert (Hz : toward_zero p 0).
  { assert (Bp : (Qabs p < 1)%Q) by (rewrite Ep; exact B). apply Qabs_Qlt_condition in Bp. destruct Bp as [B1 B2].
    split; intros H; split; try exact H; assumption. }
  destruct (convert_ok (AInt t) (NFloat s)) as (w & Ew & Cw).
  { exists p, 0%Z. split; [exact Vp|]. split; [exact Hz|apply in_0]. }
  cbn [convert] in Ew. rewrite Ew. destruct w as [z|]; [|contradiction Cw]. destruct Cw as (_ & q' & Vq' & Tz).
  assert (q' = p) by congruence. subst q'. rewrite (toward_zero_unique p z 0 Tz Hz). reflexivity.
Qed.
Lemma nsum_int_l t g c m vs qs : can_read m c c -> values m c c vs -> stand_for (AFloat g) vs qs -> Forall (fun q => (Qabs q < 1)%Q) qs ->
  nsum_from (AInt t) (AFloat g) c (NInt 0) m = Ok (NInt 0, m).
Proof.
  intros CR V S B. unfold nsum_from. rewrite (reduce_by_l c _ _ m vs CR V).
  assert (E : foldo (accumulate (AInt t) (AFloat g)) vs (NInt 0) = Ok (NInt 0)).
  { clear V CR. induction S as [|v q vs qs [Wv Nv] _ IH]; [reflexivity|]. inversion B as [|? ? Bq B']; subst.
    cbn [foldo]. rewrite (int_step t g v q Wv Nv Bq), bind_ok. apply IH, B'. }
  rewrite E. reflexivity.
Qed.

(** ** NaN *)
Lemma nan_acc f g x : accumulate (AFloat f) (AFloat g) (NFloat S754_nan) (NFloat x) = Ok (NFloat S754_nan).
Proof. unfold accumulate, plus, operate. cbn [usual convert bind to_ftype SFadd]. reflexivity. Qed.
Lemma nan_elem f g x : accumulate (AFloat f) (AFloat g) (NFloat x) (NFloat S754_nan) = Ok (NFloat S754_nan).
Proof.
  unfold accumulate, plus, operate. cbn [usual convert bind]. change (to_ftype (common f g) S754_nan) with S754_nan.
  destruct (to_ftype (common f g) x); reflexivity.
Qed.
Lemma float_acc f g a x : exists r, accumulate (AFloat f) (AFloat g) (NFloat a) (NFloat x) = Ok (NFloat r).
Proof. unfold accumulate, plus, operate. cbn [usual convert bind]. eexists. reflexivity. Qed.
Definition is_float (v : number) : Prop := match v with NFloat _ => True | NInt _ => False end.
Lemma fold_nan f g vs : Forall (fun v => is_float v) vs -> foldo (accumulate (AFloat f) (AFloat g)) vs (NFloat S754_nan) = Ok (NFloat S754_nan).
Proof. induction 1 as [|v vs H _ IH]; [reflexivity|]. destruct v as [|x]; [contradiction|]. cbn [foldo]. rewrite nan_acc, bind_ok. exact IH. Qed.
Lemma fold_has_nan f g vs : Forall (fun v => is_float v) vs -> In (NFloat S754_nan) vs -> forall a,
  foldo (accumulate (AFloat f) (AFloat g)) vs (NFloat a) = Ok (NFloat S754_nan).
Proof.
  induction 1 as [|v vs H F IH]; intros Hi a; [contradiction|]. destruct Hi as [->|Hi].
  - cbn [foldo]. rewrite nan_elem, bind_ok. apply fold_nan, F.
  - destruct v as [|x]; [contradiction|]. cbn [foldo]. destruct (float_acc f g a x) as [r ->]. rewrite bind_ok. apply IH, Hi.
Qed.
Lemma nsum_nan_l f g c m vs a : can_read m c c -> values m c c vs -> Forall (fun v => exists x, v = NFloat x) vs -> In (NFloat S754_nan) vs ->
  nsum_from (AFloat f) (AFloat g) c (NFloat a) m = Ok (NFloat S754_nan, m) /\ nsum (AFloat g) c m = Ok (NFloat S754_nan, m).
Proof.
  intros CR V F Hi. assert (F' : Forall (fun v => is_float v) vs) by (eapply Forall_impl; [|exact F]; intros v [x ->]; exact I).
  unfold nsum, nsum_from. cbn [zero]. rewrite !(reduce_by_l c _ _ m vs CR V), !fold_has_nan by assumption. split; reflexivity.
Qed.

(** ** Sums of ones *)
Lemma finite_unique f x y : finite_of f x -> finite_of f y -> rv x = rv y -> rv x <> 0 -> x = y.
Proof.
  intros Fx Fy E N. destruct (finite_B _ _ x Fx) as (b & <- & Fb & Rb). destruct (finite_B _ _ y Fy) as (d & <- & Fd & Rd).
  f_equal. rewrite <- Rb, <- Rd in E. rewrite <- Rb in N. apply B2R_inj; [apply is_finite_strict_B2R; exact N| |exact E].
  apply is_finite_strict_B2R. rewrite <- E. exact N.
Qed.
Definition top (f : ftype) : Z := (2 ^ f_prec f)%Z.
Lemma top_ok f : finite_of f (of_int (arith_of f) (top f)) /\ rv (of_int (arith_of f) (top f)) = IZR (top f).
Proof.
  assert (Rt : rndF f (IZR (top f)) = IZR (top f)).
  { apply rnd_id. replace (IZR (top f)) with (F2R (Defs.Float radix2 (2 ^ (f_prec f - 1)) 1)).
    - apply fmt_scaled; pose proof (fp_ok f); pose proof (fm_ok f); [|lia]. rewrite Z.abs_eq by (apply Z.pow_nonneg; lia).
      apply Z.pow_lt_mono_r; lia.
    - unfold F2R. cbn [Fnum Fexp]. change (bpow radix2 1) with (IZR 2). rewrite <- mult_IZR. f_equal. unfold top.
      rewrite Z.mul_comm, <- Z.pow_succ_r by (pose proof (fp_ok f); lia). f_equal. lia. }
  assert (Lt : Rabs (rndF f (IZR (top f))) < bpow radix2 (f_emax f)).
  { rewrite Rt, Rabs_pos_eq by (apply IZR_le, Z.pow_nonneg; lia). unfold top. change 2%Z with (radix_val radix2). rewrite IZR_Zpower by (pose proof (fp_ok f); lia).
    apply bpow_lt, fm_ok. }
  destruct (of_int_ok (f_prec f) (f_emax f) (fp_ok f) (fm_ok f) (top f) Lt) as [A B]. rewrite Rt in B. split; assumption.
Qed.
Lemma one_of f v q : value_of_type (AFloat f) v -> number_value v = Some q -> (q == 1)%Q -> v = NFloat (of_int (arith_of f) 1).
Proof.
  intros W N E. destruct v as [|x]; [contradiction|]. cbn [value_of_type number_value] in *. apply Qeq_eqR in E. rewrite (float_value_R _ _ N), Q2R_1 in E.
  destruct (int_exact f 1) as [F1 R1]; [pose proof (pow_prec (f_prec f) (fp_ok f)); cbn; lia|].
  rewrite (finite_unique f x _ W F1); [reflexivity|congruence|lra].
Qed.
Lemma last_steps f : accumulate (AFloat f) (AFloat f) (NFloat (of_int (arith_of f) (top f - 1))) (NFloat (of_int (arith_of f) 1)) = Ok (NFloat (of_int (arith_of f) (top f))) /\
  accumulate (AFloat f) (AFloat f) (NFloat (of_int (arith_of f) (top f))) (NFloat (of_int (arith_of f) 1)) = Ok (NFloat (of_int (arith_of f) (top f))).
Proof. destruct f; split; vm_compute; reflexivity. Qed.

Lemma ones_step f a z : (0 <= z <= top f)%Z -> finite_of f a -> rv a = IZR z ->
  exists r, accumulate (AFloat f) (AFloat f) (NFloat a) (NFloat (of_int (arith_of f) 1)) = Ok (NFloat r) /\ finite_of f r /\
    rv r = IZR (Z.min (z + 1) (top f)).
Proof.
  intros B Fa Ra. pose proof (pow_prec (f_prec f) (fp_ok f)) as P2. fold (top f) in P2.
  destruct (int_exact f 1) as [F1 R1]; [pose proof (pow_prec (f_prec f) (fp_ok f)); cbn; lia|].
  destruct (top_ok f) as [Ft Rt]. destruct (last_steps f) as [L1 L2].
  destruct (Z.eq_dec z (top f)) as [->|N1].
  - rewrite (finite_unique f a (of_int (arith_of f) (top f)) Fa Ft); [|congruence|rewrite Ra; apply IZR_neq; lia].
    eexists. split; [exact L2|]. split; [exact Ft|]. rewrite Z.min_r by lia. exact Rt.
  - destruct (Z.eq_dec z (top f - 1)) as [->|N2].
    + destruct (int_exact f (top f - 1)) as [Fm Rm]; [unfold top in *; lia|].
      rewrite (finite_unique f a (of_int (arith_of f) (top f - 1)) Fa Fm); [|congruence|rewrite Ra; apply IZR_neq; lia].
      eexists. split; [exact L1|]. split; [exact Ft|]. rewrite Z.min_r by lia. exact Rt.
    + destruct (finite_float_value _ _ _ F1) as [q Vq].
      destruct (step_exact f (AFloat f) 0 a z (NFloat (of_int (arith_of f) 1)) q 1) as (r & E & Fr & Rr).
      * unfold exponent_of. pose proof (fp_ok f). pose proof (fm_ok f). lia.
      * exact Fa.
      * rewrite Ra. unfold sc. cbn [bpow]. ring.
      * exact F1.
      * exact Vq.
      * rewrite (float_value_R _ _ Vq), R1. unfold sc. cbn [bpow]. ring.
      * fold (top f). cbn. lia.
      * fold (top f). lia.
      * exists r. split; [exact E|]. split; [exact Fr|]. rewrite Rr, Z.min_l by lia. unfold sc. cbn [bpow]. ring.
Qed.
Lemma fold_ones f n : exists r, foldo (accumulate (AFloat f) (AFloat f)) (repeat (NFloat (of_int (arith_of f) 1)) n) (NFloat (S754_zero false)) = Ok (NFloat r) /\
  finite_of f r /\ rv r = IZR (Z.min (Z.of_nat n) (top f)).
Proof.
  pose proof (pow_prec (f_prec f) (fp_ok f)) as P2. fold (top f) in P2.
  induction n as [|n (r & E & Fr & Rr)].
  - eexists. split; [reflexivity|]. split; [apply zero_ok|]. rewrite Z.min_l by lia. reflexivity.
  - destruct (ones_step f r (Z.min (Z.of_nat n) (top f))) as (r' & E' & Fr' & Rr'); [lia|exact Fr|exact Rr|].
    exists r'. cbn [repeat]. rewrite repeat_cons, foldo_app, E, bind_ok. cbn [foldo]. rewrite E', bind_ok.
    split; [reflexivity|]. split; [exact Fr'|]. rewrite Rr'. f_equal. lia.
Qed.
Lemma nsum_ones_l f c m vs qs : can_read m c c -> values m c c vs -> stand_for (AFloat f) vs qs -> Forall (fun q => (q == 1)%Q) qs ->
  exists r p, nsum (AFloat f) c m = Ok (NFloat r, m) /\ float_value r = Some p /\
    (p == inject_Z (Z.min (Z.of_nat (length vs)) (2 ^ f_prec f)))%Q.
Proof.
  intros CR V S O. assert (E : vs = repeat (NFloat (of_int (arith_of f) 1)) (length vs)).
  { clear CR V. induction S as [|v q vs qs [W N] _ IH]; [reflexivity|]. inversion O as [|? ? Oq O']; subst. cbn [length repeat].
    rewrite (one_of f v q W N Oq). f_equal. apply IH, O'. }
  destruct (fold_ones f (length vs)) as (r & Er & Fr & Rr). rewrite <- E in Er.
  destruct (same_value _ _ r (inject_Z (Z.min (Z.of_nat (length vs)) (top f))) Fr) as (p & Vp & Ep).
  { rewrite Rr, Q2R_inject. reflexivity. }
  exists r, p. unfold nsum, nsum_from. cbn [zero]. rewrite (reduce_by_l c _ _ m vs CR V), Er, bind_ok. auto.
Qed.

(** ** A simpler bound *)
Lemma pow_linear u n : 0 <= u -> INR n * u <= 1 / 2 -> (1 + u) ^ n <= 1 + 2 * (INR n * u).
Proof.
  intros U B. assert (K : forall k, (1 + u) ^ k * (1 - INR k * u) <= 1).
  { induction k as [|k IH]; [cbn; lra|]. rewrite S_INR. cbn [pow].
    assert (P : 0 <= (1 + u) ^ k) by (apply pow_le; lra).
    replace ((1 + u) * (1 + u) ^ k * (1 - (INR k + 1) * u)) with ((1 + u) ^ k * (1 - INR k * u) - (1 + u) ^ k * ((INR k + 1) * (u * u))) by ring.
    assert (0 <= (1 + u) ^ k * ((INR k + 1) * (u * u))); [|lra].
    apply Rmult_le_pos; [exact P|]. apply Rmult_le_pos; [pose proof (pos_INR k); lra|]. apply Rmult_le_pos; exact U. }
  specialize (K n). set (g := (1 + u) ^ n) in *. set (x := INR n * u) in *.
  assert (X : 0 <= x) by (apply Rmult_le_pos; [apply pos_INR|exact U]).
  assert (G : 0 < g) by (apply pow_lt; lra).
  apply Rmult_le_reg_r with (1 - x); [lra|]. eapply Rle_trans; [exact K|].
  assert (0 <= x * (1 - 2 * x)) by (apply Rmult_le_pos; lra). lra.
Qed.
Lemma takes_self g : takes_as_is g (AFloat g) = true. Proof. cbn [takes_as_is]. apply Z.leb_refl. Qed.
Lemma wider_self g : wider_than g (AFloat g) = false. Proof. cbn [wider_than]. apply Z.ltb_irrefl. Qed.
Lemma nsum_simple_l g c m vs qs : can_read m c c -> values m c c vs -> stand_for (AFloat g) vs qs ->
  (Z.of_nat (length vs) <= 2 ^ (f_prec g - 1))%Z -> (2 * size_of qs < 2 ^ f_emax g)%Q ->
  exists r p, nsum (AFloat g) c m = Ok (NFloat r, m) /\ finite_of g r /\ float_value r = Some p /\
    within (inject_Z (Z.of_nat (length vs)) * 2 ^ (1 - f_prec g) * size_of qs) (sum_of qs) p.
Proof.
  intros CR V S Ln B.
  assert (U : uF g = / 2 * bpow radix2 (1 - f_prec g)).
  { unfold ur. f_equal. f_equal. lia. }
  assert (Nu : INR (length vs) * uF g <= 1 / 2).
  { rewrite INR_IZR_INZ. apply Rle_trans with (bpow radix2 (f_prec g - 1) * uF g).
    - apply Rmult_le_compat_r; [pose proof (ur_pos (f_prec g)); lra|]. rewrite <- (IZR_Zpower radix2) by (pose proof (fp_ok g); lia).
      apply IZR_le. exact Ln.
    - rewrite U. replace (bpow radix2 (f_prec g - 1) * (/ 2 * bpow radix2 (1 - f_prec g))) with (/ 2 * (bpow radix2 (f_prec g - 1) * bpow radix2 (1 - f_prec g))) by ring.
      rewrite <- bpow_plus. replace (f_prec g - 1 + (1 - f_prec g))%Z with 0%Z by lia. cbn [bpow]. lra. }
  assert (G : stepD g (AFloat g) ^ length vs <= 1 + 2 * (INR (length vs) * uF g)).
  { unfold stepD. rewrite takes_self. apply pow_linear; [pose proof (ur_pos (f_prec g)); lra|exact Nu]. }
  assert (E0 : stepE g (AFloat g) = 0) by (unfold stepE; rewrite wider_self; reflexivity).
  pose proof (size_pos qs) as Ps. pose proof (pow_ge1 _ (length vs) (stepD_1 g (AFloat g))) as G1.
  destruct (nsum_default_l g c m vs qs CR V S) as (r & p & E & Fr & Vp & W).
  { apply Rlt_Qlt. apply below_max in B. rewrite Q2R_pow2, limit_R, E0, Rmult_0_r, Rplus_0_r. rewrite Q2R_mult in B.
    eapply Rle_lt_trans; [|exact B]. apply Rmult_le_compat_r; [exact Ps|]. replace (Q2R 2) with 2 by (unfold Q2R; cbn; lra). lra. }
  exists r, p. split; [exact E|]. split; [exact Fr|]. split; [exact Vp|]. unfold within in *. apply Rle_Qle. apply Qle_Rle in W.
  eapply Rle_trans; [exact W|]. rewrite error_R, E0, !Rmult_0_r, Rplus_0_r, !Q2R_mult, INR_Q, Q2R_pow2.
  apply Rmult_le_compat_r; [exact Ps|]. rewrite U in G. lra.
Qed.

(** ** Products of integers *)
Lemma integer_products_l ta i j c1 c2 cp init m zs1 zs2 :
  can_read m c1 c1 -> can_read m c1 c2 -> values m c1 c1 (map NInt zs1) -> values m c1 c2 (map NInt zs2) ->
  can_read m cp cp -> values m cp cp (map (fun p => NInt (fst p * snd p)) (combine zs1 zs2)) ->
  Forall (fun p => in_ty i (fst p) /\ in_ty j (snd p) /\ in_ty (CInt.common i j) (fst p * snd p) /\
    (is_signed (CInt.common i j) = true \/ (0 <= fst p /\ 0 <= snd p)%Z)) (combine zs1 zs2) ->
  ndot_from ta (AInt i) (AInt j) c1 c2 init m = nsum_from ta (AInt (CInt.common i j)) cp init m.
Proof.
  intros R1 R2 V1 V2 Rp Vp F. rewrite (ndot_from_l ta _ _ c1 c2 init m _ _ R1 R2 V1 V2).
  unfold nsum_from. rewrite (reduce_by_l cp _ _ m _ Rp Vp). f_equal. clear - F.
  revert zs2 init F. induction zs1 as [|x zs1 IH]; intros [|y zs2] a F; try reflexivity.
  cbn [combine map foldo fst snd]. cbn [combine] in F. inversion F as [|? ? (Hx & Hy & Hp & Hc) F']; subst. cbn [fst snd] in *.
  unfold times, operate. cbn [usual]. unfold cmul.
  rewrite (arith_exact Z.mul (CI i x) (CI j y) Hx Hy Hc Hp), !bind_ok. cbn [cval].
  destruct (accumulate ta (AInt (CInt.common i j)) a (NInt (x * y))) as [b| | |]; try reflexivity. rewrite !bind_ok. apply IH. exact F'.
Qed.
