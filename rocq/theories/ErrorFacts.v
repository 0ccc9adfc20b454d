(** Facts about the rounding errors of linear interpolation (C65). *)
From Coq Require Import ZArith QArith Qreals Qround Qpower Qabs Reals Lia Lra Psatz List Bool.
From Coq Require Import Floats.SpecFloat.
From Flocq Require Import Core.
From Verif Require Import Outcome CInt CIntFacts Spec SpecFacts ShapeSpec ShapeFacts Memory MemFacts Container ContainerSpec
  ContainerFacts ContainerFacts2 AlgoSpec Interp InterpSpec InterpFacts IeeeSpec IeeeFacts RoundSpec RoundFacts.
Import ListNotations.
Open Scope R_scope.

Lemma digits_upper m : (Zpos m < 2 ^ Zpos (digits2_pos m))%Z.
Proof.
  induction m as [m IH|m IH|]; cbn [digits2_pos].
  - rewrite Pos2Z.inj_succ, Z.pow_succ_r by lia. lia.
  - rewrite Pos2Z.inj_succ, Z.pow_succ_r by lia. lia.
  - reflexivity.
Qed.

Section Format.
Variables prec emax : Z.
Hypothesis Hp : (1 < prec)%Z.
Hypothesis Hm : (prec < emax)%Z.
Notation u := (ur prec).
Notation h := (er prec emax).
Notation fin := (finite_number prec emax).
Notation fmt := (fmt prec emax).
Notation rnd := (rnd prec emax).

Let Hu : 0 < u. Proof. apply ur_pos. Qed.
Let Hh : 0 < h. Proof. apply er_pos. Qed.

Lemma gr_1 k : 1 <= (1 + u) ^ k.
Proof. apply pow_R1_Rle. lra. Qed.
Lemma gr_le j k : (j <= k)%nat -> (1 + u) ^ j <= (1 + u) ^ k.
Proof. intros H. apply Rle_pow; [lra|exact H]. Qed.

(** ** x is y after k roundings, up to e, where y is a sum of terms of total magnitude m *)
Definition appr (k : nat) (e m x y : R) : Prop := Rabs (x - y) <= ((1 + u) ^ k - 1) * m + e /\ Rabs y <= m.

Lemma appr_weaken k k' e e' m x y : (k <= k')%nat -> e <= e' -> appr k e m x y -> appr k' e' m x y.
Proof.
  intros K E [A B]. split; [|exact B]. pose proof (gr_le _ _ K). pose proof (Rabs_pos y).
  eapply Rle_trans; [exact A|]. apply Rplus_le_compat; [|exact E]. apply Rmult_le_compat_r; lra.
Qed.

Lemma appr_abs k e m x y : appr k e m x y -> Rabs x <= (1 + u) ^ k * m + e.
Proof.
  intros [A B]. replace x with (y + (x - y)) by ring. eapply Rle_trans; [apply Rabs_triang|].
  replace ((1 + u) ^ k * m + e) with (m + (((1 + u) ^ k - 1) * m + e)) by ring. lra.
Qed.

Lemma appr_round k e m x y z d : 0 <= d -> Rabs (z - x) <= u * Rabs x + d -> appr k e m x y ->
  appr (S k) ((1 + u) * e + d) m z y.
Proof.
  intros Hd Z A. pose proof (appr_abs _ _ _ _ _ A) as X. destruct A as [A B]. split; [|exact B].
  replace (z - y) with ((z - x) + (x - y)) by ring. eapply Rle_trans; [apply Rabs_triang|].
  eapply Rle_trans; [apply Rplus_le_compat; [exact Z|exact A]|].
  assert (u * Rabs x <= u * ((1 + u) ^ k * m + e)) by (apply Rmult_le_compat_l; lra).
  simpl. replace (((1 + u) * (1 + u) ^ k - 1) * m + ((1 + u) * e + d)) with
    (u * ((1 + u) ^ k * m + e) + d + (((1 + u) ^ k - 1) * m + e)) by ring. lra.
Qed.

Lemma appr_plus k e e' m m' x x' y y' : appr k e m x y -> appr k e' m' x' y' ->
  appr k (e + e') (m + m') (x + x') (y + y').
Proof.
  intros [A B] [A' B']. split.
  - replace (x + x' - (y + y')) with ((x - y) + (x' - y')) by ring. eapply Rle_trans; [apply Rabs_triang|]. lra.
  - eapply Rle_trans; [apply Rabs_triang|]. lra.
Qed.

(** ** The weights *)
Definition weight_err (k : nat) : R := INR k * (1 + u) ^ (2 * k) * h.
Definition weight (k : nat) (w : spec_float) (q : Q) : Prop :=
  fin w /\ 0 <= rv w <= 1 /\ 0 <= Q2R q /\ appr (2 * k) (weight_err k) (Q2R q) (rv w) (Q2R q).

Lemma weight_err_pos k : 0 <= weight_err k.
Proof. unfold weight_err. pose proof (gr_1 (2 * k)). pose proof (pos_INR k). apply Rmult_le_pos; [|lra]. apply Rmult_le_pos; lra. Qed.

Lemma rnd_01 x : 0 <= x <= 1 -> 0 <= rnd x <= 1.
Proof.
  intros [A B]. split.
  - rewrite <- (rnd_id prec emax 0) by (apply fmt_0; assumption). apply rnd_le; assumption.
  - rewrite <- (rnd_id prec emax 1) by (apply fmt_1; assumption). apply rnd_le; assumption.
Qed.
Lemma small_lt x : 0 <= x <= 1 -> Rabs x < bpow radix2 emax.
Proof. intros [A B]. pose proof (one_lt prec emax Hp Hm). rewrite Rabs_pos_eq by exact A. lra. Qed.

Lemma weight_step k w q a qa : weight k w q -> fin a -> 0 <= rv a <= 1 -> 0 <= Q2R qa <= 1 ->
  Rabs (rv a - Q2R qa) <= u * Q2R qa -> weight (S k) (SFmul prec emax w a) (q * qa)%Q.
Proof.
  intros (Fw & Bw & Pq & Aw) Fa Ba Bq Da.
  assert (B01 : 0 <= rv w * rv a <= 1) by (split; [apply Rmult_le_pos; lra|rewrite <- (Rmult_1_r 1); apply Rmult_le_compat; lra]).
  destruct (mul_ok prec emax Hp Hm w a Fw Fa (small_lt _ (rnd_01 _ B01))) as [F E].
  split; [exact F|]. rewrite E. split; [apply rnd_01, B01|]. rewrite Q2R_mult.
  assert (Pqq : 0 <= Q2R q * Q2R qa) by (apply Rmult_le_pos; lra). split; [exact Pqq|].
  assert (Am : appr (S (2 * k)) ((1 + u) * weight_err k) (Q2R q * Q2R qa) (rv w * rv a) (Q2R q * Q2R qa)).
  { split; [|rewrite Rabs_pos_eq; lra]. destruct Aw as [Aw _].
    replace (rv w * rv a - Q2R q * Q2R qa) with ((rv w - Q2R q) * rv a + Q2R q * (rv a - Q2R qa)) by ring.
    eapply Rle_trans; [apply Rabs_triang|]. rewrite !Rabs_mult. rewrite (Rabs_pos_eq (rv a)) by lra.
    rewrite (Rabs_pos_eq (Q2R q)) by lra. pose proof (gr_1 (2 * k)) as G. pose proof (weight_err_pos k) as W.
    assert (Xa : rv a <= (1 + u) * Q2R qa).
    { apply Rabs_le_inv in Da. lra. }
    assert (S1 : Rabs (rv w - Q2R q) * rv a <= (((1 + u) ^ (2 * k) - 1) * Q2R q + weight_err k) * ((1 + u) * Q2R qa)).
    { apply Rmult_le_compat; [apply Rabs_pos|lra|exact Aw|exact Xa]. }
    assert (S2 : Q2R q * Rabs (rv a - Q2R qa) <= Q2R q * (u * Q2R qa)) by (apply Rmult_le_compat_l; lra).
    assert (S3 : weight_err k * ((1 + u) * Q2R qa) <= (1 + u) * weight_err k).
    { rewrite (Rmult_comm (1 + u) (weight_err k)). apply Rmult_le_compat_l; [exact W|].
      rewrite <- (Rmult_1_r (1 + u)) at 2. apply Rmult_le_compat_l; lra. }
    cbn [pow]. replace (((1 + u) * (1 + u) ^ (2 * k) - 1) * (Q2R q * Q2R qa)) with
      ((((1 + u) ^ (2 * k) - 1) * Q2R q) * ((1 + u) * Q2R qa) + Q2R q * (u * Q2R qa)) by ring.
    lra. }
  pose proof (appr_round _ _ _ _ _ (rnd (rv w * rv a)) h ltac:(lra) (rnd_err prec emax Hp _) Am) as R.
  refine (appr_weaken _ _ _ _ _ _ _ _ _ R); [lia|].
  unfold weight_err. replace (2 * S k)%nat with (S (S (2 * k))) by lia. cbn [pow]. rewrite S_INR.
  pose proof (gr_1 (2 * k)) as G. pose proof (pos_INR k).
  replace ((1 + u) * ((1 + u) * (INR k * (1 + u) ^ (2 * k) * h)) + h) with
    (INR k * ((1 + u) * ((1 + u) * (1 + u) ^ (2 * k))) * h + h) by ring.
  replace ((INR k + 1) * ((1 + u) * ((1 + u) * (1 + u) ^ (2 * k))) * h) with
    (INR k * ((1 + u) * ((1 + u) * (1 + u) ^ (2 * k))) * h + ((1 + u) ^ S (S (2 * k))) * h) by (cbn [pow]; ring).
  pose proof (gr_1 (S (S (2 * k)))). apply Rplus_le_compat_l. rewrite <- (Rmult_1_l h) at 1. apply Rmult_le_compat_r; lra.
Qed.

(** ** The coordinates *)
Lemma int_part x q : fin x -> float_value x = Some q -> (0 <= q)%Q ->
  fmt (IZR (Qfloor q)) /\ fmt (Q2R q - IZR (Qfloor q)).
Proof.
  intros F V P. destruct x as [s|s| |s m e]; try (destruct F as [_ F]; contradiction).
  - cbn [float_value] in V. injection V as <-. change (Qfloor 0) with 0%Z.
    assert (E : Q2R 0 = 0) by (unfold Q2R; simpl; lra). rewrite E. split; [apply fmt_0; assumption|].
    replace (0 - 0) with 0 by ring. apply fmt_0; assumption.
  - destruct F as [F _]. pose proof (finite_fmt prec emax (S754_finite s m e) (conj F I)) as Fm.
    rewrite <- (float_value_R _ _ V) in Fm.
    assert (Bd : (Zpos m < 2 ^ prec)%Z /\ (3 - emax - prec <= e)%Z).
    { cbn [valid_binary] in F. unfold SpecFloat.bounded in F. apply andb_true_iff in F as [F _].
      pose proof F as F1. unfold SpecFloat.canonical_mantissa in F1. apply Zeq_bool_eq in F1.
      unfold SpecFloat.fexp, SpecFloat.emin in F1. pose proof (digits_upper m) as D.
      split; [|lia]. eapply Z.lt_le_trans; [exact D|]. apply Z.pow_le_mono_r; [lia|]. clear D. lia. }
    destruct Bd as [B1 B2].
    cbn [float_value] in V. injection V as V. destruct s.
    { exfalso. rewrite <- V in P. destruct e as [|k|k]; unfold Qle, inject_Z in P; cbn [Qnum Qden] in P.
      - lia.
      - pose proof (Z.pow_pos_nonneg 2 (Zpos k) ltac:(lia) ltac:(lia)). nia.
      - lia. }
    destruct e as [|k|k].
    + rewrite <- V in *. rewrite Qfloor_Z. split.
      * rewrite Z.mul_1_r. apply fmt_int; try assumption. 
      * replace (Q2R (inject_Z (Z.pos m * 2 ^ 0)) - IZR (Z.pos m * 2 ^ 0)) with 0; [apply fmt_0; assumption|].
        unfold Q2R, inject_Z. cbn [Qnum Qden]. lra.
    + rewrite <- V in *. rewrite Qfloor_Z.
      assert (E : Q2R (inject_Z (Z.pos m * 2 ^ Z.pos k)) = IZR (Z.pos m * 2 ^ Z.pos k)) by (unfold Q2R, inject_Z; cbn [Qnum Qden]; lra).
      rewrite E in *. split; [exact Fm|]. replace (IZR (Z.pos m * 2 ^ Z.pos k) - IZR (Z.pos m * 2 ^ Z.pos k)) with 0 by ring.
      apply fmt_0; assumption.
    + rewrite <- V in *. unfold Qfloor. set (d := (Zpos (2 ^ k))%Z). assert (Hd : (0 < d)%Z) by (unfold d; lia).
      assert (Ed : d = (2 ^ Zpos k)%Z) by (unfold d; rewrite Pos2Z.inj_pow; reflexivity).
      pose proof (Z.div_mod (Zpos m) d ltac:(lia)) as DM. pose proof (Z.mod_pos_bound (Zpos m) d Hd) as MB.
      pose proof (Z.div_pos (Zpos m) d ltac:(lia) Hd) as DP.
      assert (DB : (Zpos m / d <= Zpos m)%Z) by nia. split.
      * apply fmt_int; try assumption. lia.
      * assert (MM : (Zpos m mod d <= Zpos m)%Z) by (apply Z.mod_le; lia).
        replace (Q2R (Z.pos m # 2 ^ k) - IZR (Z.pos m / d)) with (F2R (Float radix2 (Zpos m mod d) (Zneg k))).
        { apply fmt_scaled; try assumption. rewrite Z.abs_eq by lia. lia. }
        unfold Q2R, F2R. cbn [Qnum Qden Fnum Fexp]. fold d.
        assert (Eb : bpow radix2 (Zneg k) = / IZR d).
        { change (Zneg k) with (- Zpos k)%Z. rewrite bpow_opp. f_equal. rewrite Ed. rewrite (IZR_Zpower radix2) by lia. reflexivity. }
        rewrite Eb. assert (0 < IZR d) by (apply IZR_lt; lia).
        assert (IZR (Zpos m) = IZR d * IZR (Zpos m / d) + IZR (Zpos m mod d)) by (rewrite <- mult_IZR, <- plus_IZR; f_equal; exact DM).
        rewrite H0. field. lra.
Qed.

Notation one := (of_int (ieee prec emax) 1).
Lemma Q2R_inject z : Q2R (inject_Z z) = IZR z.
Proof. unfold Q2R, inject_Z. cbn [Qnum Qden]. lra. Qed.

Lemma one_ok : fin one /\ rv one = 1.
Proof.
  assert (F : fmt 1) by (apply fmt_1; assumption).
  destruct (of_int_ok prec emax Hp Hm 1) as [A B].
  - rewrite rnd_id by exact F. apply small_lt. lra.
  - split; [exact A|]. rewrite rnd_id in B by exact F. exact B.
Qed.

Lemma coord_ok x q : fin x -> float_value x = Some q -> (0 <= q)%Q ->
  let b := SFsub prec emax x (of_int (ieee prec emax) (Qfloor q)) in
  let a := SFsub prec emax one b in
  let bq := (q - inject_Z (Qfloor q))%Q in
  let aq := (inject_Z 1 - bq)%Q in
  (fin b /\ 0 <= rv b <= 1 /\ 0 <= Q2R bq <= 1 /\ Rabs (rv b - Q2R bq) <= u * Q2R bq) /\
  (fin a /\ 0 <= rv a <= 1 /\ 0 <= Q2R aq <= 1 /\ Rabs (rv a - Q2R aq) <= u * Q2R aq).
Proof.
  intros F V P b a bq aq. destruct (int_part x q F V P) as [Fi Ff].
  destruct (frac_bounds q) as [B1 B2]. unfold frac_part in B1, B2. fold bq in B1, B2.
  apply Qle_Rle in B1. apply Qlt_Rlt in B2. change 1%Q with (inject_Z 1) in B2. change 0%Q with (inject_Z 0) in B1.
  rewrite Q2R_inject in B1, B2.
  assert (Ebq : Q2R bq = Q2R q - IZR (Qfloor q)) by (unfold bq; rewrite Q2R_minus, Q2R_inject; reflexivity).
  assert (Fl : 0 <= IZR (Qfloor q) <= Q2R q).
  { split; [apply IZR_le, floor_nonneg, P|lra]. }
  pose proof (float_value_R _ _ V) as Ex.
  assert (Li : Rabs (rnd (IZR (Qfloor q))) < bpow radix2 emax).
  { rewrite rnd_id by exact Fi. rewrite Rabs_pos_eq by lra. pose proof (finite_lt prec emax x F) as L.
    rewrite <- Ex in L. rewrite Rabs_pos_eq in L by lra. lra. }
  destruct (of_int_ok prec emax Hp Hm (Qfloor q) Li) as [Fn En]. rewrite rnd_id in En by exact Fi.
  assert (Eb : rv x - rv (SpecFloat.binary_normalize prec emax (Qfloor q) 0 false) = Q2R bq) by (rewrite En, <- Ex; symmetry; exact Ebq).
  assert (Ffb : fmt (Q2R bq)) by (rewrite Ebq; exact Ff).
  destruct (sub_ok prec emax Hp Hm x _ F Fn) as [Fb Erb].
  { rewrite Eb, rnd_id by exact Ffb. apply small_lt. lra. }
  rewrite Eb, rnd_id in Erb by exact Ffb. cbn [of_int ieee] in b. fold b in Fb, Erb.
  split.
  - split; [exact Fb|]. rewrite Erb. split; [lra|]. split; [lra|].
    replace (Q2R bq - Q2R bq) with 0 by ring. rewrite Rabs_R0. apply Rmult_le_pos; lra.
  - destruct one_ok as [F1 E1].
    assert (Eaq : Q2R aq = 1 - Q2R bq) by (unfold aq; rewrite Q2R_minus, Q2R_inject; reflexivity).
    assert (Ea : rv one - rv b = Q2R aq) by (rewrite E1, Erb; symmetry; exact Eaq).
    assert (Ba : 0 <= Q2R aq <= 1) by lra.
    destruct (sub_ok prec emax Hp Hm one b F1 Fb) as [Fa Era].
    { rewrite Ea. apply small_lt, rnd_01, Ba. }
    rewrite Ea in Era. fold a in Fa, Era. split; [exact Fa|]. rewrite Era.
    split; [apply rnd_01, Ba|]. split; [exact Ba|].
    rewrite Eaq. replace (1 - Q2R bq) with (1 + - Q2R bq) by ring.
    eapply Rle_trans; [apply rnd_plus_err; try assumption; [apply fmt_1; assumption|apply generic_format_opp, Ffb]|].
    rewrite Rabs_pos_eq by lra. lra.
Qed.

(** ** The neighbours and their weights *)
Lemma Forall2_app' {A B} (P : A -> B -> Prop) l1 l2 l3 l4 : Forall2 P l1 l2 -> Forall2 P l3 l4 -> Forall2 P (l1 ++ l3) (l2 ++ l4).
Proof. intros H. induction H; intros G; [exact G|]. constructor; auto. Qed.
Lemma Forall2_imp {A B} (P Q : A -> B -> Prop) l1 l2 : (forall a b, P a b -> Q a b) -> Forall2 P l1 l2 -> Forall2 Q l1 l2.
Proof. intros I H. induction H; constructor; auto. Qed.
Lemma Forall2_map' {A B C D} (P : C -> D -> Prop) (f : A -> C) (g : B -> D) l1 l2 :
  Forall2 (fun a b => P (f a) (g b)) l1 l2 -> Forall2 P (map f l1) (map g l2).
Proof. intros H. induction H; constructor; assumption. Qed.

Definition coordinate (p : spec_float) (q : Q) : Prop := fin p /\ float_value p = Some q.

Lemma setup_both ps qs : Forall2 coordinate ps qs -> Forall cell_range qs -> forall cs ws wqs k, Forall2 (weight k) ws wqs ->
  exists cs' ws' wqs', kfold_right (setup_step (ieee prec emax)) ps (cs, ws) = Ok (cs', ws') /\
    kfold_right (setup_step rationals) qs (cs, wqs) = Ok (cs', wqs') /\
    Forall2 (weight (k + length ps)) ws' wqs' /\ length ws' = (2 ^ length ps * length ws)%nat.
Proof.
  intros H. induction H as [|p q ps qs [Fp Vp] H IH]; intros R cs ws wqs k W.
  - exists cs, ws, wqs. cbn [length]. rewrite Nat.add_0_r. split; [reflexivity|]. split; [reflexivity|]. split; [exact W|]. cbn. lia.
  - inversion R as [|? ? [Hq Hr] R']; subst. pose proof (floor_nonneg q Hq) as H0.
    assert (To : to_int (ieee prec emax) I32 p = Ok (Qfloor q)).
    { unfold to_int. cbn [trunc ieee]. rewrite (trunc_value _ _ Vp). change (to_int rationals I32 q = Ok (Qfloor q)).
      apply to_int_rat; [exact Hq|unfold in_ty; simpl; lia]. }
    assert (Tq : to_int rationals I32 q = Ok (Qfloor q)) by (apply to_int_rat; [exact Hq|unfold in_ty; simpl; lia]).
    assert (Np : cadd (int (Qfloor q)) (int 1) = Ok (int (Qfloor q + 1))).
    { unfold cadd. rewrite arith_exact; [reflexivity|unfold wfc, in_ty; simpl; lia|unfold wfc, in_ty; simpl; lia|left; reflexivity|unfold in_ty; simpl; lia]. }
    destruct (coord_ok p q Fp Vp Hq) as [(Fb & B1 & B2 & B3) (Fa & A1 & A2 & A3)].
    cbn [kfold_right]. unfold setup_step at 1 3. rewrite To, Tq, !bind_ok, Np, !bind_ok. cbn [cval int nsub nmul ieee].
    change (nsub rationals) with Qminus. change (nmul rationals) with Qmult. change (of_int rationals) with inject_Z.
    set (b := SFsub prec emax p (of_int (ieee prec emax) (Qfloor q))) in *. set (a := SFsub prec emax one b) in *.
    set (bq := (q - inject_Z (Qfloor q))%Q) in *. set (aq := (inject_Z 1 - bq)%Q) in *.
    set (cs1 := map (fun e : list Z => e ++ [Qfloor q]) cs ++ map (fun e : list Z => e ++ [(Qfloor q + 1)%Z]) cs).
    destruct (IH R' cs1 (map (fun e => SFmul prec emax e a) ws ++ map (fun e => SFmul prec emax e b) ws)
      (map (fun e => (e * aq)%Q) wqs ++ map (fun e => (e * bq)%Q) wqs) (S k)) as (cs' & ws' & wqs' & E1 & E2 & W' & L').
    { apply Forall2_app'; apply Forall2_map'; (eapply Forall2_imp; [|exact W]); intros w wq Ww; apply weight_step; assumption. }
    exists cs', ws', wqs'. split; [exact E1|]. split; [exact E2|]. split.
    + cbn [length]. replace (k + S (length ps))%nat with (S k + length ps)%nat by lia. exact W'.
    + rewrite L', app_length, !map_length. cbn [length Nat.pow]. lia.
Qed.

(** ** The weighted sum *)
Definition term_err (n : nat) (V : R) : R := (1 + u) * (V * weight_err n) + h.

Lemma term_ok n V x g w q : fin x -> float_value x = Some g -> Rabs (Q2R g) <= V -> weight n w q ->
  fin (SFmul prec emax x w) /\
  appr (2 * n + 1) (term_err n V) (Rabs (Q2R g) * Q2R q) (rv (SFmul prec emax x w)) (Q2R g * Q2R q).
Proof.
  intros Fx Vx Bx (Fw & Bw & Pq & Aw). rewrite (float_value_R _ _ Vx) in *.
  assert (A : Rabs (rnd (rv x * rv w)) <= Rabs (rv x)).
  { apply abs_round_le_generic; [exact (fe_valid prec emax Hp)|apply valid_rnd_N|apply generic_format_abs; exact (finite_fmt prec emax _ Fx)|].
    rewrite Rabs_mult, (Rabs_pos_eq (rv w)) by lra. rewrite <- (Rmult_1_r (Rabs (rv x))) at 2.
    apply Rmult_le_compat_l; [apply Rabs_pos|lra]. }
  destruct (mul_ok prec emax Hp Hm x w Fx Fw) as [F E].
  { eapply Rle_lt_trans; [exact A|]. exact (finite_lt prec emax _ Fx). }
  split; [exact F|]. rewrite E. replace (2 * n + 1)%nat with (S (2 * n)) by lia.
  apply (appr_round (2 * n) (V * weight_err n) (Rabs (rv x) * Q2R q) (rv x * rv w)); [lra|apply rnd_err; assumption|].
  destruct Aw as [Aw _]. split.
  - replace (rv x * rv w - rv x * Q2R q) with (rv x * (rv w - Q2R q)) by ring. rewrite Rabs_mult.
    eapply Rle_trans; [apply Rmult_le_compat_l; [apply Rabs_pos|exact Aw]|].
    pose proof (weight_err_pos n).
    assert (Rabs (rv x) * weight_err n <= V * weight_err n) by (apply Rmult_le_compat_r; lra).
    replace (Rabs (rv x) * (((1 + u) ^ (2 * n) - 1) * Q2R q + weight_err n)) with
      (((1 + u) ^ (2 * n) - 1) * (Rabs (rv x) * Q2R q) + Rabs (rv x) * weight_err n) by ring. lra.
  - rewrite Rabs_mult, (Rabs_pos_eq (Q2R q)) by lra. lra.
Qed.

Lemma Q2R_abs q : Q2R (Qabs q) = Rabs (Q2R q).
Proof.
  apply Qabs_case; intros H; apply Qle_Rle in H; change 0%Q with (inject_Z 0) in H; rewrite Q2R_inject in H.
  - rewrite Rabs_pos_eq by exact H. reflexivity.
  - rewrite Rabs_left1 by exact H. apply Q2R_opp.
Qed.

Definition sum_err (j : nat) (t : R) : R := INR (S j) * (1 + u) ^ j * t.
Lemma sum_err_pos j t : 0 <= t -> 0 <= sum_err j t.
Proof. intros H. unfold sum_err. pose proof (gr_1 j). pose proof (pos_INR (S j)). apply Rmult_le_pos; [|exact H]. apply Rmult_le_pos; lra. Qed.
Lemma sum_err_le i j t : 0 <= t -> (i <= j)%nat -> sum_err i t <= sum_err j t.
Proof.
  intros H L. unfold sum_err. apply Rmult_le_compat_r; [exact H|]. pose proof (gr_1 i).
  apply Rmult_le_compat; [apply pos_INR|lra|apply le_INR; lia|apply gr_le, L].
Qed.
Lemma sum_err_S j t : 0 <= t -> (1 + u) * (sum_err j t + t) <= sum_err (S j) t.
Proof.
  intros H. unfold sum_err. rewrite (S_INR (S j)). cbn [pow]. pose proof (gr_1 j) as G. pose proof (pos_INR (S j)).
  replace ((INR (S j) + 1) * ((1 + u) * (1 + u) ^ j) * t) with ((1 + u) * (INR (S j) * (1 + u) ^ j * t + (1 + u) ^ j * t)) by ring.
  apply Rmult_le_compat_l; [lra|]. apply Rplus_le_compat_l. rewrite <- (Rmult_1_l t) at 1. apply Rmult_le_compat_r; lra.
Qed.

Lemma inner_err n V (x : list Z -> spec_float) (g : list Z -> Q) cs ws qs :
  0 <= V -> (forall c, In c cs -> fin (x c) /\ float_value (x c) = Some (g c) /\ Rabs (Q2R (g c)) <= V) ->
  Forall2 (weight n) ws qs -> length cs = length ws ->
  forall W j M y s, fin s -> appr (2 * n + 1 + j) (sum_err j (term_err n V)) M (rv s) y ->
  M + Q2R (wsum cs qs (fun c => Qabs (g c))) <= W ->
  (1 + u) ^ (2 * n + 1 + (j + length cs)) * W + sum_err (j + length cs) (term_err n V) < bpow radix2 emax ->
  let r := inner (ieee prec emax) s (map x cs) ws in
  fin r /\ appr (2 * n + 1 + (j + length cs)) (sum_err (j + length cs) (term_err n V))
    (M + Q2R (wsum cs qs (fun c => Qabs (g c)))) (rv r) (y + Q2R (wsum cs qs g)).
Proof.
  intros HV Hx Hw. revert cs Hx. induction Hw as [|w q ws qs Ww Hw IH]; intros [|c cs] Hx L; try discriminate; intros W j M y s Fs As HW HO.
  - cbn [map inner wsum length]. rewrite Nat.add_0_r. change 0%Q with (inject_Z 0). rewrite Q2R_inject, !Rplus_0_r. auto.
  - cbn [map inner]. destruct (Hx c (or_introl eq_refl)) as (Fx & Vx & Bx).
    destruct (term_ok n V (x c) (g c) w q Fx Vx Bx Ww) as [Ft At].
    assert (T0 : 0 <= term_err n V).
    { unfold term_err. pose proof (weight_err_pos n). assert (0 <= V * weight_err n) by (apply Rmult_le_pos; lra).
      assert (0 <= (1 + u) * (V * weight_err n)) by (apply Rmult_le_pos; lra). lra. }
    cbn [nadd nmul ieee]. set (p := SFmul prec emax (x c) w) in *.
    cbn [wsum] in HW |- *. rewrite !Q2R_plus, !Q2R_mult in *. rewrite Q2R_abs in *.
    assert (Ap : appr (2 * n + 1 + j) (sum_err j (term_err n V) + term_err n V) (M + Rabs (Q2R (g c)) * Q2R q)
      (rv s + rv p) (y + Q2R (g c) * Q2R q)).
    { apply appr_plus; [exact As|]. eapply appr_weaken; [| |exact At]; [lia|lra]. }
    assert (Ar : appr (2 * n + 1 + S j) (sum_err (S j) (term_err n V)) (M + Rabs (Q2R (g c)) * Q2R q)
      (rnd (rv s + rv p)) (y + Q2R (g c) * Q2R q)).
    { pose proof (appr_round _ _ _ _ _ (rnd (rv s + rv p)) 0 ltac:(lra) ltac:(rewrite Rplus_0_r; apply rnd_plus_err; try assumption; apply finite_fmt; assumption) Ap) as R.
      refine (appr_weaken _ _ _ _ _ _ _ _ _ R); [lia|]. rewrite Rplus_0_r. apply sum_err_S, T0. }
    assert (Ps : 0 <= Q2R (wsum cs qs (fun c => Qabs (g c)))).
    { clear - Hw Hu Hh. revert cs. induction Hw as [|w q ws qs (_ & _ & P & _) Hw IH]; intros [|c cs]; cbn [wsum]; change 0%Q with (inject_Z 0);
        rewrite ?Q2R_inject; try lra. rewrite Q2R_plus, Q2R_mult, Q2R_abs. specialize (IH cs). pose proof (Rabs_pos (Q2R (g c))).
      assert (0 <= Q2R q * Rabs (Q2R (g c))) by (apply Rmult_le_pos; lra). lra. }
    destruct (add_ok prec emax Hp Hm s p Fs Ft) as [Fr Er].
    { eapply Rle_lt_trans; [apply (appr_abs _ _ _ _ _ Ar)|]. eapply Rle_lt_trans; [|exact HO].
      pose proof (gr_1 (2 * n + 1 + S j)). cbn [length]. apply Rplus_le_compat; [|apply sum_err_le; [exact T0|lia]].
      destruct Ar as [_ Ar]. pose proof (Rabs_pos (y + Q2R (g c) * Q2R q)).
      apply Rmult_le_compat; [lra|lra|apply gr_le; lia|]. rewrite (Rmult_comm (Rabs _)). lra. }
    rewrite <- Er in Ar.
    assert (R := IH cs (fun d I => Hx d (or_intror I)) ltac:(simpl in L; congruence) W (S j) _ _ _ Fr Ar).
    cbn [length] in *. replace (j + S (length cs))%nat with (S j + length cs)%nat in * by lia.
    rewrite <- !Rplus_assoc. rewrite (Rmult_comm (Q2R q)), (Rmult_comm (Q2R q)). apply R; [|exact HO].
    rewrite (Rmult_comm (Rabs _)). lra.
Qed.

(** ** The result *)
Lemma linear_err_R {T} (cv : T -> spec_float) (m : mem T) c ps qs (f : list Z -> T) (g : list Z -> Q) V :
  addressable c (map (fun _ => I32) (dims c)) -> Forall (fun n => (n <= 2147483648)%Z) (dims c) ->
  (forall is_, in_box (dims c) is_ -> value m c is_ (f is_)) ->
  Forall2 coordinate ps qs -> interior (dims c) qs ->
  (forall is_, In is_ (neighbours qs) -> fin (cv (f is_)) /\ float_value (cv (f is_)) = Some (g is_) /\ (Qabs (g is_) <= V)%Q) ->
  let n := length ps in let N := (2 ^ n)%nat in
  (1 + u) ^ (2 * n + N) * Q2R V + sum_err (N - 1) (term_err n (Q2R V)) < bpow radix2 emax ->
  exists r, linear_interpolate (ieee prec emax) cv m c ps = Ok r /\ fin r /\
    Rabs (rv r - Q2R (multilinear qs g)) <= ((1 + u) ^ (2 * n + N) - 1) * Q2R V + sum_err (N - 1) (term_err n (Q2R V)).
Proof.
  intros HA HB HV HP HI HX n N HO. pose proof (interior_range _ _ HB HI) as HR.
  assert (W0 : Forall2 (weight 0) [one] [1%Q]).
  { constructor; [|constructor]. destruct one_ok as [F1 E1]. change 1%Q with (inject_Z 1).
    split; [exact F1|]. rewrite E1, Q2R_inject. split; [lra|]. split; [lra|]. split; [|rewrite Rabs_pos_eq; lra].
    replace (1 - 1) with 0 by ring. rewrite Rabs_R0. unfold weight_err. simpl. lra. }
  destruct (setup_both ps qs HP HR [[]] [one] [1%Q] 0 W0) as (cs & ws & wqs & E1 & E2 & Hw & Lw).
  destruct (setup_ok qs HR [[]] [1%Q] eq_refl) as (cs2 & wqs2 & E3 & L & S & C & C2 & NE).
  pose proof (eq_trans (eq_sym E2) E3) as E4. injection E4 as <- <-. cbn [length] in Lw. rewrite Nat.mul_1_r in Lw. fold n N in Lw. cbn [Nat.add] in Hw. fold n in Hw.
  assert (Cn : forall d, In d cs -> In d (neighbours qs)).
  { intros d Id. destruct (C d Id) as (d0 & js & [<-|[]] & J & ->). exact J. }
  assert (E5 : setup_linear (ieee prec emax) ps = Ok (cs, ws)) by exact E1.
  unfold linear_interpolate. rewrite E5, bind_ok.
  rewrite (mapM_values m c f cs).
  2:{ intros js Ij. pose proof (interior_neighbours _ _ HI js (Cn js Ij)) as Bj. apply get_value.
      - rewrite types_int, (map_const_length (dims c)) by (apply in_box_length; exact Bj). exact HA.
      - apply int_coord; assumption.
      - rewrite vals_int. apply HV. exact Bj. }
  rewrite bind_ok, map_map.
  assert (Sg : forall k, (wsum cs wqs k == multilinear qs k)%Q).
  { intros k. rewrite S. cbn [wsum]. transitivity (1 * multilinear qs k + 0)%Q; [reflexivity|ring]. }
  assert (Lc : length cs = length ws).
  { rewrite L. symmetry. clear - Hw. induction Hw as [|? ? ? ? _ _ IH]; [reflexivity|]. cbn [length]. f_equal. exact IH. }
  assert (HVm : Q2R (wsum cs wqs (fun d => Qabs (g d))) <= Q2R V).
  { apply Qle_Rle. rewrite Sg. apply (multilinear_between qs (fun d => Qabs (g d)) 0 V).
    intros is_ I. split; [apply Qabs_nonneg|apply HX, I]. }
  assert (HV0 : 0 <= Q2R V).
  { destruct (neighbours_ex qs) as [d Id]. destruct (HX d Id) as (_ & _ & Bd). apply Qle_Rle in Bd. rewrite Q2R_abs in Bd.
    pose proof (Rabs_pos (Q2R (g d))). lra. }
  assert (HXR : forall d, In d cs -> fin (cv (f d)) /\ float_value (cv (f d)) = Some (g d) /\ Rabs (Q2R (g d)) <= Q2R V).
  { intros d Id. destruct (HX d (Cn d Id)) as (F & E & B). split; [exact F|]. split; [exact E|]. apply Qle_Rle in B. rewrite Q2R_abs in B. exact B. }
  destruct Hw as [|w q ws' wqs' Ww Hw]; [destruct cs; [exfalso; apply NE; [discriminate|reflexivity]|discriminate Lc]|].
  destruct cs as [|d cs]; [discriminate Lc|]. cbn [map].
  destruct (HXR d (or_introl eq_refl)) as (Fx & Vx & Bx).
  destruct (term_ok n (Q2R V) (cv (f d)) (g d) w q Fx Vx Bx Ww) as [Ft At].
  eexists. split; [reflexivity|].
  assert (Ln : (2 * n + 1 + (0 + length cs) = 2 * n + N)%nat /\ (0 + length cs = N - 1)%nat) by (rewrite <- Lw, <- Lc; cbn [length]; lia).
  destruct Ln as [Ln1 Ln2].
  pose proof (inner_err n (Q2R V) (fun d => cv (f d)) g cs ws' wqs' HV0 (fun e I => HXR e (or_intror I)) Hw
    ltac:(simpl in Lc; congruence) (Q2R V) 0 (Rabs (Q2R (g d)) * Q2R q) (Q2R (g d) * Q2R q) (SFmul prec emax (cv (f d)) w) Ft) as R.
  rewrite Ln1, Ln2 in R. cbn [wsum] in HVm, Sg. cbn [nmul ieee].
  assert (Sg2 : Q2R (g d) * Q2R q + Q2R (wsum cs wqs' g) = Q2R (multilinear qs g)).
  { rewrite <- (Qeq_eqR _ _ (Sg g)), Q2R_plus, Q2R_mult. ring. }
  rewrite Q2R_plus, Q2R_mult, Q2R_abs, (Rmult_comm (Q2R q)) in HVm.
  destruct R as [Fr [Ar _]].
  - rewrite Nat.add_0_r. eapply appr_weaken; [| |exact At]; [lia|]. unfold sum_err. simpl. lra.
  - exact HVm.
  - exact HO.
  - split; [exact Fr|]. rewrite Sg2 in Ar. eapply Rle_trans; [exact Ar|]. apply Rplus_le_compat_r.
    apply Rmult_le_compat_l; [pose proof (gr_1 (2 * n + N)); lra|exact HVm].
Qed.
End Format.

(** ** In rational numbers *)
Lemma Q2R_pow2 z : Q2R (2 ^ z) = bpow radix2 z.
Proof.
  assert (P : forall n, (0 <= n)%Z -> Q2R (2 ^ n) = bpow radix2 n).
  { intros n Hn. rewrite <- (IZR_Zpower radix2) by exact Hn. rewrite <- Q2R_inject. apply Qeq_eqR.
    symmetry. exact (Zpower_Qpower 2 n Hn). }
  destruct (Z_le_gt_dec 0 z) as [H|H]; [apply P, H|].
  replace z with (- (- z))%Z by lia. rewrite bpow_opp, <- P by lia.
  rewrite (Qeq_eqR _ _ (Qpower_opp 2 (- z))). apply Q2R_inv.
  intros E. assert (N : ~ (2 == 0)%Q) by discriminate. exact (Qpower_not_0 2 (- z) N E).
Qed.

Lemma Q2R_0 : Q2R 0 = 0. Proof. unfold Q2R. simpl. lra. Qed.
Lemma Q2R_1 : Q2R 1 = 1. Proof. unfold Q2R. simpl. lra. Qed.

Lemma u_Q prec : Q2R (unit_roundoff prec) = ur prec.
Proof.
  unfold unit_roundoff, ur. rewrite Q2R_pow2. rewrite bpow_plus. change (bpow radix2 1) with 2. lra.
Qed.
Lemma h_Q prec emax : Q2R (half_smallest prec emax) = er prec emax.
Proof.
  unfold half_smallest, er. rewrite Q2R_pow2. replace (3 - emax - prec)%Z with (2 - emax - prec + 1)%Z by ring.
  rewrite bpow_plus. change (bpow radix2 1) with 2. lra.
Qed.
Lemma growth_Q prec k : Q2R (growth prec (Z.of_nat k)) = (1 + ur prec) ^ k.
Proof.
  unfold growth. assert (U : Q2R (1 + unit_roundoff prec) = 1 + ur prec) by (rewrite Q2R_plus, u_Q, Q2R_1; reflexivity).
  induction k as [|k IH].
  - simpl. apply Q2R_1.
  - rewrite Nat2Z.inj_succ, <- Z.add_1_l. cbn [pow]. rewrite <- IH, <- U, <- Q2R_mult. apply Qeq_eqR.
    rewrite Qpower_plus; [reflexivity|]. intros E. apply Qeq_eqR in E. rewrite U, Q2R_0 in E. pose proof (ur_pos prec). lra.
Qed.
Lemma roundings_nat n : roundings n = Z.of_nat (2 * n + 2 ^ n).
Proof. unfold roundings. rewrite Nat2Z.inj_add, Nat2Z.inj_mul, Nat2Z.inj_pow. reflexivity. Qed.

Lemma underflow_bound prec emax n V : 0 <= V ->
  sum_err prec (2 ^ n - 1) (term_err prec emax n V) <=
  (1 + ur prec) ^ (2 * n + 2 ^ n) * (INR (2 ^ n) * (INR n * V + 1) * er prec emax).
Proof.
  intros HV. pose proof (ur_pos prec) as Hu. pose proof (er_pos prec emax) as Hh. unfold sum_err, term_err, weight_err.
  assert (P : (2 ^ n <> 0)%nat) by (apply Nat.pow_nonzero; lia). set (N := (2 ^ n)%nat) in *.
  replace (S (N - 1)) with N by lia. pose proof (pos_INR N) as PN. pose proof (pos_INR n) as Pn.
  assert (G : forall k, 1 <= (1 + ur prec) ^ k) by (intros k; apply pow_R1_Rle; lra).
  replace (2 * n + N)%nat with ((N - 1) + (1 + 2 * n))%nat by lia. rewrite (pow_add _ (N - 1)). set (A := (1 + ur prec) ^ (N - 1)).
  pose proof (G (N - 1)%nat) as GA. fold A in GA.
  replace (A * (1 + ur prec) ^ (1 + 2 * n) * (INR N * (INR n * V + 1) * er prec emax)) with
    (INR N * A * ((1 + ur prec) ^ (1 + 2 * n) * (INR n * V + 1) * er prec emax)) by ring.
  apply Rmult_le_compat_l; [apply Rmult_le_pos; lra|].
  pose proof (G (1 + 2 * n)%nat) as GB. cbn [Nat.add pow] in *. set (B := (1 + ur prec) ^ (2 * n)) in *.
  replace ((1 + ur prec) * B * (INR n * V + 1) * er prec emax) with
    ((1 + ur prec) * (V * (INR n * B * er prec emax)) + ((1 + ur prec) * B) * er prec emax) by ring.
  apply Rplus_le_compat_l. rewrite <- (Rmult_1_l (er prec emax)) at 1. apply Rmult_le_compat_r; lra.
Qed.

Lemma largest_Q prec emax n V : Q2R (largest prec emax n V) =
  (1 + ur prec) ^ (2 * n + 2 ^ n) * Q2R V +
  (1 + ur prec) ^ (2 * n + 2 ^ n) * (INR (2 ^ n) * (INR n * Q2R V + 1) * er prec emax).
Proof.
  unfold largest, underflow. rewrite roundings_nat, Q2R_mult, growth_Q, Q2R_plus, !Q2R_mult, Q2R_plus, Q2R_mult, !Q2R_inject, h_Q, Q2R_1.
  assert (E : IZR (2 ^ Z.of_nat n) = INR (2 ^ n)) by (rewrite INR_IZR_INZ, Nat2Z.inj_pow; reflexivity).
  rewrite E, <- INR_IZR_INZ. ring.
Qed.

Lemma linear_error_Q prec emax n V : Q2R (linear_error prec emax n V) =
  ((1 + ur prec) ^ (2 * n + 2 ^ n) - 1) * Q2R V +
  (1 + ur prec) ^ (2 * n + 2 ^ n) * (INR (2 ^ n) * (INR n * Q2R V + 1) * er prec emax).
Proof.
  unfold linear_error. rewrite Q2R_plus, Q2R_mult, Q2R_minus, Q2R_1.
  pose proof (largest_Q prec emax n V) as L. unfold largest in L. rewrite !Q2R_mult, Q2R_plus in *.
  rewrite roundings_nat, growth_Q in *. lra.
Qed.

Lemma linear_error_l prec emax : (1 < prec)%Z -> (prec < emax)%Z ->
  forall (T : Type) (cv : T -> spec_float) (m : mem T) c ps qs (f : list Z -> T) (g : list Z -> Q) V,
  addressable c (map (fun _ => I32) (dims c)) -> Forall (fun n => (n <= 2147483648)%Z) (dims c) ->
  (forall is_, in_box (dims c) is_ -> value m c is_ (f is_)) ->
  Forall2 (fun p q => finite_number prec emax p /\ float_value p = Some q) ps qs -> interior (dims c) qs ->
  (forall is_, In is_ (neighbours qs) ->
     finite_number prec emax (cv (f is_)) /\ float_value (cv (f is_)) = Some (g is_) /\ (Qabs (g is_) <= V)%Q) ->
  (largest prec emax (length ps) V < 2 ^ emax)%Q ->
  exists r rq, linear_interpolate (ieee prec emax) cv m c ps = Ok r /\ finite_number prec emax r /\
    float_value r = Some rq /\ (Qabs (rq - multilinear qs g) <= linear_error prec emax (length ps) V)%Q.
Proof.
  intros Hp Hm T cv m c ps qs f g V HA HB HV HP HI HX HO.
  assert (HV0 : 0 <= Q2R V).
  { destruct (neighbours_ex qs) as [d Id]. destruct (HX d Id) as (_ & _ & Bd). apply Qle_Rle in Bd. rewrite Q2R_abs in Bd.
    pose proof (Rabs_pos (Q2R (g d))). lra. }
  pose proof (underflow_bound prec emax (length ps) (Q2R V) HV0) as UB.
  apply Qlt_Rlt in HO. rewrite largest_Q, Q2R_pow2 in HO.
  destruct (linear_err_R prec emax Hp Hm cv m c ps qs f g V HA HB HV HP HI HX) as (r & E & F & D).
  { eapply Rle_lt_trans; [|exact HO]. apply Rplus_le_compat_l, UB. }
  destruct (finite_float_value prec emax r F) as [rq Er]. exists r, rq. split; [exact E|]. split; [exact F|]. split; [exact Er|].
  apply Rle_Qle. rewrite Q2R_abs, Q2R_minus, (float_value_R _ _ Er), linear_error_Q.
  eapply Rle_trans; [exact D|]. apply Rplus_le_compat_l, UB.
Qed.

(** ** The usual formats *)
Lemma linear_error_lin prec emax n V : (linear_error prec emax n V ==
  linear_error prec emax n 0 + (linear_error prec emax n 1 - linear_error prec emax n 0) * V)%Q.
Proof. unfold linear_error, underflow. ring. Qed.
Lemma linear_error_le prec emax n V a b : (0 <= V)%Q -> (linear_error prec emax n 0 <= b)%Q ->
  (linear_error prec emax n 1 - linear_error prec emax n 0 <= a)%Q -> (linear_error prec emax n V <= V * a + b)%Q.
Proof.
  intros HV HB HA. rewrite linear_error_lin. rewrite Qplus_comm. apply Qplus_le_compat; [|exact HB].
  rewrite (Qmult_comm V a). apply Qmult_le_compat_r; assumption.
Qed.
Lemma largest_error prec emax n V : (largest prec emax n V == V + linear_error prec emax n V)%Q.
Proof. unfold largest, linear_error. ring. Qed.

Lemma le4 n : (n <= 4)%nat -> In n [0; 1; 2; 3; 4]%nat.
Proof. intros H. destruct n as [|[|[|[|[|n]]]]]; cbn; auto 6. lia. Qed.

Lemma small_error prec emax a b n V : (n <= 4)%nat -> (0 <= V)%Q ->
  forallb (fun k => Qle_bool (linear_error prec emax k 0) b &&
    Qle_bool (linear_error prec emax k 1 - linear_error prec emax k 0) a)%Q [0; 1; 2; 3; 4]%nat = true ->
  (linear_error prec emax n V <= V * a + b)%Q.
Proof.
  intros Hn HV H. rewrite forallb_forall in H. specialize (H n (le4 n Hn)). apply andb_true_iff in H as [H1 H2].
  apply Qle_bool_iff in H1, H2. apply linear_error_le; assumption.
Qed.

Lemma linear_within_l prec emax : (1 < prec)%Z -> (prec < emax)%Z ->
  forall (T : Type) (cv : T -> spec_float) (m : mem T) c ps qs (f : list Z -> T) (g : list Z -> Q) V lo hi,
  addressable c (map (fun _ => I32) (dims c)) -> Forall (fun n => (n <= 2147483648)%Z) (dims c) ->
  (forall is_, in_box (dims c) is_ -> value m c is_ (f is_)) ->
  Forall2 (fun p q => finite_number prec emax p /\ float_value p = Some q) ps qs -> interior (dims c) qs ->
  (forall is_, In is_ (neighbours qs) ->
     finite_number prec emax (cv (f is_)) /\ float_value (cv (f is_)) = Some (g is_) /\ (Qabs (g is_) <= V)%Q) ->
  (largest prec emax (length ps) V < 2 ^ emax)%Q ->
  (forall is_, In is_ (neighbours qs) -> (lo <= g is_ <= hi)%Q) ->
  exists r rq, linear_interpolate (ieee prec emax) cv m c ps = Ok r /\ finite_number prec emax r /\
    float_value r = Some rq /\
    (lo - linear_error prec emax (length ps) V <= rq <= hi + linear_error prec emax (length ps) V)%Q.
Proof.
  intros Hp Hm T cv m c ps qs f g V lo hi HA HB HV HP HI HX HO HL.
  destruct (linear_error_l prec emax Hp Hm T cv m c ps qs f g V HA HB HV HP HI HX HO) as (r & rq & E & F & Er & D).
  exists r, rq. split; [exact E|]. split; [exact F|]. split; [exact Er|].
  pose proof (multilinear_between qs g lo hi HL) as [B1 B2]. apply Qabs_Qle_condition in D as [D1 D2].
  split; apply Rle_Qle; apply Qle_Rle in B1, B2, D1, D2; rewrite ?Q2R_opp, ?Q2R_minus, ?Q2R_plus in *; lra.
Qed.

Lemma neighbours_bound qs (g : list Z -> Q) V : (forall is_, In is_ (neighbours qs) -> (Qabs (g is_) <= V)%Q) -> (0 <= V)%Q.
Proof.
  intros H. destruct (neighbours_ex qs) as [d Id]. eapply Qle_trans; [apply Qabs_nonneg|apply (H d Id)].
Qed.

Lemma linear_small_l prec emax a b top : (1 < prec)%Z -> (prec < emax)%Z ->
  forallb (fun k => Qle_bool (linear_error prec emax k 0) b &&
    Qle_bool (linear_error prec emax k 1 - linear_error prec emax k 0) a)%Q [0; 1; 2; 3; 4]%nat = true ->
  (0 <= a)%Q -> (top + (top * a + b) < 2 ^ emax)%Q ->
  forall (T : Type) (cv : T -> spec_float) (m : mem T) c ps qs (f : list Z -> T) (g : list Z -> Q) V,
  addressable c (map (fun _ => I32) (dims c)) -> Forall (fun n => (n <= 2147483648)%Z) (dims c) ->
  (forall is_, in_box (dims c) is_ -> value m c is_ (f is_)) ->
  Forall2 (fun p q => finite_number prec emax p /\ float_value p = Some q) ps qs -> interior (dims c) qs ->
  (forall is_, In is_ (neighbours qs) ->
     finite_number prec emax (cv (f is_)) /\ float_value (cv (f is_)) = Some (g is_) /\ (Qabs (g is_) <= V)%Q) ->
  (length ps <= 4)%nat -> (V <= top)%Q ->
  exists r rq, linear_interpolate (ieee prec emax) cv m c ps = Ok r /\ finite_number prec emax r /\
    float_value r = Some rq /\ (Qabs (rq - multilinear qs g) <= V * a + b)%Q.
Proof.
  intros Hp Hm HC Ha Ht T cv m c ps qs f g V HA HB HV HP HI HX Hn HT.
  assert (HV0 : (0 <= V)%Q) by (apply (neighbours_bound qs g); intros is_ I; apply HX, I).
  pose proof (small_error prec emax a b (length ps) V Hn HV0 HC) as SE.
  destruct (linear_error_l prec emax Hp Hm T cv m c ps qs f g V HA HB HV HP HI HX) as (r & rq & E & F & Er & D).
  { rewrite largest_error. eapply Qle_lt_trans; [|exact Ht]. apply Qplus_le_compat; [exact HT|].
    eapply Qle_trans; [exact SE|]. apply Qplus_le_compat; [|apply Qle_refl]. apply Qmult_le_compat_r; assumption. }
  exists r, rq. split; [exact E|]. split; [exact F|]. split; [exact Er|]. eapply Qle_trans; [exact D|exact SE].
Qed.

Lemma linear_float_l :
  forall (T : Type) (cv : T -> spec_float) (m : mem T) c ps qs (f : list Z -> T) (g : list Z -> Q) V,
  addressable c (map (fun _ => I32) (dims c)) -> Forall (fun n => (n <= 2147483648)%Z) (dims c) ->
  (forall is_, in_box (dims c) is_ -> value m c is_ (f is_)) ->
  Forall2 (fun p q => finite_number 24 128 p /\ float_value p = Some q) ps qs -> interior (dims c) qs ->
  (forall is_, In is_ (neighbours qs) ->
     finite_number 24 128 (cv (f is_)) /\ float_value (cv (f is_)) = Some (g is_) /\ (Qabs (g is_) <= V)%Q) ->
  (length ps <= 4)%nat -> (V <= 2 ^ 127)%Q ->
  exists r rq, linear_interpolate binary32 cv m c ps = Ok r /\ finite_number 24 128 r /\
    float_value r = Some rq /\ (Qabs (rq - multilinear qs g) <= V * 2 ^ (-19) + 2 ^ (-145))%Q.
Proof. apply (linear_small_l 24 128 (2 ^ (-19)) (2 ^ (-145)) (2 ^ 127)); try lia; try (vm_compute; reflexivity). vm_compute. discriminate. Qed.

Lemma linear_double_l :
  forall (T : Type) (cv : T -> spec_float) (m : mem T) c ps qs (f : list Z -> T) (g : list Z -> Q) V,
  addressable c (map (fun _ => I32) (dims c)) -> Forall (fun n => (n <= 2147483648)%Z) (dims c) ->
  (forall is_, in_box (dims c) is_ -> value m c is_ (f is_)) ->
  Forall2 (fun p q => finite_number 53 1024 p /\ float_value p = Some q) ps qs -> interior (dims c) qs ->
  (forall is_, In is_ (neighbours qs) ->
     finite_number 53 1024 (cv (f is_)) /\ float_value (cv (f is_)) = Some (g is_) /\ (Qabs (g is_) <= V)%Q) ->
  (length ps <= 4)%nat -> (V <= 2 ^ 1023)%Q ->
  exists r rq, linear_interpolate binary64 cv m c ps = Ok r /\ finite_number 53 1024 r /\
    float_value r = Some rq /\ (Qabs (rq - multilinear qs g) <= V * 2 ^ (-48) + 2 ^ (-1070))%Q.
Proof. apply (linear_small_l 53 1024 (2 ^ (-48)) (2 ^ (-1070)) (2 ^ 1023)); try lia; try (vm_compute; reflexivity). vm_compute. discriminate. Qed.
