(** Facts about interpolation with several floating-point types (C72). *)
From Coq Require Import ZArith QArith Qreals Qround Qpower Qabs Reals Lia Lra Psatz List Bool.
From Coq Require Import Floats.SpecFloat.
From Flocq Require Import Core BinarySingleNaN.
From Verif Require Import Outcome CInt CIntFacts Spec SpecFacts ShapeSpec ShapeFacts Memory MemFacts Container ContainerSpec
  ContainerFacts ContainerFacts2 AlgoSpec Interp InterpSpec InterpFacts IeeeSpec IeeeFacts RoundSpec RoundFacts ErrorFacts
  Mixed MixedSpec.
Import ListNotations.
Open Scope R_scope.

Lemma fp_ok f : (1 < f_prec f)%Z. Proof. destruct f; reflexivity. Qed.
Lemma fm_ok f : (f_prec f < f_emax f)%Z. Proof. destruct f; reflexivity. Qed.

Definition le (f g : ftype) : Prop := (f_prec f <= f_prec g)%Z.
Lemma le_emax f g : le f g -> (f_emax f <= f_emax g)%Z.
Proof. unfold le. destruct f, g; cbn; lia. Qed.
Lemma le_refl f : le f f. Proof. unfold le. lia. Qed.
Lemma le_trans f g k : le f g -> le g k -> le f k. Proof. unfold le. lia. Qed.
Lemma common_l f g : le f (common f g).
Proof. unfold common, le. destruct (Z.ltb_spec (f_prec f) (f_prec g)); lia. Qed.
Lemma common_r f g : le g (common f g).
Proof. unfold common, le. destruct (Z.ltb_spec (f_prec f) (f_prec g)); lia. Qed.
Lemma common_or f g : common f g = f \/ common f g = g.
Proof. unfold common. destruct (f_prec f <? f_prec g)%Z; auto. Qed.

Notation rndF f := (rnd (f_prec f) (f_emax f)).
Notation fmtF f := (RoundFacts.fmt (f_prec f) (f_emax f)).
Notation uF f := (ur (f_prec f)).
Notation hF f := (er (f_prec f) (f_emax f)).

Lemma u_le f g : le f g -> uF g <= uF f.
Proof. unfold le, ur. intros L. apply Rmult_le_compat_l; [lra|]. apply bpow_le. lia. Qed.
Lemma h_le f g : le f g -> hF g <= hF f.
Proof. intros L. pose proof (le_emax _ _ L). unfold le in L. unfold er. apply Rmult_le_compat_l; [lra|]. apply bpow_le. lia. Qed.

Lemma rnd_errF f g x : le f g -> Rabs (rndF g x - x) <= uF f * Rabs x + hF f.
Proof.
  intros L. eapply Rle_trans; [apply rnd_err, fp_ok|]. pose proof (u_le _ _ L). pose proof (h_le _ _ L). pose proof (Rabs_pos x).
  apply Rplus_le_compat; [apply Rmult_le_compat_r|]; assumption.
Qed.
Lemma rnd_plus_errF f g x y : le f g -> fmtF g x -> fmtF g y -> Rabs (rndF g (x + y) - (x + y)) <= uF f * Rabs (x + y).
Proof.
  intros L Fx Fy. eapply Rle_trans; [apply rnd_plus_err; try assumption; apply fp_ok|].
  apply Rmult_le_compat_r; [apply Rabs_pos|apply u_le, L].
Qed.

(** ** Conversions *)
Lemma norm_ok prec emax (Hp : (1 < prec)%Z) (Hm : (prec < emax)%Z) z e s :
  Rabs (rnd prec emax (F2R (Defs.Float radix2 z e))) < bpow radix2 emax ->
  finite_number prec emax (SpecFloat.binary_normalize prec emax z e s) /\
  rv (SpecFloat.binary_normalize prec emax z e s) = rnd prec emax (F2R (Defs.Float radix2 z e)).
Proof.
  intros H. rewrite (normalize_equiv prec emax Hp Hm).
  pose proof (binary_normalize_correct prec emax (prec_pos prec Hp) (prec_lt prec emax Hm) mode_NE z e s) as C.
  cbv zeta in C. rewrite Rlt_bool_true in C by exact H. destruct C as (C1 & C2 & _).
  destruct (B_finite prec emax _ C2) as [F E]. split; [exact F|]. rewrite E. exact C1.
Qed.

Lemma finite_bounds prec emax s m e : (1 < prec)%Z -> finite_number prec emax (S754_finite s m e) ->
  (Zpos m < 2 ^ prec)%Z /\ (3 - emax - prec <= e)%Z.
Proof.
  intros Hp [F _]. cbn [valid_binary] in F. unfold SpecFloat.bounded in F. apply andb_true_iff in F as [F _].
  unfold SpecFloat.canonical_mantissa in F. apply Zeq_bool_eq in F.
  unfold SpecFloat.fexp, SpecFloat.emin in F. pose proof (digits_upper m) as D.
  split; [|lia]. eapply Z.lt_le_trans; [exact D|]. apply Z.pow_le_mono_r; [lia|]. clear D. lia.
Qed.

Lemma conv_ok f g x : le f g -> finite_of f x -> finite_of g (to_ftype g x) /\ rv (to_ftype g x) = rv x.
Proof.
  intros L F. destruct x as [s|s| |s m e]; try (destruct F as [_ F]; contradiction).
  - split; [split; [reflexivity|exact I]|reflexivity].
  - destruct (finite_bounds _ _ _ _ _ (fp_ok f) F) as [B1 B2]. pose proof (le_emax _ _ L) as Le. unfold le in L.
    cbn [to_ftype].
    assert (E : F2R (Defs.Float radix2 (if s then Zneg m else Zpos m) e) = rv (S754_finite s m e)).
    { unfold rv, SF2R. destruct s; reflexivity. }
    assert (Fm : fmtF g (rv (S754_finite s m e))).
    { rewrite <- E. apply fmt_scaled; try apply fp_ok.
      - assert (A : Z.abs (if s then Zneg m else Zpos m) = Zpos m) by (destruct s; reflexivity). rewrite A.
        eapply Z.lt_le_trans; [exact B1|]. apply Z.pow_le_mono_r; lia.
      - lia. }
    destruct (norm_ok (f_prec g) (f_emax g) (fp_ok g) (fm_ok g) (if s then Zneg m else Zpos m) e s) as [N1 N2].
    + rewrite E, rnd_id by exact Fm. eapply Rlt_le_trans; [apply (finite_lt (f_prec f) (f_emax f)), F|]. apply bpow_le, Le.
    + split; [exact N1|]. etransitivity; [exact N2|]. rewrite E. apply rnd_id; exact Fm.
Qed.

Lemma mul_in_ok f fx fy x y : le fx f -> le fy f -> finite_of fx x -> finite_of fy y ->
  Rabs (rndF f (rv x * rv y)) < bpow radix2 (f_emax f) ->
  finite_of f (mul_in f x y) /\ rv (mul_in f x y) = rndF f (rv x * rv y).
Proof.
  intros Lx Ly Fx Fy H. destruct (conv_ok fx f x Lx Fx) as [Cx Ex]. destruct (conv_ok fy f y Ly Fy) as [Cy Ey].
  unfold mul_in. rewrite <- Ex, <- Ey in H |- *. exact (mul_ok _ _ (fp_ok f) (fm_ok f) _ _ Cx Cy H).
Qed.
Lemma rnd_01F f x : 0 <= x <= 1 -> 0 <= rndF f x <= 1.
Proof. apply rnd_01; apply fp_ok || apply fm_ok. Qed.
Lemma small_ltF f x : 0 <= x <= 1 -> Rabs x < bpow radix2 (f_emax f).
Proof. apply small_lt with (prec := f_prec f); apply fp_ok || apply fm_ok. Qed.

Section Coarse.
Variable fc : ftype.
Notation pc := (f_prec fc).
Notation ec := (f_emax fc).
Notation u := (ur pc).
Notation h := (er pc ec).
Notation appr := (appr pc).
Let Hu : 0 < u. Proof. apply ur_pos. Qed.
Let Hh : 0 < h. Proof. apply er_pos. Qed.

Definition weightF (k : nat) (f : ftype) (w : spec_float) (q : Q) : Prop :=
  finite_of f w /\ 0 <= rv w <= 1 /\ 0 <= Q2R q /\ appr (2 * k) (weight_err pc ec k) (Q2R q) (rv w) (Q2R q).

Lemma weight_stepF k f fw fp w q a qa : le fc f -> le fw f -> le fp f ->
  weightF k fw w q -> finite_of fp a -> 0 <= rv a <= 1 -> 0 <= Q2R qa <= 1 ->
  Rabs (rv a - Q2R qa) <= u * Q2R qa -> weightF (S k) f (mul_in f w a) (q * qa)%Q.
Proof.
  intros Lc Lw Lp (Fw & Bw & Pq & Aw) Fa Ba Bq Da.
  assert (B01 : 0 <= rv w * rv a <= 1) by (split; [apply Rmult_le_pos; lra|rewrite <- (Rmult_1_r 1); apply Rmult_le_compat; lra]).
  destruct (mul_in_ok f fw fp w a Lw Lp Fw Fa (small_ltF f _ (rnd_01F f _ B01))) as [F E].
  split; [exact F|]. rewrite E. split; [apply rnd_01F, B01|]. rewrite Q2R_mult.
  assert (Pqq : 0 <= Q2R q * Q2R qa) by (apply Rmult_le_pos; lra). split; [exact Pqq|].
  assert (Am : appr (S (2 * k)) ((1 + u) * weight_err pc ec k) (Q2R q * Q2R qa) (rv w * rv a) (Q2R q * Q2R qa)).
  { split; [|rewrite Rabs_pos_eq; lra]. destruct Aw as [Aw _].
    replace (rv w * rv a - Q2R q * Q2R qa) with ((rv w - Q2R q) * rv a + Q2R q * (rv a - Q2R qa)) by ring.
    eapply Rle_trans; [apply Rabs_triang|]. rewrite !Rabs_mult. rewrite (Rabs_pos_eq (rv a)) by lra.
    rewrite (Rabs_pos_eq (Q2R q)) by lra. pose proof (gr_1 pc (2 * k)) as G. pose proof (weight_err_pos pc ec k) as W.
    assert (Xa : rv a <= (1 + u) * Q2R qa).
    { apply Rabs_le_inv in Da. lra. }
    assert (S1 : Rabs (rv w - Q2R q) * rv a <= (((1 + u) ^ (2 * k) - 1) * Q2R q + weight_err pc ec k) * ((1 + u) * Q2R qa)).
    { apply Rmult_le_compat; [apply Rabs_pos|lra|exact Aw|exact Xa]. }
    assert (S2 : Q2R q * Rabs (rv a - Q2R qa) <= Q2R q * (u * Q2R qa)) by (apply Rmult_le_compat_l; lra).
    assert (S3 : weight_err pc ec k * ((1 + u) * Q2R qa) <= (1 + u) * weight_err pc ec k).
    { rewrite (Rmult_comm (1 + u) (weight_err pc ec k)). apply Rmult_le_compat_l; [exact W|].
      rewrite <- (Rmult_1_r (1 + u)) at 2. apply Rmult_le_compat_l; lra. }
    cbn [pow]. replace (((1 + u) * (1 + u) ^ (2 * k) - 1) * (Q2R q * Q2R qa)) with
      ((((1 + u) ^ (2 * k) - 1) * Q2R q) * ((1 + u) * Q2R qa) + Q2R q * (u * Q2R qa)) by ring.
    lra. }
  pose proof (appr_round pc _ _ _ _ _ (rndF f (rv w * rv a)) h ltac:(lra) (rnd_errF fc f _ Lc) Am) as R.
  refine (appr_weaken pc _ _ _ _ _ _ _ _ _ R); [lia|].
  unfold weight_err. replace (2 * S k)%nat with (S (S (2 * k))) by lia. cbn [pow]. rewrite S_INR.
  pose proof (gr_1 pc (2 * k)) as G. pose proof (pos_INR k).
  replace ((1 + u) * ((1 + u) * (INR k * (1 + u) ^ (2 * k) * h)) + h) with
    (INR k * ((1 + u) * ((1 + u) * (1 + u) ^ (2 * k))) * h + h) by ring.
  replace ((INR k + 1) * ((1 + u) * ((1 + u) * (1 + u) ^ (2 * k))) * h) with
    (INR k * ((1 + u) * ((1 + u) * (1 + u) ^ (2 * k))) * h + ((1 + u) ^ S (S (2 * k))) * h) by (cbn [pow]; ring).
  pose proof (gr_1 pc (S (S (2 * k)))). apply Rplus_le_compat_l. rewrite <- (Rmult_1_l h) at 1. apply Rmult_le_compat_r; lra.
Qed.

(** The type of the weights: the highest of Float and the coordinates met. *)
Definition wider (f : ftype) (p : coordinate) : ftype := match p with Real g _ => common f g | Whole _ => f end.
Definition widest (fw : ftype) (ps : list coordinate) : ftype := fold_left wider ps fw.

Lemma widest_le ps : forall fw, le fw (widest fw ps) /\ forall g, In g (real_types ps) -> le g (widest fw ps).
Proof.
  induction ps as [|p ps IH]; intros fw; cbn [widest fold_left]; [split; [apply le_refl|intros p []]|].
  destruct p as [g x|z]; cbn [wider real_types flat_map app].
  - destruct (IH (common fw g)) as [A B]. split.
    + eapply le_trans; [apply common_l|exact A].
    + intros r [<-|I]; [eapply le_trans; [apply common_r|exact A]|apply B, I].
  - exact (IH fw).
Qed.
Lemma widest_in ps : forall fw, widest fw ps = fw \/ In (widest fw ps) (real_types ps).
Proof.
  induction ps as [|p ps IH]; intros fw; cbn [widest fold_left]; [auto|].
  destruct p as [g x|z]; cbn [wider real_types flat_map app]; [|exact (IH fw)].
  destruct (IH (common fw g)) as [A|A]; [|right; right; exact A].
  unfold widest in A. rewrite A. destruct (common_or fw g) as [E|E]; rewrite E; [left|right; left]; reflexivity.
Qed.

Lemma int01 f : finite_of f (of_int (arith_of f) 1) /\ rv (of_int (arith_of f) 1) = 1 /\
  finite_of f (of_int (arith_of f) 0) /\ rv (of_int (arith_of f) 0) = 0.
Proof.
  destruct (one_ok (f_prec f) (f_emax f) (fp_ok f) (fm_ok f)) as [A B].
  split; [exact A|]. split; [exact B|]. split; [split; [|exact I]|]; destruct f; reflexivity.
Qed.

Lemma weight_intF k f w q (b : bool) : weightF k f w q ->
  weightF (S k) f (mul_in f w (of_int (arith_of f) (if b then 1 else 0))) (q * inject_Z (if b then 1 else 0))%Q.
Proof.
  intros (Fw & Bw & Pq & Aw). destruct (int01 f) as (F1 & E1 & F0 & E0).
  set (a := of_int (arith_of f) (if b then 1 else 0)).
  assert (Fa : finite_of f a) by (unfold a; destruct b; assumption).
  assert (Ea : rv a = IZR (if b then 1 else 0)) by (unfold a; destruct b; assumption).
  assert (Rd : rndF f (rv w * rv a) = rv w * rv a).
  { rewrite Ea. apply rnd_id. destruct b; rewrite ?Rmult_1_r, ?Rmult_0_r; [apply finite_fmt; exact Fw|apply fmt_0; apply fp_ok || apply fm_ok]. }
  assert (B01 : 0 <= rv w * rv a <= 1) by (rewrite Ea; destruct b; lra).
  destruct (mul_in_ok f f f w a (le_refl f) (le_refl f) Fw Fa (small_ltF f _ (rnd_01F f _ B01))) as [F E].
  rewrite Rd in E. split; [exact F|]. rewrite E. split; [exact B01|]. rewrite Q2R_mult, Q2R_inject, Ea. destruct b.
  - rewrite !Rmult_1_r. split; [exact Pq|]. refine (appr_weaken pc _ _ _ _ _ _ _ _ _ Aw); [lia|].
    unfold weight_err. rewrite S_INR. apply Rmult_le_compat_r; [lra|]. pose proof (pos_INR k). pose proof (gr_1 pc (2 * k)).
    apply Rmult_le_compat; [lra|lra|lra|]. apply gr_le. lia.
  - rewrite !Rmult_0_r. split; [lra|]. split; [|rewrite Rabs_R0; lra]. rewrite Rminus_0_r, Rabs_R0.
    pose proof (weight_err_pos pc ec (S k)). lra.
Qed.

Lemma setup_mixed_both ps qs : Forall2 stands_for ps qs -> Forall cell_range qs -> Forall (le fc) (real_types ps) ->
  forall cs fw ws wqs k, Forall2 (weightF k fw) ws wqs ->
  exists cs' ws' wqs', kfold_right mixed_step ps (cs, (fw, ws)) = Ok (cs', (widest fw ps, ws')) /\
    kfold_right (setup_step rationals) qs (cs, wqs) = Ok (cs', wqs') /\
    Forall2 (weightF (k + length ps) (widest fw ps)) ws' wqs' /\ length ws' = (2 ^ length ps * length ws)%nat.
Proof.
  intros H. induction H as [|p q ps qs Hs H IH]; intros R Lf cs fw ws wqs k W.
  - exists cs, ws, wqs. cbn [length]. rewrite Nat.add_0_r. split; [reflexivity|]. split; [reflexivity|]. split; [exact W|]. cbn. lia.
  - inversion R as [|? ? [Hq Hr] R']; subst.
    pose proof (floor_nonneg q Hq) as H0.
    assert (Tq : to_int rationals I32 q = Ok (Qfloor q)) by (apply to_int_rat; [exact Hq|unfold in_ty; simpl; lia]).
    assert (Np : cadd (int (Qfloor q)) (int 1) = Ok (int (Qfloor q + 1))).
    { unfold cadd. rewrite arith_exact; [reflexivity|unfold wfc, in_ty; simpl; lia|unfold wfc, in_ty; simpl; lia|left; reflexivity|unfold in_ty; simpl; lia]. }
    set (bq := (q - inject_Z (Qfloor q))%Q). set (aq := (inject_Z 1 - bq)%Q).
    assert (P : exists a b, coordinate_parts fw p = Ok (Qfloor q, (wider fw p, a, b)) /\
      (forall w wq, weightF k fw w wq -> weightF (S k) (wider fw p) (mul_in (wider fw p) w a) (wq * aq)%Q) /\
      (forall w wq, weightF k fw w wq -> weightF (S k) (wider fw p) (mul_in (wider fw p) w b) (wq * bq)%Q)).
    { destruct p as [fp x|z]; cbn [stands_for wider real_types flat_map app] in *.
      - destruct Hs as [Fp Vp]. inversion Lf as [|? ? Lp Lf']; subst.
        assert (To : to_int (arith_of fp) I32 x = Ok (Qfloor q)).
        { unfold to_int. cbn [trunc ieee arith_of]. rewrite (trunc_value _ _ Vp). exact Tq. }
        destruct (coord_ok (f_prec fp) (f_emax fp) (fp_ok fp) (fm_ok fp) x q Fp Vp Hq) as [(Fb & B1 & B2 & B3) (Fa & A1 & A2 & A3)].
        cbn [coordinate_parts]. rewrite To, bind_ok. eexists _, _. split; [reflexivity|].
        pose proof (u_le _ _ Lp) as Lu. assert (Lcf : le fc (common fw fp)) by (eapply le_trans; [exact Lp|apply common_r]).
        change ((inject_Z 1 - (q - inject_Z (Qfloor q)))%Q) with aq in A2, A3. change ((q - inject_Z (Qfloor q))%Q) with bq in B2, B3.
        split; intros w wq Ww; apply (weight_stepF k (common fw fp) fw fp); try assumption; try apply common_l; try apply common_r;
          (eapply Rle_trans; [eassumption|apply Rmult_le_compat_r; lra]).
      - destruct Hs as [Bz ->]. assert (Ez : Qfloor (inject_Z z) = z) by apply Qfloor_Z.
        assert (Eb : (bq == inject_Z 0)%Q) by (unfold bq; rewrite Ez; change (inject_Z 0) with 0%Q; ring).
        assert (Ea : (aq == inject_Z 1)%Q) by (unfold aq; rewrite Eb; change (inject_Z 0) with 0%Q; ring).
        eexists _, _. split; [cbn [coordinate_parts]; rewrite Ez; reflexivity|].
        assert (EQ : forall k' f w x y, (x == y)%Q -> weightF k' f w x -> weightF k' f w y).
        { intros k' f w x y Exy (W1 & W2 & W3 & W4). rewrite (Qeq_eqR _ _ Exy) in *. exact (conj W1 (conj W2 (conj W3 W4))). }
        split; intros w wq Ww.
        + eapply EQ; [|exact (weight_intF k fw w wq true Ww)]. rewrite Ea. reflexivity.
        + eapply EQ; [|exact (weight_intF k fw w wq false Ww)]. rewrite Eb. reflexivity. }
    destruct P as (a & b & EP & Pa & Pb).
    assert (Lf' : Forall (le fc) (real_types ps)) by (destruct p; [inversion Lf; assumption|exact Lf]).
    cbn [kfold_right]. unfold mixed_step at 1. unfold setup_step at 1. cbn [fst snd]. rewrite EP, Tq, !bind_ok, Np, !bind_ok.
    cbn [cval int].
    change (nsub rationals) with Qminus. change (nmul rationals) with Qmult. change (of_int rationals) with inject_Z.
    fold bq aq.
    set (cs1 := map (fun e : list Z => e ++ [Qfloor q]) cs ++ map (fun e : list Z => e ++ [(Qfloor q + 1)%Z]) cs).
    set (f := wider fw p) in *.
    destruct (IH R' Lf' cs1 f (map (fun e => mul_in f e a) ws ++ map (fun e => mul_in f e b) ws)
      (map (fun e => (e * aq)%Q) wqs ++ map (fun e => (e * bq)%Q) wqs) (S k)) as (cs' & ws' & wqs' & E1 & E2 & W' & L').
    { apply Forall2_app'; apply Forall2_map'; (eapply Forall2_imp; [|exact W]); intros w wq Ww; auto. }
    exists cs', ws', wqs'. split; [exact E1|]. split; [exact E2|]. split.
    + cbn [length]. replace (k + S (length ps))%nat with (S k + length ps)%nat by lia. exact W'.
    + rewrite L', app_length, !map_length. cbn [length Nat.pow]. lia.
Qed.

Lemma term_okF n f fw V x g w q : le fc f -> le fw f -> finite_of f x -> rv x = Q2R g -> Rabs (Q2R g) <= V -> weightF n fw w q ->
  finite_of f (mul_in f x w) /\
  appr (2 * n + 1) (term_err pc ec n V) (Rabs (Q2R g) * Q2R q) (rv (mul_in f x w)) (Q2R g * Q2R q).
Proof.
  intros Lc Lw Fx Vx Bx (Fw & Bw & Pq & Aw). rewrite <- Vx in *.
  assert (A : Rabs (rndF f (rv x * rv w)) <= Rabs (rv x)).
  { apply abs_round_le_generic; [exact (fe_valid (f_prec f) (f_emax f) (fp_ok f))|apply valid_rnd_N|apply generic_format_abs; exact (finite_fmt (f_prec f) (f_emax f) _ Fx)|].
    rewrite Rabs_mult, (Rabs_pos_eq (rv w)) by lra. rewrite <- (Rmult_1_r (Rabs (rv x))) at 2.
    apply Rmult_le_compat_l; [apply Rabs_pos|lra]. }
  destruct (mul_in_ok f f fw x w (le_refl f) Lw Fx Fw) as [F E].
  { eapply Rle_lt_trans; [exact A|]. exact (finite_lt (f_prec f) (f_emax f) _ Fx). }
  split; [exact F|]. rewrite E. replace (2 * n + 1)%nat with (S (2 * n)) by lia.
  apply (appr_round pc (2 * n) (V * weight_err pc ec n) (Rabs (rv x) * Q2R q) (rv x * rv w)); [lra|apply rnd_errF; exact Lc|].
  destruct Aw as [Aw _]. split.
  - replace (rv x * rv w - rv x * Q2R q) with (rv x * (rv w - Q2R q)) by ring. rewrite Rabs_mult.
    eapply Rle_trans; [apply Rmult_le_compat_l; [apply Rabs_pos|exact Aw]|].
    pose proof (weight_err_pos pc ec n).
    assert (Rabs (rv x) * weight_err pc ec n <= V * weight_err pc ec n) by (apply Rmult_le_compat_r; lra).
    replace (Rabs (rv x) * (((1 + u) ^ (2 * n) - 1) * Q2R q + weight_err pc ec n)) with
      (((1 + u) ^ (2 * n) - 1) * (Rabs (rv x) * Q2R q) + Rabs (rv x) * weight_err pc ec n) by ring. lra.
  - rewrite Rabs_mult, (Rabs_pos_eq (Q2R q)) by lra. lra.
Qed.

Lemma inner_errF n f fw V (x : list Z -> spec_float) (g : list Z -> Q) cs ws qs : le fc f -> le fw f ->
  0 <= V -> (forall c, In c cs -> finite_of f (x c) /\ rv (x c) = Q2R (g c) /\ Rabs (Q2R (g c)) <= V) ->
  Forall2 (weightF n fw) ws qs -> length cs = length ws ->
  forall W j M y s, finite_of f s -> appr (2 * n + 1 + j) (sum_err pc j (term_err pc ec n V)) M (rv s) y ->
  M + Q2R (wsum cs qs (fun c => Qabs (g c))) <= W ->
  (1 + u) ^ (2 * n + 1 + (j + length cs)) * W + sum_err pc (j + length cs) (term_err pc ec n V) < bpow radix2 (f_emax f) ->
  let r := inner_mixed f s (map x cs) ws in
  finite_of f r /\ appr (2 * n + 1 + (j + length cs)) (sum_err pc (j + length cs) (term_err pc ec n V))
    (M + Q2R (wsum cs qs (fun c => Qabs (g c)))) (rv r) (y + Q2R (wsum cs qs g)).
Proof.
  intros Lc Lw HV Hx Hw. revert cs Hx. induction Hw as [|w q ws qs Ww Hw IH]; intros [|c cs] Hx L; try discriminate; intros W j M y s Fs As HW HO.
  - cbn [map inner_mixed wsum length]. rewrite Nat.add_0_r. change 0%Q with (inject_Z 0). rewrite Q2R_inject, !Rplus_0_r. auto.
  - cbn [map inner_mixed]. destruct (Hx c (or_introl eq_refl)) as (Fx & Vx & Bx).
    destruct (term_okF n f fw V (x c) (g c) w q Lc Lw Fx Vx Bx Ww) as [Ft At].
    assert (T0 : 0 <= term_err pc ec n V).
    { unfold term_err. pose proof (weight_err_pos pc ec n). assert (0 <= V * weight_err pc ec n) by (apply Rmult_le_pos; lra).
      assert (0 <= (1 + u) * (V * weight_err pc ec n)) by (apply Rmult_le_pos; lra). lra. }
    set (p := mul_in f (x c) w) in *.
    cbn [wsum] in HW |- *. rewrite !Q2R_plus, !Q2R_mult in *. rewrite Q2R_abs in *.
    assert (Ap : appr (2 * n + 1 + j) (sum_err pc j (term_err pc ec n V) + term_err pc ec n V) (M + Rabs (Q2R (g c)) * Q2R q)
      (rv s + rv p) (y + Q2R (g c) * Q2R q)).
    { apply appr_plus; [exact As|]. eapply appr_weaken; [| |exact At]; [lia|lra]. }
    assert (Ar : appr (2 * n + 1 + S j) (sum_err pc (S j) (term_err pc ec n V)) (M + Rabs (Q2R (g c)) * Q2R q)
      (rndF f (rv s + rv p)) (y + Q2R (g c) * Q2R q)).
    { assert (D : Rabs (rndF f (rv s + rv p) - (rv s + rv p)) <= u * Rabs (rv s + rv p) + 0).
      { rewrite Rplus_0_r. apply rnd_plus_errF; [exact Lc| |]; apply finite_fmt; assumption. }
      pose proof (appr_round pc _ _ _ _ _ (rndF f (rv s + rv p)) 0 ltac:(lra) D Ap) as R.
      refine (appr_weaken pc _ _ _ _ _ _ _ _ _ R); [lia|]. rewrite Rplus_0_r. apply sum_err_S, T0. }
    assert (Ps : 0 <= Q2R (wsum cs qs (fun c => Qabs (g c)))).
    { clear - Hw Hu Hh. revert cs. induction Hw as [|w q ws qs (_ & _ & P & _) Hw IH]; intros [|c cs]; cbn [wsum]; change 0%Q with (inject_Z 0);
        rewrite ?Q2R_inject; try lra. rewrite Q2R_plus, Q2R_mult, Q2R_abs. specialize (IH cs). pose proof (Rabs_pos (Q2R (g c))).
      assert (0 <= Q2R q * Rabs (Q2R (g c))) by (apply Rmult_le_pos; lra). lra. }
    destruct (add_ok (f_prec f) (f_emax f) (fp_ok f) (fm_ok f) s p Fs Ft) as [Fr Er].
    { eapply Rle_lt_trans; [apply (appr_abs pc _ _ _ _ _ Ar)|]. eapply Rle_lt_trans; [|exact HO].
      pose proof (gr_1 pc (2 * n + 1 + S j)). cbn [length]. apply Rplus_le_compat; [|apply sum_err_le; [exact T0|lia]].
      destruct Ar as [_ Ar]. pose proof (Rabs_pos (y + Q2R (g c) * Q2R q)).
      apply Rmult_le_compat; [lra|lra|apply gr_le; lia|]. rewrite (Rmult_comm (Rabs _)). lra. }
    rewrite <- Er in Ar.
    assert (R := IH cs (fun d I => Hx d (or_intror I)) ltac:(simpl in L; congruence) W (S j) _ _ _ Fr Ar).
    cbn [length] in *. replace (j + S (length cs))%nat with (S j + length cs)%nat in * by lia.
    rewrite <- !Rplus_assoc. rewrite (Rmult_comm (Q2R q)), (Rmult_comm (Q2R q)). apply R; [|exact HO].
    rewrite (Rmult_comm (Rabs _)). lra.
Qed.

Lemma linear_mixed_R {T} (et : etype) (cv : ftype -> T -> spec_float) (m : mem T) c ps qs (f : list Z -> T) (g : list Z -> Q) V :
  addressable c (map (fun _ => I32) (dims c)) -> Forall (fun n => (n <= 2147483648)%Z) (dims c) ->
  (forall is_, in_box (dims c) is_ -> value m c is_ (f is_)) ->
  Forall2 stands_for ps qs -> interior (dims c) qs -> coarsest ps fc ->
  let fr := result_type et (widest Float ps) in
  (forall is_, In is_ (neighbours qs) -> finite_of fr (cv fr (f is_)) /\ rv (cv fr (f is_)) = Q2R (g is_) /\ (Qabs (g is_) <= V)%Q) ->
  let n := length ps in let N := (2 ^ n)%nat in
  (1 + u) ^ (2 * n + N) * Q2R V + sum_err pc (N - 1) (term_err pc ec n (Q2R V)) < bpow radix2 (f_emax fr) ->
  exists r, linear_mixed et cv m c ps = Ok (fr, r) /\ finite_of fr r /\
    Rabs (rv r - Q2R (multilinear qs g)) <= ((1 + u) ^ (2 * n + N) - 1) * Q2R V + sum_err pc (N - 1) (term_err pc ec n (Q2R V)).
Proof.
  intros HA HB HV HP HI HL fr HX n N HO. pose proof (interior_range _ _ HB HI) as HR.
  assert (HL' : Forall (le fc) (real_types ps)).
  { apply Forall_forall. destruct HL as [[_ HL]|[E _]]; [intros ? I; apply HL, I|rewrite E; intros ? []]. }
  assert (W0 : Forall2 (weightF 0 Float) [of_int (arith_of Float) 1] [1%Q]).
  { constructor; [|constructor]. destruct (one_ok 24 128 ltac:(lia) ltac:(lia)) as [F1 E1]. change 1%Q with (inject_Z 1).
    split; [exact F1|]. change (of_int (arith_of Float) 1) with (of_int (ieee 24 128) 1).
    rewrite E1, Q2R_inject. split; [lra|]. split; [lra|]. split; [|rewrite Rabs_pos_eq; lra].
    replace (1 - 1) with 0 by ring. rewrite Rabs_R0. unfold weight_err. simpl. lra. }
  destruct (setup_mixed_both ps qs HP HR HL' [[]] Float _ [1%Q] 0 W0) as (cs & ws & wqs & E1 & E2 & Hw & Lw).
  destruct (setup_ok qs HR [[]] [1%Q] eq_refl) as (cs2 & wqs2 & E3 & L & S & C & C2 & NE).
  pose proof (eq_trans (eq_sym E2) E3) as E4. injection E4 as <- <-. cbn [length] in Lw. rewrite Nat.mul_1_r in Lw. fold n N in Lw. cbn [Nat.add] in Hw. fold n in Hw.
  set (fw := widest Float ps) in *.
  assert (Lw' : le fw fr) by (unfold fr; destruct et; [apply common_r|apply le_refl]).
  assert (Lc : le fc fr).
  { eapply le_trans; [|exact Lw']. unfold fw. destruct HL as [[HL _]|[_ E]]; [apply (proj2 (widest_le ps Float)), HL|].
    rewrite E. exact (proj1 (widest_le ps Float)). }
  assert (Cn : forall d, In d cs -> In d (neighbours qs)).
  { intros d Id. destruct (C d Id) as (d0 & js & [<-|[]] & J & ->). exact J. }
  assert (E5 : setup_mixed ps = Ok (cs, (fw, ws))) by exact E1.
  unfold linear_mixed. rewrite E5, bind_ok.
  rewrite (mapM_values m c f cs).
  2:{ intros js Ij. pose proof (interior_neighbours _ _ HI js (Cn js Ij)) as Bj. apply get_value.
      - rewrite types_int, (map_const_length (dims c)) by (apply in_box_length; exact Bj). exact HA.
      - apply int_coord; assumption.
      - rewrite vals_int. apply HV. exact Bj. }
  rewrite bind_ok. fold fr. rewrite map_map.
  assert (Sg : forall k, (wsum cs wqs k == multilinear qs k)%Q).
  { intros k. rewrite S. cbn [wsum]. transitivity (1 * multilinear qs k + 0)%Q; [reflexivity|ring]. }
  assert (Lcs : length cs = length ws).
  { rewrite L. symmetry. clear - Hw. induction Hw as [|? ? ? ? _ _ IH]; [reflexivity|]. cbn [length]. f_equal. exact IH. }
  assert (HVm : Q2R (wsum cs wqs (fun d => Qabs (g d))) <= Q2R V).
  { apply Qle_Rle. rewrite Sg. apply (multilinear_between qs (fun d => Qabs (g d)) 0 V).
    intros is_ I. split; [apply Qabs_nonneg|apply HX, I]. }
  assert (HV0 : 0 <= Q2R V).
  { destruct (neighbours_ex qs) as [d Id]. destruct (HX d Id) as (_ & _ & Bd). apply Qle_Rle in Bd. rewrite Q2R_abs in Bd.
    pose proof (Rabs_pos (Q2R (g d))). lra. }
  assert (HXR : forall d, In d cs -> finite_of fr (cv fr (f d)) /\ rv (cv fr (f d)) = Q2R (g d) /\ Rabs (Q2R (g d)) <= Q2R V).
  { intros d Id. destruct (HX d (Cn d Id)) as (F & E & B). split; [exact F|]. split; [exact E|]. apply Qle_Rle in B. rewrite Q2R_abs in B. exact B. }
  destruct Hw as [|w q ws' wqs' Ww Hw]; [destruct cs; [exfalso; apply NE; [discriminate|reflexivity]|discriminate Lcs]|].
  destruct cs as [|d cs]; [discriminate Lcs|]. cbn [map].
  destruct (HXR d (or_introl eq_refl)) as (Fx & Vx & Bx).
  destruct (term_okF n fr fw (Q2R V) (cv fr (f d)) (g d) w q Lc Lw' Fx Vx Bx Ww) as [Ft At].
  eexists. split; [reflexivity|].
  assert (Ln : (2 * n + 1 + (0 + length cs) = 2 * n + N)%nat /\ (0 + length cs = N - 1)%nat) by (rewrite <- Lw, <- Lcs; cbn [length]; lia).
  destruct Ln as [Ln1 Ln2].
  pose proof (inner_errF n fr fw (Q2R V) (fun d => cv fr (f d)) g cs ws' wqs' Lc Lw' HV0 (fun e I => HXR e (or_intror I)) Hw
    ltac:(simpl in Lcs; congruence) (Q2R V) 0 (Rabs (Q2R (g d)) * Q2R q) (Q2R (g d) * Q2R q) (mul_in fr (cv fr (f d)) w) Ft) as R.
  rewrite Ln1, Ln2 in R. cbn [wsum] in HVm, Sg.
  assert (Sg2 : Q2R (g d) * Q2R q + Q2R (wsum cs wqs' g) = Q2R (multilinear qs g)).
  { rewrite <- (Qeq_eqR _ _ (Sg g)), Q2R_plus, Q2R_mult. ring. }
  rewrite Q2R_plus, Q2R_mult, Q2R_abs, (Rmult_comm (Q2R q)) in HVm.
  destruct R as [Fr [Ar _]].
  - rewrite Nat.add_0_r. eapply appr_weaken; [| |exact At]; [lia|]. unfold sum_err. simpl. lra.
  - exact HVm.
  - exact HO.
  - split; [exact Fr|]. rewrite Sg2 in Ar. eapply Rle_trans; [exact Ar|]. apply Rplus_le_compat_r.
    apply Rmult_le_compat_l; [pose proof (gr_1 pc (2 * n + N)); lra|exact HVm].
Qed.
End Coarse.

(** ** Statements on rationals *)
Lemma widest_highest ps : highest (Float :: real_types ps) (widest Float ps).
Proof.
  destruct (widest_le ps Float) as [A B]. split.
  - destruct (widest_in ps Float) as [->|I]; [left; reflexivity|right; exact I].
  - intros g [<-|I]; [exact A|exact (B g I)].
Qed.
Lemma highest_common fe l f : highest (Float :: l) f -> highest (Float :: fe :: l) (common fe f).
Proof.
  intros [I H]. split.
  - destruct (common_or fe f) as [->| ->]; [right; left; reflexivity|]. destruct I as [I|I]; [left; exact I|right; right; exact I].
  - intros g Ig. pose proof (common_l fe f). pose proof (common_r fe f). unfold le in *.
    destruct Ig as [<-|[<-|Ig]]; [specialize (H Float (or_introl eq_refl)); lia|lia|specialize (H g (or_intror Ig)); lia].
Qed.

Lemma highest_unique l f g : highest l f -> highest l g -> f = g.
Proof. intros [I1 H1] [I2 H2]. specialize (H1 g I2). specialize (H2 f I1). destruct f, g; cbn in *; reflexivity || lia. Qed.

Lemma int_exact f z : (Z.abs z < 2 ^ f_prec f)%Z -> finite_of f (of_int (arith_of f) z) /\ rv (of_int (arith_of f) z) = IZR z.
Proof.
  intros H. pose proof (fmt_int (f_prec f) (f_emax f) (fp_ok f) (fm_ok f) z H) as Fz.
  destruct (of_int_ok (f_prec f) (f_emax f) (fp_ok f) (fm_ok f) z) as [A B].
  - rewrite rnd_id by exact Fz. rewrite <- abs_IZR. eapply Rlt_trans; [apply IZR_lt, H|].
    rewrite (IZR_Zpower radix2) by (destruct f; discriminate). apply bpow_lt, fm_ok.
  - split; [exact A|]. etransitivity; [exact B|]. apply rnd_id, Fz.
Qed.

Lemma linear_mixed_Q {T} (et : etype) (cv : ftype -> T -> spec_float) (m : mem T) c ps qs (f : list Z -> T) (g : list Z -> Q) V fc :
  addressable c (map (fun _ => I32) (dims c)) -> Forall (fun n => (n <= 2147483648)%Z) (dims c) ->
  (forall is_, in_box (dims c) is_ -> value m c is_ (f is_)) ->
  Forall2 stands_for ps qs -> interior (dims c) qs -> coarsest ps fc ->
  let fr := result_type et (widest Float ps) in
  (forall is_, In is_ (neighbours qs) -> finite_of fr (cv fr (f is_)) /\ rv (cv fr (f is_)) = Q2R (g is_) /\ (Qabs (g is_) <= V)%Q) ->
  (largest (f_prec fc) (f_emax fc) (length ps) V < 2 ^ f_emax fr)%Q ->
  exists r rq, linear_mixed et cv m c ps = Ok (fr, r) /\ finite_of fr r /\ float_value r = Some rq /\
    (Qabs (rq - multilinear qs g) <= linear_error (f_prec fc) (f_emax fc) (length ps) V)%Q.
Proof.
  intros HA HB HV HP HI HL fr HX HO.
  assert (HV0 : 0 <= Q2R V).
  { destruct (neighbours_ex qs) as [d Id]. destruct (HX d Id) as (_ & _ & Bd). apply Qle_Rle in Bd. rewrite Q2R_abs in Bd.
    pose proof (Rabs_pos (Q2R (g d))). lra. }
  pose proof (underflow_bound (f_prec fc) (f_emax fc) (length ps) (Q2R V) HV0) as UB.
  apply Qlt_Rlt in HO. rewrite largest_Q, Q2R_pow2 in HO.
  destruct (linear_mixed_R fc et cv m c ps qs f g V HA HB HV HP HI HL HX) as (r & E & F & D).
  { eapply Rle_lt_trans; [|exact HO]. apply Rplus_le_compat_l, UB. }
  destruct (finite_float_value _ _ r F) as [rq Er]. exists r, rq. split; [exact E|]. split; [exact F|]. split; [exact Er|].
  apply Rle_Qle. rewrite Q2R_abs, Q2R_minus, (float_value_R _ _ Er), linear_error_Q.
  eapply Rle_trans; [exact D|]. apply Rplus_le_compat_l, UB.
Qed.

(** Overflow: the result type has at least the range of [fc]. *)
Lemma coarsest_le ps fc g : coarsest ps fc -> le (widest Float ps) g -> le fc g.
Proof.
  intros HL L. eapply le_trans; [|exact L]. destruct HL as [[HL _]|[_ E]]; [apply (proj2 (widest_le ps Float)), HL|].
  rewrite E. exact (proj1 (widest_le ps Float)).
Qed.
Lemma pow2_le a b : (0 <= a <= b)%Z -> (2 ^ a <= 2 ^ b)%Q.
Proof.
  intros H. apply Rle_Qle. rewrite !Q2R_pow2. apply bpow_le. lia.
Qed.

Lemma floats_ok fe (m : mem spec_float) c ps qs (f : list Z -> spec_float) (g : list Z -> Q) V fc fr :
  addressable c (map (fun _ => I32) (dims c)) -> Forall (fun n => (n <= 2147483648)%Z) (dims c) ->
  (forall is_, in_box (dims c) is_ -> value m c is_ (f is_)) ->
  Forall2 stands_for ps qs -> interior (dims c) qs -> coarsest ps fc -> highest (Float :: fe :: real_types ps) fr ->
  (forall is_, In is_ (neighbours qs) -> finite_of fe (f is_) /\ float_value (f is_) = Some (g is_) /\ (Qabs (g is_) <= V)%Q) ->
  (largest (f_prec fc) (f_emax fc) (length ps) V < 2 ^ f_emax fr)%Q ->
  exists r rq, linear_floats fe m c ps = Ok (fr, r) /\ finite_of fr r /\
    float_value r = Some rq /\ (Qabs (rq - multilinear qs g) <= linear_error (f_prec fc) (f_emax fc) (length ps) V)%Q.
Proof.
  intros HA HB HV HP HI HL HF HX HO.
  assert (Efr : result_type (Floats fe) (widest Float ps) = fr) by (eapply highest_unique; [apply highest_common, widest_highest|exact HF]). subst fr.
  apply (linear_mixed_Q (Floats fe) to_ftype m c ps qs f g V fc HA HB HV HP HI HL); [|exact HO].
  intros is_ I. destruct (HX is_ I) as (F & E & B).
  destruct (conv_ok fe (result_type (Floats fe) (widest Float ps)) (f is_) (common_l _ _) F) as [C1 C2].
  split; [exact C1|]. split; [|exact B]. rewrite C2, (float_value_R _ _ E). reflexivity.
Qed.

Lemma ints_ok (m : mem Z) c ps qs (f : list Z -> Z) V fc fr :
  addressable c (map (fun _ => I32) (dims c)) -> Forall (fun n => (n <= 2147483648)%Z) (dims c) ->
  (forall is_, in_box (dims c) is_ -> value m c is_ (f is_)) ->
  Forall2 stands_for ps qs -> interior (dims c) qs -> coarsest ps fc -> highest (Float :: real_types ps) fr ->
  (forall is_, In is_ (neighbours qs) -> (Z.abs (f is_) < 2 ^ f_prec fr)%Z /\ (Z.abs (f is_) <= V)%Z) ->
  (largest (f_prec fc) (f_emax fc) (length ps) (inject_Z V) < 2 ^ f_emax fr)%Q ->
  exists r rq, linear_ints m c ps = Ok (fr, r) /\ finite_of fr r /\
    float_value r = Some rq /\ (Qabs (rq - multilinear qs (fun is_ => inject_Z (f is_))) <=
      linear_error (f_prec fc) (f_emax fc) (length ps) (inject_Z V))%Q.
Proof.
  intros HA HB HV HP HI HL HF HX HO.
  assert (Efr : result_type Ints (widest Float ps) = fr) by (eapply highest_unique; [apply widest_highest|exact HF]). subst fr.
  apply (linear_mixed_Q Ints (fun k => of_int (arith_of k)) m c ps qs f (fun is_ => inject_Z (f is_)) (inject_Z V) fc HA HB HV HP HI HL); [|exact HO].
  intros is_ I. destruct (HX is_ I) as [B1 B2].
  destruct (int_exact (result_type Ints (widest Float ps)) (f is_) B1) as [C1 C2].
  split; [exact C1|]. split; [rewrite Q2R_inject; exact C2|]. unfold Qabs, inject_Z, Qle. cbn. lia.
Qed.

(** At most four axes. *)
Lemma floats_small fe fc a b top (m : mem spec_float) c ps qs (f : list Z -> spec_float) (g : list Z -> Q) V fr :
  forallb (fun k => Qle_bool (linear_error (f_prec fc) (f_emax fc) k 0) b &&
    Qle_bool (linear_error (f_prec fc) (f_emax fc) k 1 - linear_error (f_prec fc) (f_emax fc) k 0) a)%Q [0; 1; 2; 3; 4]%nat = true ->
  (0 <= a)%Q -> (top + (top * a + b) < 2 ^ f_emax fr)%Q ->
  addressable c (map (fun _ => I32) (dims c)) -> Forall (fun n => (n <= 2147483648)%Z) (dims c) ->
  (forall is_, in_box (dims c) is_ -> value m c is_ (f is_)) ->
  Forall2 stands_for ps qs -> interior (dims c) qs -> coarsest ps fc -> highest (Float :: fe :: real_types ps) fr ->
  (forall is_, In is_ (neighbours qs) -> finite_of fe (f is_) /\ float_value (f is_) = Some (g is_) /\ (Qabs (g is_) <= V)%Q) ->
  (length ps <= 4)%nat -> (V <= top)%Q ->
  exists r rq, linear_floats fe m c ps = Ok (fr, r) /\ finite_of fr r /\
    float_value r = Some rq /\ (Qabs (rq - multilinear qs g) <= V * a + b)%Q.
Proof.
  intros HC Ha Ht HA HB HV HP HI HL HF HX Hn HT.
  assert (HV0 : (0 <= V)%Q) by (apply (neighbours_bound qs g); intros is_ I; apply HX, I).
  pose proof (small_error (f_prec fc) (f_emax fc) a b (length ps) V Hn HV0 HC) as SE.
  destruct (floats_ok fe m c ps qs f g V fc fr HA HB HV HP HI HL HF HX) as (r & rq & E & F & Er & D).
  { rewrite largest_error. eapply Qle_lt_trans; [|exact Ht]. apply Qplus_le_compat; [exact HT|].
    eapply Qle_trans; [exact SE|]. apply Qplus_le_compat; [|apply Qle_refl]. apply Qmult_le_compat_r; assumption. }
  exists r, rq. split; [exact E|]. split; [exact F|]. split; [exact Er|]. eapply Qle_trans; [exact D|exact SE].
Qed.

Lemma ints_small fc a b top (m : mem Z) c ps qs (f : list Z -> Z) V fr :
  forallb (fun k => Qle_bool (linear_error (f_prec fc) (f_emax fc) k 0) b &&
    Qle_bool (linear_error (f_prec fc) (f_emax fc) k 1 - linear_error (f_prec fc) (f_emax fc) k 0) a)%Q [0; 1; 2; 3; 4]%nat = true ->
  (0 <= a)%Q -> (top + (top * a + b) < 2 ^ f_emax fr)%Q ->
  addressable c (map (fun _ => I32) (dims c)) -> Forall (fun n => (n <= 2147483648)%Z) (dims c) ->
  (forall is_, in_box (dims c) is_ -> value m c is_ (f is_)) ->
  Forall2 stands_for ps qs -> interior (dims c) qs -> coarsest ps fc -> highest (Float :: real_types ps) fr ->
  (forall is_, In is_ (neighbours qs) -> (Z.abs (f is_) < 2 ^ f_prec fr)%Z /\ (Z.abs (f is_) <= V)%Z) ->
  (length ps <= 4)%nat -> (inject_Z V <= top)%Q ->
  exists r rq, linear_ints m c ps = Ok (fr, r) /\ finite_of fr r /\
    float_value r = Some rq /\ (Qabs (rq - multilinear qs (fun is_ => inject_Z (f is_))) <= inject_Z V * a + b)%Q.
Proof.
  intros HC Ha Ht HA HB HV HP HI HL HF HX Hn HT.
  assert (HV0 : (0 <= inject_Z V)%Q).
  { destruct (neighbours_ex qs) as [d Id]. destruct (HX d Id) as [_ B]. unfold Qle, inject_Z. cbn. lia. }
  pose proof (small_error (f_prec fc) (f_emax fc) a b (length ps) (inject_Z V) Hn HV0 HC) as SE.
  destruct (ints_ok m c ps qs f V fc fr HA HB HV HP HI HL HF HX) as (r & rq & E & F & Er & D).
  { rewrite largest_error. eapply Qle_lt_trans; [|exact Ht]. apply Qplus_le_compat; [exact HT|].
    eapply Qle_trans; [exact SE|]. apply Qplus_le_compat; [|apply Qle_refl]. apply Qmult_le_compat_r; assumption. }
  exists r, rq. split; [exact E|]. split; [exact F|]. split; [exact Er|]. eapply Qle_trans; [exact D|exact SE].
Qed.

Lemma le_double f : le Double f -> f = Double \/ f = Extended.
Proof. unfold le. destruct f; cbn; auto. lia. Qed.

Lemma floats_float_l : forall fe (m : mem spec_float) c ps qs (f : list Z -> spec_float) (g : list Z -> Q) V fr,
  addressable c (map (fun _ => I32) (dims c)) -> Forall (fun n => (n <= 2147483648)%Z) (dims c) ->
  (forall is_, in_box (dims c) is_ -> value m c is_ (f is_)) ->
  Forall2 stands_for ps qs -> interior (dims c) qs -> coarsest ps Float -> highest (Float :: fe :: real_types ps) fr ->
  (forall is_, In is_ (neighbours qs) -> finite_of fe (f is_) /\ float_value (f is_) = Some (g is_) /\ (Qabs (g is_) <= V)%Q) ->
  (length ps <= 4)%nat -> (V <= 2 ^ 127)%Q ->
  exists r rq, linear_floats fe m c ps = Ok (fr, r) /\ finite_of fr r /\
    float_value r = Some rq /\ (Qabs (rq - multilinear qs g) <= V * 2 ^ (-19) + 2 ^ (-145))%Q.
Proof.
  intros fe m c ps qs f g V fr. apply (floats_small fe Float (2 ^ (-19)) (2 ^ (-145)) (2 ^ 127)).
  - vm_compute. reflexivity.
  - vm_compute. discriminate.
  - apply (Qlt_le_trans _ (2 ^ 128)); [vm_compute; reflexivity|]. apply (pow2_le 128 (f_emax fr)). clear. destruct fr; cbn; lia.
Qed.

Lemma floats_double_l : forall fe (m : mem spec_float) c ps qs (f : list Z -> spec_float) (g : list Z -> Q) V fr,
  addressable c (map (fun _ => I32) (dims c)) -> Forall (fun n => (n <= 2147483648)%Z) (dims c) ->
  (forall is_, in_box (dims c) is_ -> value m c is_ (f is_)) ->
  Forall2 stands_for ps qs -> interior (dims c) qs -> coarsest ps Double -> highest (Float :: fe :: real_types ps) fr ->
  (forall is_, In is_ (neighbours qs) -> finite_of fe (f is_) /\ float_value (f is_) = Some (g is_) /\ (Qabs (g is_) <= V)%Q) ->
  (length ps <= 4)%nat -> (V <= 2 ^ 1023)%Q ->
  exists r rq, linear_floats fe m c ps = Ok (fr, r) /\ finite_of fr r /\
    float_value r = Some rq /\ (Qabs (rq - multilinear qs g) <= V * 2 ^ (-48) + 2 ^ (-1070))%Q.
Proof.
  intros fe m c ps qs f g V fr HA HB HV HP HI HL HF.
  refine (floats_small fe Double (2 ^ (-48)) (2 ^ (-1070)) (2 ^ 1023) m c ps qs f g V fr _ _ _ HA HB HV HP HI HL HF).
  - vm_compute. reflexivity.
  - vm_compute. discriminate.
  - apply (Qlt_le_trans _ (2 ^ 1024)); [vm_compute; reflexivity|]. apply (pow2_le 1024 (f_emax fr)).
    clear - HL HF. destruct HL as [[HL _]|[_ E]]; [|discriminate E]. pose proof (proj2 HF Double (or_intror (or_intror HL))) as L.
    destruct fr; cbn in *; lia.
Qed.

Lemma floats_extended_l : forall fe (m : mem spec_float) c ps qs (f : list Z -> spec_float) (g : list Z -> Q) V fr,
  addressable c (map (fun _ => I32) (dims c)) -> Forall (fun n => (n <= 2147483648)%Z) (dims c) ->
  (forall is_, in_box (dims c) is_ -> value m c is_ (f is_)) ->
  Forall2 stands_for ps qs -> interior (dims c) qs -> coarsest ps Extended -> highest (Float :: fe :: real_types ps) fr ->
  (forall is_, In is_ (neighbours qs) -> finite_of fe (f is_) /\ float_value (f is_) = Some (g is_) /\ (Qabs (g is_) <= V)%Q) ->
  (length ps <= 4)%nat -> (V <= 2 ^ 16383)%Q ->
  exists r rq, linear_floats fe m c ps = Ok (fr, r) /\ finite_of fr r /\
    float_value r = Some rq /\ (Qabs (rq - multilinear qs g) <= V * 2 ^ (-59) + 2 ^ (-16441))%Q.
Proof.
  intros fe m c ps qs f g V fr HA HB HV HP HI HL HF.
  refine (floats_small fe Extended (2 ^ (-59)) (2 ^ (-16441)) (2 ^ 16383) m c ps qs f g V fr _ _ _ HA HB HV HP HI HL HF).
  - vm_compute. reflexivity.
  - vm_compute. discriminate.
  - apply (Qlt_le_trans _ (2 ^ 16384)); [vm_compute; reflexivity|]. apply (pow2_le 16384 (f_emax fr)).
    clear - HL HF. destruct HL as [[HL _]|[_ E]]; [|discriminate E]. pose proof (proj2 HF Extended (or_intror (or_intror HL))) as L.
    destruct fr; cbn in *; lia.
Qed.

Lemma ints_float_l : forall (m : mem Z) c ps qs (f : list Z -> Z) V fr,
  addressable c (map (fun _ => I32) (dims c)) -> Forall (fun n => (n <= 2147483648)%Z) (dims c) ->
  (forall is_, in_box (dims c) is_ -> value m c is_ (f is_)) ->
  Forall2 stands_for ps qs -> interior (dims c) qs -> coarsest ps Float -> highest (Float :: real_types ps) fr ->
  (forall is_, In is_ (neighbours qs) -> (Z.abs (f is_) < 2 ^ f_prec fr)%Z /\ (Z.abs (f is_) <= V)%Z) ->
  (length ps <= 4)%nat -> (V <= 2 ^ 127)%Z ->
  exists r rq, linear_ints m c ps = Ok (fr, r) /\ finite_of fr r /\
    float_value r = Some rq /\ (Qabs (rq - multilinear qs (fun is_ => inject_Z (f is_))) <= inject_Z V * 2 ^ (-19) + 2 ^ (-145))%Q.
Proof.
  intros m c ps qs f V fr HA HB HV HP HI HL HF HX Hn HT.
  refine (ints_small Float (2 ^ (-19)) (2 ^ (-145)) (inject_Z (2 ^ 127)) m c ps qs f V fr _ _ _ HA HB HV HP HI HL HF HX Hn _).
  - vm_compute. reflexivity.
  - vm_compute. discriminate.
  - apply (Qlt_le_trans _ (2 ^ 128)); [vm_compute; reflexivity|]. apply (pow2_le 128 (f_emax fr)). clear. destruct fr; cbn; lia.
  - unfold Qle, inject_Z. cbn [Qnum Qden]. lia.
Qed.

(** ** Integer coordinates *)
Lemma setup_whole f zs : forall c cs w ws, finite_of f w -> rv w = 1 -> Forall (fun x => finite_of f x /\ rv x = 0) ws ->
  length cs = length ws -> Forall (fun z => (0 <= z < 2147483647)%Z) zs ->
  exists cs' w' ws', kfold_right mixed_step (map Whole zs) (c :: cs, (f, w :: ws)) = Ok ((c ++ zs) :: cs', (f, w' :: ws')) /\
    finite_of f w' /\ rv w' = 1 /\ Forall (fun x => finite_of f x /\ rv x = 0) ws' /\ length cs' = length ws' /\
    (forall d, In d cs' -> exists d0 js, In d0 (c :: cs) /\ In js (neighbours (map inject_Z zs)) /\ d = d0 ++ js).
Proof.
  destruct (int01 f) as (F1 & E1 & F0 & E0).
  assert (M1 : forall x, finite_of f x -> 0 <= rv x <= 1 -> finite_of f (mul_in f x (of_int (arith_of f) 1)) /\ rv (mul_in f x (of_int (arith_of f) 1)) = rv x).
  { intros x Fx Bx. assert (Rd : rndF f (rv x * rv (of_int (arith_of f) 1)) = rv x).
    { rewrite E1, Rmult_1_r. apply rnd_id, finite_fmt, Fx. }
    destruct (mul_in_ok f f f x (of_int (arith_of f) 1) (le_refl f) (le_refl f) Fx F1) as [A B].
    - rewrite Rd. apply small_ltF, Bx.
    - split; [exact A|]. rewrite B. exact Rd. }
  assert (M0 : forall x, finite_of f x -> finite_of f (mul_in f x (of_int (arith_of f) 0)) /\ rv (mul_in f x (of_int (arith_of f) 0)) = 0).
  { intros x Fx. assert (Rd : rndF f (rv x * rv (of_int (arith_of f) 0)) = 0).
    { rewrite E0, Rmult_0_r. apply rnd_id, fmt_0; apply fp_ok || apply fm_ok. }
    destruct (mul_in_ok f f f x (of_int (arith_of f) 0) (le_refl f) (le_refl f) Fx F0) as [A B].
    - rewrite Rd. apply small_ltF. lra.
    - split; [exact A|]. rewrite B. exact Rd. }
  induction zs as [|z zs IH]; intros c cs w ws Fw Ew Hw L HZ; cbn [map kfold_right].
  - exists cs, w, ws. rewrite app_nil_r. split; [reflexivity|]. repeat (split; [assumption|]).
    intros d Id. exists d, []. split; [right; exact Id|]. split; [left; reflexivity|symmetry; apply app_nil_r].
  - inversion HZ as [|? ? Hz HZ']; subst. unfold mixed_step at 1. cbn [coordinate_parts]. rewrite bind_ok.
    assert (Np : cadd (int z) (int 1) = Ok (int (z + 1))).
    { unfold cadd. rewrite arith_exact; [reflexivity|unfold wfc, in_ty; simpl; lia|unfold wfc, in_ty; simpl; lia|left; reflexivity|unfold in_ty; simpl; lia]. }
    rewrite Np, !bind_ok. cbn [map app cval int].
    edestruct (IH (c ++ [z]) (map (fun e => e ++ [z]) cs ++ (c ++ [(z + 1)%Z]) :: map (fun e => e ++ [(z + 1)%Z]) cs)
      (mul_in f w (of_int (arith_of f) 1)) (map (fun e => mul_in f e (of_int (arith_of f) 1)) ws ++
        mul_in f w (of_int (arith_of f) 0) :: map (fun e => mul_in f e (of_int (arith_of f) 0)) ws)) as (cs' & w' & ws' & E & A1 & A2 & A3 & A4 & A5); [| | | |exact HZ'|exists cs', w', ws'].
    + apply M1; [exact Fw|lra].
    + rewrite (proj2 (M1 w Fw ltac:(lra))). exact Ew.
    + apply Forall_app. split; [|constructor; [apply M0, Fw|]].
      * rewrite Forall_map. eapply Forall_impl; [|exact Hw]. intros x [Fx Ex]. destruct (M1 x Fx ltac:(lra)) as [B1 B2].
        split; [exact B1|]. etransitivity; [exact B2|exact Ex].
      * rewrite Forall_map. eapply Forall_impl; [|exact Hw]. intros x [Fx _]. apply M0, Fx.
    + rewrite !app_length. cbn [length]. rewrite !map_length. lia.
    + split; [|split; [exact A1|split; [exact A2|split; [exact A3|split; [exact A4|]]]]].
      * rewrite <- app_assoc in E. exact E.
      * intros d Id. destruct (A5 d Id) as (d0 & js & I0 & Ij & ->).
        assert (X : exists d1 y, In d1 (c :: cs) /\ (y = z \/ y = z + 1)%Z /\ d0 = d1 ++ [y]).
        { change (In d0 (map (fun e => e ++ [z]) (c :: cs) ++ map (fun e => e ++ [(z + 1)%Z]) (c :: cs))) in I0.
          apply in_app_or in I0. rewrite !in_map_iff in I0. destruct I0 as [(d1 & <- & I1)|(d1 & <- & I1)]; exists d1; eexists; eauto. }
        destruct X as (d1 & y & I1 & Hy & ->). exists d1, (y :: js). split; [exact I1|]. split; [|rewrite <- app_assoc; reflexivity].
        cbn [map neighbours]. rewrite Qfloor_Z. apply in_or_app. destruct Hy as [-> | ->]; [left|right]; apply in_map, Ij.
Qed.

Lemma whole_R {T} (et : etype) (cv : ftype -> T -> spec_float) (m : mem T) c zs (f : list Z -> T) (r : R) :
  addressable c (map (fun _ => I32) (dims c)) -> Forall (fun n => (n <= 2147483648)%Z) (dims c) ->
  (forall is_, in_box (dims c) is_ -> value m c is_ (f is_)) -> Forall2 (fun n z => (0 <= z < n - 1)%Z) (dims c) zs ->
  let fr := result_type et Float in
  (forall is_, In is_ (neighbours (map inject_Z zs)) -> finite_of fr (cv fr (f is_))) -> rv (cv fr (f zs)) = r ->
  exists x, linear_mixed et cv m c (map Whole zs) = Ok (fr, x) /\ finite_of fr x /\ rv x = r.
Proof.
  intros HA HB HV HZ fr HX HR.
  assert (HI : interior (dims c) (map inject_Z zs)).
  { clear - HZ. induction HZ as [|n z ns zs Hz _ IH]; cbn [map]; constructor; [|exact IH].
    split; [unfold Qle, inject_Z; cbn; lia|unfold Qlt, inject_Z; cbn; lia]. }
  assert (HZ' : Forall (fun z => (0 <= z < 2147483647)%Z) zs).
  { clear - HZ HB. induction HZ as [|n z ns zs Hz _ IH]; constructor; inversion HB; subst; [lia|auto]. }
  destruct (int01 Float) as (F1 & E1 & _ & _).
  destruct (setup_whole Float zs [] [] _ [] F1 E1 (Forall_nil _) eq_refl HZ') as (cs & w & ws & E & Fw & Ew & Hw & L & Cn).
  assert (Cn' : forall d, In d (zs :: cs) -> In d (neighbours (map inject_Z zs))).
  { intros d [<-|Id].
    - clear. induction zs as [|z zs IH]; [left; reflexivity|]. cbn [map neighbours]. rewrite Qfloor_Z. apply in_or_app. left. apply in_map, IH.
    - destruct (Cn d Id) as (d0 & js & [<-|[]] & J & ->). exact J. }
  assert (E' : setup_mixed (map Whole zs) = Ok (zs :: cs, (Float, w :: ws))) by exact E.
  unfold linear_mixed. rewrite E', bind_ok.
  rewrite (mapM_values m c f (zs :: cs)).
  2:{ intros js Ij. pose proof (interior_neighbours _ _ HI js (Cn' js Ij)) as Bj. apply get_value.
      - rewrite types_int, (map_const_length (dims c)) by (apply in_box_length; exact Bj). exact HA.
      - apply int_coord; assumption.
      - rewrite vals_int. apply HV. exact Bj. }
  rewrite bind_ok. fold fr. cbn [map]. rewrite map_map.
  assert (Lf : le Float fr) by (unfold fr, le; destruct et as [[]|]; cbn; lia).
  pose proof (HX zs (Cn' zs (or_introl eq_refl))) as Fz.
  assert (Rd : rndF fr (rv (cv fr (f zs)) * rv w) = rv (cv fr (f zs))) by (rewrite Ew, Rmult_1_r; apply rnd_id, finite_fmt, Fz).
  destruct (mul_in_ok fr fr Float (cv fr (f zs)) w (le_refl fr) Lf Fz Fw) as [Fp Ep].
  { rewrite Rd. apply (finite_lt (f_prec fr)), Fz. }
  rewrite Rd in Ep. eexists. split; [reflexivity|].
  (* the weights, of type float, converted to the type of the result *)
  assert (G : forall xs vs s, finite_of fr s -> Forall (fun x => finite_of fr x) xs ->
    Forall (fun x => finite_of Float x /\ rv x = 0) vs -> length xs = length vs ->
    finite_of fr (inner_mixed fr s xs vs) /\ rv (inner_mixed fr s xs vs) = rv s).
  { induction xs as [|x xs IH]; intros [|v vs] s Fs Hx Hv Lv; try discriminate; [split; [exact Fs|reflexivity]|].
    inversion Hx; subst. inversion Hv as [|? ? [Fv Ev] Hv']; subst. cbn [inner_mixed].
    assert (R0 : rndF fr (rv x * rv v) = 0) by (rewrite Ev, Rmult_0_r; apply rnd_id, fmt_0; apply fp_ok || apply fm_ok).
    destruct (mul_in_ok fr fr Float x v (le_refl fr) Lf) as [Fq Eq]; try assumption.
    { rewrite R0. apply small_ltF. lra. }
    rewrite R0 in Eq.
    assert (Rs : rndF fr (rv s + rv (mul_in fr x v)) = rv s) by (rewrite Eq, Rplus_0_r; apply rnd_id, finite_fmt, Fs).
    destruct (add_ok (f_prec fr) (f_emax fr) (fp_ok fr) (fm_ok fr) s (mul_in fr x v) Fs Fq) as [Fa Ea].
    { rewrite Rs. apply (finite_lt (f_prec fr)), Fs. }
    destruct (IH vs _ Fa) as [A B]; try assumption; [injection Lv; auto|]. split; [exact A|].
    etransitivity; [exact B|]. etransitivity; [exact Ea|exact Rs]. }
  destruct (G (map (fun d => cv fr (f d)) cs) ws _ Fp) as [A B].
  - rewrite Forall_map. apply Forall_forall. intros d Id. apply HX, Cn'. right. exact Id.
  - exact Hw.
  - rewrite map_length. exact L.
  - split; [exact A|]. rewrite B, Ep. exact HR.
Qed.

Lemma same_value prec emax x q : finite_number prec emax x -> rv x = Q2R q -> exists p, float_value x = Some p /\ (p == q)%Q.
Proof.
  intros F E. destruct (finite_float_value _ _ x F) as [p Ep]. exists p. split; [exact Ep|].
  apply eqR_Qeq. rewrite (float_value_R _ _ Ep). exact E.
Qed.

Lemma whole_floats_l : forall fe (m : mem spec_float) c zs (f : list Z -> spec_float) q,
  addressable c (map (fun _ => I32) (dims c)) -> Forall (fun n => (n <= 2147483648)%Z) (dims c) ->
  (forall is_, in_box (dims c) is_ -> value m c is_ (f is_)) -> Forall2 (fun n z => (0 <= z < n - 1)%Z) (dims c) zs ->
  (forall is_, In is_ (neighbours (map inject_Z zs)) -> finite_of fe (f is_)) -> float_value (f zs) = Some q ->
  exists x qx, linear_floats fe m c (map Whole zs) = Ok (fe, x) /\ finite_of fe x /\ float_value x = Some qx /\ (qx == q)%Q.
Proof.
  intros fe m c zs f q HA HB HV HZ HX HQ.
  assert (Ef : result_type (Floats fe) Float = fe) by (destruct fe; reflexivity).
  assert (Iz : In zs (neighbours (map inject_Z zs))).
  { clear. induction zs as [|z zs IH]; [left; reflexivity|]. cbn [map neighbours]. rewrite Qfloor_Z. apply in_or_app. left. apply in_map, IH. }
  destruct (whole_R (Floats fe) to_ftype m c zs f (Q2R q) HA HB HV HZ) as (x & E & F & V).
  - rewrite Ef. intros is_ I. apply (conv_ok fe fe (f is_) (le_refl fe)), HX, I.
  - rewrite Ef. rewrite (proj2 (conv_ok fe fe (f zs) (le_refl fe) (HX zs Iz))). symmetry. apply float_value_R, HQ.
  - rewrite Ef in *. destruct (same_value _ _ x q F V) as (qx & Eq & Hq). exists x, qx. auto.
Qed.

Lemma whole_ints_l : forall (m : mem Z) c zs (f : list Z -> Z),
  addressable c (map (fun _ => I32) (dims c)) -> Forall (fun n => (n <= 2147483648)%Z) (dims c) ->
  (forall is_, in_box (dims c) is_ -> value m c is_ (f is_)) -> Forall2 (fun n z => (0 <= z < n - 1)%Z) (dims c) zs ->
  (forall is_, In is_ (neighbours (map inject_Z zs)) -> (Z.abs (f is_) < 2 ^ 24)%Z) ->
  exists x qx, linear_ints m c (map Whole zs) = Ok (Float, x) /\ finite_of Float x /\ float_value x = Some qx /\ (qx == inject_Z (f zs))%Q.
Proof.
  intros m c zs f HA HB HV HZ HX.
  assert (Iz : In zs (neighbours (map inject_Z zs))).
  { clear. induction zs as [|z zs IH]; [left; reflexivity|]. cbn [map neighbours]. rewrite Qfloor_Z. apply in_or_app. left. apply in_map, IH. }
  destruct (whole_R Ints (fun k => of_int (arith_of k)) m c zs f (IZR (f zs)) HA HB HV HZ) as (x & E & F & V).
  - intros is_ I. apply (int_exact Float), HX, I.
  - apply (int_exact Float), HX, Iz.
  - rewrite <- Q2R_inject in V. destruct (same_value _ _ x _ F V) as (qx & Eq & Hq). exists x, qx. auto.
Qed.
