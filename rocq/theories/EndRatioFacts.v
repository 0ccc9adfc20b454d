From Coq Require Import ZArith QArith List Bool Lia.
From Verif Require Import Outcome CInt CIntFacts EndRatio EndRatioSpec.
Import ListNotations.
Open Scope Z_scope.

Lemma common_sgn t u : is_signed (promote t) = true -> is_signed (promote u) = true ->
  is_signed (common t u) = true /\ is_signed (promote (common t u)) = true.
Proof. destruct t, u; simpl; intros; try discriminate; split; reflexivity. Qed.

Lemma sgn_compat a b : sgn_ty a -> sgn_ty b -> compat a b.
Proof. intros [_ A] [_ B]. left. apply common_sgn; assumption. Qed.

(** On such types an operation that is defined is exact. *)
Lemma arith_sgn f a b c : sgn_ty a -> sgn_ty b -> arith f a b = Ok c ->
  cval c = f (cval a) (cval b) /\ sgn_ty c.
Proof.
  intros A B. pose proof (sgn_compat a b A B) as C.
  destruct A as [Wa Sa], B as [Wb Sb]. destruct (common_sgn _ _ Sa Sb) as [S1 S2].
  unfold arith. rewrite (compat_cast_l a b), (compat_cast_r a b), S1 by assumption.
  destruct (in_tyb _ _) eqn:E; intros H; [|discriminate]. injection H as <-.
  simpl. split; [reflexivity|]. split; [apply in_tyb_spec; exact E|exact S2].
Qed.

Lemma arith_sgn_total f a b : sgn_ty a -> sgn_ty b -> Z.abs (f (cval a) (cval b)) <= max31 ->
  exists c, arith f a b = Ok c.
Proof.
  intros A B R. pose proof (sgn_compat a b A B) as C.
  destruct A as [Wa Sa], B as [Wb Sb]. destruct (common_sgn _ _ Sa Sb) as [S1 S2].
  eexists. apply arith_exact; try assumption. apply in_ty_common_signed; [exact S1|]. lia.
Qed.

Lemma cneg_sgn a c : sgn_ty a -> cneg a = Ok c -> cval c = - cval a /\ sgn_ty c.
Proof.
  intros [W S]. unfold cneg. rewrite S.
  rewrite cast_id.
  - destruct (in_tyb _ _) eqn:E; intros H; [|discriminate]. injection H as <-. simpl.
    split; [reflexivity|]. split; [apply in_tyb_spec; exact E|]. destruct (cty a); simpl in *; congruence.
  - unfold wfc, in_ty in *. destruct (cty a); simpl in *; lia.
Qed.

Lemma cneg_sgn_total a : sgn_ty a -> Z.abs (cval a) <= max31 -> exists c, cneg a = Ok c.
Proof.
  intros [W S] R. unfold cneg. rewrite S. rewrite cast_id.
  - assert (E : in_tyb (promote (cty a)) (- cval a) = true).
    { apply in_tyb_spec. unfold wfc, in_ty, max31 in *. destruct (cty a); simpl in *; lia. }
    rewrite E. eauto.
  - unfold wfc, in_ty in *. destruct (cty a); simpl in *; lia.
Qed.

Lemma cdiv_sgn a b c : sgn_ty a -> sgn_ty b -> cdiv a b = Ok c ->
  cval b <> 0 /\ cval c = Z.quot (cval a) (cval b) /\ sgn_ty c.
Proof.
  intros A B. pose proof (sgn_compat a b A B) as C.
  destruct A as [Wa Sa], B as [Wb Sb]. destruct (common_sgn _ _ Sa Sb) as [S1 S2].
  unfold cdiv. rewrite (compat_cast_l a b), (compat_cast_r a b) by assumption.
  destruct (Z.eqb_spec (cval b) 0); [discriminate|].
  destruct (in_tyb _ _) eqn:E; intros H; [|discriminate]. injection H as <-.
  simpl. split; [assumption|]. split; [reflexivity|]. split; [apply in_tyb_spec; exact E|exact S2].
Qed.

Lemma quot_abs_le x y : y <> 0 -> Z.abs (Z.quot x y) <= Z.abs x.
Proof.
  intros. rewrite <- Z.quot_abs by assumption.
  destruct (Z.eq_dec (Z.abs x) 0) as [E|E]; [rewrite E; rewrite Z.quot_0_l by lia; lia|].
  apply Z.quot_le_upper_bound; nia.
Qed.

Lemma cdiv_sgn_total a b : sgn_ty a -> sgn_ty b -> cval b <> 0 -> Z.abs (cval a) <= max31 ->
  exists c, cdiv a b = Ok c.
Proof.
  intros A B N R. pose proof (sgn_compat a b A B) as C.
  destruct A as [Wa Sa], B as [Wb Sb]. destruct (common_sgn _ _ Sa Sb) as [S1 S2].
  unfold cdiv. rewrite (compat_cast_l a b), (compat_cast_r a b) by assumption.
  destruct (Z.eqb_spec (cval b) 0); [contradiction|].
  assert (E : in_tyb (common (cty a) (cty b)) (Z.quot (cval a) (cval b)) = true).
  { apply in_tyb_spec. apply in_ty_common_signed; [exact S1|].
    pose proof (quot_abs_le (cval a) (cval b) N). lia. }
  rewrite E. eauto.
Qed.

Ltac inv1 H :=
  let a := fresh "v" in let E := fresh "E" in
  apply bind_inv in H; destruct H as (a & E & H).

Lemma q_neq z : z <> 0 -> ~ (q z == 0)%Q.
Proof. unfold q, Qeq; simpl. lia. Qed.

Lemma q_mul a b : (q (a * b) == q a * q b)%Q.
Proof. unfold q. rewrite inject_Z_mult. reflexivity. Qed.
Lemma q_add a b : (q (a + b) == q a + q b)%Q.
Proof. unfold q. rewrite inject_Z_plus. reflexivity. Qed.
Lemma q_opp a : (q (- a) == - q a)%Q.
Proof. unfold q. rewrite inject_Z_opp. reflexivity. Qed.
Lemma q_sub a b : (q (a - b) == q a - q b)%Q.
Proof. unfold q, Z.sub, Qminus. rewrite inject_Z_plus, inject_Z_opp. reflexivity. Qed.

Lemma rneg_exact_l r r' : sgn_ratio r -> rneg r = Ok r' -> sgn_ratio r' /\ (rvalue r' == - rvalue r)%Q.
Proof.
  intros (N & D & Z0) H. unfold rneg in H. inv1 H. injection H as <-.
  destruct (cneg_sgn _ _ N E) as [Ev Es]. split; [split; [exact Es|split; assumption]|].
  unfold rvalue; simpl. rewrite Ev, q_opp. field. apply q_neq; exact Z0.
Qed.

Ltac step E f := let V := fresh "V" in let S := fresh "S" in
  match type of E with ?g ?a ?b = _ =>
    destruct (arith_sgn f a b _ ltac:(assumption) ltac:(assumption) E) as [V S] end.

Lemma radd_exact_l a b r : sgn_ratio a -> sgn_ratio b -> radd a b = Ok r ->
  sgn_ratio r /\ (rvalue r == rvalue a + rvalue b)%Q.
Proof.
  intros (N1 & D1 & Z1) (N2 & D2 & Z2) H. unfold radd in H. inv1 H. inv1 H. inv1 H. inv1 H.
  injection H as <-.
  step E Z.mul. step E0 Z.mul. step E1 Z.add. step E2 Z.mul.
  split.
  - split; [assumption|]. split; [assumption|]. simpl. rewrite V2. apply Z.neq_mul_0. tauto.
  - unfold rvalue; simpl. rewrite V1, V, V0, V2, q_add, !q_mul. field.
    split; apply q_neq; assumption.
Qed.

Lemma rsub_exact_l a b r : sgn_ratio a -> sgn_ratio b -> rsub a b = Ok r ->
  sgn_ratio r /\ (rvalue r == rvalue a - rvalue b)%Q.
Proof.
  intros (N1 & D1 & Z1) (N2 & D2 & Z2) H. unfold rsub in H. inv1 H. inv1 H. inv1 H. inv1 H.
  injection H as <-.
  step E Z.mul. step E0 Z.mul. step E1 Z.sub. step E2 Z.mul.
  split.
  - split; [assumption|]. split; [assumption|]. simpl. rewrite V2. apply Z.neq_mul_0. tauto.
  - unfold rvalue; simpl. rewrite V1, V, V0, V2, q_sub, !q_mul. field.
    split; apply q_neq; assumption.
Qed.

Lemma rmul_exact_l a b r : sgn_ratio a -> sgn_ratio b -> rmul a b = Ok r ->
  sgn_ratio r /\ (rvalue r == rvalue a * rvalue b)%Q.
Proof.
  intros (N1 & D1 & Z1) (N2 & D2 & Z2) H. unfold rmul in H. inv1 H. inv1 H. injection H as <-.
  step E Z.mul. step E0 Z.mul. split.
  - split; [assumption|]. split; [assumption|]. simpl. rewrite V0. apply Z.neq_mul_0. tauto.
  - unfold rvalue; simpl. rewrite V, V0, !q_mul. field. split; apply q_neq; assumption.
Qed.

Lemma rscale_exact_l a c r : sgn_ratio a -> sgn_ty c -> rscale a c = Ok r ->
  sgn_ratio r /\ (rvalue r == rvalue a * q (cval c))%Q.
Proof.
  intros (N1 & D1 & Z1) C H. unfold rscale in H. inv1 H. injection H as <-.
  step E Z.mul. split.
  - split; [assumption|]. split; assumption.
  - unfold rvalue; simpl. rewrite V, !q_mul. field. apply q_neq; assumption.
Qed.

Lemma rdiv_exact_l a b r : sgn_ratio a -> sgn_ratio b -> cval (num b) <> 0 -> rdiv a b = Ok r ->
  sgn_ratio r /\ (rvalue r == rvalue a / rvalue b)%Q.
Proof.
  intros (N1 & D1 & Z1) (N2 & D2 & Z2) Nz H. unfold rdiv in H. inv1 H. inv1 H. injection H as <-.
  step E Z.mul. step E0 Z.mul. split.
  - split; [assumption|]. split; [assumption|]. simpl. rewrite V0. apply Z.neq_mul_0. tauto.
  - unfold rvalue; simpl. rewrite V, V0, !q_mul. field. repeat split; apply q_neq; assumption.
Qed.

Lemma rdivc_exact_l a c r : sgn_ratio a -> sgn_ty c -> cval c <> 0 -> rdivc a c = Ok r ->
  sgn_ratio r /\ (rvalue r == rvalue a / q (cval c))%Q.
Proof.
  intros (N1 & D1 & Z1) C Cz H. unfold rdivc in H. inv1 H. injection H as <-.
  step E Z.mul. split.
  - split; [assumption|]. split; [assumption|]. simpl. rewrite V. apply Z.neq_mul_0. tauto.
  - unfold rvalue; simpl. rewrite V, !q_mul. field. split; apply q_neq; assumption.
Qed.

Lemma rvalue_eq a b : cval (denum a) <> 0 -> cval (denum b) <> 0 ->
  ((rvalue a == rvalue b)%Q <-> cval (num a) * cval (denum b) = cval (denum a) * cval (num b)).
Proof.
  intros A B. unfold rvalue. split; intros H.
  - assert (H' : (q (cval (num a)) * q (cval (denum b)) == q (cval (denum a)) * q (cval (num b)))%Q).
    { transitivity ((q (cval (num a)) / q (cval (denum a))) * (q (cval (denum a)) * q (cval (denum b))))%Q.
      - field. apply q_neq; exact A.
      - rewrite H. field. apply q_neq; exact B. }
    rewrite <- !q_mul in H'. unfold q, Qeq in H'; simpl in H'. lia.
  - apply (Qmult_inj_r _ _ (q (cval (denum a)) * q (cval (denum b)))%Q).
    + rewrite <- q_mul. apply q_neq. apply Z.neq_mul_0. tauto.
    + transitivity (q (cval (num a) * cval (denum b))).
      * rewrite q_mul. field. apply q_neq; exact A.
      * rewrite H, q_mul. field. apply q_neq; exact B.
Qed.

Lemma req_exact_l a b e : sgn_ratio a -> sgn_ratio b -> req a b = Ok e ->
  (e = true <-> (rvalue a == rvalue b)%Q) /\ rneq a b = Ok (negb e).
Proof.
  intros (N1 & D1 & Z1) (N2 & D2 & Z2) H. pose proof H as H0. unfold req in H. inv1 H. inv1 H.
  injection H as <-. step E Z.mul. step E0 Z.mul. split.
  - rewrite rvalue_eq by assumption. rewrite ceqb_exact.
    + rewrite Z.eqb_eq, V, V0. reflexivity.
    + apply S.
    + apply S0.
    + apply sgn_compat; assumption.
  - unfold rneq. rewrite H0. reflexivity.
Qed.

Lemma ratio_total_l a b : sgn_ratio a -> sgn_ratio b ->
  (Z.abs (cval (num a)) + Z.abs (cval (denum a))) * (Z.abs (cval (num b)) + Z.abs (cval (denum b)))
    <= max31 ->
  (exists r, radd a b = Ok r) /\ (exists r, rsub a b = Ok r) /\ (exists r, rmul a b = Ok r) /\
  (exists r, rdiv a b = Ok r) /\ (exists e, req a b = Ok e) /\
  (exists r, rneg a = Ok r).
Proof.
  intros (N1 & D1 & Z1) (N2 & D2 & Z2) R.
  set (x := cval (num a)) in *. set (y := cval (denum a)) in *.
  set (u := cval (num b)) in *. set (v := cval (denum b)) in *.
  assert (A1 : Z.abs (x * v) + Z.abs (u * y) <= max31) by (rewrite !Z.abs_mul; nia).
  assert (A2 : Z.abs (y * v) <= max31) by (rewrite !Z.abs_mul; nia).
  assert (A3 : Z.abs (x * u) <= max31) by (rewrite !Z.abs_mul; nia).
  assert (A4 : Z.abs (y * u) <= max31) by (rewrite !Z.abs_mul; nia).
  assert (A5 : Z.abs x <= max31) by nia.
  destruct (arith_sgn_total Z.mul (num a) (denum b) N1 D2 ltac:(fold x v; lia)) as (p & P).
  destruct (arith_sgn_total Z.mul (num b) (denum a) N2 D1 ltac:(fold u y; lia)) as (s & S).
  destruct (arith_sgn_total Z.mul (denum a) (denum b) D1 D2 ltac:(fold y v; lia)) as (d & D).
  destruct (arith_sgn_total Z.mul (num a) (num b) N1 N2 ltac:(fold x u; lia)) as (m & M).
  destruct (arith_sgn_total Z.mul (denum a) (num b) D1 N2 ltac:(fold y u; lia)) as (k & K).
  destruct (arith_sgn _ _ _ _ N1 D2 P) as [Pv Ps]. destruct (arith_sgn _ _ _ _ N2 D1 S) as [Sv Ss].
  fold x v in Pv. fold u y in Sv.
  destruct (arith_sgn_total Z.add p s Ps Ss ltac:(rewrite Pv, Sv; lia)) as (t & T).
  destruct (arith_sgn_total Z.sub p s Ps Ss ltac:(rewrite Pv, Sv; lia)) as (w & W).
  destruct (cneg_sgn_total (num a) N1 A5) as (g & G).
  unfold radd, rsub, rmul, rdiv, req, rneg, cmul, cadd, csub.
  rewrite P. rewrite !bind_ok. rewrite S. rewrite !bind_ok. rewrite T, W, D, M, K, G. simpl.
  repeat split; eauto.
Qed.

(** [end] expressions. *)
Definition eok (e : end_t) : Prop := sgn_ty (shift e) /\ sgn_ratio (frac e).
Definition eval_at (e : end_t) (n : Z) : Q :=
  ((q n * q (cval (num (frac e))) + q (cval (shift e))) / q (cval (denum (frac e))))%Q.

Lemma sgn_int z : Z.abs z <= max31 -> sgn_ty (int z).
Proof. intros. split; [unfold wfc, in_ty; simpl; unfold max31 in *; lia|reflexivity]. Qed.

Lemma build_exact e : forall x n, sgn_expr e -> build e = Ok x ->
  eok x /\ (eval_at x n == evalue e n)%Q.
Proof.
  induction e; intros x n He H; cbn [build] in H; cbn [sgn_expr] in He;
    try (inv1 H; destruct He as [Ho He];
         match goal with |- context[EDiv] => destruct He as [Oz He] | _ => idtac end;
         destruct (IHe _ n He E) as [[Sx (Nx & Dx & Zx)] Vx]; unfold eval_at in Vx).
  - injection H as <-. split.
    + split; [apply sgn_int; vm_compute; discriminate|].
      split; [apply sgn_int; vm_compute; discriminate|].
      split; [apply sgn_int; vm_compute; discriminate|simpl; lia].
    + unfold eval_at, kend, evalue. cbn [shift frac num denum cval int]. change (q 1) with 1%Q.
      change (q 0) with 0%Q. field.
  - unfold end_add in H. inv1 H. inv1 H. injection H as <-. step E0 Z.mul. step E1 Z.add.
    split; [split; [assumption|split; [assumption|split; assumption]]|].
    unfold eval_at; cbn [evalue shift frac]. rewrite <- Vx, V0, V, q_add, q_mul. field.
    apply q_neq; assumption.
  - unfold end_add in H. inv1 H. inv1 H. injection H as <-. step E0 Z.mul. step E1 Z.add.
    split; [split; [assumption|split; [assumption|split; assumption]]|].
    unfold eval_at; cbn [evalue shift frac]. rewrite <- Vx, V0, V, q_add, q_mul. field.
    apply q_neq; assumption.
  - unfold end_sub in H. inv1 H. inv1 H. injection H as <-. step E0 Z.mul. step E1 Z.sub.
    split; [split; [assumption|split; [assumption|split; assumption]]|].
    unfold eval_at; cbn [evalue shift frac]. rewrite <- Vx, V0, V, q_sub, q_mul. field.
    apply q_neq; assumption.
  - unfold sub_end in H. inv1 H. inv1 H. inv1 H. injection H as <-. step E0 Z.mul. step E1 Z.sub.
    unfold rneg in E2. inv1 E2. injection E2 as <-. destruct (cneg_sgn _ _ Nx E3) as [Nv Ns].
    split; [split; [assumption|split; [assumption|split; assumption]]|].
    unfold eval_at; cbn [evalue shift frac num denum]. rewrite <- Vx, V0, V, Nv, q_sub, q_mul, q_opp. field.
    apply q_neq; assumption.
  - unfold end_mul in H. inv1 H. inv1 H. injection H as <-. step E0 Z.mul.
    unfold rscale in E1. inv1 E1. injection E1 as <-. step E2 Z.mul.
    split; [split; [assumption|split; [assumption|split; assumption]]|].
    unfold eval_at; cbn [evalue shift frac num denum]. rewrite <- Vx, V0, V, !q_mul. field.
    apply q_neq; assumption.
  - unfold end_mul in H. inv1 H. inv1 H. injection H as <-. step E0 Z.mul.
    unfold rscale in E1. inv1 E1. injection E1 as <-. step E2 Z.mul.
    split; [split; [assumption|split; [assumption|split; assumption]]|].
    unfold eval_at; cbn [evalue shift frac num denum]. rewrite <- Vx, V0, V, !q_mul. field.
    apply q_neq; assumption.
  - unfold end_div in H. inv1 H. injection H as <-.
    unfold rdivc in E0. inv1 E0. injection E0 as <-. step E1 Z.mul.
    split; [split; [assumption|split; [assumption|split; [assumption|]]]|].
    + simpl. rewrite V. apply Z.neq_mul_0. tauto.
    + unfold eval_at; cbn [evalue shift frac num denum]. rewrite <- Vx, V, !q_mul. field.
      split; apply q_neq; assumption.
Qed.

(** Truncated division is the truncation of the quotient. *)
Lemma q_div_sign a b : b <> 0 -> (q a / q b == q (a * Z.sgn b) / q (Z.abs b))%Q.
Proof.
  intros H. destruct (Z_lt_le_dec b 0).
  - rewrite Z.sgn_neg, Z.abs_neq by lia. rewrite q_mul, q_opp. change (q (-1)) with (-(1))%Q.
    field. apply q_neq; exact H.
  - rewrite Z.sgn_pos, Z.abs_eq, Z.mul_1_r by lia. reflexivity.
Qed.

Lemma q_le_div a b c : 0 < b -> ((q c <= q a / q b)%Q <-> c * b <= a).
Proof.
  intros H. unfold Qdiv. split; intros G.
  - assert (G' : (q c * q b <= q a)%Q).
    { rewrite <- (Qmult_1_r (q a)). rewrite <- (Qmult_inv_r (q b)) by (apply q_neq; lia).
      rewrite (Qmult_comm (q b) (/ q b)), Qmult_assoc. apply Qmult_le_compat_r; [exact G|].
      unfold q, Qle; simpl; lia. }
    rewrite <- q_mul in G'. unfold q, Qle in G'; simpl in G'. lia.
  - apply Qle_shift_div_l.
    + unfold q, Qlt; simpl; lia.
    + rewrite <- q_mul. unfold q, Qle; simpl. lia.
Qed.

Lemma q_div_le a b c : 0 < b -> ((q a / q b <= q c)%Q <-> a <= c * b).
Proof.
  intros H. split; intros G.
  - destruct (Z_le_gt_dec a (c * b)); [assumption|].
    exfalso. assert (L : c * b + 1 <= a) by lia.
    assert (G2 : (q a <= q c * q b)%Q).
    { rewrite <- (Qmult_1_r (q a)). rewrite <- (Qmult_inv_r (q b)) by (apply q_neq; lia).
      rewrite (Qmult_comm (q b) (/ q b)), Qmult_assoc. apply Qmult_le_compat_r; [exact G|].
      unfold q, Qle; simpl; lia. }
    rewrite <- q_mul in G2. unfold q, Qle in G2; simpl in G2. lia.
  - apply Qle_shift_div_r.
    + unfold q, Qlt; simpl; lia.
    + rewrite <- q_mul. unfold q, Qle; simpl. lia.
Qed.

Lemma quot_truncates a b : b <> 0 -> truncates (q a / q b)%Q (Z.quot a b).
Proof.
  intros H. 
  assert (T : forall x z, (x == q a / q b)%Q -> truncates x z -> truncates (q a / q b)%Q z).
  { intros x z Ex [(P1 & P2 & P3)|(P1 & P2 & P3)]; [left|right]; rewrite Ex in *; auto. }
  apply (T _ _ (Qeq_sym _ _ (q_div_sign a b H))). clear T.
  assert (E : Z.quot a b = Z.quot (a * Z.sgn b) (Z.abs b)).
  { destruct (Z_lt_le_dec b 0).
    - rewrite Z.sgn_neg, Z.abs_neq by lia. rewrite <- Z.opp_eq_mul_m1, Z.quot_opp_opp by lia. reflexivity.
    - rewrite Z.sgn_pos, Z.abs_eq, Z.mul_1_r by lia. reflexivity. }
  rewrite E. assert (Hb : 0 < Z.abs b) by lia. clear E.
  revert Hb. generalize (Z.abs b) as d. generalize (a * Z.sgn b) as m. intros m d Hd.
  change 0%Q with (q 0). unfold truncates.
  pose proof (Z.quot_rem m d ltac:(lia)) as QR.
  destruct (Z_le_gt_dec 0 m) as [P|P].
  - left. pose proof (Z.rem_bound_pos m d P Hd).
    split; [apply (q_le_div m d 0 Hd); lia|].
    split; [apply q_le_div; [exact Hd|lia]|].
    apply Qnot_le_lt. intros G. apply (q_le_div m d _ Hd) in G. lia.
  - right. pose proof (Z.rem_bound_pos_neg m d Hd ltac:(lia)).
    split; [apply (q_div_le m d 0 Hd); lia|].
    split; [apply q_div_le; [exact Hd|lia]|].
    apply Qnot_le_lt. intros G. apply (q_div_le m d _ Hd) in G. lia.
Qed.

Lemma truncates_ext x y z : (x == y)%Q -> truncates x z -> truncates y z.
Proof. intros E [(P1 & P2 & P3)|(P1 & P2 & P3)]; [left|right]; rewrite E in *; auto. Qed.

Lemma end_value_exact_l e n c : sgn_expr e -> sgn_ty n -> end_value e n = Ok c ->
  truncates (evalue e (cval n)) (cval c).
Proof.
  intros He Hn H. unfold end_value in H. inv1 H.
  destruct (build_exact e _ (cval n) He E) as [[Sx (Nx & Dx & Zx)] Vx].
  unfold end_size in H. inv1 H. inv1 H. step E0 Z.mul. step E1 Z.add.
  destruct (cdiv_sgn _ _ _ S0 Dx H) as (_ & Vc & _).
  apply (truncates_ext _ _ _ Vx). unfold eval_at.
  rewrite Vc, V0, V.
  apply (truncates_ext (q (cval n * cval (num (frac v)) + cval (shift v)) / q (cval (denum (frac v))))%Q).
  - rewrite q_add, q_mul. reflexivity.
  - apply quot_truncates. exact Zx.
Qed.

Lemma weight_pos e : 1 <= weight e.
Proof.
  induction e; cbn [weight]; [lia|..];
    pose proof (Z.abs_nonneg (cval o)); nia.
Qed.

Lemma build_total e : sgn_expr e -> weight e <= max31 ->
  exists x, build e = Ok x /\ Z.abs (cval (shift x)) <= weight e /\
    Z.abs (cval (num (frac x))) <= weight e /\ Z.abs (cval (denum (frac x))) <= weight e /\
    Z.abs (cval (shift x)) + Z.abs (cval (num (frac x))) <= weight e.
Proof.
  induction e; cbn [sgn_expr weight build]; intros He W;
    [|destruct He as [Ho He];
         match goal with |- context[end_div] => destruct He as [Oz He] | _ => idtac end;
         pose proof (weight_pos e) as Wp;
         assert (We : weight e <= max31) by nia;
         destruct (IHe He We) as (x & Bx & A1 & A2 & A3 & A4); rewrite Bx, bind_ok;
         destruct (build_exact e x 0 He Bx) as [[Sx (Nx & Dx & Zx)] _];
         assert (Wo : weight e * Z.abs (cval o) + weight e <= max31) by lia ..].
  - exists kend. simpl. repeat split; lia.
  - unfold end_add, cmul, cadd.
    destruct (arith_sgn_total Z.mul o (denum (frac x)) Ho Dx) as (p & P); [rewrite Z.abs_mul; nia|].
    rewrite P, bind_ok. step P Z.mul.
    assert (Z.abs (cval p) <= Z.abs (cval o) * weight e) by (rewrite V, Z.abs_mul; nia).
    destruct (arith_sgn_total Z.add (shift x) p Sx S) as (t & T); [lia|].
    rewrite T, bind_ok. step T Z.add. eexists. split; [reflexivity|]. cbn [shift frac]. nia.
  - unfold end_add, cmul, cadd.
    destruct (arith_sgn_total Z.mul o (denum (frac x)) Ho Dx) as (p & P); [rewrite Z.abs_mul; nia|].
    rewrite P, bind_ok. step P Z.mul.
    assert (Z.abs (cval p) <= Z.abs (cval o) * weight e) by (rewrite V, Z.abs_mul; nia).
    destruct (arith_sgn_total Z.add (shift x) p Sx S) as (t & T); [lia|].
    rewrite T, bind_ok. step T Z.add. eexists. split; [reflexivity|]. cbn [shift frac]. nia.
  - unfold end_sub, cmul, csub.
    destruct (arith_sgn_total Z.mul o (denum (frac x)) Ho Dx) as (p & P); [rewrite Z.abs_mul; nia|].
    rewrite P, bind_ok. step P Z.mul.
    assert (Z.abs (cval p) <= Z.abs (cval o) * weight e) by (rewrite V, Z.abs_mul; nia).
    destruct (arith_sgn_total Z.sub (shift x) p Sx S) as (t & T); [lia|].
    rewrite T, bind_ok. step T Z.sub. eexists. split; [reflexivity|]. cbn [shift frac]. nia.
  - unfold sub_end, cmul, csub.
    destruct (arith_sgn_total Z.mul o (denum (frac x)) Ho Dx) as (p & P); [rewrite Z.abs_mul; nia|].
    rewrite P, bind_ok. step P Z.mul.
    assert (Z.abs (cval p) <= Z.abs (cval o) * weight e) by (rewrite V, Z.abs_mul; nia).
    destruct (arith_sgn_total Z.sub p (shift x) S Sx) as (t & T); [lia|].
    rewrite T, bind_ok. step T Z.sub. unfold rneg.
    destruct (cneg_sgn_total (num (frac x)) Nx) as (g & G); [nia|].
    destruct (cneg_sgn _ _ Nx G) as [Gv Gs].
    rewrite G, !bind_ok. eexists. split; [reflexivity|]. cbn [shift frac num denum].
    rewrite Gv, Z.abs_opp. nia.
  - unfold end_mul, rscale, cmul.
    destruct (arith_sgn_total Z.mul (shift x) o Sx Ho) as (p & P); [rewrite Z.abs_mul; nia|].
    rewrite P, bind_ok. step P Z.mul.
    destruct (arith_sgn_total Z.mul (num (frac x)) o Nx Ho) as (t & T); [rewrite Z.abs_mul; nia|].
    rewrite T, !bind_ok. step T Z.mul. eexists. split; [reflexivity|]. cbn [shift frac num denum].
    rewrite V, V0, !Z.abs_mul. nia.
  - unfold end_mul, rscale, cmul.
    destruct (arith_sgn_total Z.mul (shift x) o Sx Ho) as (p & P); [rewrite Z.abs_mul; nia|].
    rewrite P, bind_ok. step P Z.mul.
    destruct (arith_sgn_total Z.mul (num (frac x)) o Nx Ho) as (t & T); [rewrite Z.abs_mul; nia|].
    rewrite T, !bind_ok. step T Z.mul. eexists. split; [reflexivity|]. cbn [shift frac num denum].
    rewrite V, V0, !Z.abs_mul. nia.
  - unfold end_div, rdivc, cmul.
    destruct (arith_sgn_total Z.mul (denum (frac x)) o Dx Ho) as (t & T); [rewrite Z.abs_mul; nia|].
    rewrite T, !bind_ok. step T Z.mul. eexists. split; [reflexivity|]. cbn [shift frac num denum].
    rewrite V, !Z.abs_mul. nia.
Qed.

Lemma end_value_total_l e n : sgn_expr e -> sgn_ty n -> (1 + Z.abs (cval n)) * weight e <= max31 ->
  exists c, end_value e n = Ok c /\ truncates (evalue e (cval n)) (cval c).
Proof.
  intros He Hn W. pose proof (weight_pos e) as Wp.
  destruct (build_total e He ltac:(nia)) as (x & Bx & A1 & A2 & A3 & A4).
  destruct (build_exact e x 0 He Bx) as [[Sx (Nx & Dx & Zx)] _].
  assert (G : exists c, end_value e n = Ok c).
  { unfold end_value. rewrite Bx, bind_ok. unfold end_size, cmul, cadd.
    destruct (arith_sgn_total Z.mul n (num (frac x)) Hn Nx) as (p & P); [rewrite Z.abs_mul; nia|].
    rewrite P, bind_ok. step P Z.mul.
    assert (Z.abs (cval p) <= Z.abs (cval n) * weight e) by (rewrite V, Z.abs_mul; nia).
    destruct (arith_sgn_total Z.add p (shift x) S Sx) as (t & T); [lia|].
    rewrite T, bind_ok. step T Z.add.
    apply cdiv_sgn_total; try assumption. lia. }
  destruct G as (c & G). exists c. split; [exact G|]. apply end_value_exact_l; assumption.
Qed.

Lemma truncates_fun x a b : truncates x a -> truncates x b -> a = b.
Proof.
  assert (L : forall u v, (q u < q v)%Q -> u < v).
  { intros u v. unfold q. rewrite <- Zlt_Qlt. exact (fun h => h). }
  intros [(P1 & P2 & P3)|(P1 & P2 & P3)] [(R1 & R2 & R3)|(R1 & R2 & R3)].
  - assert (G1 : (q a < q (b + 1))%Q) by exact (Qle_lt_trans _ _ _ P2 R3).
    assert (G2 : (q b < q (a + 1))%Q) by exact (Qle_lt_trans _ _ _ R2 P3).
    apply L in G1, G2. lia.
  - assert (Z0 : (x == 0)%Q) by (apply Qle_antisym; assumption). rewrite Z0 in P2, P3, R2, R3.
    change 0%Q with (q 0) in P2, P3, R2, R3. unfold q in P2, P3, R2, R3. rewrite <- Zle_Qle in P2, R2. rewrite <- Zlt_Qlt in P3, R3. lia.
  - assert (Z0 : (x == 0)%Q) by (apply Qle_antisym; assumption). rewrite Z0 in P2, P3, R2, R3.
    change 0%Q with (q 0) in P2, P3, R2, R3. unfold q in P2, P3, R2, R3. rewrite <- Zle_Qle in P2, R2. rewrite <- Zlt_Qlt in P3, R3. lia.
  - assert (G1 : (q (b - 1) < q a)%Q) by exact (Qlt_le_trans _ _ _ R3 P2).
    assert (G2 : (q (a - 1) < q b)%Q) by exact (Qlt_le_trans _ _ _ P3 R2).
    apply L in G1, G2. lia.
Qed.

Lemma arith_cases f a b : arith f a b = UB \/ exists c, arith f a b = Ok c.
Proof.
  unfold arith. destruct (is_signed _); [|right; eauto].
  destruct (in_tyb _ _); [right; eauto|left; reflexivity].
Qed.

Lemma end_div_zero_ub n : end_value (EDiv EEnd (int 0)) n = UB.
Proof.
  unfold end_value.
  assert (B : build (EDiv EEnd (int 0)) = Ok (En (int 0) (Rt (int 1) (int 0)))) by reflexivity.
  rewrite B, bind_ok. unfold end_size, cmul, cadd. cbn [frac num denum shift].
  destruct (arith_cases Z.mul n (int 1)) as [E|(a & E)]; rewrite E; [reflexivity|]. rewrite bind_ok.
  destruct (arith_cases Z.add a (int 0)) as [E2|(c & E2)]; rewrite E2; [reflexivity|]. rewrite bind_ok.
  unfold cdiv. assert (C : cast (common (cty c) I32) 0 = 0) by (destruct (cty c); reflexivity).
  cbn [cval cty int]. rewrite C. reflexivity.
Qed.
