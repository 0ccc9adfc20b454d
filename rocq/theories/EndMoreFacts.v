(** [end] expressions with unsigned constants and chains of divisions. *)
From Coq Require Import ZArith List Bool Lia.
From Verif Require Import Outcome CInt CIntFacts Spec SpecFacts EndRatio EndMoreSpec.
Import ListNotations.
Open Scope Z_scope.

Notation M := 4294967296.
Lemma cast_u32 z : cast U32 z = z mod M.
Proof.
  unfold cast. change (modulus U32) with M. change (tmax U32) with 4294967295. pose proof (Z.mod_pos_bound z M eq_refl).
  destruct (Z.leb_spec (z mod M) 4294967295); [reflexivity|lia].
Qed.

(** Either an unsigned value congruent to [z], or one of the ints -1, 0 and 1. *)
Definition like (c : cint) (z : Z) : Prop := c = CI U32 (z mod M) \/ (c = int z /\ -1 <= z <= 1).
Definition modular (f : Z -> Z -> Z) : Prop := forall a b, f (a mod M) (b mod M) mod M = f a b mod M.
Lemma modular_add : modular Z.add. Proof. intros a b. rewrite <- Z.add_mod by discriminate. reflexivity. Qed.
Lemma modular_sub : modular Z.sub. Proof. intros a b. rewrite <- Zminus_mod. reflexivity. Qed.
Lemma modular_mul : modular Z.mul. Proof. intros a b. rewrite <- Z.mul_mod by discriminate. reflexivity. Qed.
Lemma arith_u f a b x y : modular f -> like a x -> b = CI U32 (y mod M) -> arith f a b = Ok (CI U32 (f x y mod M)).
Proof.
  intros Hf [-> |[-> _]] ->; unfold arith; cbv zeta; cbn [cty cval int];
    [change (common U32 U32) with U32|change (common I32 U32) with U32]; cbn [is_signed]; rewrite !cast_u32, ?Z.mod_mod by discriminate;
    rewrite Hf; reflexivity.
Qed.
Lemma arith_u' f a b x y : modular f -> a = CI U32 (x mod M) -> like b y -> arith f a b = Ok (CI U32 (f x y mod M)).
Proof.
  intros Hf -> [-> |[-> _]]; unfold arith; cbv zeta; cbn [cty cval int];
    [change (common U32 U32) with U32|change (common U32 I32) with U32]; cbn [is_signed]; rewrite !cast_u32, ?Z.mod_mod by discriminate;
    rewrite Hf; reflexivity.
Qed.
Lemma cneg_like a x : like a x -> exists b, cneg a = Ok b /\ like b (- x).
Proof.
  intros [-> |[-> Hx]].
  - exists (CI U32 ((- x) mod M)). split; [|left; reflexivity]. unfold cneg. cbv zeta. cbn [cty cval]. change (promote U32) with U32.
    cbn [is_signed]. rewrite !cast_u32, Z.mod_mod by discriminate. do 2 f_equal.
    rewrite <- (Z.sub_0_l (x mod M)), <- (Z.sub_0_l x), Zminus_mod_idemp_r. reflexivity.
  - exists (int (- x)). split; [|right; split; [reflexivity|lia]].
    assert (x = -1 \/ x = 0 \/ x = 1) as [-> |[-> | ->]] by lia; reflexivity.
Qed.
Lemma one_like : like (int 1) 1. Proof. right. split; [reflexivity|lia]. Qed.

Lemma u_const_mod o : u_const o -> exists z, o = CI U32 (z mod M) /\ z = cval o.
Proof.
  destruct o as [t z]. intros [E R]. cbn in E, R. subst. exists z. split; [|reflexivity]. rewrite Z.mod_small by lia. reflexivity.
Qed.
Lemma build_u e : u_expr e -> exists s a, build e = Ok (En s (Rt a (int 1))) /\
  exists x y, like a x /\ like s y /\ forall n, integer e n = x * n + y.
Proof.
  induction e as [|e IH o|o e IH|e IH o|o e IH|e IH o|o e IH|e IH o]; cbn [u_expr]; intros U;
    [exists (int 0), (int 1); split; [reflexivity|]; exists 1, 0; split; [exact one_like|]; split; [right; split; [reflexivity|lia]|intros n; cbn [integer]; lia]| | | | | | |contradiction];
    destruct U as [Uo Ue]; destruct (u_const_mod o Uo) as (z & Eo & Ez); destruct (IH Ue) as (s & a & E & x & y & La & Ls & H); cbn [build integer]; rewrite E, bind_ok.
  - exists (CI U32 ((y + z) mod M)), a. split.
    + unfold end_add. cbn [frac denum shift]. unfold cmul. rewrite (arith_u' _ _ _ z 1 modular_mul Eo one_like), bind_ok, Z.mul_1_r.
      unfold cadd. rewrite (arith_u _ _ _ y z modular_add Ls eq_refl). reflexivity.
    + exists x, (y + z). split; [exact La|]. split; [left; reflexivity|]. intros n. rewrite H, Ez. lia.
  - exists (CI U32 ((y + z) mod M)), a. split.
    + unfold end_add. cbn [frac denum shift]. unfold cmul. rewrite (arith_u' _ _ _ z 1 modular_mul Eo one_like), bind_ok, Z.mul_1_r.
      unfold cadd. rewrite (arith_u _ _ _ y z modular_add Ls eq_refl). reflexivity.
    + exists x, (y + z). split; [exact La|]. split; [left; reflexivity|]. intros n. rewrite H, Ez. lia.
  - exists (CI U32 ((y - z) mod M)), a. split.
    + unfold end_sub. cbn [frac denum shift]. unfold cmul. rewrite (arith_u' _ _ _ z 1 modular_mul Eo one_like), bind_ok, Z.mul_1_r.
      unfold csub. rewrite (arith_u _ _ _ y z modular_sub Ls eq_refl). reflexivity.
    + exists x, (y - z). split; [exact La|]. split; [left; reflexivity|]. intros n. rewrite H, Ez. lia.
  - destruct (cneg_like a x La) as (b & Eb & Lb). exists (CI U32 ((z - y) mod M)), b. split.
    + unfold sub_end. cbn [frac denum shift]. unfold cmul. rewrite (arith_u' _ _ _ z 1 modular_mul Eo one_like), bind_ok, Z.mul_1_r.
      unfold csub. rewrite (arith_u' _ _ _ z y modular_sub eq_refl Ls), bind_ok. unfold rneg. cbn [num denum]. rewrite Eb. reflexivity.
    + exists (- x), (z - y). split; [exact Lb|]. split; [left; reflexivity|]. intros n. rewrite H, Ez. lia.
  - exists (CI U32 ((y * z) mod M)), (CI U32 ((x * z) mod M)). split.
    + unfold end_mul, rscale, cmul. cbn [frac num denum shift]. rewrite (arith_u _ _ _ y z modular_mul Ls Eo), bind_ok, (arith_u _ _ _ x z modular_mul La Eo).
      reflexivity.
    + exists (x * z), (y * z). split; [left; reflexivity|]. split; [left; reflexivity|]. intros n. rewrite H, Ez. ring.
  - exists (CI U32 ((y * z) mod M)), (CI U32 ((x * z) mod M)). split.
    + unfold end_mul, rscale, cmul. cbn [frac num denum shift]. rewrite (arith_u _ _ _ y z modular_mul Ls Eo), bind_ok, (arith_u _ _ _ x z modular_mul La Eo).
      reflexivity.
    + exists (x * z), (y * z). split; [left; reflexivity|]. split; [left; reflexivity|]. intros n. rewrite H, Ez. ring.
Qed.
Lemma div_one z : cdiv (CI U32 (z mod M)) (int 1) = Ok (CI U32 (z mod M)).
Proof.
  unfold cdiv. cbn [cty cval int]. change (common U32 I32) with U32. cbv zeta. rewrite !cast_u32, Z.mod_mod by discriminate.
  change (1 mod M) with 1. cbn [Z.eqb]. rewrite Z.quot_1_r. pose proof (Z.mod_pos_bound z M eq_refl).
  replace (in_tyb U32 (z mod M)) with true; [reflexivity|]. symmetry. apply in_tyb_spec. unfold in_ty. change (tmin U32) with 0. change (tmax U32) with 4294967295. lia.
Qed.
Lemma end_unsigned_l e n : u_expr e -> u_const n -> end_value e n = Ok (CI U32 (integer e (cval n) mod 4294967296)).
Proof.
  intros U Un. destruct (build_u e U) as (s & a & E & x & y & La & Ls & H). destruct (u_const_mod n Un) as (z & En_ & Ez).
  unfold end_value. rewrite E, bind_ok. unfold end_size. cbn [frac num denum shift]. unfold cmul, cadd.
  rewrite (arith_u' _ _ _ z x modular_mul En_ La), bind_ok, (arith_u' _ _ _ (z * x) y modular_add eq_refl Ls), bind_ok, div_one, <- Ez, H.
  do 3 f_equal. ring.
Qed.
(** [end - u] on an axis of 64-bit size. *)
Lemma end_minus_long_l u n : 0 < u < 4294967296 -> 0 <= n -> n + 4294967296 - u <= 9223372036854775807 ->
  end_value (ESub EEnd (CI U32 u)) (CI I64 n) = Ok (CI I64 (n + 4294967296 - u)).
Proof.
  intros Hu Hn Hs. unfold end_value. cbn [build]. rewrite bind_ok. unfold end_sub, kend. cbn [frac denum shift].
  unfold cmul, csub. rewrite (arith_u' _ _ _ u 1 modular_mul); [|rewrite Z.mod_small by lia; reflexivity|exact one_like]. rewrite bind_ok, Z.mul_1_r.
  rewrite (arith_u _ _ _ 0 u modular_sub); [|right; split; [reflexivity|lia]|reflexivity]. rewrite !bind_ok.
  replace ((0 - u) mod M) with (M - u) by (rewrite <- (Z_mod_plus_full (0 - u) 1 M), Z.mod_small; lia).
  unfold end_size. cbn [frac num denum shift]. unfold cmul, cadd, arith. cbv zeta. cbn [cty cval int]. change (common I64 I32) with I64.
  assert (R : forall z, -9223372036854775808 <= z <= 9223372036854775807 -> in_ty I64 z) by (intros z Hz; unfold in_ty; change (tmin I64) with (-9223372036854775808); change (tmax I64) with 9223372036854775807; lia).
  cbn [is_signed]. rewrite (cast_id I64 n), (cast_id I64 1) by (apply R; lia). rewrite Z.mul_1_r.
  rewrite (proj2 (in_tyb_spec I64 n)) by (apply R; lia). rewrite bind_ok. cbn [cty cval]. change (common I64 U32) with I64. cbn [is_signed].
  rewrite (cast_id I64 n), (cast_id I64 (M - u)) by (apply R; lia).
  rewrite (proj2 (in_tyb_spec I64 _)) by (apply R; lia). rewrite bind_ok. unfold cdiv. cbn [cty cval int]. change (common I64 I32) with I64. cbv zeta.
  rewrite (cast_id I64 1), (cast_id I64 (n + (M - u))) by (apply R; lia). cbn [Z.eqb]. rewrite Z.quot_1_r, (proj2 (in_tyb_spec I64 _)) by (apply R; lia).
  do 2 f_equal. lia.
Qed.

(** ** Divisions *)
Lemma in_int z : in_tyb I32 z = true <-> -2147483648 <= z <= 2147483647.
Proof. rewrite in_tyb_spec. unfold in_ty. change (tmin I32) with (-2147483648). change (tmax I32) with 2147483647. tauto. Qed.
Lemma divs_build ds : Forall (fun d => 0 < d <= 2147483647) ds -> forall e p, 0 < p <= 2147483647 ->
  build e = Ok (En (int 0) (Rt (int 1) (int p))) ->
  build (divisions e ds) = if p * prod ds <=? 2147483647 then Ok (En (int 0) (Rt (int 1) (int (p * prod ds)))) else UB.
Proof.
  assert (P : forall l, Forall (fun d => 0 < d <= 2147483647) l -> 0 < prod l).
  { intros l Hl. induction Hl as [|d l Hd _ IH]; [reflexivity|]. change (prod (d :: l)) with (d * prod l). nia. }
  intros F. induction F as [|d ds Hd Fd IH]; intros e p Hp E; cbn [divisions fold_left].
  - change (prod []) with 1. rewrite Z.mul_1_r. destruct (Z.leb_spec p 2147483647); [exact E|lia].
  - change (prod (d :: ds)) with (d * prod ds). fold (divisions (EDiv e (int d)) ds). specialize (P ds Fd).
    assert (Eb : build (EDiv e (int d)) = if p * d <=? 2147483647 then Ok (En (int 0) (Rt (int 1) (int (p * d)))) else UB).
    { cbn [build]. rewrite E, bind_ok. unfold end_div, rdivc, cmul, arith. cbn [frac num denum shift cty cval int]. change (common I32 I32) with I32. cbv zeta.
      cbn [is_signed]. rewrite (cast_id I32 p), (cast_id I32 d) by (apply in_tyb_spec, in_int; lia).
      destruct (in_tyb I32 (p * d)) eqn:B; destruct (Z.leb_spec (p * d) 2147483647); try reflexivity.
      - apply in_int in B. lia.
      - exfalso. assert (in_tyb I32 (p * d) = true) by (apply in_int; nia). congruence. }
    destruct (Z.leb_spec (p * d) 2147483647) as [L|L].
    + rewrite (IH _ (p * d)); [|nia|exact Eb]. rewrite Z.mul_assoc. reflexivity.
    + replace (p * (d * prod ds) <=? 2147483647) with false by (symmetry; apply Z.leb_gt; nia).
      clear -Eb. revert e d Eb. assert (U : forall ds e, build e = UB -> build (divisions e ds) = UB).
      { clear. induction ds as [|d ds IH]; intros e E; [exact E|]. cbn [divisions fold_left]. apply (IH (EDiv e (int d))). cbn [build]. rewrite E. reflexivity. }
      intros e d Eb. apply U. exact Eb.
Qed.
Lemma end_divisions_l ds n : Forall (fun d => 0 < d <= 2147483647) ds -> 0 <= n <= 2147483647 ->
  end_value (divisions EEnd ds) (int n) = if prod ds <=? 2147483647 then Ok (int (n / prod ds)) else UB.
Proof.
  intros F Hn. assert (P : 0 < prod ds).
  { induction F as [|d l Hd _ IH]; [reflexivity|]. change (prod (d :: l)) with (d * prod l). nia. }
  unfold end_value. rewrite (divs_build ds F EEnd 1); [|lia|reflexivity]. rewrite Z.mul_1_l. destruct (Z.leb_spec (prod ds) 2147483647); [|reflexivity].
  rewrite bind_ok. unfold end_size. cbn [frac num denum shift]. unfold cmul, cadd, arith, cdiv. cbn [cty cval int]. change (common I32 I32) with I32. cbv zeta.
  cbn [is_signed]. assert (R : forall z, 0 <= z <= 2147483647 -> in_ty I32 z) by (intros z Hz; apply in_tyb_spec, in_int; lia).
  rewrite (cast_id I32 n), (cast_id I32 1) by (apply R; lia). rewrite Z.mul_1_r, (proj2 (in_tyb_spec I32 n)) by (apply R; lia). rewrite bind_ok. cbn [cty cval].
  change (common I32 I32) with I32. cbn [is_signed]. rewrite (cast_id I32 n), (cast_id I32 0) by (apply R; lia).
  rewrite Z.add_0_r, (proj2 (in_tyb_spec I32 n)) by (apply R; lia). rewrite bind_ok. cbn [cty cval]. change (common I32 I32) with I32.
  rewrite (cast_id I32 n), (cast_id I32 (prod ds)) by (apply R; lia). destruct (Z.eqb_spec (prod ds) 0); [lia|].
  rewrite Z.quot_div_nonneg by lia. assert (0 <= n / prod ds <= n).
  { split; [apply Z.div_pos; lia|]. apply Z.div_le_upper_bound; nia. }
  rewrite (proj2 (in_tyb_spec I32 _)) by (apply R; lia). reflexivity.
Qed.
