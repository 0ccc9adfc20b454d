From Coq Require Import ZArith QArith List Bool Lia Morphisms.
From Verif Require Import Outcome CInt CIntFacts EndRatio EndRatioSpec EndRatioFacts RatioSpec.
Import ListNotations.
Open Scope Z_scope.

Lemma common_comm t u : common t u = common u t.
Proof. destruct t, u; reflexivity. Qed.
Lemma arith_comm f a b : (forall x y, f x y = f y x) -> arith f a b = arith f b a.
Proof. intros C. unfold arith. rewrite (common_comm (cty b)), C. reflexivity. Qed.

Lemma radd_comm a b : radd a b = radd b a.
Proof.
  unfold radd, cmul, cadd. rewrite (arith_comm Z.mul (denum b) (denum a)) by (intros; lia).
  destruct (arith_cases Z.mul (num a) (denum b)) as [E|(x & E)], (arith_cases Z.mul (num b) (denum a)) as [E2|(y & E2)]; rewrite E, E2, ?bind_ok; try reflexivity.
  rewrite (arith_comm Z.add y x) by (intros; lia). reflexivity.
Qed.
Lemma rmul_comm a b : rmul a b = rmul b a.
Proof. unfold rmul, cmul. rewrite (arith_comm Z.mul (num b)), (arith_comm Z.mul (denum b)) by (intros; lia). reflexivity. Qed.
Lemma ceqb_comm a b : ceqb a b = ceqb b a.
Proof. unfold ceqb. rewrite (common_comm (cty b)), Z.eqb_sym. reflexivity. Qed.
Lemma req_comm a b : req a b = req b a.
Proof.
  unfold req, cmul. rewrite (arith_comm Z.mul (num b) (denum a)), (arith_comm Z.mul (denum b) (num a)) by (intros; lia).
  destruct (arith_cases Z.mul (num a) (denum b)) as [E|(x & E)], (arith_cases Z.mul (denum a) (num b)) as [E2|(y & E2)]; rewrite E, E2, ?bind_ok; try reflexivity.
  rewrite ceqb_comm. reflexivity.
Qed.
Lemma ratio_comm_l a b : radd a b = radd b a /\ rmul a b = rmul b a /\ req a b = req b a /\ rneq a b = rneq b a.
Proof. split; [apply radd_comm|]. split; [apply rmul_comm|]. split; [apply req_comm|]. unfold rneq. rewrite req_comm. reflexivity. Qed.

Ltac ub_or_ok := repeat match goal with
  | |- context [arith ?f ?a ?b] => let E := fresh "E" in let x := fresh "x" in
      destruct (arith_cases f a b) as [E|(x & E)]; rewrite E; [left; reflexivity|]; cbn [bind]
  end; right; eexists; reflexivity.
Lemma step_cases r o : step r o = UB \/ exists x, step r o = Ok x.
Proof.
  destruct o as [[] b]; unfold step; cbn [fst snd]; unfold radd, rsub, rmul, cadd, csub, cmul; ub_or_ok.
Qed.
Lemma calculate_cases l : forall r, calculate r l = UB \/ exists x, calculate r l = Ok x.
Proof.
  induction l as [|o l IH]; intros r; cbn [calculate]; [right; eauto|].
  destruct (step_cases r o) as [E|(x & E)]; rewrite E; [left; reflexivity|]. rewrite bind_ok. apply IH.
Qed.

Lemma mul_type a b c : cmul a b = Ok c -> cty c = common (cty a) (cty b).
Proof.
  unfold cmul, arith. destruct (is_signed _); [destruct (in_tyb _ _)|]; intros H; try discriminate; injection H as <-; reflexivity.
Qed.

Lemma step_denum r o x : sgn_ratio r -> sgn_ratio (snd o) -> step r o = Ok x ->
  sgn_ratio x /\ (rvalue x == exact_step (rvalue r) o)%Q /\ cval (denum x) = cval (denum r) * cval (denum (snd o)) /\
  cty (denum x) = common (cty (denum r)) (cty (denum (snd o))).
Proof.
  intros Sr So E. assert (G : cmul (denum r) (denum (snd o)) = Ok (denum x)).
  { destruct o as [[] b]; unfold step in E; cbn [fst snd] in *; unfold radd, rsub, rmul in E;
      repeat match type of E with bind ?e _ = Ok _ => let H := fresh in destruct e eqn:H; cbn [bind] in E; try discriminate end;
      injection E as <-; first [assumption | reflexivity]. }
  split; [|split; [|split]].
  - destruct o as [[] b]; unfold step in E; cbn [fst snd] in *; [apply (radd_exact_l r b x)|apply (rsub_exact_l r b x)|apply (rmul_exact_l r b x)]; assumption.
  - destruct o as [[] b]; unfold step in E; unfold exact_step; cbn [fst snd] in *; [apply (radd_exact_l r b x)|apply (rsub_exact_l r b x)|apply (rmul_exact_l r b x)]; assumption.
  - destruct Sr as (_ & Dr & _), So as (_ & Do & _). apply (arith_sgn Z.mul _ _ _ Dr Do G).
  - apply mul_type. exact G.
Qed.

#[local] Instance exact_step_proper : Proper (Qeq ==> eq ==> Qeq) exact_step.
Proof. intros x y E o ? <-. unfold exact_step. destruct (fst o); rewrite E; reflexivity. Qed.
Lemma exact_fold l : forall x y, (x == y)%Q -> (fold_left exact_step l x == fold_left exact_step l y)%Q.
Proof. induction l as [|o l IH]; intros x y E; cbn [fold_left]; [exact E|]. apply IH. rewrite E. reflexivity. Qed.

Lemma denominators_head l r x (o : rop * ratio) : cval (denum x) = cval (denum r) * cval (denum (snd o)) -> denominators x l = cval (denum r) * denominators (snd o) l.
Proof. intros E. destruct l; cbn [denominators]; rewrite E; [reflexivity|ring]. Qed.

Lemma calculate_exact_l l : forall r x, sgn_ratio r -> Forall (fun o => sgn_ratio (snd o)) l -> calculate r l = Ok x ->
  sgn_ratio x /\ (rvalue x == exact r l)%Q /\ cval (denum x) = denominators r l.
Proof.
  unfold exact. induction l as [|o l IH]; intros r x Sr Sl E; cbn [calculate] in E.
  - injection E as <-. split; [exact Sr|]. split; reflexivity.
  - inversion Sl; subst. destruct (step r o) as [y| | |] eqn:Ey; cbn [bind] in E; try discriminate.
    destruct (step_denum r o y) as (Sy & Vy & Dy & _); try assumption.
    destruct (IH y x Sy) as (Sx & Vx & Dx); try assumption. split; [exact Sx|]. split.
    + rewrite Vx. cbn [fold_left]. apply exact_fold. exact Vy.
    + rewrite Dx. apply denominators_head. exact Dy.
Qed.

Lemma calculate_int l : forall r x, sgn_ratio r -> Forall (fun o => sgn_ratio (snd o)) l -> int_ratio r -> Forall (fun o => int_ratio (snd o)) l ->
  calculate r l = Ok x -> cty (denum x) = I32.
Proof.
  assert (G : forall l r x, sgn_ratio r -> Forall (fun o => sgn_ratio (snd o)) l -> cty (denum r) = I32 -> Forall (fun o => int_ratio (snd o)) l ->
    calculate r l = Ok x -> cty (denum x) = I32).
  { clear. induction l as [|o l IH]; intros r x Sr Sl Tr Tl E; cbn [calculate] in E; [injection E as <-; exact Tr|].
    inversion Sl; subst. inversion Tl as [|? ? [_ To] ?]; subst. destruct (step r o) as [y| | |] eqn:Ey; cbn [bind] in E; try discriminate.
    destruct (step_denum r o y) as (Sy & _ & _ & Ty); try assumption. apply (IH y x); try assumption. rewrite Ty, Tr, To. reflexivity. }
  intros r x Sr Sl [_ Tr]. apply G; assumption.
Qed.

Lemma denominators_grow l : forall r, not_whole r -> Forall (fun o => not_whole (snd o)) l -> 2 ^ Z.of_nat (S (length l)) <= Z.abs (denominators r l).
Proof.
  unfold not_whole. induction l as [|o l IH]; intros r R F; cbn [denominators length].
  - change (2 ^ Z.of_nat 1) with 2. exact R.
  - inversion F; subst. specialize (IH (snd o)). rewrite Z.abs_mul. rewrite Nat2Z.inj_succ, Z.pow_succ_r by lia.
    apply Z.mul_le_mono_nonneg; [lia|exact R|apply Z.pow_nonneg; lia|apply IH; assumption].
Qed.

Lemma calculate_overflows_l r l : sgn_ratio r -> Forall (fun o => sgn_ratio (snd o)) l -> not_whole r -> Forall (fun o => not_whole (snd o)) l ->
  (64 <= S (length l) \/ (int_ratio r /\ Forall (fun o => int_ratio (snd o)) l /\ 32 <= S (length l)))%nat -> calculate r l = UB.
Proof.
  intros Sr Sl Nr Nl L. destruct (calculate_cases l r) as [E|(x & E)]; [exact E|]. exfalso.
  destruct (calculate_exact_l l r x Sr Sl E) as ((_ & Dx & _) & _ & Dn). pose proof (denominators_grow l r Nr Nl) as G. rewrite <- Dn in G.
  destruct Dx as [Wx _]. unfold wfc, in_ty in Wx. destruct L as [L|(Ir & Il & L)].
  - pose proof (Z.pow_le_mono_r 2 64 (Z.of_nat (S (length l))) ltac:(lia) ltac:(lia)) as M. change (2 ^ 64) with 18446744073709551616 in M.
    destruct (cty (denum x)); cbn in Wx; lia.
  - rewrite (calculate_int l r x Sr Sl Ir Il E) in Wx. pose proof (Z.pow_le_mono_r 2 32 (Z.of_nat (S (length l))) ltac:(lia) ltac:(lia)) as M.
    change (2 ^ 32) with 4294967296 in M. cbn in Wx. lia.
Qed.

Lemma mul_zero a : sgn_ty a -> exists c, cmul (int 0) a = Ok c /\ cval c = 0 /\ sgn_ty c.
Proof.
  intros A. assert (S0 : sgn_ty (int 0)) by (split; [unfold wfc, in_ty; cbn; lia|reflexivity]).
  destruct (arith_sgn_total Z.mul (int 0) a S0 A) as (c & E); [cbn; unfold max31; lia|]. exists c. split; [exact E|].
  destruct (arith_sgn _ _ _ _ S0 A E) as [V Sc]. split; [exact V|exact Sc].
Qed.
Lemma nothing_equal_l a : sgn_ty (num a) -> sgn_ty (denum a) -> req (Rt (int 0) (int 0)) a = Ok true.
Proof.
  intros N D. unfold req. cbn [num denum]. destruct (mul_zero _ D) as (x & Ex & Vx & _), (mul_zero _ N) as (y & Ey & Vy & _).
  rewrite Ex, bind_ok, Ey, bind_ok. unfold ceqb. rewrite Vx, Vy, Z.eqb_refl. reflexivity.
Qed.

Lemma u32_arith f a b : wfc a -> wfc b -> cty a = U32 -> cty b = U32 -> arith f a b = Ok (CI U32 (f (cval a) (cval b) mod 4294967296)).
Proof.
  intros Wa Wb Ta Tb. unfold arith. rewrite Ta, Tb. cbn [common promote is_signed]. unfold wfc in Wa, Wb. rewrite Ta in Wa. rewrite Tb in Wb.
  rewrite (cast_id U32 (cval a)), (cast_id U32 (cval b)) by assumption. unfold cast, modulus. cbn [width]. change (2 ^ 32) with 4294967296.
  pose proof (Z.mod_pos_bound (f (cval a) (cval b)) 4294967296 ltac:(lia)). cbn [tmax]. replace (_ mod _ <=? 4294967295) with true; [reflexivity|].
  symmetry. apply Z.leb_le. lia.
Qed.
Lemma u32_wf z : wfc (CI U32 (z mod 4294967296)).
Proof. unfold wfc, in_ty. cbn. pose proof (Z.mod_pos_bound z 4294967296 ltac:(lia)). lia. Qed.

Lemma unsigned_l a b : unsigned_ratio a -> unsigned_ratio b ->
  let n1 := cval (num a) in let d1 := cval (denum a) in let n2 := cval (num b) in let d2 := cval (denum b) in
  let u z := CI U32 (z mod 4294967296) in
  radd a b = Ok (Rt (u (n1 * d2 + n2 * d1)) (u (d1 * d2))) /\ rsub a b = Ok (Rt (u (n1 * d2 - n2 * d1)) (u (d1 * d2))) /\
  rmul a b = Ok (Rt (u (n1 * n2)) (u (d1 * d2))) /\ rdiv a b = Ok (Rt (u (n1 * d2)) (u (d1 * n2))) /\
  rneg a = Ok (Rt (u (- n1)) (denum a)) /\
  exists e, req a b = Ok e /\ (e = true <-> (n1 * d2) mod 4294967296 = (d1 * n2) mod 4294967296).
Proof.
  intros (Wn & Wd & Tn & Td) (Wn' & Wd' & Tn' & Td') n1 d1 n2 d2 u. unfold radd, rsub, rmul, rdiv, req, rneg, cadd, csub, cmul.
  rewrite !(u32_arith Z.mul) by assumption. cbn [bind]. fold n1 d1 n2 d2.
  rewrite (u32_arith Z.add), (u32_arith Z.sub) by (try apply u32_wf; reflexivity). cbn [bind cval]. rewrite <- Z.add_mod, <- Zminus_mod by lia.
  do 4 (split; [reflexivity|]). split.
  - unfold cneg. rewrite Tn. cbn [promote is_signed]. rewrite (cast_id U32 (cval (num a))) by (unfold wfc in Wn; rewrite Tn in Wn; exact Wn). cbn [bind].
    unfold u, cast, modulus. cbn [width]. change (2 ^ 32) with 4294967296. fold n1.
    pose proof (Z.mod_pos_bound (- n1) 4294967296 ltac:(lia)). cbn [tmax]. replace (_ mod _ <=? 4294967295) with true; [reflexivity|].
    symmetry. apply Z.leb_le. lia.
  - eexists. split; [reflexivity|]. unfold ceqb. cbn [cty cval]. change (common U32 U32) with U32. rewrite !cast_id by apply u32_wf. apply Z.eqb_eq.
Qed.
