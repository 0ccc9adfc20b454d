(** Lemmas about scans and products of integers that wrap around or overflow. *)
From Coq Require Import ZArith List Bool Lia.
From Verif Require Import Outcome CInt CIntFacts Spec SpecFacts ShapeSpec Shape ShapeFacts2 Memory MemFacts Container ContainerSpec
  ForEach ForEachSpec ForEachFacts Algo AlgoSpec AlgoFacts AlgoFacts2 AlgoFacts3 Sums SumsSpec SumsFacts IotaFacts.
Import ListNotations.
Open Scope Z_scope.

Section Scan.
Variables (ot : ity) (in_ out : container) (m : mem cint) (vs : list cint) (acc : nat -> cint).
Hypothesis CR : can_read m in_ in_.
Hypothesis CW : can_write m in_ out.
Hypothesis V : values m in_ in_ vs.

Let Nn : nonnegs (dims in_) := proj2 (live_wf m in_ (can_read_live _ _ _ CR)).
Let Vd : forall is_, in_box (dims in_) is_ -> valid m (elem out is_) := proj2 (proj2 (proj2 CW)).
Let ival := fun (pre : list (list Z)) (_ : list Z) => Some (conv ot (acc (length pre + 1)%nat)).
Let xval := fun (pre : list (list Z)) (_ : list Z) => Some (conv ot (acc (length pre))).
Let ist := fun pre : list (list Z) => (acc (length pre), pmem out ival m pre).
Let xst := fun pre : list (list Z) => (acc (length pre), pmem out xval m pre).
Let ibody := fun ps (sm : cint * mem cint) =>
  match ps with
  | [i; o] => v <- load (snd sm) i ;; a <- add_to (fst sm) v ;; m' <- store (snd sm) o (conv ot a) ;; Ok (a, m')
  | _ => UB
  end.
Let xbody := fun ps (sm : cint * mem cint) =>
  match ps with
  | [i; o] => m' <- store (snd sm) o (conv ot (fst sm)) ;; v <- load m' i ;; a <- add_to (fst sm) v ;; Ok (a, m')
  | _ => UB
  end.

Lemma ibody_step pre is_ post v : no_cross_alias in_ in_ out -> box (dims in_) = pre ++ is_ :: post -> nth_error vs (length pre) = Some v ->
  (add_to (acc (length pre)) v = Ok (acc (length pre + 1)%nat) ->
   ibody (map (fun c => elem c is_) [in_; out]) (ist pre) = Ok (ist (pre ++ [is_]))) /\
  (add_to (acc (length pre)) v = UB -> ibody (map (fun c => elem c is_) [in_; out]) (ist pre) = UB).
Proof.
  intros NA E Ev. destruct (box_split_notin _ _ _ _ Nn E) as (_ & Bi & _).
  destruct (values_at _ _ _ _ _ _ _ V E) as (v' & Ev' & Hv). rewrite Ev in Ev'. injection Ev' as <-.
  assert (Hv' : value (snd (ist pre)) in_ is_ v).
  { unfold value, peek, ist. cbn [snd]. rewrite (pmem_read in_ in_ out ival m pre is_ post); assumption. }
  split; intros A; unfold ibody; cbn [map]; rewrite (load_peek _ _ _ Hv'), bind_ok; unfold ist; cbn [fst snd]; rewrite A; [|reflexivity].
  rewrite bind_ok, store_valid by (apply pmem_same, Vd, Bi). rewrite bind_ok, pmem_step, app_length. cbn [length]. reflexivity.
Qed.
Lemma xbody_step pre is_ post v : no_alias in_ in_ out -> box (dims in_) = pre ++ is_ :: post -> nth_error vs (length pre) = Some v ->
  (add_to (acc (length pre)) v = Ok (acc (length pre + 1)%nat) ->
   xbody (map (fun c => elem c is_) [in_; out]) (xst pre) = Ok (xst (pre ++ [is_]))) /\
  (add_to (acc (length pre)) v = UB -> xbody (map (fun c => elem c is_) [in_; out]) (xst pre) = UB).
Proof.
  intros NA E Ev. destruct (box_split_notin _ _ _ _ Nn E) as (_ & Bi & _).
  destruct (values_at _ _ _ _ _ _ _ V E) as (v' & Ev' & Hv). rewrite Ev in Ev'. injection Ev' as <-.
  assert (Hv' : value (upd (pmem out xval m pre) (elem out is_) (conv ot (acc (length pre)))) in_ is_ v).
  { unfold value. rewrite peek_upd_other by (apply not_eq_sym, NA; assumption). unfold peek.
    rewrite (pmem_read in_ in_ out xval m pre is_ post); try assumption. intros a b Ha Hb _. apply NA; assumption. }
  split; intros A; unfold xbody; cbn [map]; unfold xst; cbn [fst snd];
    (rewrite store_valid by (apply pmem_same, Vd, Bi)); rewrite bind_ok, (load_peek _ _ _ Hv'), bind_ok, A; [|reflexivity].
  rewrite bind_ok, pmem_step, app_length. cbn [length]. reflexivity.
Qed.

Lemma length_at pre is_ post : box (dims in_) = pre ++ is_ :: post -> exists v, nth_error vs (length pre) = Some v.
Proof. intros E. destruct (values_at _ _ _ _ _ _ _ V E) as (v & Ev & _). exists v. exact Ev. Qed.

Lemma inclusive_state : no_cross_alias in_ in_ out ->
  (forall k v, nth_error vs k = Some v -> add_to (acc k) v = Ok (acc (k + 1)%nat)) ->
  exists m', inclusive_sums ot in_ out (acc 0) m = Ok m' /\
    (forall is_, in_box (dims in_) is_ -> value m' out is_ (conv ot (acc (Z.to_nat (rank (dims in_) is_) + 1)%nat))) /\ frame in_ out m m'.
Proof.
  intros NA H. pose proof (pmem_result out ival in_ m Nn (proj1 (proj2 (proj2 CW))) Vd) as (R & F). cbv zeta in R, F.
  exists (pmem out ival m (box (dims in_))). unfold inclusive_sums. change (acc 0, m) with (ist []). fold ibody.
  rewrite (map_containers_inv ibody in_ [out] m ist).
  - split; [reflexivity|]. split; [|exact F]. intros is_ Bi.
    destruct (box_split _ _ Bi) as (pre & post & E). specialize (R pre _ post E). unfold ival in R at 1.
    rewrite (rank_pre _ _ _ _ Nn E Bi) in R. exact R.
  - apply can_read_live. exact CR.
  - constructor; [apply can_write_live; exact CW|constructor].
  - intros pre. apply pmem_same.
  - intros pre is_ post E. destruct (length_at _ _ _ E) as (v & Ev). apply (ibody_step pre is_ post v NA E Ev). apply H. exact Ev.
Qed.
Lemma exclusive_state : no_alias in_ in_ out ->
  (forall k v, nth_error vs k = Some v -> add_to (acc k) v = Ok (acc (k + 1)%nat)) ->
  exists m', exclusive_sums ot in_ out (acc 0) m = Ok m' /\
    (forall is_, in_box (dims in_) is_ -> value m' out is_ (conv ot (acc (Z.to_nat (rank (dims in_) is_))))) /\ frame in_ out m m'.
Proof.
  intros NA H. pose proof (pmem_result out xval in_ m Nn (proj1 (proj2 (proj2 CW))) Vd) as (R & F). cbv zeta in R, F.
  exists (pmem out xval m (box (dims in_))). unfold exclusive_sums. change (acc 0, m) with (xst []). fold xbody.
  rewrite (map_containers_inv xbody in_ [out] m xst).
  - split; [reflexivity|]. split; [|exact F]. intros is_ Bi.
    destruct (box_split _ _ Bi) as (pre & post & E). specialize (R pre _ post E). unfold xval in R at 1.
    rewrite (rank_pre _ _ _ _ Nn E Bi) in R. exact R.
  - apply can_read_live. exact CR.
  - constructor; [apply can_write_live; exact CW|constructor].
  - intros pre. apply pmem_same.
  - intros pre is_ post E. destruct (length_at _ _ _ E) as (v & Ev). apply (xbody_step pre is_ post v NA E Ev). apply H. exact Ev.
Qed.
Lemma scans_fail n w : nth_error vs n = Some w ->
  (forall k v, (k < n)%nat -> nth_error vs k = Some v -> add_to (acc k) v = Ok (acc (k + 1)%nat)) -> add_to (acc n) w = UB ->
  (no_cross_alias in_ in_ out -> inclusive_sums ot in_ out (acc 0) m = UB) /\
  (no_alias in_ in_ out -> exclusive_sums ot in_ out (acc 0) m = UB).
Proof.
  intros Hw H U. assert (Ln : (n < length (box (dims in_)))%nat).
  { rewrite (AlgoFacts3.Forall2_len _ _ _ V). apply nth_error_Some. congruence. }
  split; intros NA.
  - unfold inclusive_sums. change (acc 0, m) with (ist []). fold ibody.
    rewrite (map_containers_fails ibody in_ [out] m n ist); [reflexivity| | | | | |exact Ln].
    + apply can_read_live. exact CR.
    + constructor; [apply can_write_live; exact CW|constructor].
    + intros pre. apply pmem_same.
    + intros pre is_ post E Lp. destruct (length_at _ _ _ E) as (v & Ev). apply (ibody_step pre is_ post v NA E Ev). apply H; assumption.
    + intros pre is_ post E Lp. apply (ibody_step pre is_ post w NA E); rewrite Lp; assumption.
  - unfold exclusive_sums. change (acc 0, m) with (xst []). fold xbody.
    rewrite (map_containers_fails xbody in_ [out] m n xst); [reflexivity| | | | | |exact Ln].
    + apply can_read_live. exact CR.
    + constructor; [apply can_write_live; exact CW|constructor].
    + intros pre. apply pmem_same.
    + intros pre is_ post E Lp. destruct (length_at _ _ _ E) as (v & Ev). apply (xbody_step pre is_ post v NA E Ev). apply H; assumption.
    + intros pre is_ post E Lp. apply (xbody_step pre is_ post w NA E); rewrite Lp; assumption.
Qed.
End Scan.

Lemma total_snoc vs k v : nth_error vs k = Some v -> total (map cval (firstn (k + 1) vs)) = total (map cval (firstn k vs)) + cval v.
Proof.
  intros E. rewrite Nat.add_1_r, (firstn_snoc _ _ _ E), map_app. cbn [map]. induction (map cval (firstn k vs)) as [|z zs IH]; cbn [app total]; lia.
Qed.
Lemma scans_wrap_l t e ot in_ out z m vs : can_read m in_ in_ -> can_write m in_ out -> values m in_ in_ vs -> typed e vs -> in_ty t z ->
  is_signed (common t e) = false \/ width t < 32 /\ width e < 32 ->
  (no_cross_alias in_ in_ out -> exists m', inclusive_sums ot in_ out (CI t z) m = Ok m' /\
    (forall is_, in_box (dims in_) is_ ->
       value m' out is_ (CI ot (cast ot (cast t (z + total (map cval (firstn (Z.to_nat (rank (dims in_) is_) + 1) vs))))))) /\
    frame in_ out m m') /\
  (no_alias in_ in_ out -> exists m', exclusive_sums ot in_ out (CI t z) m = Ok m' /\
    (forall is_, in_box (dims in_) is_ ->
       value m' out is_ (CI ot (cast ot (cast t (z + total (map cval (firstn (Z.to_nat (rank (dims in_) is_)) vs))))))) /\
    frame in_ out m m').
Proof.
  intros CR CW V Ty Hz H. pose (acc := fun k => CI t (cast t (z + total (map cval (firstn k vs))))).
  assert (A0 : acc 0%nat = CI t z) by (unfold acc; cbn [firstn map total]; rewrite Z.add_0_r, cast_id by exact Hz; reflexivity).
  assert (St : forall k v, nth_error vs k = Some v -> add_to (acc k) v = Ok (acc (k + 1)%nat)).
  { intros k v Ev. assert (Tv : cty v = e /\ wfc v) by (unfold typed in Ty; rewrite Forall_forall in Ty; apply Ty; eapply nth_error_In; exact Ev).
    destruct Tv as [Tv Wv]. unfold acc. rewrite (total_snoc _ _ _ Ev), Z.add_assoc, <- (cast_add_l t (z + _)). destruct H as [S|(N1 & N2)].
    - apply (add_to_wraps (CI t _) v). rewrite Tv. exact S.
    - apply (add_to_narrow (CI t _) v); try assumption; [apply cast_range|rewrite Tv; exact N2]. }
  split; intros NA.
  - destruct (inclusive_state ot in_ out m vs acc CR CW V NA St) as (m' & E & R & F). rewrite A0 in E. exists m'. split; [exact E|]. split; [exact R|exact F].
  - destruct (exclusive_state ot in_ out m vs acc CR CW V NA St) as (m' & E & R & F). rewrite A0 in E. exists m'. split; [exact E|]. split; [exact R|exact F].
Qed.
Lemma scans_overflow_l t e ot in_ out z m vs : can_read m in_ in_ -> can_write m in_ out -> values m in_ in_ vs -> typed e vs -> in_ty t z ->
  common t e = t -> is_signed t = true -> ~ partial_sums_in t z (map cval vs) ->
  (no_cross_alias in_ in_ out -> inclusive_sums ot in_ out (CI t z) m = UB) /\
  (no_alias in_ in_ out -> exclusive_sums ot in_ out (CI t z) m = UB).
Proof.
  intros CR CW V Ty Hz C S N. destruct (partial_dec t (map cval vs) z Hz N) as (n & x & En & Pn & Bn).
  rewrite nth_error_map in En. destruct (nth_error vs n) as [w|] eqn:Ew; [|discriminate]. cbn in En. injection En as <-.
  rewrite firstn_map in Pn, Bn.
  assert (Tw : forall k v, nth_error vs k = Some v -> cty v = e /\ wfc v)
    by (intros k v Ev; unfold typed in Ty; rewrite Forall_forall in Ty; apply Ty; eapply nth_error_In; exact Ev).
  pose (acc := fun k => CI t (z + total (map cval (firstn k vs)))).
  assert (A0 : acc 0%nat = CI t z) by (unfold acc; cbn [firstn map total]; rewrite Z.add_0_r; reflexivity).
  assert (Ln : (n < length vs)%nat) by (apply nth_error_Some; congruence).
  assert (In : forall k, (k <= n)%nat -> in_ty t (z + total (map cval (firstn k vs)))).
  { intros k Hk. specialize (Pn k). rewrite map_length, firstn_length_le, firstn_map, firstn_firstn, Nat.min_l in Pn by lia. apply Pn. exact Hk. }
  pose proof (scans_fail ot in_ out m vs acc CR CW V n w Ew) as G. rewrite A0 in G. apply G.
  - intros k v Hk Ev. unfold acc. destruct (Tw k v Ev) as [_ Wv].
    rewrite (total_snoc _ _ _ Ev), Z.add_assoc. apply (add_to_exact (CI t _) v); [apply In; lia|exact Wv|]. cbn [cty cval].
    rewrite <- Z.add_assoc, <- (total_snoc _ _ _ Ev). apply In. lia.
  - destruct (Tw n w Ew) as [Te Ww]. apply (add_to_overflow (CI t _) w); cbn [cty cval]; [apply In; lia|exact Ww|rewrite Te; exact C|exact S|exact Bn].
Qed.

(** ** Products *)
Lemma arith_outcome f a b : (exists c, arith f a b = Ok c) \/ arith f a b = UB.
Proof. unfold arith. cbv zeta. destruct (is_signed _); [destruct (in_tyb _ _)|]; eauto. Qed.
Lemma add_to_outcome a e : (exists c, add_to a e = Ok c) \/ add_to a e = UB.
Proof. unfold add_to, cadd. destruct (arith_outcome Z.add a e) as [(c & ->)| ->]; [left; eexists; reflexivity|right; reflexivity]. Qed.
Lemma foldo_UB {T} (f : cint -> T -> outcome cint) vs x : In x vs ->
  (forall a v, (exists c, f a v = Ok c) \/ f a v = UB) -> (forall a, f a x = UB) -> forall a, foldo f vs a = UB.
Proof.
  intros I H U. induction vs as [|v vs IH]; [destruct I|]. intros a. cbn [foldo]. destruct I as [-> |I].
  - rewrite U. reflexivity.
  - destruct (H a v) as [(c & ->)| ->]; [cbn [bind]; apply IH; exact I|reflexivity].
Qed.
Lemma dot_product_overflow_l c1 c2 t1 t2 init m vs1 vs2 :
  can_read m c1 c1 -> can_read m c1 c2 -> values m c1 c1 vs1 -> values m c1 c2 vs2 -> typed t1 vs1 -> typed t2 vs2 ->
  is_signed (common t1 t2) = true -> ~ Forall (in_ty (common t1 t2)) (products (map cval vs1) (map cval vs2)) ->
  dot_from c1 c2 init m = UB.
Proof.
  intros CR1 CR2 V1 V2 T1 T2 S N. rewrite (dot_from_l _ _ _ _ _ _ CR1 CR2 V1 V2).
  assert (X : exists p, In p (combine vs1 vs2) /\ ~ in_ty (common t1 t2) (cval (fst p) * cval (snd p))).
  { clear -N T1 T2. revert vs2 T2 N. induction T1 as [|v1 vs1 _ _ IH]; intros vs2 T2 N.
    - exfalso. apply N. constructor.
    - destruct T2 as [|v2 vs2 _ T2]; [exfalso; apply N; constructor|]. unfold products in N. cbn [map combine fst snd] in N.
      destruct (in_tyb (common t1 t2) (cval v1 * cval v2)) eqn:E.
      + destruct (IH vs2 T2) as (p & I & B); [|exists p; split; [right; exact I|exact B]].
        intros G. apply N. constructor; [apply in_tyb_spec; exact E|exact G].
      + exists (v1, v2). split; [left; reflexivity|]. intros G. apply in_tyb_spec in G. cbn [fst snd] in G. congruence. }
  destruct X as (p & I & B).
  assert (Tp : (cty (fst p) = t1 /\ wfc (fst p)) /\ (cty (snd p) = t2 /\ wfc (snd p))).
  { destruct p as [a b]. unfold typed in T1, T2. rewrite Forall_forall in T1, T2.
    split; [apply T1; eapply in_combine_l; exact I|apply T2; eapply in_combine_r; exact I]. }
  destruct Tp as [[Ta Wa] [Tb Wb]].
  rewrite (foldo_UB _ _ p I); [reflexivity| |].
  - intros a v. unfold cmul. destruct (arith_outcome Z.mul (fst v) (snd v)) as [(c & ->)| ->]; [cbn [bind]; apply add_to_outcome|right; reflexivity].
  - intros a. unfold cmul, arith. cbv zeta. rewrite Ta, Tb, S.
    rewrite (cast_id _ (cval (fst p))) by (apply common_l_in; [rewrite <- Ta; exact Wa|exact S]).
    rewrite (cast_id _ (cval (snd p))) by (apply common_r_in; [rewrite <- Tb; exact Wb|exact S]).
    destruct (in_tyb (common t1 t2) (cval (fst p) * cval (snd p))) eqn:E; [|reflexivity]. apply in_tyb_spec in E. contradiction.
Qed.
(** The products, as the values the computation sees. *)
Lemma foldo_products t1 t2 ws : forall vs1 vs2, typed t1 vs1 -> typed t2 vs2 ->
  Forall2 (fun p w => cmul (fst p) (snd p) = Ok w) (combine vs1 vs2) ws -> forall a,
  foldo (fun a p => q <- cmul (fst p) (snd p) ;; add_to a q) (combine vs1 vs2) a = foldo add_to ws a.
Proof.
  intros vs1 vs2 _ _ H. induction H as [|p w ps ws Hp _ IH]; intros a; [reflexivity|]. cbn [foldo]. rewrite Hp, bind_ok.
  destruct (add_to a w); try reflexivity. cbn [bind]. apply IH.
Qed.
Lemma products_of t1 t2 vs1 : forall vs2, typed t1 vs1 -> typed t2 vs2 ->
  (is_signed (common t1 t2) = true -> Forall (in_ty (common t1 t2)) (products (map cval vs1) (map cval vs2))) ->
  exists ws, Forall2 (fun p w => cmul (fst p) (snd p) = Ok w) (combine vs1 vs2) ws /\ typed (common t1 t2) ws /\
    map cval ws = map (cast (common t1 t2)) (products (map cval vs1) (map cval vs2)).
Proof.
  intros vs2 T1. revert vs2. induction T1 as [|v1 vs1 [E1 W1] _ IH]; intros vs2 T2 H.
  - exists []. repeat split; constructor.
  - destruct T2 as [|v2 vs2 [E2 W2] T2]; [exists []; repeat split; constructor|].
    destruct (IH vs2 T2) as (ws & F & Tw & Ew).
    { intros S. specialize (H S). unfold products in H. cbn [map combine] in H. inversion H; assumption. }
    exists (CI (common t1 t2) (cast (common t1 t2) (cval v1 * cval v2)) :: ws). split; [|split].
    + cbn [combine]. constructor; [|exact F]. cbn [fst snd]. destruct (is_signed (common t1 t2)) eqn:S.
      * specialize (H eq_refl). unfold products in H. cbn [map combine fst snd] in H. inversion H as [|? ? Hp _]; subst.
        rewrite cmul_fits by assumption. rewrite cast_id by assumption. reflexivity.
      * unfold cmul, arith. cbv zeta. rewrite E1, E2, S, cast_mul. reflexivity.
    + constructor; [split; [reflexivity|apply cast_range]|exact Tw].
    + unfold products in *. cbn [map combine fst snd cval]. rewrite Ew. reflexivity.
Qed.
Lemma dot_sum_overflow_l c1 c2 t t1 t2 z m vs1 vs2 :
  can_read m c1 c1 -> can_read m c1 c2 -> values m c1 c1 vs1 -> values m c1 c2 vs2 -> typed t1 vs1 -> typed t2 vs2 -> in_ty t z ->
  Forall (in_ty (common t1 t2)) (products (map cval vs1) (map cval vs2)) ->
  common t (common t1 t2) = t -> is_signed t = true ->
  ~ partial_sums_in t z (products (map cval vs1) (map cval vs2)) -> dot_from c1 c2 (CI t z) m = UB.
Proof.
  intros CR1 CR2 V1 V2 T1 T2 Hz Fp C S N. rewrite (dot_from_l _ _ _ _ _ _ CR1 CR2 V1 V2).
  destruct (products_of t1 t2 vs1 vs2 T1 T2 (fun _ => Fp)) as (ws & F & Tw & Ew).
  rewrite (foldo_products t1 t2 ws _ _ T1 T2 F), (fold_overflow t (common t1 t2)); try assumption; [reflexivity|].
  rewrite Ew. replace (map (cast (common t1 t2)) _) with (products (map cval vs1) (map cval vs2)); [exact N|].
  clear -Fp. induction Fp as [|x l Hx _ IH]; [reflexivity|]. cbn [map]. rewrite cast_id, <- IH by exact Hx. reflexivity.
Qed.
Lemma dot_wraps_l c1 c2 t t1 t2 z m vs1 vs2 :
  can_read m c1 c1 -> can_read m c1 c2 -> values m c1 c1 vs1 -> values m c1 c2 vs2 -> typed t1 vs1 -> typed t2 vs2 -> in_ty t z ->
  is_signed (common t1 t2) = false -> is_signed (common t (common t1 t2)) = false ->
  dot_from c1 c2 (CI t z) m =
  Ok (CI t (cast t (z + total (map (cast (common t1 t2)) (products (map cval vs1) (map cval vs2))))), m).
Proof.
  intros CR1 CR2 V1 V2 T1 T2 Hz Sp St. rewrite (dot_from_l _ _ _ _ _ _ CR1 CR2 V1 V2).
  destruct (products_of t1 t2 vs1 vs2 T1 T2) as (ws & F & Tw & Ew); [congruence|].
  rewrite (foldo_products t1 t2 ws _ _ T1 T2 F), fold_step_wraps; [rewrite bind_ok, Ew; reflexivity| |exact Hz].
  eapply Forall_impl; [|exact Tw]. cbn beta. intros v (Tv & Wv) z' Hz'. apply (add_to_wraps (CI t z') v). rewrite Tv. exact St.
Qed.
