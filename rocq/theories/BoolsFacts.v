(** Facts about elements of type bool (C102). *)
From Coq Require Import ZArith QArith List Bool Lia.
From Coq Require Import Floats.SpecFloat.
From Verif Require Import Outcome CInt CIntFacts Spec SpecFacts ShapeSpec Shape ShapeFacts ShapeFacts2 ForEach ForEachSpec ForEachFacts
  Memory MemFacts Container ContainerSpec ContainerFacts ContainerFacts2 ContainerFacts3 Source SourceSpec SourceFacts ViewFacts
  Algo AlgoSpec AlgoFacts AlgoFacts2 AlgoFacts3 AlgoFacts4 Sums SumsSpec SumsFacts
  Interp InterpSpec IeeeSpec Mixed Convert ConvertSpec FloatSums FloatCompare Bools BoolsSpec.
Import ListNotations.
Open Scope Z_scope.

(** ** Conversions *)
Lemma truth_nonzero v : truth v = true <-> nonzero v.
Proof.
  destruct v as [b|t [z|x]]; unfold truth, nonzero; cbn [number_of number_value].
  - destruct b; cbn; split; intros H; try reflexivity; discriminate.
  - destruct (Z.eqb_spec z 0) as [->|N]; cbn.
    + split; [discriminate|]. intros H. exfalso. apply (H 0%Q eq_refl). reflexivity.
    + split; [|reflexivity]. intros _ q E. injection E as <-. intros Q. apply N. unfold Qeq, inject_Z in Q. cbn in Q. lia.
  - destruct x as [s|s| |s mm e]; cbn [float_value].
    + split; [discriminate|]. intros H. exfalso. apply (H _ eq_refl). reflexivity.
    + split; [discriminate|reflexivity].
    + split; [discriminate|reflexivity].
    + split; [|reflexivity]. intros _ q E Q. cbv zeta in E. injection E as <-.
      assert (G : (if s then Z.neg mm else Z.pos mm) <> 0) by (destruct s; discriminate).
      destruct e as [|e|e]; unfold Qeq, inject_Z in Q; cbn [Qnum Qden] in Q.
      * rewrite Z.pow_0_r in Q. lia.
      * pose proof (Z.pow_pos_nonneg 2 (Z.pos e) ltac:(lia) ltac:(lia)). nia.
      * lia.
Qed.
Lemma bool_for_truth v : bool_for v (SBool (truth v)).
Proof. exists (truth v). split; [reflexivity|apply truth_nonzero]. Qed.

(** 0 and 1 in an arithmetic type. *)
Definition num_for (a : atype) (b : bool) : number :=
  match a with AInt _ => NInt (Z.b2z b) | AFloat f => NFloat (of_int (arith_of f) (Z.b2z b)) end.
Lemma sconvert_num a b : sconvert (TArith a) (SBool b) = Ok (SNum a (num_for a b)).
Proof.
  destruct a as [t|f]; cbn [sconvert number_of convert num_for]; rewrite bind_ok; [|reflexivity].
  do 3 f_equal. apply cast_id. unfold in_ty. destruct t, b; cbn; lia.
Qed.
Lemma num_for_value a b : stands_for a b (SNum a (num_for a b)).
Proof.
  destruct a as [t|f].
  - exists (NInt (Z.b2z b)), (inject_Z (Z.b2z b)). split; [reflexivity|]. split; [cbn; unfold in_ty; destruct t, b; cbn; lia|].
    split; [reflexivity|]. destruct b; reflexivity.
  - exists (num_for (AFloat f) b). destruct f, b; eexists; (split; [reflexivity|]); vm_compute; repeat split; try reflexivity; discriminate.
Qed.
Lemma num_for_truth a b : truth (SNum a (num_for a b)) = b.
Proof. destruct a as [t|f]; [destruct b; reflexivity|]. destruct f, b; vm_compute; reflexivity. Qed.

(** ** Steps of the sums *)
Lemma int_wf b : wfc (int (Z.b2z b)).
Proof. unfold wfc, in_ty. destruct b; cbn; lia. Qed.
Lemma badd a b : sadd_to (SBool a) (SBool b) = Ok (SBool (a || b)).
Proof. destruct a, b; vm_compute; reflexivity. Qed.
Lemma iadd t z b : in_ty t z -> in_ty t (z + Z.b2z b) -> sadd_to (SI (CI t z)) (SBool b) = Ok (SI (CI t (z + Z.b2z b))).
Proof.
  intros Hz Hs. pose proof (add_to_exact (CI t z) (int (Z.b2z b)) Hz (int_wf b) Hs) as E. unfold add_to in E.
  unfold sadd_to, SI. cbn [promoted cty cval type_of]. rewrite !bind_ok. destruct (cadd (CI t z) (int (Z.b2z b))) as [s| | |]; try discriminate.
  cbn [bind cty cval] in E |- *. injection E as E. cbn [sconvert number_of convert bind]. rewrite E. reflexivity.
Qed.

Lemma trues_cons b bs : trues (b :: bs) = Z.b2z b + trues bs.
Proof. unfold trues. destruct b; cbn [count_occ]; [destruct (bool_dec true true); [|congruence]; change (Z.b2z true) with 1; lia|destruct (bool_dec false true); [congruence|reflexivity]]. Qed.
Lemma trues_nonneg bs : 0 <= trues bs.
Proof. unfold trues. lia. Qed.
Lemma trues_app bs cs : trues (bs ++ cs) = trues bs + trues cs.
Proof. induction bs as [|b bs IH]; [reflexivity|]. cbn [app]. rewrite !trues_cons, IH. lia. Qed.

Lemma fold_or bs : forall a, foldo sadd_to (map SBool bs) (SBool a) = Ok (SBool (a || existsb (fun b => b) bs)).
Proof.
  induction bs as [|b bs IH]; intros a; cbn [map foldo existsb]; [rewrite orb_false_r; reflexivity|].
  rewrite badd, bind_ok, IH, orb_assoc. reflexivity.
Qed.
Lemma exists_true bs : existsb (fun b => b) bs = true <-> In true bs.
Proof. rewrite existsb_exists. split; [intros (b & I & ->); exact I|intros I; exists true; auto]. Qed.
Lemma fold_trues t bs : forall z, in_ty t z -> in_ty t (z + trues bs) ->
  foldo sadd_to (map SBool bs) (SI (CI t z)) = Ok (SI (CI t (z + trues bs))).
Proof.
  induction bs as [|b bs IH]; intros z Hz Hs; cbn [map foldo]; [change (trues []) with 0; rewrite Z.add_0_r; reflexivity|].
  rewrite trues_cons in *. pose proof (trues_nonneg bs).
  assert (Hb : in_ty t (z + Z.b2z b)) by (unfold in_ty in *; destruct b; cbn [Z.b2z] in *; lia).
  rewrite iadd by assumption. rewrite bind_ok, IH; [rewrite Z.add_assoc; reflexivity|exact Hb|]. rewrite <- Z.add_assoc. exact Hs.
Qed.

Lemma bool_sum_l c m bs : can_read m c c -> bools m c bs ->
  exists r, ssum TBool c m = Ok (SBool r, m) /\ (r = true <-> In true bs).
Proof.
  intros CR V. unfold ssum, ssum_from. rewrite (reduce_by_l _ _ _ _ _ CR V). cbn [szero]. rewrite fold_or, bind_ok.
  exists (existsb (fun b => b) bs). split; [reflexivity|apply exists_true].
Qed.
Lemma bool_total_l c m bs t z : can_read m c c -> bools m c bs -> in_ty t z -> in_ty t (z + trues bs) ->
  ssum_from c (SI (CI t z)) m = Ok (SI (CI t (z + trues bs)), m).
Proof. intros CR V Hz Hs. unfold ssum_from. rewrite (reduce_by_l _ _ _ _ _ CR V), fold_trues by assumption. reflexivity. Qed.

(** ** Products *)
Lemma bmul a b : cmul (int (Z.b2z a)) (int (Z.b2z b)) = Ok (int (Z.b2z (a && b))).
Proof. destruct a, b; vm_compute; reflexivity. Qed.
Lemma iadd_int t z b : in_ty t z -> in_ty t (z + Z.b2z b) -> sadd_to (SI (CI t z)) (SI (int (Z.b2z b))) = Ok (SI (CI t (z + Z.b2z b))).
Proof. exact (iadd t z b). Qed.
Lemma badd_int a b : sadd_to (SBool a) (SI (int (Z.b2z b))) = Ok (SBool (a || b)).
Proof. exact (badd a b). Qed.
Definition ands (bs cs : list bool) : list bool := map (fun p => fst p && snd p) (combine bs cs).
Lemma sdot_from_l c1 c2 init m bs cs : can_read m c1 c1 -> can_read m c1 c2 -> values m c1 c1 (map SBool bs) -> values m c1 c2 (map SBool cs) ->
  sdot_from c1 c2 init m = (a <- foldo sadd_to (map SBool (ands bs cs)) init ;; Ok (a, m)).
Proof.
  intros CR1 CR2 V1 V2. unfold sdot_from. rewrite loop_run; [|apply can_read_live; exact CR1| |].
  - unfold values in *. remember (map SBool bs) as us eqn:Eu. revert bs Eu cs V2 init. induction V1 as [|is_ v1 l us H1 _ IH]; intros bs Eu cs V2 a.
    + destruct bs; [|discriminate]. reflexivity.
    + destruct bs as [|b bs]; [discriminate|]. injection Eu as -> Eu.
      destruct cs as [|x cs]; [inversion V2|]. inversion V2 as [|? ? ? ? H2 V2']; subst. unfold ands. cbn [run map combine foldo fst snd].
      rewrite (load_peek _ _ _ H1), bind_ok, (load_peek _ _ _ H2), bind_ok. cbn [promoted bind]. rewrite bmul. cbn [bind].
      change (sadd_to a (SI (int (Z.b2z (b && x))))) with (sadd_to a (SBool (b && x))).
      destruct (sadd_to a (SBool (b && x))) as [y| | |]; try reflexivity. cbn [bind]. apply IH; [reflexivity|exact V2'].
  - constructor; [apply can_read_live; exact CR2|constructor].
  - intros ps [s mm] sm'. destruct ps as [|p [|q [|? ?]]]; try discriminate. cbn [fst snd].
    destruct (load mm p) as [v| | |]; try discriminate. rewrite bind_ok. destruct (load mm q) as [w| | |]; try discriminate.
    rewrite bind_ok. destruct (promoted v); try discriminate. rewrite bind_ok. destruct (promoted w); try discriminate. rewrite bind_ok.
    destruct (cmul _ _) as [x| | |]; try discriminate. rewrite bind_ok.
    destruct (sadd_to s _); try discriminate. rewrite bind_ok.
    intros E. injection E as <-. apply same_refl.
Qed.

Lemma ands_length bs cs : length bs = length cs -> length (ands bs cs) = length bs.
Proof. intros E. unfold ands. rewrite map_length, combine_length, E, Nat.min_id. reflexivity. Qed.
Lemma ands_in bs cs : In true (ands bs cs) <-> exists k, nth_error bs k = Some true /\ nth_error cs k = Some true.
Proof.
  unfold ands. revert cs. induction bs as [|b bs IH]; intros cs.
  - cbn. split; [intros []|]. intros ([|k] & H & _); discriminate.
  - destruct cs as [|c cs]; [cbn; split; [intros []|]; intros ([|k] & _ & H); discriminate|].
    cbn [combine map fst snd In]. rewrite IH. split.
    + intros [H|(k & A & B)]; [exists 0%nat; apply andb_true_iff in H as [-> ->]; auto|exists (S k); auto].
    + intros ([|k] & A & B); [left; cbn in A, B; injection A as ->; injection B as ->; reflexivity|right; exists k; auto].
Qed.

(** ** Running values *)
Lemma counter_l et out (next : scalar -> outcome scalar) acc w m : can_write m out out ->
  (forall k, (k < length (box (dims out)))%nat -> next (acc k) = Ok (acc (S k))) ->
  (forall k, (k < length (box (dims out)))%nat -> sconvert et (acc k) = Ok (w k)) ->
  exists m', (r <- map_containers
      (fun ps sm => match ps with
                    | [o] => m' <- sput et (snd sm) o (fst sm) ;; v' <- next (fst sm) ;; Ok (v', m')
                    | _ => UB
                    end) out [] (acc 0%nat, m) ;; Ok (snd r)) = Ok m' /\
    (forall is_, in_box (dims out) is_ -> value m' out is_ (w (Z.to_nat (rank (dims out) is_)))) /\
    frame out out m m'.
Proof.
  intros CW Nx Cv. destruct (live_wf m out (can_write_live _ _ _ CW)) as [_ Nn].
  pose (val := fun (pre : list (list Z)) (_ : list Z) => Some (w (length pre))).
  pose proof CW as (_ & _ & D & Vd).
  pose proof (pmem_result out val out m Nn D Vd) as (R & F). cbv zeta in R, F.
  exists (pmem out val m (box (dims out))).
  pose (st := fun pre : list (list Z) => (acc (length pre), pmem out val m pre)).
  change (acc 0%nat, m) with (st []).
  rewrite (map_containers_inv _ out [] m st).
  - split; [reflexivity|]. split; [|exact F]. intros is_ Bi.
    destruct (box_split _ _ Bi) as (pre & post & E). specialize (R pre _ post E). unfold val in R at 1.
    rewrite (rank_pre _ _ _ _ Nn E Bi) in R. exact R.
  - apply can_write_live. exact CW.
  - constructor.
  - intros pre. apply pmem_same.
  - intros pre is_ post E. destruct (box_split_notin _ _ _ _ Nn E) as (_ & Bi & _).
    assert (Lt : (length pre < length (box (dims out)))%nat) by (rewrite E, app_length; cbn [length]; lia).
    cbn [map]. unfold st. cbn [fst snd]. unfold sput. rewrite (Cv _ Lt), bind_ok, store_valid by (apply pmem_same, Vd, Bi).
    rewrite bind_ok, (Nx _ Lt), bind_ok, pmem_step, app_length. cbn [length]. rewrite Nat.add_1_r. reflexivity.
Qed.

Lemma inclusive_l ot in_ out acc w m vs : can_read m in_ in_ -> can_write m in_ out -> no_cross_alias in_ in_ out ->
  values m in_ in_ vs ->
  (forall k v, nth_error vs k = Some v -> sadd_to (acc k) v = Ok (acc (S k)) /\ sconvert ot (acc (S k)) = Ok (w (S k))) ->
  exists m', sinclusive ot in_ out (acc 0%nat) m = Ok m' /\
    (forall is_, in_box (dims in_) is_ -> value m' out is_ (w (S (Z.to_nat (rank (dims in_) is_))))) /\
    frame in_ out m m'.
Proof.
  intros CR CW NA V St. destruct (live_wf m in_ (can_read_live _ _ _ CR)) as [_ Nn].
  pose (val := fun (pre : list (list Z)) (_ : list Z) => Some (w (S (length pre)))).
  pose proof CW as (_ & _ & D & Vd).
  pose proof (pmem_result out val in_ m Nn D Vd) as (R & F). cbv zeta in R, F.
  exists (pmem out val m (box (dims in_))). unfold sinclusive.
  pose (st := fun pre : list (list Z) => (acc (length pre), pmem out val m pre)).
  change (acc 0%nat, m) with (st []).
  rewrite (map_containers_inv _ in_ [out] m st).
  - split; [reflexivity|]. split; [|exact F]. intros is_ Bi.
    destruct (box_split _ _ Bi) as (pre & post & E). specialize (R pre _ post E). unfold val in R at 1.
    rewrite (rank_pre _ _ _ _ Nn E Bi) in R. exact R.
  - apply can_read_live. exact CR.
  - constructor; [apply can_write_live; exact CW|constructor].
  - intros pre. apply pmem_same.
  - intros pre is_ post E. destruct (box_split_notin _ _ _ _ Nn E) as (_ & Bi & _).
    destruct (values_at _ _ _ _ _ _ _ V E) as (v & Ev & Hv). destruct (St _ _ Ev) as (Sa & Sc).
    assert (Hv' : value (snd (st pre)) in_ is_ v).
    { unfold value, peek, st. cbn [snd]. rewrite (pmem_read in_ in_ out val m pre is_ post); assumption. }
    cbn [map]. rewrite (load_peek _ _ _ Hv'), bind_ok. unfold st. cbn [fst snd]. rewrite Sa, bind_ok. unfold sput.
    rewrite Sc, bind_ok, store_valid by (apply pmem_same, Vd, Bi). rewrite bind_ok, pmem_step, app_length.
    cbn [length]. rewrite Nat.add_1_r. reflexivity.
Qed.
Lemma exclusive_l ot in_ out acc w m vs : can_read m in_ in_ -> can_write m in_ out -> no_alias in_ in_ out ->
  values m in_ in_ vs ->
  (forall k v, nth_error vs k = Some v -> sadd_to (acc k) v = Ok (acc (S k)) /\ sconvert ot (acc k) = Ok (w k)) ->
  exists m', sexclusive ot in_ out (acc 0%nat) m = Ok m' /\
    (forall is_, in_box (dims in_) is_ -> value m' out is_ (w (Z.to_nat (rank (dims in_) is_)))) /\
    frame in_ out m m'.
Proof.
  intros CR CW NA V St. destruct (live_wf m in_ (can_read_live _ _ _ CR)) as [_ Nn].
  pose (val := fun (pre : list (list Z)) (_ : list Z) => Some (w (length pre))).
  pose proof CW as (_ & _ & D & Vd).
  pose proof (pmem_result out val in_ m Nn D Vd) as (R & F). cbv zeta in R, F.
  exists (pmem out val m (box (dims in_))). unfold sexclusive.
  pose (st := fun pre : list (list Z) => (acc (length pre), pmem out val m pre)).
  change (acc 0%nat, m) with (st []).
  rewrite (map_containers_inv _ in_ [out] m st).
  - split; [reflexivity|]. split; [|exact F]. intros is_ Bi.
    destruct (box_split _ _ Bi) as (pre & post & E). specialize (R pre _ post E). unfold val in R at 1.
    rewrite (rank_pre _ _ _ _ Nn E Bi) in R. exact R.
  - apply can_read_live. exact CR.
  - constructor; [apply can_write_live; exact CW|constructor].
  - intros pre. apply pmem_same.
  - intros pre is_ post E. destruct (box_split_notin _ _ _ _ Nn E) as (_ & Bi & _).
    destruct (values_at _ _ _ _ _ _ _ V E) as (v & Ev & Hv). destruct (St _ _ Ev) as (Sa & Sc).
    cbn [map]. unfold st. cbn [fst snd]. unfold sput. rewrite Sc, bind_ok.
    rewrite store_valid by (apply pmem_same, Vd, Bi). rewrite bind_ok.
    assert (Hv' : value (upd (pmem out val m pre) (elem out is_) (w (length pre))) in_ is_ v).
    { unfold value. rewrite peek_upd_other by (apply not_eq_sym, NA; assumption). unfold peek.
      rewrite (pmem_read in_ in_ out val m pre is_ post); try assumption. intros a b Ha Hb _. apply NA; assumption. }
    rewrite (load_peek _ _ _ Hv'), bind_ok, Sa, bind_ok, pmem_step, app_length. cbn [length]. rewrite Nat.add_1_r. reflexivity.
Qed.

Lemma exists_snoc bs k b : nth_error bs k = Some b -> existsb (fun b => b) (firstn (S k) bs) = existsb (fun b => b) (firstn k bs) || b.
Proof. intros E. rewrite (firstn_snoc _ _ _ E), existsb_app. cbn [existsb]. rewrite orb_false_r. reflexivity. Qed.
Lemma trues_snoc bs k b : nth_error bs k = Some b -> trues (firstn (S k) bs) = trues (firstn k bs) + Z.b2z b.
Proof. intros E. rewrite (firstn_snoc _ _ _ E), trues_app, trues_cons. change (trues []) with 0. lia. Qed.
Lemma trues_firstn bs k : trues (firstn k bs) <= trues bs.
Proof. rewrite <- (firstn_skipn k bs) at 2. rewrite trues_app. pose proof (trues_nonneg (skipn k bs)). lia. Qed.
Lemma nth_bools bs k v : nth_error (map SBool bs) k = Some v -> exists b, v = SBool b /\ nth_error bs k = Some b.
Proof. rewrite nth_error_map. destruct (nth_error bs k); [|discriminate]. injection 1 as <-. eauto. Qed.

Lemma or_step bs a k v : nth_error (map SBool bs) k = Some v ->
  sadd_to (SBool (a || existsb (fun b => b) (firstn k bs))) v = Ok (SBool (a || existsb (fun b => b) (firstn (S k) bs))).
Proof. intros E. apply nth_bools in E as (b & -> & E). rewrite badd, (exists_snoc _ _ _ E), orb_assoc. reflexivity. Qed.
Lemma count_step bs t z k v : in_ty t z -> in_ty t (z + trues bs) -> nth_error (map SBool bs) k = Some v ->
  sadd_to (SI (CI t (z + trues (firstn k bs)))) v = Ok (SI (CI t (z + trues (firstn (S k) bs)))).
Proof.
  intros Hz Hs E. apply nth_bools in E as (b & -> & E).
  pose proof (trues_firstn bs k). pose proof (trues_firstn bs (S k)). pose proof (trues_nonneg (firstn k bs)). pose proof (trues_nonneg (firstn (S k) bs)).
  rewrite iadd; [| unfold in_ty in *; lia|]; rewrite (trues_snoc _ _ _ E) in *; rewrite ?Z.add_assoc in *; [reflexivity|]. unfold in_ty in *. lia.
Qed.
Lemma or_iff a bs : a || existsb (fun b => b) bs = true <-> a = true \/ In true bs.
Proof. rewrite orb_true_iff, exists_true. reflexivity. Qed.

Lemma bool_inclusive_l in_ out m bs a : can_read m in_ in_ -> can_write m in_ out -> no_cross_alias in_ in_ out -> bools m in_ bs ->
  exists m', sinclusive TBool in_ out (SBool a) m = Ok m' /\
    (forall is_, in_box (dims in_) is_ -> exists r, value m' out is_ (SBool r) /\
       (r = true <-> a = true \/ In true (firstn (S (Z.to_nat (rank (dims in_) is_))) bs))) /\ frame in_ out m m'.
Proof.
  intros CR CW NA V. pose (acc := fun k => SBool (a || existsb (fun b => b) (firstn k bs))).
  destruct (inclusive_l TBool in_ out acc acc m (map SBool bs) CR CW NA V) as (m' & E & R & F).
  - intros k v Hk. split; [apply or_step; exact Hk|]. unfold acc. cbn [sconvert]. f_equal. f_equal.
    unfold truth. cbn [number_of]. destruct (a || _); reflexivity.
  - exists m'. unfold acc at 1 in E. cbn [firstn existsb] in E. rewrite orb_false_r in E. split; [exact E|]. split; [|exact F].
    intros is_ B. eexists. split; [exact (R is_ B)|]. apply or_iff.
Qed.
Lemma bool_exclusive_l in_ out m bs a : can_read m in_ in_ -> can_write m in_ out -> no_alias in_ in_ out -> bools m in_ bs ->
  exists m', sexclusive TBool in_ out (SBool a) m = Ok m' /\
    (forall is_, in_box (dims in_) is_ -> exists r, value m' out is_ (SBool r) /\
       (r = true <-> a = true \/ In true (firstn (Z.to_nat (rank (dims in_) is_)) bs))) /\ frame in_ out m m'.
Proof.
  intros CR CW NA V. pose (acc := fun k => SBool (a || existsb (fun b => b) (firstn k bs))).
  destruct (exclusive_l TBool in_ out acc acc m (map SBool bs) CR CW NA V) as (m' & E & R & F).
  - intros k v Hk. split; [apply or_step; exact Hk|]. unfold acc. cbn [sconvert]. f_equal. f_equal.
    unfold truth. cbn [number_of]. destruct (a || _); reflexivity.
  - exists m'. unfold acc at 1 in E. cbn [firstn existsb] in E. rewrite orb_false_r in E. split; [exact E|]. split; [|exact F].
    intros is_ B. eexists. split; [exact (R is_ B)|]. apply or_iff.
Qed.
Lemma count_inclusive_l in_ out m bs t z ot : can_read m in_ in_ -> can_write m in_ out -> no_cross_alias in_ in_ out -> bools m in_ bs ->
  in_ty t z -> in_ty t (z + trues bs) ->
  exists m', sinclusive (TArith (AInt ot)) in_ out (SI (CI t z)) m = Ok m' /\
    (forall is_, in_box (dims in_) is_ ->
       value m' out is_ (SI (CI ot (cast ot (z + trues (firstn (S (Z.to_nat (rank (dims in_) is_))) bs)))))) /\ frame in_ out m m'.
Proof.
  intros CR CW NA V Hz Hs. pose (acc := fun k => SI (CI t (z + trues (firstn k bs)))).
  pose (w := fun k => SI (CI ot (cast ot (z + trues (firstn k bs))))).
  destruct (inclusive_l (TArith (AInt ot)) in_ out acc w m (map SBool bs) CR CW NA V) as (m' & E & R & F).
  - intros k v Hk. split; [apply count_step; assumption|reflexivity].
  - exists m'. unfold acc at 1 in E. cbn [firstn] in E. change (trues []) with 0 in E. rewrite Z.add_0_r in E. auto.
Qed.
Lemma count_exclusive_l in_ out m bs t z ot : can_read m in_ in_ -> can_write m in_ out -> no_alias in_ in_ out -> bools m in_ bs ->
  in_ty t z -> in_ty t (z + trues bs) ->
  exists m', sexclusive (TArith (AInt ot)) in_ out (SI (CI t z)) m = Ok m' /\
    (forall is_, in_box (dims in_) is_ ->
       value m' out is_ (SI (CI ot (cast ot (z + trues (firstn (Z.to_nat (rank (dims in_) is_)) bs)))))) /\ frame in_ out m m'.
Proof.
  intros CR CW NA V Hz Hs. pose (acc := fun k => SI (CI t (z + trues (firstn k bs)))).
  pose (w := fun k => SI (CI ot (cast ot (z + trues (firstn k bs))))).
  destruct (exclusive_l (TArith (AInt ot)) in_ out acc w m (map SBool bs) CR CW NA V) as (m' & E & R & F).
  - intros k v Hk. split; [apply count_step; assumption|reflexivity].
  - exists m'. unfold acc at 1 in E. cbn [firstn] in E. change (trues []) with 0 in E. rewrite Z.add_0_r in E. auto.
Qed.

(** ** iota *)
Lemma cincr_fits c : wfc c -> in_ty (cty c) (cval c + 1) -> cincr c = Ok (CI (cty c) (cval c + 1)).
Proof.
  intros W H. unfold cincr. change (cval c + 1) with (cval c + cval (int 1)) in H. rewrite cadd_fits; [|exact W|apply (int_wf true)|].
  - rewrite bind_ok. unfold conv. cbn [cty cval int] in *. rewrite cast_id by exact H. reflexivity.
  - destruct c as [t z]. cbn [cty cval int] in *. unfold wfc, in_ty in *. cbn [cty cval] in *. destruct t; cbn in *; lia.
Qed.
Lemma bool_iota_l out t z m : can_write m out out -> in_ty t z -> in_ty t (z + prod (dims out)) ->
  exists m', siota TBool out (SI (CI t z)) m = Ok m' /\
    (forall is_, in_box (dims out) is_ -> exists r, value m' out is_ (SBool r) /\ (r = true <-> z + rank (dims out) is_ <> 0)) /\
    frame out out m m'.
Proof.
  intros CW Hz Hs. destruct (live_wf m out (can_write_live _ _ _ CW)) as [_ Nn]. pose proof (box_length _ Nn) as Lb.
  pose (acc := fun k => SI (CI t (z + Z.of_nat k))). pose (w := fun k => SBool (negb (z + Z.of_nat k =? 0))).
  destruct (counter_l TBool out sincr acc w m CW) as (m' & E & R & F).
  - intros k Hk. unfold acc, SI, sincr. cbn [cty cval]. rewrite cincr_fits; [|unfold wfc, in_ty in *; cbn [cty cval]; lia|unfold in_ty in *; cbn [cty cval]; lia].
    rewrite bind_ok. cbn [cty cval]. rewrite Nat2Z.inj_succ, Z.add_1_r, Z.add_succ_r. reflexivity.
  - intros k Hk. reflexivity.
  - exists m'. unfold acc at 1 in E. rewrite Z.add_0_r in E. split; [exact E|]. split; [|exact F].
    intros is_ B. eexists. split; [exact (R is_ B)|]. pose proof (rank_range _ _ B). rewrite Z2Nat.id by lia.
    destruct (Z.eqb_spec (z + rank (dims out) is_) 0); cbn; split; intros; try congruence; try contradiction.
Qed.
Lemma bool_step b st : wfc st -> in_ty (CInt.common I32 (cty st)) (cval st + 1) ->
  (s <- cadd (int (Z.b2z b)) st ;; sconvert TBool (SI s)) = Ok (SBool (negb (Z.b2z b + cval st =? 0))).
Proof.
  intros W H. rewrite cadd_fits; [reflexivity|apply int_wf|exact W|]. destruct st as [t z]. cbn [cty cval int] in *. unfold wfc, in_ty in *. cbn [cty cval] in *.
  destruct b; cbn [Z.b2z]; [lia|]. destruct t; cbn in *; lia.
Qed.
Lemma bool_iota_step_l out b step st m : can_write m out out -> promoted step = Ok st -> wfc st -> in_ty (CInt.common I32 (cty st)) (cval st + 1) ->
  exists m', siota_step TBool out (SBool b) step m = Ok m' /\
    (forall is_, in_box (dims out) is_ -> value m' out is_ (SBool (bool_after b (cval st) (Z.to_nat (rank (dims out) is_))))) /\
    frame out out m m'.
Proof.
  intros CW P W H. pose (acc := fun k => SBool (bool_after b (cval st) k)).
  destruct (counter_l TBool out (fun v => sadd_to v step) acc acc m CW) as (m' & E & R & F).
  - intros k _. unfold acc, sadd_to. rewrite P. cbn [promoted type_of bind]. rewrite bool_step by assumption. do 2 f_equal.
    unfold bool_after. cbn [Nat.eqb]. rewrite Nat.odd_succ, <- Nat.negb_odd. destruct (k =? 0)%nat eqn:K.
    + apply Nat.eqb_eq in K. subst k. change (Nat.odd 0) with false. destruct (Z.eqb_spec (cval st) 0) as [->|N0]; [destruct b; reflexivity|].
      destruct (Z.eqb_spec (cval st) (-1)) as [->|N1]; [destruct b; reflexivity|]. destruct b; cbn [Z.b2z]; apply negb_true_iff, Z.eqb_neq; lia.
    + destruct (Z.eqb_spec (cval st) 0) as [->|N0]; [destruct b; reflexivity|].
      destruct (Z.eqb_spec (cval st) (-1)) as [->|N1]; [destruct b, (Nat.odd k); reflexivity|]. cbn [Z.b2z]. apply negb_true_iff, Z.eqb_neq. lia.
  - intros k _. unfold acc. cbn [sconvert]. do 2 f_equal. unfold truth. cbn [number_of]. destruct (bool_after _ _ _); reflexivity.
  - exists m'. split; [exact E|]. split; [exact R|exact F].
Qed.
