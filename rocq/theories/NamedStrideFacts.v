(** Proofs for strides with their descriptors. *)
From Coq Require Import ZArith String List Bool Lia.
From Verif Require Import Outcome CInt CIntFacts Spec SpecFacts Shape ShapeSpec ShapeFacts ShapeFacts2 Prefilled
  PrefilledSpec PrefilledFacts PrefilledFacts2 PrefilledFacts3 NamedSize NamedSizeSpec NamedSizeFacts NamedStride
  NamedStrideSpec.
Import ListNotations.
Open Scope Z_scope.

Lemma with_strides_l dbg l es : Forall2 given_size l es -> NoDup (names l) ->
  exists p, with_strides_args dbg l = Ok p /\ wfp p /\ to_values p = Ok (map (value_or (int 1)) es) /\
    forall a c e, In (ANamed a c e) l -> pget_axis p a = Ok (value_or (int 1) e).
Proof.
  intros HG HN. destruct (build_args_l dbg 1 l es) as (p & E & W & _ & V & R).
  - unfold in_ty; simpl; lia.
  - apply given_sizes_values, HG.
  - apply descs_distinct; [exact HN|exact (given_user l es HG)].
  - exists p. auto.
Qed.

Definition ext_of (d : desc) (v : cint) : extent := if is_dynamic d then EInt v else EConst v.
Definition stat (e : extent) : bool := match e with EConst _ => true | _ => false end.
Notation v1 := (value_or (int 1)).

Lemma pextents_ok p : wfp p -> mapM (pextent p) (seq 0 (length (pdesc p))) = Ok (map2 ext_of (pdesc p) (values p)).
Proof.
  intros W. apply mapM_seq_nth.
  - intros j Hj. destruct (nth_error (pdesc p) j) as [d|] eqn:Ed; [|apply nth_error_None in Ed; lia].
    destruct (nth_error (values p) j) as [v|] eqn:Ev;
      [|apply nth_error_None in Ev; rewrite values_length in Ev by exact W; lia].
    exists (ext_of d v). split; [apply nth_map2; assumption|]. cbn [Nat.add]. unfold pextent.
    rewrite (pcontains_ok _ _ _ Ed), bind_ok, pget_ok, Ev by exact W. reflexivity.
  - rewrite map2_length by (symmetry; apply values_length, W). reflexivity.
Qed.

Lemma ext_of_vals ds : forall vs, length ds = length vs -> map v1 (map2 ext_of ds vs) = vs.
Proof.
  induction ds as [|d ds IH]; intros [|v vs] L; try discriminate; [reflexivity|]. cbn [map2 map].
  rewrite IH by (simpl in L; lia). f_equal. unfold ext_of. destruct (is_dynamic d); reflexivity.
Qed.
Lemma ext_of_stat ds : forall vs, length ds = length vs ->
  map stat (map2 ext_of ds vs) = map (fun d => negb (is_dynamic d)) ds.
Proof.
  induction ds as [|d ds IH]; intros [|v vs] L; try discriminate; [reflexivity|]. cbn [map2 map].
  rewrite IH by (simpl in L; lia). f_equal. unfold ext_of. destruct (is_dynamic d); reflexivity.
Qed.
Lemma ext_of_nj ds : forall vs, Forall (fun e => e <> EJoker) (map2 ext_of ds vs).
Proof.
  induction ds as [|d ds IH]; intros [|v vs]; try constructor; [|apply IH].
  unfold ext_of. destruct (is_dynamic d); discriminate.
Qed.

Lemma fold_ext es : Forall (fun e => e <> EJoker) es -> forall st,
  kfold_left (fun a m => f <- front a ;; x <- cmul m f ;; Ok (x :: a)) (map v1 es) [int 1] = Ok st ->
  exists t, kfold_left (fun a m => f <- ext_front a ;; x <- ext_mul m f ;; Ok (x :: a)) es [EConst (int 1)] = Ok t /\
    map v1 t = st /\ Forall (fun e => e <> EJoker) t /\
    map stat t = map (fun k => forallb stat (skipn k es)) (seq 0 (S (length es))).
Proof.
  induction 1 as [|m es Hm _ IH]; intros st H.
  - cbn in H. inversion H; subst. eexists. split; [reflexivity|]. split; [reflexivity|].
    split; [repeat constructor; discriminate|reflexivity].
  - cbn [map kfold_left] in H. apply bind_inv in H as (st' & H1 & H2).
    apply bind_inv in H2 as (f & Hf & H2). apply bind_inv in H2 as (x & Hx & H2). inversion H2; subst st.
    destruct (IH st' H1) as (t & E & V & J & HS). cbn [kfold_left]. rewrite E, bind_ok.
    destruct t as [|y t]; [cbn in V; subst; discriminate|]. cbn [map] in V. subst st'. cbn [front] in Hf. inversion Hf; subst f.
    cbn [ext_front]. rewrite bind_ok.
    assert (Hy : y <> EJoker) by (inversion J; assumption).
    assert (X : exists e, ext_mul m y = Ok e /\ v1 e = x /\ e <> EJoker /\ stat e = stat m && stat y).
    { destruct m as [|c|c], y as [|d|d]; try congruence; cbn [value_or] in Hx; cbn [ext_mul]; rewrite Hx;
        (eexists; split; [reflexivity|]; split; [reflexivity|]; split; [discriminate|reflexivity]). }
    destruct X as (e & Ee & Ve & Je & Se). rewrite Ee, bind_ok. eexists. split; [reflexivity|].
    split; [cbn [map]; rewrite Ve; reflexivity|]. split; [constructor; assumption|].
    cbn [length]. change (seq 0 (Datatypes.S (Datatypes.S (length es)))) with (0%nat :: seq 1 (Datatypes.S (length es))).
    rewrite <- seq_shift. cbn [map]. rewrite map_map. cbn [skipn]. f_equal.
    + rewrite Se. cbn [forallb]. f_equal. exact (f_equal (hd false) HS).
    + exact HS.
Qed.

Lemma combine_args (axs : list axis_id) : forall t, length axs = length t ->
  map (fun ae => arg_axis ae) (map (fun ae => ANamed (fst ae) CJoker (snd ae)) (combine axs t)) = map Some axs.
Proof.
  induction axs as [|a axs IH]; intros [|e t] L; try discriminate; [reflexivity|]. cbn [combine map].
  rewrite IH by (simpl in L; lia). reflexivity.
Qed.

Lemma forallb_known ds vs : length ds = length vs -> forall k, forallb stat (skipn k (map2 ext_of ds vs)) = true <->
  Forall known (skipn k ds).
Proof.
  intros L k.
  assert (X : map stat (skipn k (map2 ext_of ds vs)) = map (fun d => negb (is_dynamic d)) (skipn k ds)).
  { rewrite <- !skipn_map. f_equal. apply ext_of_stat, L. }
  revert X. generalize (skipn k (map2 ext_of ds vs)) (skipn k ds). clear.
  induction l as [|e l IH]; intros [|d ds] X; cbn [map] in X; try discriminate.
  - split; [constructor|reflexivity].
  - inversion X as [[X1 X2]]. cbn [forallb]. rewrite andb_true_iff, X1, (IH ds X2), negb_true_iff, is_dynamic_static.
    split; [intros [A B]; constructor; assumption|intros F; inversion F; split; assumption].
Qed.

Lemma nth_seq_map {A} (f : nat -> A) n k : (k < n)%nat -> nth_error (map f (seq 0 n)) k = Some (f k).
Proof.
  intros H. rewrite nth_error_map. rewrite (nth_error_nth' _ 0%nat) by (rewrite seq_length; exact H).
  rewrite seq_nth by exact H. reflexivity.
Qed.

Lemma build_named dbg axs t : NoDup axs -> length axs = length t -> Forall wf_extent t ->
  let l := map (fun ae => ANamed (fst ae) CJoker (snd ae)) (combine axs t) in
  exists q, with_strides_args dbg l = Ok q /\ wfp q /\ pdesc q = arg_descs l /\ to_values q = Ok (map v1 t) /\
    map aid (pdesc q) = axs /\ map acont (pdesc q) = map to_descriptor t.
Proof.
  intros HN HL HW l.
  assert (HG : Forall2 given_value l t).
  { unfold l. clear - HL HW. revert t HL HW. induction axs as [|a axs IH]; intros [|e t] HL HW; try discriminate; [constructor|].
    cbn [combine map]. inversion HW; subst. constructor; [constructor; assumption|]. apply IH; [simpl in HL; lia|assumption]. }
  assert (HA : map aid (arg_descs l) = axs).
  { apply nth_ext_error; [rewrite map_length, descs_length; unfold l; rewrite map_length, combine_length; lia|].
    intros k. rewrite nth_error_map. destruct (nth_error l k) as [a|] eqn:E.
    - rewrite (descs_nth l k a E). cbn [option_map aid].
      assert (X : nth_error (map arg_axis l) k = nth_error (map Some axs) k)
        by (f_equal; exact (combine_args axs t HL)).
      rewrite !nth_error_map, E in X. cbn [option_map] in X. destruct (nth_error axs k) as [x|]; [|discriminate].
      cbn [option_map] in X. inversion X as [X1]. rewrite X1. reflexivity.
    - apply nth_error_None in E. rewrite (proj2 (nth_error_None (arg_descs l) k)) by (rewrite descs_length; exact E).
      symmetry. apply nth_error_None. unfold l in E. rewrite map_length, combine_length in E. lia. }
  destruct (build_args_l dbg 1 l t) as (q & E & W & D & V & _).
  - unfold in_ty; simpl; lia.
  - exact HG.
  - unfold distinct_axes. rewrite HA. exact HN.
  - exists q. split; [exact E|]. split; [exact W|]. split; [exact D|]. split; [exact V|].
    rewrite D. split; [exact HA|]. rewrite descs_contents. clear - HG.
    induction HG as [|a e l t G _ IH]; [reflexivity|]. cbn [map]. rewrite IH. f_equal. destruct G as [[]|? []]; reflexivity.
Qed.

Lemma stat_known e d : e <> EJoker -> acont d = to_descriptor e -> stat e = true <-> known d.
Proof.
  intros N H. unfold known. rewrite H. destruct e; cbn; [congruence| |]; split; try discriminate; eauto. intros [v X]; discriminate.
Qed.

Lemma last_is_unit {A} (l : list A) d x : nth_error l (length l - 1) = Some x -> last l d = x.
Proof.
  induction l as [|a l IH]; [discriminate|]. intros H. destruct l as [|b l].
  - cbn in H. inversion H. reflexivity.
  - change (last (b :: l) d = x). apply IH. cbn [length] in *. replace (S (S (length l)) - 1)%nat with (S (length l)) in H by lia.
    replace (S (length l) - 1)%nat with (length l) by lia. exact H.
Qed.

Lemma is_unit_last ds d : nth_error ds (length ds - 1) = Some d -> is_unit ds = match acont d with CStatic v => ceqb v (int 1) | _ => false end.
Proof.
  intros H. unfold is_unit. destruct (rev ds) as [|x r] eqn:E.
  - apply (f_equal (@rev _)) in E. rewrite rev_involutive in E. subst. discriminate.
  - apply (f_equal (@rev _)) in E. rewrite rev_involutive in E. cbn [rev] in E. subst ds.
    rewrite app_length in H. cbn [length] in H. rewrite nth_error_app2 in H by lia.
    replace (length (rev r) + 1 - 1 - length (rev r))%nat with 0%nat in H by lia. cbn in H. inversion H. reflexivity.
Qed.

Lemma pas_stride_l dbg p s : wfp p -> distinct_axes (pdesc p) -> to_values p = Ok s -> legal s -> s <> [] ->
  exists q st, pas_stride dbg p = Ok q /\ wfp q /\ to_values q = Ok st /\
    map aid (pdesc q) = map aid (pdesc p) /\
    (forall k, (k < length s)%nat -> nth_error (vals st) k = Some (prod (skipn (S k) (vals s)))) /\
    (forall k d, nth_error (pdesc q) k = Some d -> (known d <-> Forall known (skipn (S k) (pdesc p)))) /\
    is_unit (pdesc q) = true.
Proof.
  intros W HD V HL HN. rewrite to_values_ok in V by exact W. inversion V as [V']; clear V.
  pose proof (values_length p W) as LV. rewrite V' in LV.
  unfold pas_stride. rewrite (pextents_ok p W), bind_ok, V'.
  set (es := map2 ext_of (pdesc p) s).
  assert (Les : length es = length s) by (unfold es; rewrite map2_length by lia; lia).
  assert (Ves : map v1 es = s) by (apply ext_of_vals; lia).
  destruct (as_stride_row_major_l s HL HN) as (st0 & Hst0 & _ & Hnth).
  destruct (as_stride_ok s HL HN) as (st & Hst & Hvals & Hwf). rewrite Hst in Hst0. inversion Hst0; subst st0; clear Hst0.
  destruct es as [|e0 es'] eqn:Ees; [cbn in Les; destruct s; [congruence|discriminate]|].
  destruct s as [|x s']; [congruence|]. cbn [map] in Ves. injection Ves as V0 Vs'.
  assert (Nj : Forall (fun e => e <> EJoker) es').
  { pose proof (ext_of_nj (pdesc p) (x :: s')) as F. fold es in F. rewrite Ees in F. inversion F; assumption. }
  assert (HF : kfold_left (fun a m => f <- front a ;; x <- cmul m f ;; Ok (x :: a)) (map v1 es') [int 1] = Ok st).
  { rewrite Vs'. destruct s'; [cbn in Hst; exact Hst|exact Hst]. }
  destruct (fold_ext es' Nj st HF) as (t & Et & Vt & Jt & St).
  assert (Em : match es' with [] => Ok [EConst (int 1)] | _ :: _ =>
     kfold_left (fun a m => f <- ext_front a ;; x <- ext_mul m f ;; Ok (x :: a)) es' [EConst (int 1)] end = Ok t).
  { destruct es'; [cbn in Et; exact Et|exact Et]. }
  rewrite Em, bind_ok.
  assert (Lt : length t = length (pdesc p)).
  { rewrite <- (map_length stat t), St, map_length, seq_length. cbn [length] in Les, LV. lia. }
  assert (Wt : Forall wf_extent t).
  { rewrite <- Vt in Hwf. clear - Hwf Jt. revert Hwf. induction Jt as [|e t Hj _ IH]; intros Hw; constructor; inversion Hw; subst.
    - destruct e; [exact I|assumption|assumption].
    - apply IH; assumption. }
  destruct (build_named dbg (map aid (pdesc p)) t HD) as (q & Eq & Wq & _ & Vq & Aq & Cq);
    [rewrite map_length; lia|exact Wt|].
  exists q, st. split; [exact Eq|]. split; [exact Wq|]. split; [rewrite Vq, Vt; reflexivity|]. split; [exact Aq|].
  split; [exact Hnth|].
  assert (Lq : length (pdesc q) = length t) by (rewrite <- (map_length acont (pdesc q)), Cq, map_length; reflexivity).
  assert (Sk : forall k d, nth_error (pdesc q) k = Some d -> known d <-> Forall known (skipn (S k) (pdesc p))).
  { intros k d Hk.
    assert (Lk : (k < length t)%nat) by (rewrite <- Lq; apply nth_error_Some; rewrite Hk; discriminate).
    destruct (nth_error t k) as [e|] eqn:Ek; [|apply nth_error_None in Ek; lia].
    assert (Ce : acont d = to_descriptor e).
    { assert (X : nth_error (map acont (pdesc q)) k = nth_error (map to_descriptor t) k) by (rewrite Cq; reflexivity).
      rewrite !nth_error_map, Hk, Ek in X. cbn [option_map] in X. congruence. }
    assert (Se : stat e = forallb stat (skipn k es')).
    { assert (X : nth_error (map stat t) k = Some (stat e)) by (rewrite nth_error_map, Ek; reflexivity).
      rewrite St, nth_seq_map in X; [inversion X; reflexivity|].
      rewrite <- (map_length stat t) in Lk. rewrite St, map_length, seq_length in Lk. exact Lk. }
    rewrite <- (stat_known e d); [|rewrite Forall_forall in Jt; apply Jt, (nth_error_In _ _ Ek)|exact Ce].
    rewrite Se. rewrite <- (forallb_known (pdesc p) (x :: s') ltac:(lia) (S k)). fold es. rewrite Ees. reflexivity. }
  split; [exact Sk|].
  destruct (nth_error (pdesc q) (length (pdesc q) - 1)) as [d|] eqn:Ed.
  2:{ apply nth_error_None in Ed. rewrite Lq, Lt in Ed. cbn [length] in LV. lia. }
  rewrite (is_unit_last _ _ Ed).
  assert (K : known d).
  { apply (Sk _ _ Ed). rewrite skipn_all2 by (rewrite Lq, Lt; lia). constructor. }
  destruct K as [v Kv]. rewrite Kv.
  assert (Ev : nth_error (values q) (length (pdesc q) - 1) = Some v) by (apply (nth_static q _ d); assumption).
  rewrite to_values_ok in Vq by exact Wq. inversion Vq as [Vq']. rewrite Vq' in Ev.
  rewrite Vt in Ev.
  assert (Wv : wfc v) by (unfold wfs in Hwf; rewrite Forall_forall in Hwf; apply Hwf, (nth_error_In _ _ Ev)).
  assert (Cv : cval v = 1).
  { specialize (Hnth (length (pdesc q) - 1)%nat). rewrite Lq, Lt, <- LV in Hnth.
    unfold vals in Hnth at 1. rewrite nth_error_map in Hnth. rewrite Lq, Lt, <- LV in Ev. rewrite Ev in Hnth.
    cbn [option_map] in Hnth. rewrite skipn_all2 in Hnth by (rewrite vals_length; lia).
    specialize (Hnth ltac:(cbn [length]; lia)). injection Hnth as Hnth. exact Hnth. }
  rewrite ceqb_exact; [rewrite Cv; reflexivity|exact Wv|unfold wfc, in_ty; simpl; lia|right; simpl; lia].
Qed.

Lemma unit_l p d : wfp p -> is_unit (pdesc p) = true -> nth_error (pdesc p) (length (pdesc p) - 1) = Some d ->
  (forall v, acont d = CStatic v -> wfc v) ->
  exists v, pget p (length (pdesc p) - 1) = Ok v /\ cval v = 1.
Proof.
  intros W U Hd Hw. rewrite (is_unit_last _ _ Hd) in U. destruct (acont d) as [| |v] eqn:E; try discriminate.
  exists v. rewrite pget_ok, (nth_static p _ d v W Hd E) by exact W. split; [reflexivity|].
  specialize (Hw v eq_refl). rewrite ceqb_exact in U; [apply Z.eqb_eq in U; exact U|exact Hw|unfold wfc, in_ty; simpl; lia|].
  destruct v as [t z]. unfold wfc, in_ty in Hw. unfold compat. cbn [cty cval int] in *.
  destruct t; simpl in *; try (left; reflexivity); right; lia.
Qed.

(** compress *)
Lemma map2_skipn {A B C} (f : A -> B -> C) l : forall m k, skipn k (map2 f l m) = map2 f (skipn k l) (skipn k m).
Proof.
  induction l as [|x l IH]; intros [|y m] [|k]; cbn [skipn map2]; try reflexivity.
  - destruct (skipn k l); reflexivity.
  - apply IH.
Qed.

Lemma nth_skipn_l {A} (l : list A) : forall n k, nth_error (skipn n l) k = nth_error l (n + k).
Proof.
  induction l as [|x l IH]; intros [|n] k; cbn [skipn Nat.add]; try reflexivity; [destruct k; reflexivity|].
  cbn [nth_error]. apply IH.
Qed.

Lemma pcompress_l dbg p st n : wfp p -> to_values p = Ok st -> Forall wfc st -> (n <= length st)%nat ->
  exists q, pcompress_stride dbg n p = Ok q /\ wfp q /\ to_values q = Ok (skipn (length st - n) st) /\
    Forall anonymous (pdesc q) /\
    (forall k d e, nth_error (pdesc q) k = Some d -> nth_error (pdesc p) (length st - n + k) = Some e -> (known d <-> known e)).
Proof.
  intros W V F Hn. rewrite to_values_ok in V by exact W. inversion V as [V']; clear V.
  pose proof (values_length p W) as LV. rewrite V' in LV.
  unfold pcompress_stride. rewrite (pextents_ok p W), bind_ok, V', <- LV.
  set (es := map2 ext_of (pdesc p) st). set (k0 := (length st - n)%nat). set (t := skipn k0 es).
  assert (Wt : Forall wf_extent t).
  { apply Forall_forall. intros e He. unfold t, es in He.
    assert (In e (map2 ext_of (pdesc p) st)).
    { rewrite <- (firstn_skipn k0 (map2 ext_of (pdesc p) st)). apply in_or_app. right. exact He. }
    clear - H F. revert H. generalize (pdesc p). induction F as [|v st Hv _ IH]; intros [|d ds] H; try (destruct H; fail).
    cbn [map2] in H. destruct H as [<-|H]; [unfold ext_of; destruct (is_dynamic d); exact Hv|exact (IH ds H)]. }
  assert (HG : Forall2 given_value (map APos t) t).
  { clear - Wt. induction Wt; constructor; [constructor; assumption|assumption]. }
  assert (HN : names (map APos t) = []) by (clear; induction t; [reflexivity|assumption]).
  destruct (build_args_l dbg 1 (map APos t) t) as (q & E & Wq & D & Vq & _).
  - unfold in_ty; simpl; lia.
  - exact HG.
  - apply descs_distinct; rewrite HN; constructor.
  - exists q. split; [exact E|]. split; [exact Wq|]. split.
    { rewrite Vq. unfold t. rewrite <- skipn_map. unfold es. rewrite ext_of_vals by lia. reflexivity. }
    assert (Dn : forall k d, nth_error (pdesc q) k = Some d -> exists e, nth_error t k = Some e /\
       aid d = implicit (Z.of_nat (length t) - 1 - Z.of_nat k) /\ acont d = to_descriptor e).
    { intros k d Hk. rewrite D in Hk.
      assert (L : (k < length (map APos t))%nat) by (rewrite <- descs_length; apply nth_error_Some; rewrite Hk; discriminate).
      rewrite map_length in L. destruct (nth_error t k) as [e|] eqn:Ek; [|apply nth_error_None in Ek; lia].
      rewrite (descs_nth (map APos t) k (APos e)) in Hk by (rewrite nth_error_map, Ek; reflexivity).
      inversion Hk; subst d. exists e. rewrite map_length. split; [reflexivity|]. split; reflexivity. }
    split.
    { apply Forall_forall. intros d Hd. apply In_nth_error in Hd as [k Hk]. destruct (Dn k d Hk) as (e & Ek & A & _).
      exists (- (Z.of_nat (length t) - 1 - Z.of_nat k) - 1). split; [exact A|].
      assert (k < length t)%nat by (apply nth_error_Some; rewrite Ek; discriminate). lia. }
    intros k d e Hd He. destruct (Dn k d Hd) as (x & Ex & _ & Cx).
    assert (Y : exists v, nth_error st (k0 + k) = Some v).
    { destruct (nth_error st (k0 + k)) eqn:Y; [eauto|]. apply nth_error_None in Y.
      assert (nth_error (pdesc p) (k0 + k) <> None) by (rewrite He; discriminate). apply nth_error_Some in H. lia. }
    destruct Y as [v Y].
    assert (X : nth_error es (k0 + k) = Some (ext_of e v)) by (apply nth_map2; assumption).
    assert (X' : nth_error es (k0 + k) = Some x).
    { rewrite <- Ex. unfold t. symmetry. apply nth_skipn_l. }
    rewrite X in X'. inversion X'; subst x. rewrite <- (stat_known (ext_of e v) d);
      [|unfold ext_of; destruct (is_dynamic e); discriminate|exact Cx].
    unfold ext_of. destruct (is_dynamic e) eqn:De; cbn [stat].
    + split; [discriminate|]. intros [c Hc]. apply is_dynamic_runtime in De. exfalso. exact (De c Hc).
    + split; [intros _; apply is_dynamic_static, De|reflexivity].
Qed.

(** Equality *)
Lemma all_eqb_exact a b : length a = length b -> wfs a -> wfs b -> Forall2 compat a b ->
  all_eqb a b = true <-> vals a = vals b.
Proof.
  intros L Wa Wb H. clear L. revert Wa Wb. induction H as [|x y a b C _ IH]; intros Wa Wb; [split; reflexivity|].
  inversion Wa; inversion Wb; subst. cbn [all_eqb vals map]. rewrite andb_true_iff, ceqb_exact, Z.eqb_eq by assumption.
  rewrite IH by assumption. unfold vals. split; [intros [-> ->]; reflexivity|intros E; inversion E; auto].
Qed.

Lemma stride_eq_l a b : wfs a -> wfs b ->
  Forall2 (fun x y => (is_signed (cty x) = true /\ is_signed (cty y) = true) \/ (0 <= cval x /\ 0 <= cval y)) a b ->
  stride_eq a b = true <-> vals a = vals b.
Proof.
  intros Wa Wb H.
  assert (L : length a = length b) by (clear - H; induction H; cbn; congruence).
  assert (C : Forall2 compat a b).
  { clear - H. induction H as [|x y a b K _ IH]; constructor; [|exact IH]. destruct K as [[K1 K2]|K]; [left|right; exact K].
    destruct x as [t v], y as [u w]. cbn [cty] in *. destruct t, u; try discriminate; reflexivity. }
  unfold stride_eq. rewrite L, Nat.eqb_refl. cbn [andb]. apply all_eqb_exact; assumption.
Qed.
