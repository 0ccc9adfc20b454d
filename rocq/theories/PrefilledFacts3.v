(** Packaged lemmas for properties C10-C16. *)
From Coq Require Import ZArith String List Bool Lia Permutation FinFun.
From Verif Require Import Outcome CInt CIntFacts Spec SpecFacts ShapeSpec Shape ShapeFacts ShapeFacts2
  Prefilled PrefilledSpec PrefilledFacts PrefilledFacts2.
Import ListNotations.
Open Scope Z_scope.

(** ** C11 *)
Lemma construct_total_l dbg ds def vs : (length vs <= length ds)%nat ->
  (exists p, pconstruct dbg ds def vs = Ok p /\ pdesc p = ds /\ wfp p) \/
  (dbg = true /\ pconstruct dbg ds def vs = Abort).
Proof.
  intros Hl. destruct (pconstruct_ok dbg ds def vs Hl) as [A B].
  destruct (dbg && clash ds (repeat (EInt (int 1)) (length ds - length vs) ++ vs)) eqn:E.
  - right. apply andb_true_iff in E. split; [tauto|apply A; reflexivity].
  - left. destruct (B eq_refl) as (p & H1 & H2 & H3 & _). eauto.
Qed.

Lemma sane_one : sane (int 1).
Proof. split; [apply wfc_small_int; unfold max31; lia|cbn; lia]. Qed.

Lemma sane_fill k vs : Forall sane_ext vs -> Forall sane_ext (repeat (EInt (int 1)) k ++ vs).
Proof.
  intros H. apply Forall_app. split; [|exact H]. apply Forall_forall. intros x Hx.
  apply repeat_spec in Hx. subst x. exact sane_one.
Qed.

Lemma construct_abort_iff_l ds def vs : Forall sane_desc ds -> Forall sane_ext vs ->
  (length vs <= length ds)%nat ->
  (pconstruct true ds def vs = Abort <->
   exists i d e, nth_error ds i = Some d /\
     nth_error (repeat (EInt (int 1)) (length ds - length vs) ++ vs) i = Some e /\ contradicts d e).
Proof.
  intros Sd Sv Hl. destruct (pconstruct_ok true ds def vs Hl) as [A B].
  rewrite <- clash_spec by (try apply sane_fill; assumption). cbn [andb] in *.
  destruct (clash ds _) eqn:E.
  - split; [reflexivity|intros _; apply A; reflexivity].
  - destruct (B eq_refl) as (p & H1 & _). rewrite H1. split; discriminate.
Qed.

Lemma construct_reads_back_l dbg ds def vs p : (length vs <= length ds)%nat ->
  pconstruct dbg ds def vs = Ok p ->
  forall i d e, nth_error ds i = Some d ->
    nth_error (repeat (EInt (int 1)) (length ds - length vs) ++ vs) i = Some e ->
    pget p i = Ok (expected def d e).
Proof.
  intros Hl Hp i d e Hd He. destruct (pconstruct_ok dbg ds def vs Hl) as [A B].
  destruct (dbg && clash ds _) eqn:E; [rewrite (A eq_refl) in Hp; discriminate|].
  destruct (B eq_refl) as (q & H1 & H2 & H3 & H4). rewrite Hp in H1. injection H1 as <-.
  rewrite pget_ok by exact H3. rewrite H4, (nth_map2 _ _ _ _ _ _ Hd He). reflexivity.
Qed.

(** ** C12 *)
Lemma all_runtime_nb ds : all_runtime ds -> nb_runtime ds = length ds.
Proof.
  induction 1 as [|d ds Hd Hds IH]; [reflexivity|]. cbn [nb_runtime length]. rewrite IH.
  destruct (acont d) eqn:E; [reflexivity..|exfalso; apply (Hd _ E)].
Qed.

Lemma all_runtime_interleave ds : all_runtime ds -> forall st, length st = length ds -> interleave ds st = st.
Proof.
  induction 1 as [|d ds Hd Hds IH]; intros [|v st] Hl; try discriminate; [reflexivity|].
  cbn [interleave]. injection Hl as Hl. rewrite IH by exact Hl.
  destruct (acont d) eqn:E; [reflexivity..|exfalso; apply (Hd _ E)].
Qed.

Lemma fully_static_nb ds : is_fully_static ds = (nb_runtime ds =? 0)%nat.
Proof.
  unfold is_fully_static, dynamic_size. rewrite map_descriptor_eq. cbn [count].
  destruct (Z.eqb_spec (Z.of_nat (nb_runtime ds)) 0), (Nat.eqb_spec (nb_runtime ds) 0); try reflexivity; lia.
Qed.

Lemma fully_dynamic_nb ds : is_fully_dynamic ds = (nb_runtime ds =? length ds)%nat.
Proof.
  unfold is_fully_dynamic, dynamic_size. rewrite map_descriptor_eq. cbn [count].
  destruct (Z.eqb_spec (Z.of_nat (nb_runtime ds)) (Z.of_nat (length ds))),
           (Nat.eqb_spec (nb_runtime ds) (length ds)); try reflexivity; lia.
Qed.

Lemma pindex_runtime_l dbg p i : wfp p -> all_runtime (pdesc p) -> (i < length (pdesc p))%nat ->
  pindex dbg p i = pget p i.
Proof.
  intros Hw Hr Hi. unfold pindex. rewrite fully_static_nb, all_runtime_nb by exact Hr.
  destruct (Nat.eqb_spec (length (pdesc p)) 0); [lia|].
  assert (Hlt : (i <? length (pdesc p))%nat = true) by (apply Nat.ltb_lt; exact Hi).
  rewrite Hlt, kassert_ok. cbn [bind].
  destruct (nth_error (pdesc p) i) as [d|] eqn:Hd; [|apply nth_error_None in Hd; lia].
  rewrite (pcontains_ok _ _ _ Hd).
  assert (Hdyn : is_dynamic d = true).
  { apply is_dynamic_runtime. apply (proj1 (Forall_forall _ _) Hr). eapply nth_error_In, Hd. }
  rewrite Hdyn, kassert_ok. cbn [bind]. rewrite pget_ok by exact Hw. unfold values.
  pose proof (wfp_length p Hw) as Hl. rewrite all_runtime_nb in Hl by exact Hr.
  rewrite all_runtime_interleave by assumption.
  destruct (pstore p) as [|x [|y l]]; try reflexivity.
  cbn [length] in Hl. destruct i as [|i]; [reflexivity|lia].
Qed.

Lemma pindex_oob_l p i : wfp p -> (0 < nb_runtime (pdesc p))%nat -> (length (pdesc p) <= i)%nat ->
  pindex true p i = Abort.
Proof.
  intros Hw Hr Hi. unfold pindex. rewrite fully_static_nb.
  destruct (Nat.eqb_spec (nb_runtime (pdesc p)) 0); [lia|].
  assert (Hlt : (i <? length (pdesc p))%nat = false) by (apply Nat.ltb_ge; exact Hi).
  rewrite Hlt. reflexivity.
Qed.

(** Every run-time axis whose position is not below the number of run-time axes is read outside of
    the stored extents although both assertions pass. *)
Lemma pindex_overrun_l p i d : wfp p -> nth_error (pdesc p) i = Some d -> runtime d ->
  (2 <= nb_runtime (pdesc p) <= i)%nat -> pindex true p i = UB.
Proof.
  intros Hw Hd Hr [H2 Hi]. unfold pindex. rewrite fully_static_nb.
  destruct (Nat.eqb_spec (nb_runtime (pdesc p)) 0); [lia|].
  assert (Hlt : (i <? length (pdesc p))%nat = true).
  { apply Nat.ltb_lt. apply nth_error_Some. congruence. }
  rewrite Hlt, kassert_ok. cbn [bind]. rewrite (pcontains_ok _ _ _ Hd).
  assert (Hdyn : is_dynamic d = true) by (apply is_dynamic_runtime; exact Hr).
  rewrite Hdyn, kassert_ok. cbn [bind].
  pose proof (wfp_length p Hw) as Hl.
  assert (Hn : nth_error (pstore p) i = None) by (apply nth_error_None; lia).
  destruct (pstore p) as [|x [|y l]]; [cbn in Hl; lia..|]. rewrite Hn. reflexivity.
Qed.

(** Without assertions: a single stored extent is read whatever the position, otherwise the storage is indexed. *)
Lemma pindex_release_l p i : wfp p -> (0 < nb_runtime (pdesc p))%nat ->
  (nb_runtime (pdesc p) = 1%nat -> exists x, pstore p = [x] /\ pindex false p i = Ok x) /\
  ((2 <= nb_runtime (pdesc p) <= i)%nat -> pindex false p i = UB) /\
  ((2 <= nb_runtime (pdesc p))%nat -> (i < nb_runtime (pdesc p))%nat ->
     exists x, nth_error (pstore p) i = Some x /\ pindex false p i = Ok x).
Proof.
  intros Hw Hr. pose proof (wfp_length p Hw) as Hl. unfold pindex. rewrite fully_static_nb.
  destruct (Nat.eqb_spec (nb_runtime (pdesc p)) 0); [lia|]. cbn [kassert bind].
  split; [|split].
  - intros H1. destruct (pstore p) as [|x [|y l]]; cbn [length] in Hl; try lia. exists x. split; reflexivity.
  - intros [H2 Hi]. assert (Hn : nth_error (pstore p) i = None) by (apply nth_error_None; lia).
    destruct (pstore p) as [|x [|y l]]; [cbn in Hl; lia..|]. rewrite Hn. reflexivity.
  - intros H2 Hi. destruct (nth_error (pstore p) i) as [x|] eqn:E; [|apply nth_error_None in E; lia].
    exists x. split; [reflexivity|]. destruct (pstore p) as [|y [|z l]]; [cbn in Hl; lia..|]. rewrite E. reflexivity.
Qed.

(** ** C13 *)
Lemma index_from_nth ds : forall k i d, nth_error ds i = Some d ->
  nth_error (index_from k ds) i =
  Some (if is_dynamic d then k + Z.of_nat (nb_runtime (firstn i ds)) else -1).
Proof.
  induction ds as [|e ds IH]; intros k [|i] d Hd; try discriminate.
  - cbn in Hd. injection Hd as ->. cbn [index_from firstn nb_runtime].
    destruct (is_dynamic d); cbn [nth_error]; f_equal; lia.
  - cbn [nth_error] in Hd. cbn [index_from firstn nb_runtime].
    assert (Hcase : is_dynamic e = match acont e with CStatic _ => false | _ => true end) by reflexivity.
    rewrite Hcase. destruct (acont e); cbn [nth_error]; rewrite (IH _ _ _ Hd); apply f_equal;
    destruct (is_dynamic d); lia.
Qed.

Lemma slot_number_l ds i d : nth_error ds i = Some d ->
  nth_error (index (map_descriptor ds)) i =
  Some (if is_dynamic d then Z.of_nat (nb_runtime (firstn i ds)) else -1).
Proof. intros H. rewrite map_descriptor_eq. cbn [index]. rewrite (index_from_nth _ _ _ _ H). reflexivity. Qed.

Lemma nb_runtime_app a b : nb_runtime (a ++ b) = (nb_runtime a + nb_runtime b)%nat.
Proof. induction a as [|d a IH]; [reflexivity|]. cbn. destruct (acont d); rewrite IH; reflexivity. Qed.

Lemma firstn_S_nth {A} i (l : list A) x : nth_error l i = Some x -> firstn (S i) l = firstn i l ++ [x].
Proof.
  revert i; induction l as [|y l IH]; intros [|i] H; simpl in *; try discriminate.
  - injection H as ->. reflexivity.
  - rewrite IH by exact H. reflexivity.
Qed.

Lemma nb_runtime_firstn_lt ds i j d : nth_error ds i = Some d -> runtime d -> (i < j)%nat ->
  (nb_runtime (firstn i ds) < nb_runtime (firstn j ds))%nat.
Proof.
  intros Hd Hr Hij. replace j with (S i + (j - S i))%nat by lia.
  assert (G : forall k, (nb_runtime (firstn (S i) ds) <= nb_runtime (firstn (S i + k) ds))%nat).
  { intros k. rewrite <- (firstn_skipn (S i) (firstn (S i + k) ds)), nb_runtime_app.
    rewrite firstn_firstn, Nat.min_l by lia. lia. }
  specialize (G (j - S i)%nat). rewrite (firstn_S_nth _ _ _ Hd), nb_runtime_app in G.
  cbn [nb_runtime] in G. destruct (acont d) eqn:E; [lia..|exfalso; apply (Hr _ E)].
Qed.

Lemma slots_distinct_l ds i j d e si sj : nth_error ds i = Some d -> nth_error ds j = Some e ->
  runtime d -> runtime e ->
  nth_error (index (map_descriptor ds)) i = Some si -> nth_error (index (map_descriptor ds)) j = Some sj ->
  (i < j)%nat -> 0 <= si < sj /\ sj < Z.of_nat (length (make_storage ds)).
Proof.
  intros Hd He Rd Re Hi Hj Hlt.
  rewrite (slot_number_l _ _ _ Hd) in Hi. rewrite (slot_number_l _ _ _ He) in Hj.
  apply is_dynamic_runtime in Re as De. apply is_dynamic_runtime in Rd as Dd.
  rewrite Dd in Hi. rewrite De in Hj. injection Hi as <-. injection Hj as <-.
  pose proof (nb_runtime_firstn_lt ds i j d Hd Rd Hlt).
  assert (Hjn : (j < length ds)%nat) by (apply nth_error_Some; congruence).
  pose proof (nb_runtime_firstn_lt ds j (length ds) e He Re Hjn) as H1. rewrite firstn_all in H1.
  rewrite make_storage_eq, map_length, runtime_types_length. lia.
Qed.

Lemma storage_size_l ds : length (make_storage ds) = nb_runtime ds /\
  map cty (make_storage ds) = runtime_types ds.
Proof.
  rewrite make_storage_eq, map_length, runtime_types_length. split; [reflexivity|].
  rewrite map_map. cbn [cty]. apply map_id.
Qed.

Lemma write_one_axis_l p i d v : wfp p -> nth_error (pdesc p) i = Some d -> runtime d ->
  exists p', pset p i v = Ok p' /\ wfp p' /\ pdesc p' = pdesc p /\
    pget p' i = Ok (conv (axis_type d) v) /\ forall j, j <> i -> pget p' j = pget p j.
Proof.
  intros Hw Hd Hr. destruct (pset_ok p i d v Hw Hd Hr) as (p' & E & D & W & V).
  exists p'. split; [exact E|]. split; [exact W|]. split; [exact D|]. split.
  - rewrite pget_ok, V, replace_nth_same; [reflexivity| |exact W].
    rewrite values_length by exact Hw. apply nth_error_Some. congruence.
  - intros j Hj. rewrite !pget_ok by assumption. rewrite V, replace_nth_other by congruence. reflexivity.
Qed.

(** ** C14 *)
Lemma given_in os : NoDup (map fst os) -> forall a e, In (a, e) os -> given os a = e.
Proof.
  induction os as [|[b f] os IH]; intros Hn a e Hin; [destruct Hin|].
  cbn [map fst] in Hn. inversion Hn as [|b' l' Hb Hn']; subst. cbn [given].
  destruct Hin as [[= -> ->]|Hin]; [rewrite axis_id_eqb_refl; reflexivity|].
  destruct (axis_id_eqb a b) eqn:E; [|apply IH; assumption].
  apply axis_id_eqb_spec in E. subst b. exfalso. apply Hb. apply (in_map fst _ _ Hin).
Qed.

Lemma named_in (os : list (axis_id * extent)) a : existsb (fun o => axis_id_eqb a (fst o)) os = true <-> In a (map fst os).
Proof.
  rewrite existsb_exists, in_map_iff. split.
  - intros (o & Ho & H). apply axis_id_eqb_spec in H. exists o; auto.
  - intros (o & H & Ho). exists o. split; [exact Ho|]. apply axis_id_eqb_spec. congruence.
Qed.

Lemma given_perm os os' : Permutation os os' -> NoDup (map fst os) -> forall a,
  In a (map fst os) -> given os a = given os' a.
Proof.
  intros HP Hn a Ha. apply in_map_iff in Ha. destruct Ha as ([b e] & <- & Hin). cbn [fst].
  rewrite (given_in os Hn b e Hin). symmetry. apply given_in.
  - apply (Permutation_NoDup (Permutation_map fst HP) Hn).
  - apply (Permutation_in _ HP Hin).
Qed.

Lemma existsb_perm {A} (f : A -> bool) l l' : Permutation l l' -> existsb f l = existsb f l'.
Proof.
  induction 1; simpl; try reflexivity; try congruence.
  - rewrite !orb_assoc, (orb_comm (f y)). reflexivity.
Qed.

Lemma named_permutation_l dbg ds def os os' : distinct_axes ds -> NoDup (map fst os) ->
  incl (map fst os) (map aid ds) -> Permutation os os' ->
  pconstruct_named dbg ds def os = pconstruct_named dbg ds def os'.
Proof.
  intros Hds Hn Hin HP. unfold pconstruct_named. destruct (is_fully_static ds); [reflexivity|].
  assert (Hn' : NoDup (map fst os')) by (apply (Permutation_NoDup (Permutation_map fst HP) Hn)).
  assert (Hin' : incl (map fst os') (map aid ds)).
  { intros a Ha. apply Hin. apply (Permutation_in a (Permutation_sym (Permutation_map fst HP))), Ha. }
  pose proof (pdefault_wfp ds) as Hw.
  destruct (construct_named_ok dbg def ds Hds os (pdefault ds) eq_refl Hw Hn Hin) as [A1 A2].
  destruct (construct_named_ok dbg def ds Hds os' (pdefault ds) eq_refl Hw Hn' Hin') as [B1 B2].
  assert (HC : named_clash ds os = named_clash ds os') by (apply existsb_perm, HP).
  rewrite <- HC in B1, B2. destruct (dbg && named_clash ds os).
  - rewrite A1, B1 by reflexivity. reflexivity.
  - destruct (A2 eq_refl) as (p & E & D & W & V). destruct (B2 eq_refl) as (q & E' & D' & W' & V').
    rewrite E, E'. f_equal. apply values_inj; try assumption; [congruence|]. rewrite V, V'.
    apply map2_ext_nth; [rewrite values_length by exact Hw; reflexivity| |].
    + apply map2_length. rewrite values_length by exact Hw. reflexivity.
    + intros i x y Hx Hy. rewrite (nth_map2 _ _ _ _ _ _ Hx Hy). f_equal. unfold named_value.
      rewrite (existsb_perm _ _ _ HP).
      destruct (existsb (fun o => axis_id_eqb (aid x) (fst o)) os') eqn:X; [|reflexivity].
      rewrite (given_perm os os' HP Hn); [reflexivity|]. apply named_in.
      rewrite (existsb_perm _ _ _ HP). exact X.
Qed.

Lemma named_total_l dbg ds def os : distinct_axes ds -> NoDup (map fst os) ->
  incl (map fst os) (map aid ds) ->
  (exists p, pconstruct_named dbg ds def os = Ok p /\ pdesc p = ds /\ wfp p) \/
  (dbg = true /\ pconstruct_named dbg ds def os = Abort).
Proof.
  intros Hds Hn Hin. unfold pconstruct_named. destruct (is_fully_static ds).
  - left. exists (pdefault ds). split; [reflexivity|]. split; [reflexivity|apply pdefault_wfp].
  - destruct (construct_named_ok dbg def ds Hds os (pdefault ds) eq_refl (pdefault_wfp ds) Hn Hin) as [A1 A2].
    destruct (dbg && named_clash ds os) eqn:E.
    + right. apply andb_true_iff in E. split; [tauto|apply A1; reflexivity].
    + left. destruct (A2 eq_refl) as (p & H1 & H2 & H3 & _). eauto.
Qed.

Lemma static_all ds : nb_runtime ds = O -> forall d, In d ds -> exists c, acont d = CStatic c.
Proof.
  induction ds as [|e ds IH]; intros Hn d Hin; [destruct Hin|]. cbn [nb_runtime] in Hn.
  destruct Hin as [->|Hin].
  - destruct (acont d); try discriminate. eauto.
  - apply IH; [|exact Hin]. destruct (acont e); try discriminate. exact Hn.
Qed.

Lemma named_reads_back_l dbg ds def os p : distinct_axes ds -> NoDup (map fst os) ->
  incl (map fst os) (map aid ds) -> pconstruct_named dbg ds def os = Ok p ->
  (forall d e, In d ds -> In (aid d, e) os -> pget_axis p (aid d) = Ok (expected def d e)) /\
  (forall d, In d ds -> runtime d -> ~ In (aid d) (map fst os) ->
     pget_axis p (aid d) = Ok (CI (axis_type d) 0)).
Proof.
  intros Hds Hn Hin. unfold pconstruct_named.
  pose proof (pdefault_wfp ds) as Hw. destruct (is_fully_static ds) eqn:HS.
  - intros [= <-]. rewrite fully_static_nb in HS. apply Nat.eqb_eq in HS. split.
    + intros d e Hd He. destruct (static_all ds HS d Hd) as [c Hc].
      unfold pget_axis. cbn [pdesc pdefault].
      apply In_nth_error in Hd. destruct Hd as (i & Hi).
      rewrite (find_axis_unique ds i d Hds Hi). rewrite pget_ok by exact Hw.
      rewrite (nth_static (pdefault ds) i d c Hw Hi Hc). unfold expected. rewrite Hc. reflexivity.
    + intros d Hd Hr. destruct (static_all ds HS d Hd) as [c Hc]. exfalso. apply (Hr _ Hc).
  - intros Hp.
    destruct (construct_named_ok dbg def ds Hds os (pdefault ds) eq_refl Hw Hn Hin) as [A1 A2].
    destruct (dbg && named_clash ds os); [rewrite (A1 eq_refl) in Hp; discriminate|].
    destruct (A2 eq_refl) as (q & E & D & W & V). rewrite Hp in E. injection E as <-.
    assert (G : forall d, In d ds ->
      pget_axis p (aid d) = Ok (named_value def os d (default_value d))).
    { intros d Hd. apply In_nth_error in Hd. destruct Hd as (i & Hi).
      unfold pget_axis. rewrite D, (find_axis_unique ds i d Hds Hi), pget_ok, V by exact W.
      rewrite pdefault_values.
      assert (Hy : nth_error (map default_value ds) i = Some (default_value d))
        by (rewrite nth_error_map, Hi; reflexivity).
      rewrite (nth_map2 _ _ _ _ _ _ Hi Hy). reflexivity. }
    split.
    + intros d e Hd He. rewrite (G d Hd). unfold named_value.
      assert (X : existsb (fun o => axis_id_eqb (aid d) (fst o)) os = true)
        by (apply named_in, (in_map fst _ _ He)).
      rewrite X, (given_in os Hn _ _ He). reflexivity.
    + intros d Hd Hr Hno. rewrite (G d Hd). unfold named_value.
      destruct (existsb (fun o => axis_id_eqb (aid d) (fst o)) os) eqn:X;
        [exfalso; apply Hno, named_in, X|].
      unfold default_value. destruct (acont d) eqn:E; [reflexivity..|exfalso; apply (Hr _ E)].
Qed.

Lemma named_abort_iff_l ds def os : distinct_axes ds -> NoDup (map fst os) ->
  incl (map fst os) (map aid ds) -> (0 < nb_runtime ds)%nat ->
  Forall sane_desc ds -> Forall (fun o => sane_ext (snd o)) os ->
  (pconstruct_named true ds def os = Abort <->
   exists d e, In d ds /\ In (aid d, e) os /\ contradicts d e).
Proof.
  intros Hds Hn Hin Hr Sd So. unfold pconstruct_named. rewrite fully_static_nb.
  destruct (Nat.eqb_spec (nb_runtime ds) 0); [lia|].
  destruct (construct_named_ok true def ds Hds os (pdefault ds) eq_refl (pdefault_wfp ds) Hn Hin) as [A1 A2].
  cbn [andb] in *.
  assert (HC : named_clash ds os = true <-> exists d e, In d ds /\ In (aid d, e) os /\ contradicts d e).
  { unfold named_clash. rewrite existsb_exists. split.
    - intros ([a e] & Ho & H). apply existsb_exists in H. destruct H as (d & Hd & H).
      apply andb_true_iff in H. destruct H as [H1 H2]. cbn [fst snd] in *.
      apply axis_id_eqb_spec in H1. subst a. apply contradictsb_spec in H2; [exists d, e; auto|..].
      + apply (proj1 (Forall_forall _ _) Sd d Hd).
      + apply (proj1 (Forall_forall _ _) So _ Ho).
    - intros (d & e & Hd & Ho & H). exists (aid d, e). split; [exact Ho|]. apply existsb_exists.
      exists d. split; [exact Hd|]. cbn [fst snd]. rewrite axis_id_eqb_refl.
      apply contradictsb_spec in H; [rewrite H; reflexivity|..].
      + apply (proj1 (Forall_forall _ _) Sd d Hd).
      + apply (proj1 (Forall_forall _ _) So _ Ho). }
  rewrite <- HC. destruct (named_clash ds os).
  - split; [reflexivity|intros _; apply A1; reflexivity].
  - destruct (A2 eq_refl) as (p & H1 & _). rewrite H1. split; discriminate.
Qed.

(** ** C15 *)
Lemma larger_grows t u z : is_signed t = is_signed u -> in_ty t z -> in_ty (larger t u) z.
Proof. unfold larger, in_ty. destruct t, u; simpl; intros; try discriminate; lia. Qed.
Lemma larger_grows_r t u z : is_signed t = is_signed u -> in_ty u z -> in_ty (larger t u) z.
Proof. unfold larger, in_ty. destruct t, u; simpl; intros; try discriminate; lia. Qed.
Lemma larger_sign t u b : is_signed t = b -> is_signed u = b -> is_signed (larger t u) = b.
Proof. unfold larger. destruct (width t <? width u); auto. Qed.

Lemma largest_fold ts b : Forall (fun t => is_signed t = b) ts -> forall t0, is_signed t0 = b ->
  (forall z, in_ty t0 z -> in_ty (fold_left larger ts t0) z) /\
  (forall t z, In t ts -> in_ty t z -> in_ty (fold_left larger ts t0) z).
Proof.
  induction 1 as [|t ts Ht Hts IH]; intros t0 H0; cbn [fold_left].
  - split; [auto|intros t z []].
  - destruct (IH (larger t0 t) (larger_sign _ _ _ H0 Ht)) as [I1 I2]. split.
    + intros z Hz. apply I1, larger_grows; congruence.
    + intros u z [<-|Hu] Hz; [apply I1, larger_grows_r; congruence|eapply I2; eauto].
Qed.

Lemma as_array_fits_l p vs : wfp p -> to_values p = Ok vs ->
  Forall (fun v => in_ty (largest_type (map cty vs)) (cval v)) vs ->
  exists a, as_array p = Ok a /\ vals a = vals vs /\ Forall (fun x => cty x = largest_type (map cty vs)) a.
Proof.
  intros Hw Hv Hf. unfold as_array. rewrite Hv. cbn [bind]. eexists. split; [reflexivity|].
  set (t := largest_type (map cty vs)) in *. clearbody t. clear Hv. split.
  - induction Hf as [|v l H Hl IH]; [reflexivity|].
    cbn [map vals]. rewrite conv_exact by exact H. cbn [cval]. f_equal.
    exact IH.
  - apply Forall_map, Forall_forall. intros x _. reflexivity.
Qed.

Lemma as_array_same_sign_l p vs : wfp p -> to_values p = Ok vs -> wfs vs -> same_sign vs ->
  exists a, as_array p = Ok a /\ vals a = vals vs.
Proof.
  intros Hw Hv Hs [b Hb].
  destruct (as_array_fits_l p vs Hw Hv) as (a & Ha & E & _); [|eauto].
  destruct vs as [|v0 vs]; [constructor|]. cbn [map largest_type].
  inversion Hb as [|x l H0 Hl]; subst x l. inversion Hs as [|x l W0 Wl]; subst x l.
  assert (Ht : Forall (fun t => is_signed t = b) (map cty vs)) by (apply Forall_map; exact Hl).
  destruct (largest_fold (map cty vs) b Ht (cty v0) H0) as [I1 I2].
  constructor; [apply I1, W0|]. apply Forall_forall. intros v Hin.
  apply (I2 (cty v)); [apply in_map, Hin|]. apply (proj1 (Forall_forall _ _) Wl v Hin).
Qed.

(** ** C16 *)
Lemma convert_is_construct dbg vs : forall i p,
  convert_from dbg i vs p = construct_from dbg (int 0) i (map EInt vs) p.
Proof.
  induction vs as [|v vs IH]; intros i p; [reflexivity|].
  cbn [convert_from map construct_from]. unfold construct_axis. cbn [ext_is_joker ext_eqb as_dimension].
  destruct (pcontains (pdesc p) i) as [[]| | |]; cbn [bind]; try reflexivity.
  - destruct (pset p i v); cbn [bind]; auto.
  - destruct (kassert dbg _); cbn [bind]; auto.
Qed.

Lemma checker_compat e f acc : checker e f acc acc = acc && checker e f true true.
Proof.
  unfold checker. destruct (acont e), (acont f); rewrite ?andb_true_r, ?andb_true_l; reflexivity.
Qed.

Lemma compatible_iff a : forall b, length a = length b ->
  (is_compatible a b = true <->
   forall i x y c c', nth_error a i = Some x -> nth_error b i = Some y ->
     acont x = CStatic c -> acont y = CStatic c' -> ceqb c c' = true).
Proof.
  intros b Hl. unfold is_compatible. rewrite (proj2 (Nat.eqb_eq _ _) Hl).
  revert b Hl. induction a as [|x a IH]; intros [|y b] Hl; try discriminate; cbn [combine fold_right].
  - split; [|reflexivity]. intros _ [|i] x y c c' H; discriminate.
  - rewrite checker_compat, andb_true_iff. injection Hl as Hl. rewrite (IH b Hl). cbn [fst snd]. split.
    + intros [H1 H2] [|i] x' y' c c' Hx Hy Hc Hc'; cbn [nth_error] in *.
      * injection Hx as <-. injection Hy as <-. unfold checker in H2. rewrite Hc, Hc' in H2. exact H2.
      * eapply H1; eauto.
    + intros H. split.
      * intros i x' y' c c' Hx Hy. apply (H (S i)); assumption.
      * unfold checker. destruct (acont x) eqn:Ex, (acont y) eqn:Ey; try reflexivity.
        cbn [andb]. apply (H O x y); auto.
Qed.

Lemma equivalent_iff a : forall b, is_equivalent a b = true <-> map aid a = map aid b.
Proof.
  induction a as [|x a IH]; intros [|y b]; cbn [is_equivalent map]; try (split; [discriminate|discriminate]).
  - tauto.
  - rewrite andb_true_iff, axis_id_eqb_spec, IH. split.
    + intros [-> ->]. reflexivity.
    + intros [= -> ->]. auto.
Qed.

Lemma sane_static ds i d c : Forall sane_desc ds -> nth_error ds i = Some d -> acont d = CStatic c -> sane c.
Proof.
  intros H Hd Hc. pose proof (proj1 (Forall_forall _ _) H d (nth_error_In _ _ Hd)) as S.
  unfold sane_desc in S. rewrite Hc in S. exact S.
Qed.

Lemma constructible_iff_l a b : length a = length b -> Forall sane_desc a -> Forall sane_desc b ->
  (is_contructible_from a b = true <->
   map aid a = map aid b /\
   forall i x y c c', nth_error a i = Some x -> nth_error b i = Some y ->
     acont x = CStatic c -> acont y = CStatic c' -> cval c = cval c').
Proof.
  intros Hl Sa Sb. unfold is_contructible_from. rewrite (proj2 (Nat.eqb_eq _ _) Hl).
  rewrite andb_true_iff, equivalent_iff, compatible_iff by exact Hl. split; intros [H1 H2]; (split; [exact H1|]);
  intros i x y c c' Hx Hy Hc Hc'; specialize (H2 i x y c c' Hx Hy Hc Hc');
  pose proof (sane_static _ _ _ _ Sa Hx Hc); pose proof (sane_static _ _ _ _ Sb Hy Hc').
  - rewrite sane_eqb in H2 by assumption. apply Z.eqb_eq, H2.
  - rewrite sane_eqb by assumption. apply Z.eqb_eq, H2.
Qed.

(** What a same-order conversion does. *)
Lemma pconvert_ok dbg ds src : wfp src -> length (pdesc src) = length ds ->
  (dbg && clash ds (map EInt (values src)) = true -> pconvert dbg ds src = Abort) /\
  (dbg && clash ds (map EInt (values src)) = false -> exists p, pconvert dbg ds src = Ok p /\
    pdesc p = ds /\ wfp p /\ values p = map2 (expected (int 0)) ds (map EInt (values src))).
Proof.
  intros Hw Hl. unfold pconvert. rewrite (proj2 (Nat.eqb_eq _ _) Hl).
  rewrite to_values_ok by exact Hw. cbn [bind]. rewrite convert_is_construct.
  apply construct_full_ok. rewrite map_length, values_length by exact Hw. exact Hl.
Qed.

Lemma convert_same_order_l dbg ds src : wfp src -> length (pdesc src) = length ds ->
  Forall sane_desc ds -> (forall vs, to_values src = Ok vs -> Forall sane vs) ->
  (dbg = true /\ pconvert dbg ds src = Abort /\
   exists i d c v, nth_error ds i = Some d /\ acont d = CStatic c /\ pget src i = Ok v /\ cval v <> cval c) \/
  (exists p, pconvert dbg ds src = Ok p /\ pdesc p = ds /\ wfp p /\
     (dbg = true -> forall i d c v, nth_error ds i = Some d -> acont d = CStatic c ->
        pget src i = Ok v -> cval v = cval c) /\
     forall i d v, nth_error ds i = Some d -> pget src i = Ok v ->
        pget p i = Ok (match acont d with CStatic c => c | _ => conv (axis_type d) v end)).
Proof.
  intros Hw Hl Sd Sv. specialize (Sv _ (to_values_ok src Hw)).
  assert (Se : Forall sane_ext (map EInt (values src))) by (apply Forall_map; exact Sv).
  destruct (pconvert_ok dbg ds src Hw Hl) as [A B].
  destruct (dbg && clash ds (map EInt (values src))) eqn:E.
  - left. apply andb_true_iff in E. destruct E as [E1 E2]. split; [exact E1|].
    split; [apply A; reflexivity|]. apply clash_spec in E2; [|assumption..].
    destruct E2 as (i & d & e & Hd & He & Hc).
    rewrite nth_error_map in He. destruct (nth_error (values src) i) as [v|] eqn:Hv; [|discriminate].
    injection He as <-. unfold contradicts in Hc. destruct (acont d) as [| |c] eqn:Ed; try tauto.
    exists i, d, c, v. rewrite pget_ok, Hv by exact Hw. auto.
  - right. destruct (B eq_refl) as (p & H1 & H2 & H3 & H4). exists p.
    split; [exact H1|]. split; [exact H2|]. split; [exact H3|]. split.
    + intros -> i d c v Hd Hc Hv. cbn [andb] in E. rewrite pget_ok in Hv by exact Hw.
      destruct (nth_error (values src) i) as [v'|] eqn:Hn; [|discriminate]. injection Hv as ->.
      destruct (Z.eq_dec (cval v) (cval c)) as [X|X]; [exact X|]. exfalso.
      assert (clash ds (map EInt (values src)) = true); [|congruence].
      apply clash_spec; [assumption..|]. exists i, d, (EInt v). split; [exact Hd|]. split.
      * rewrite nth_error_map, Hn. reflexivity.
      * unfold contradicts. rewrite Hc. exact X.
    + intros i d v Hd Hv. rewrite pget_ok in Hv by exact Hw.
      destruct (nth_error (values src) i) as [v'|] eqn:Hn; [|discriminate]. injection Hv as ->.
      rewrite pget_ok, H4 by exact H3.
      assert (He : nth_error (map EInt (values src)) i = Some (EInt v)) by (rewrite nth_error_map, Hn; reflexivity).
      rewrite (nth_map2 _ _ _ _ _ _ Hd He). unfold expected. destruct (acont d); reflexivity.
Qed.

Lemma fit_axes_iff ods : forall ovs svs, length ovs = length ods -> length svs = length ods ->
  (fit_axes ods ovs svs = true <->
   forall i d o s, nth_error ods i = Some d -> nth_error ovs i = Some o -> nth_error svs i = Some s ->
     is_dynamic d = true \/ ceqb o s = true).
Proof.
  induction ods as [|d ods IH]; intros [|o ovs] [|s svs] H1 H2; try discriminate; cbn [fit_axes].
  - split; [|reflexivity]. intros _ [|i] d o s H; discriminate.
  - injection H1 as H1. injection H2 as H2. rewrite andb_true_iff, orb_true_iff, (IH _ _ H1 H2). split.
    + intros [A B] [|i] d' o' s' Hd Ho Hs; cbn [nth_error] in *.
      * injection Hd as <-. injection Ho as <-. injection Hs as <-. exact A.
      * eapply B; eauto.
    + intros H. split; [apply (H O d o s); reflexivity|]. intros i d' o' s' Hd Ho Hs. apply (H (S i) d' o' s'); assumption.
Qed.

Lemma fit_constraints_ceqb self other : wfp self -> wfp other ->
  length (pdesc self) = length (pdesc other) ->
  exists b, fit_constraints self other = Ok b /\
    (b = true <-> forall i d c v, nth_error (pdesc other) i = Some d -> acont d = CStatic c ->
                    pget self i = Ok v -> ceqb c v = true).
Proof.
  intros Hs Ho Hl. unfold fit_constraints.
  rewrite fully_dynamic_nb.
  destruct (Nat.eqb_spec (nb_runtime (pdesc other)) (length (pdesc other))) as [Hdyn|Hdyn].
  - exists true. split; [reflexivity|]. split; [|reflexivity]. intros _ i d c v Hd Hc _. exfalso.
    assert (G : forall ds, nb_runtime ds = length ds -> Forall runtime ds).
    { induction ds as [|e ds IH]; intros HH; constructor.
      - intros c' Hc'. cbn in HH. rewrite Hc' in HH. pose proof (nb_runtime_le ds). lia.
      - apply IH. cbn in HH. pose proof (nb_runtime_le ds). destruct (acont e); lia. }
    specialize (G _ Hdyn). apply (proj1 (Forall_forall _ _) G d (nth_error_In _ _ Hd) c Hc).
  - rewrite (proj2 (Nat.eqb_eq _ _) (eq_sym Hl)). cbn [negb].
    destruct (is_fully_static (pdesc other) && is_fully_static (pdesc self)) eqn:HS.
    + apply andb_true_iff in HS. rewrite !fully_static_nb, !Nat.eqb_eq in HS. destruct HS as [So Ss].
      eexists. split; [reflexivity|]. rewrite compatible_iff by (symmetry; exact Hl). split.
      * intros H i d c v Hd Hc Hv. rewrite pget_ok in Hv by exact Hs.
        destruct (nth_error (pdesc self) i) as [y|] eqn:Hy.
        2:{ apply nth_error_None in Hy. rewrite Hl in Hy. apply nth_error_None in Hy. congruence. }
        destruct (static_all _ Ss y (nth_error_In _ _ Hy)) as [c' Hc'].
        rewrite (nth_static self i y c' Hs Hy Hc') in Hv. injection Hv as <-. eapply H; eauto.
      * intros H i x y c c' Hx Hy Hc Hc'. apply (H i x c c' Hx Hc).
        rewrite pget_ok, (nth_static self i y c' Hs Hy Hc') by exact Hs. reflexivity.
    + rewrite !to_values_ok by assumption. cbn [bind]. eexists. split; [reflexivity|].
      rewrite fit_axes_iff by (rewrite values_length by assumption; congruence). split.
      * intros H i d c v Hd Hc Hv. rewrite pget_ok in Hv by exact Hs.
        destruct (nth_error (values self) i) as [v'|] eqn:Hn; [|discriminate]. injection Hv as ->.
        destruct (H i d c v Hd (nth_static other i d c Ho Hd Hc) Hn) as [X|X]; [|exact X].
        exfalso. apply is_dynamic_runtime in X. apply (X _ Hc).
      * intros H i d o s Hd Ho' Hs'. destruct (is_dynamic d) eqn:D; [left; reflexivity|right].
        apply is_dynamic_static in D. destruct D as [c Hc].
        rewrite (nth_static other i d c Ho Hd Hc) in Ho'. injection Ho' as <-.
        apply (H i d c s Hd Hc). rewrite pget_ok, Hs' by exact Hs. reflexivity.
Qed.

Lemma fit_constraints_iff_l self other : wfp self -> wfp other ->
  length (pdesc self) = length (pdesc other) ->
  Forall sane_desc (pdesc other) -> (forall vs, to_values self = Ok vs -> Forall sane vs) ->
  exists b, fit_constraints self other = Ok b /\
    (b = true <-> forall i d c v, nth_error (pdesc other) i = Some d -> acont d = CStatic c ->
                    pget self i = Ok v -> cval v = cval c).
Proof.
  intros Hs Ho Hl Sd Sv. specialize (Sv _ (to_values_ok self Hs)).
  destruct (fit_constraints_ceqb self other Hs Ho Hl) as (b & E & I). exists b. split; [exact E|].
  rewrite I. split; intros H i d c v Hd Hc Hv; specialize (H i d c v Hd Hc Hv);
  pose proof (sane_static _ _ _ _ Sd Hd Hc) as Sc;
  (rewrite pget_ok in Hv by exact Hs; destruct (nth_error (values self) i) as [v'|] eqn:Hn; [|discriminate];
   injection Hv as ->; pose proof (proj1 (Forall_forall _ _) Sv v (nth_error_In _ _ Hn)) as Sv').
  - rewrite sane_eqb in H by assumption. apply Z.eqb_eq in H. congruence.
  - rewrite sane_eqb by assumption. apply Z.eqb_eq. congruence.
Qed.

Lemma nb_all_runtime ds : nb_runtime ds = length ds -> all_runtime ds.
Proof.
  induction ds as [|d ds IH]; intros E; [constructor|]. cbn [nb_runtime length] in E.
  pose proof (nb_runtime_le ds) as Hle. constructor.
  - intros c Hc. rewrite Hc in E. lia.
  - apply IH. destruct (acont d); lia.
Qed.

Lemma fit_constraints_orders_l self other : wfp self -> wfp other ->
  length (pdesc self) <> length (pdesc other) ->
  exists b, fit_constraints self other = Ok b /\ (b = true <-> all_runtime (pdesc other)).
Proof.
  intros _ _ Hl. unfold fit_constraints. rewrite fully_dynamic_nb.
  destruct (Nat.eqb_spec (nb_runtime (pdesc other)) (length (pdesc other))) as [E|E].
  - exists true. split; [reflexivity|]. split; [intros _; apply nb_all_runtime; exact E|reflexivity].
  - destruct (Nat.eqb_spec (length (pdesc other)) (length (pdesc self))) as [E'|_]; [congruence|].
    exists false. split; [reflexivity|]. split; [discriminate|]. intros H. elim E. apply all_runtime_nb. exact H.
Qed.

Lemma named_static_only_l dbg ds def os : nb_runtime ds = 0%nat ->
  exists p, pconstruct_named dbg ds def os = Ok p /\ pdesc p = ds /\ wfp p /\
    forall i d c, nth_error ds i = Some d -> acont d = CStatic c -> pget p i = Ok c.
Proof.
  intros E. exists (pdefault ds). split.
  - unfold pconstruct_named. rewrite fully_static_nb, E. reflexivity.
  - split; [reflexivity|]. split; [apply pdefault_wfp|]. intros i d c Hd Hc.
    rewrite pget_ok by apply pdefault_wfp. rewrite pdefault_values, nth_error_map, Hd. cbn [option_map].
    unfold default_value. rewrite Hc. reflexivity.
Qed.

(** ** C10 *)
Lemma expected_wide d z t : wide_axis d -> 0 <= z <= max31 ->
  expected (int 0) d (EInt (CI t z)) = CI (axis_type d) z.
Proof.
  intros [Hr Ht] Hz. unfold expected, max31 in *.
  assert (X : conv (axis_type d) (CI t z) = CI (axis_type d) z).
  { apply conv_exact. cbn [cval]. apply (in_ty_shrink _ _ _ Ht). lia. }
  destruct (acont d) eqn:E; [exact X..|exfalso; apply (Hr _ E)].
Qed.

Lemma posprod_le_max31 s : legal s -> Forall (fun v => 0 <= cval v <= max31) s.
Proof.
  induction s as [|n s IH]; intros H; constructor; destruct (legal_cons _ _ H) as (_ & B & _ & L);
  [exact B|exact (IH L)].
Qed.

Lemma map2_expected_vals dst : Forall wide_axis dst -> forall vs, length vs = length dst ->
  Forall (fun v => 0 <= cval v <= max31) vs ->
  vals (map2 (expected (int 0)) dst (map EInt vs)) = vals vs /\
  wfs (map2 (expected (int 0)) dst (map EInt vs)).
Proof.
  induction 1 as [|d dst Hd Hdst IH]; intros [|[t z] vs] Hl Hv; try discriminate.
  - split; [reflexivity|constructor].
  - injection Hl as Hl. inversion Hv as [|x l H0 Hv']; subst x l. cbn [cval] in H0.
    destruct (IH vs Hl Hv') as [I1 I2]. cbn [map map2]. rewrite expected_wide by assumption.
    cbn [vals map cval]. unfold vals in I1. split; [rewrite I1; reflexivity|].
    constructor; [|exact I2]. unfold wfc. cbn [cty cval]. destruct Hd as [_ Ht].
    apply (in_ty_shrink _ _ _ Ht). unfold max31 in H0. lia.
Qed.

Lemma wide_no_clash dst : Forall wide_axis dst -> forall es, clash dst es = false.
Proof.
  induction 1 as [|d dst Hd Hdst IH]; intros [|e es]; cbn [clash]; try reflexivity.
  rewrite IH, orb_false_r. unfold contradictsb. destruct Hd as [Hr _].
  destruct (acont d) eqn:E; [reflexivity..|exfalso; apply (Hr _ E)].
Qed.

Lemma legal_by_vals a b : wfs a -> vals a = vals b -> legal b -> legal a.
Proof. intros Hw E (H1 & H2 & H3). unfold legal. rewrite E. auto. Qed.

Lemma construct_wide dbg dst vs : Forall wide_axis dst -> length vs = length dst -> legal vs ->
  exists p vs', construct_from dbg (int 0) 0 (map EInt vs) (pdefault dst) = Ok p /\ pdesc p = dst /\
    wfp p /\ to_values p = Ok vs' /\ vals vs' = vals vs /\ legal vs'.
Proof.
  intros Hd Hl HL. destruct (construct_full_ok dbg dst (int 0) (map EInt vs)) as [_ B];
    [rewrite map_length; exact Hl|].
  rewrite wide_no_clash, andb_false_r in B by exact Hd.
  destruct (B eq_refl) as (p & E & D & W & V).
  destruct (map2_expected_vals dst Hd vs Hl (posprod_le_max31 vs HL)) as [V1 V2].
  exists p, (values p). split; [exact E|]. split; [exact D|]. split; [exact W|].
  split; [apply to_values_ok, W|]. rewrite V. split; [exact V1|].
  apply (legal_by_vals _ vs); assumption.
Qed.

Lemma posprod_ones k : posprod (repeat 1 k) = 1.
Proof. induction k as [|k IH]; [reflexivity|]. cbn [repeat]. rewrite posprod_cons, IH. reflexivity. Qed.

Lemma prod_ones k : prod (repeat 1 k) = 1.
Proof. induction k as [|k IH]; [reflexivity|]. cbn [repeat]. rewrite prod_cons, IH. reflexivity. Qed.

Lemma vals_ones k vs : vals (repeat (int 1) k ++ vs) = repeat 1 k ++ vals vs.
Proof. unfold vals. rewrite map_app. f_equal. induction k as [|k IH]; simpl; [reflexivity|]. rewrite IH. reflexivity. Qed.

Lemma legal_ones k vs : legal vs -> legal (repeat (int 1) k ++ vs).
Proof.
  intros (H1 & H2 & H3). unfold legal, wfs, nonnegs. rewrite vals_ones. split; [|split].
  - apply Forall_app. split; [|exact H1]. apply Forall_forall. intros x Hx. apply repeat_spec in Hx.
    subst x. apply wfc_small_int. unfold max31. lia.
  - apply Forall_app. split; [|exact H2]. apply Forall_forall. intros x Hx. apply repeat_spec in Hx. lia.
  - rewrite posprod_app, posprod_ones. lia.
Qed.

Lemma widen_l dbg dst src vs : wfp src -> to_values src = Ok vs -> legal vs -> Forall wide_axis dst ->
  (length vs <= length dst)%nat ->
  exists p vs', shape_construct dbg dst src = Ok p /\ wfp p /\ pdesc p = dst /\ to_values p = Ok vs' /\
    legal vs' /\ vals vs' = repeat 1 (length dst - length vs) ++ vals vs.
Proof.
  intros Hw Hv HL Hd Hl. rewrite to_values_ok in Hv by exact Hw. injection Hv as <-.
  unfold shape_construct. pose proof (values_length src Hw) as Lv.
  destruct (Nat.eqb_spec (length dst) (length (pdesc src))) as [He|Hne].
  - unfold pconvert. rewrite <- He, Nat.eqb_refl, to_values_ok by exact Hw. cbn [bind].
    rewrite convert_is_construct.
    destruct (construct_wide dbg dst (values src) Hd ltac:(congruence) HL) as (p & vs' & E & D & W & V & X & L).
    exists p, vs'. rewrite Lv, He, Nat.sub_diag. cbn [repeat app]. auto 10.
  - destruct (Nat.ltb_spec (length (pdesc src)) (length dst)) as [Hlt|]; [|lia].
    rewrite to_values_ok by exact Hw. cbn [bind]. unfold pconstruct.
    rewrite app_length, repeat_length, map_length, Lv.
    replace (length dst - length (pdesc src) + length (pdesc src))%nat with (length dst) by lia.
    rewrite Nat.leb_refl, Nat.sub_diag. cbn [repeat app].
    set (k := (length dst - length (pdesc src))%nat).
    assert (Heq : repeat (EInt (int 1)) k ++ map EInt (values src) = map EInt (repeat (int 1) k ++ values src)).
    { rewrite map_app. f_equal. clear. induction k as [|k IH]; simpl; [reflexivity|]. rewrite IH. reflexivity. }
    rewrite Heq.
    destruct (construct_wide dbg dst (repeat (int 1) k ++ values src) Hd) as (p & vs' & E & D & W & V & X & L).
    + rewrite app_length, repeat_length, Lv. unfold k. lia.
    + apply legal_ones, HL.
    + exists p, vs'. rewrite vals_ones in X. auto 10.
Qed.

Lemma same_axes_spec a : forall b, same_axes a b = true <-> a = b.
Proof.
  induction a as [|x a IH]; intros [|y b]; cbn [same_axes]; try (split; (reflexivity || discriminate)).
  rewrite andb_true_iff, IH, axis_id_eqb_spec. split; [intros [-> ->]; reflexivity|intros [= -> ->]; auto].
Qed.

Lemma implicit_axes_eq n : implicit_axes n = unnamed_axes n.
Proof.
  unfold implicit_axes, unnamed_axes, normalize. rewrite repeat_length.
  assert (H : forall k i z, map aid (normalize_from (Z.of_nat i) z (repeat (None, CJoker) k)) =
                            map (fun j => AIdx (Z.of_nat j - z)) (seq i k)).
  { induction k as [|k IH]; intros i z; [reflexivity|]. cbn [repeat normalize_from map seq aid].
    replace (Z.of_nat i + 1) with (Z.of_nat (S i)) by lia. rewrite IH. f_equal. unfold implicit. f_equal. lia. }
  exact (H n 0%nat (Z.of_nat n)).
Qed.

Lemma narrow_l dbg dst src vs : wfp src -> to_values src = Ok vs -> legal vs -> Forall wide_axis dst ->
  (1 <= length dst < length vs)%nat -> map aid dst = unnamed_axes (length dst) ->
  exists p vs', shape_construct dbg dst src = Ok p /\ wfp p /\ pdesc p = dst /\ to_values p = Ok vs' /\
    legal vs' /\ vals vs' = merge_axes (length vs - length dst + 1) (vals vs).
Proof.
  intros Hw Hv HL Hd [H1 Hl] HA. rewrite to_values_ok in Hv by exact Hw. injection Hv as <-.
  unfold shape_construct. pose proof (values_length src Hw) as Lv.
  destruct (Nat.eqb_spec (length dst) (length (pdesc src))) as [He|Hne]; [lia|].
  destruct (Nat.ltb_spec (length (pdesc src)) (length dst)) as [Hlt|]; [lia|].
  rewrite (proj2 (same_axes_spec _ _)) by (rewrite implicit_axes_eq; exact HA).
  rewrite to_values_ok by exact Hw. cbn [bind].
  destruct (compress_ok (length dst) (values src) HL) as (cs & E & V & L & N); [lia|].
  rewrite E. cbn [bind]. rewrite convert_is_construct.
  destruct (construct_wide dbg dst cs Hd N L) as (p & vs' & E' & D & W & V' & X & L').
  exists p, vs'. rewrite X, V. auto 10.
Qed.

Lemma merge_axes_ones k ns : ns <> [] -> merge_axes (k + 1) (repeat 1 k ++ ns) = ns.
Proof.
  intros Hne. destruct ns as [|n ns]; [congruence|].
  unfold merge_axes. rewrite Nat.add_1_r.
  assert (E1 : firstn (S k) (repeat 1 k ++ n :: ns) = repeat 1 k ++ [n]).
  { rewrite firstn_app, repeat_length. replace (S k - k)%nat with 1%nat by lia.
    rewrite firstn_all2 by (rewrite repeat_length; lia). reflexivity. }
  assert (E2 : skipn (S k) (repeat 1 k ++ n :: ns) = ns).
  { rewrite skipn_app, repeat_length. replace (S k - k)%nat with 1%nat by lia.
    rewrite skipn_all2 by (rewrite repeat_length; lia). reflexivity. }
  rewrite E1, E2, prod_app, prod_ones. f_equal. unfold prod. cbn [fold_right]. lia.
Qed.

(** Which conversions to run-time axes compile. *)
Lemma wide_runtime dst : Forall wide_axis dst -> all_runtime dst.
Proof. intros H. eapply Forall_impl; [|exact H]. intros d [R _]. exact R. Qed.

Lemma runtime_compatible dst src : all_runtime dst -> length dst = length src -> is_compatible dst src = true.
Proof.
  intros R L. apply compatible_iff; [exact L|]. intros i x y c c' Hx _ Hc _.
  pose proof (nth_error_In _ _ Hx) as HI. exfalso. exact (proj1 (Forall_forall _ _) R x HI c Hc).
Qed.

Lemma constructible_runtime dst src : all_runtime dst ->
  is_contructible_from dst src = true <->
  ((length src <= length dst)%nat -> map aid (skipn (length dst - length src) dst) = map aid src).
Proof.
  intros R. unfold is_contructible_from.
  destruct (Nat.eqb_spec (length dst) (length src)) as [He|Hne].
  - rewrite He, Nat.sub_diag. cbn [skipn]. rewrite (runtime_compatible dst src R He), andb_true_r, equivalent_iff.
    split; [intros H _; exact H|intros H; apply H; lia].
  - destruct (Nat.ltb_spec (length src) (length dst)) as [Hlt|Hge].
    + rewrite runtime_compatible, andb_true_r, equivalent_iff.
      * split; [intros H _; exact H|intros H; apply H; lia].
      * rewrite <- (firstn_skipn (length dst - length src) dst) in R. apply Forall_app in R. exact (proj2 R).
      * rewrite skipn_length. lia.
    + rewrite fully_dynamic_nb, (all_runtime_nb dst R), Nat.eqb_refl. split; [lia|reflexivity].
Qed.

Lemma shape_convert_fit dbg dst src : all_runtime dst -> axes_fit dst (pdesc src) ->
  shape_convert dbg dst src = shape_construct dbg dst src.
Proof.
  intros R F. unfold shape_convert. rewrite (proj2 (constructible_runtime dst (pdesc src) R)); [reflexivity|].
  intros L. unfold axes_fit in F. rewrite (proj2 (Nat.leb_le _ _) L) in F. exact F.
Qed.

Lemma shape_convert_unfit dbg dst src : all_runtime dst -> ~ axes_fit dst (pdesc src) ->
  shape_convert dbg dst src = UB.
Proof.
  intros R F. unfold shape_convert.
  destruct (is_contructible_from dst (pdesc src)) eqn:E; [|reflexivity].
  pose proof (proj1 (constructible_runtime dst (pdesc src) R) E) as E'. unfold axes_fit in F.
  destruct (Nat.leb_spec (length (pdesc src)) (length dst)) as [L|L]; [contradiction (F (E' L))|].
  unfold shape_construct.
  destruct (Nat.eqb_spec (length dst) (length (pdesc src))); [lia|].
  destruct (Nat.ltb_spec (length (pdesc src)) (length dst)); [lia|].
  destruct (same_axes (map aid dst) (implicit_axes (length dst))) eqn:A; [|reflexivity].
  apply same_axes_spec in A. rewrite implicit_axes_eq in A. contradiction.
Qed.

Lemma roundtrip_l dbg dst back src vs : wfp src -> to_values src = Ok vs -> legal vs -> vs <> [] ->
  Forall wide_axis dst -> Forall wide_axis back -> (length vs <= length dst)%nat ->
  length back = length vs -> axes_fit dst (pdesc src) -> axes_fit back dst ->
  exists p q vs', shape_convert dbg dst src = Ok p /\ shape_convert dbg back p = Ok q /\
    to_values q = Ok vs' /\ vals vs' = vals vs.
Proof.
  intros Hw Hv HL Hne Hd Hb Hl Hbl F1 F2.
  rewrite (shape_convert_fit dbg dst src (wide_runtime _ Hd) F1).
  destruct (widen_l dbg dst src vs Hw Hv HL Hd Hl) as (p & vp & E & W & D & V & L & X).
  assert (Lp : length vp = length dst).
  { rewrite <- (vals_length vp), X, app_length, repeat_length, vals_length. lia. }
  assert (1 <= length vs)%nat by (destruct vs; [congruence|simpl; lia]).
  rewrite <- D in F2. pose proof (shape_convert_fit dbg back p (wide_runtime _ Hb) F2) as EB.
  destruct (Nat.eq_dec (length dst) (length vs)) as [He|Hn].
  - destruct (widen_l dbg back p vp W V L Hb ltac:(lia)) as (q & vq & E' & W' & D' & V' & L' & X').
    exists p, q, vq. split; [exact E|]. split; [rewrite EB; exact E'|]. split; [exact V'|].
    rewrite X', X, Lp, Hbl, He, Nat.sub_diag. reflexivity.
  - assert (HA : map aid back = unnamed_axes (length back)).
    { unfold axes_fit in F2. destruct (Nat.leb_spec (length (pdesc p)) (length back)) as [Hx|]; [|exact F2].
      rewrite D in Hx. lia. }
    destruct (narrow_l dbg back p vp W V L Hb ltac:(lia) HA) as (q & vq & E' & W' & D' & V' & L' & X').
    exists p, q, vq. split; [exact E|]. split; [rewrite EB; exact E'|]. split; [exact V'|].
    rewrite X', X, Lp, Hbl. apply merge_axes_ones. intros C.
    apply (f_equal (@length Z)) in C. rewrite vals_length in C. simpl in C. lia.
Qed.

(** The converted shape compares equal to its source. *)
Lemma widened_equal vs' vs k : legal vs' -> legal vs -> vs <> [] ->
  vals vs' = repeat 1 k ++ vals vs -> shape_eq vs' vs = Ok true /\ prod (vals vs') = prod (vals vs).
Proof.
  intros L' L Hne X. split.
  - assert (Ne' : vs' <> []).
    { intros ->. cbn in X. symmetry in X. apply app_eq_nil in X. destruct X as [_ X].
      destruct vs; [congruence|discriminate]. }
    destruct (shape_eq_ok vs' vs L' L Ne' Hne) as (r & Hr & Hi). rewrite Hr. f_equal. apply Hi.
    assert (Lw : length vs' = (k + length vs)%nat).
    { rewrite <- (vals_length vs'), X, app_length, repeat_length, vals_length. reflexivity. }
    rewrite Nat.min_r by lia. rewrite Nat.sub_diag, Lw, X. cbn [Nat.add].
    replace (k + length vs - length vs + 1)%nat with (k + 1)%nat by lia.
    assert (Hv : vals vs <> []) by (destruct vs; [congruence|discriminate]).
    rewrite merge_axes_ones, merge_axes_1 by exact Hv. reflexivity.
  - rewrite X, prod_app, prod_ones. lia.
Qed.

Lemma narrowed_equal vs' vs n : legal vs' -> legal vs -> vs <> [] -> (1 <= n < length vs)%nat ->
  vals vs' = merge_axes (length vs - n + 1) (vals vs) ->
  shape_eq vs' vs = Ok true /\ prod (vals vs') = prod (vals vs).
Proof.
  intros L' L Hne Hn X. split.
  - assert (Ne' : vs' <> []) by (intros ->; discriminate X).
    destruct (shape_eq_ok vs' vs L' L Ne' Hne) as (r & Hr & Hi). rewrite Hr. f_equal. apply Hi.
    assert (Lw : length vs' = n).
    { rewrite <- (vals_length vs'), X. unfold merge_axes. cbn [length].
      rewrite skipn_length, vals_length. lia. }
    rewrite Nat.min_l by lia. rewrite Lw, Nat.sub_diag. cbn [Nat.add].
    rewrite merge_axes_1; [exact X|]. rewrite X. discriminate.
  - rewrite X. apply merge_axes_prod.
Qed.

Lemma convert_order_l dbg dst src vs : wfp src -> to_values src = Ok vs -> legal vs -> vs <> [] ->
  Forall wide_axis dst -> dst <> [] -> axes_fit dst (pdesc src) ->
  exists p vs', shape_convert dbg dst src = Ok p /\ wfp p /\ pdesc p = dst /\ to_values p = Ok vs' /\
    legal vs' /\ shape_eq vs' vs = Ok true /\ prod (vals vs') = prod (vals vs) /\
    vals vs' = (if (length vs <=? length dst)%nat
                then repeat 1 (length dst - length vs) ++ vals vs
                else merge_axes (length vs - length dst + 1) (vals vs)).
Proof.
  intros Hw Hv HL Hne Hd Hdne F. rewrite (shape_convert_fit dbg dst src (wide_runtime _ Hd) F).
  assert (1 <= length dst)%nat by (destruct dst; [congruence|simpl; lia]).
  destruct (Nat.leb_spec (length vs) (length dst)) as [Hl|Hl].
  - destruct (widen_l dbg dst src vs Hw Hv HL Hd Hl) as (p & vp & E & W & D & V & L & X).
    destruct (widened_equal vp vs _ L HL Hne X) as [Q1 Q2]. exists p, vp. auto 10.
  - assert (HA : map aid dst = unnamed_axes (length dst)).
    { unfold axes_fit in F. rewrite to_values_ok in Hv by exact Hw. injection Hv as <-.
      rewrite (values_length src Hw) in Hl.
      destruct (Nat.leb_spec (length (pdesc src)) (length dst)); [lia|exact F]. }
    destruct (narrow_l dbg dst src vs Hw Hv HL Hd ltac:(lia) HA) as (p & vp & E & W & D & V & L & X).
    destruct (narrowed_equal vp vs (length dst) L HL Hne ltac:(lia) X) as [Q1 Q2]. exists p, vp. auto 10.
Qed.

(** The duplicate-axis check. *)
Lemma has_duplicate_iff_l ds : has_duplicate ds = false <-> distinct_axes ds.
Proof.
  unfold distinct_axes. induction ds as [|d ds IH]; cbn [has_duplicate map].
  - split; [constructor|reflexivity].
  - rewrite orb_false_iff, IH. split.
    + intros [H1 H2]. constructor; [|exact H2]. intros Hin. apply in_map_iff in Hin.
      destruct Hin as (e & He & Hin). apply not_true_iff_false in H1. apply H1, existsb_exists.
      exists e. split; [exact Hin|]. apply axis_id_eqb_spec. congruence.
    + intros H. inversion H as [|x l Hx Hl]; subst. split; [|exact Hl].
      apply not_true_is_false. intros E. apply existsb_exists in E. destruct E as (e & Hin & E).
      apply axis_id_eqb_spec in E. apply Hx. rewrite E. apply in_map, Hin.
Qed.

Lemma normalize_aid cs : forall i n, map aid (normalize_from i n (map (fun c => (None, c)) cs))
  = map (fun k => implicit (n - 1 - k)) (zrange i (length cs)).
Proof.
  induction cs as [|c cs IH]; intros i n; [reflexivity|].
  cbn [map normalize_from length zrange aid]. rewrite IH. reflexivity.
Qed.

Lemma implicit_axes_distinct_l cs : distinct_axes (normalize (map (fun c => (None, c)) cs)).
Proof.
  unfold distinct_axes, normalize. rewrite normalize_aid.
  apply FinFun.Injective_map_NoDup; [|apply zrange_NoDup].
  intros x y [= H]. lia.
Qed.
