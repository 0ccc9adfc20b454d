(** Extents of user types: names, numbers, of_size. *)
From Coq Require Import ZArith String List Bool Lia Permutation.
From Verif Require Import Outcome CInt CIntFacts ShapeSpec Shape Prefilled PrefilledSpec PrefilledFacts PrefilledFacts2 PrefilledFacts3
  NamedSize NamedSizeSpec Extension ExtensionSpec ExtensionFacts.
Import ListNotations.
Open Scope Z_scope.

Section Own.
Context {X : Type} (c : custom X).

(** *** Named values *)
Definition std_named (def : cint) (ds : list desc) (o : axis_id * xextent X) : axis_id * extent :=
  (fst o, match nth_error ds (find_axis ds (fst o)) with Some d => std c def d (snd o) | None => EJoker end).

Lemma std_named_fst def ds os : map fst (map (std_named def ds) os) = map fst os.
Proof. rewrite map_map. reflexivity. Qed.

Lemma fold_std dbg def ds os : Forall wf_desc ds -> incl (map fst os) (map aid ds) ->
  forallb (xnamed_compiles c dbg ds) os = true -> forall p, pdesc p = ds -> wfp p ->
  kfold_right (fun p o => xconstruct_axis c dbg def (find_axis (pdesc p) (fst o)) (snd o) p) os p =
  kfold_right (construct_named_one dbg def) (map (std_named def ds) os) p.
Proof.
  intros Wd. induction os as [|[a v] os IH]; intros Hin Hc p Hp W; [reflexivity|].
  cbn [map fst forallb] in *. apply andb_true_iff in Hc. destruct Hc as [C1 C2].
  destruct (find_axis_spec ds a (Hin a (or_introl eq_refl))) as (d & Hd & Ha).
  cbn [kfold_right]. unfold construct_named_one at 1. cbn [fst snd std_named]. unfold std_named. cbn [fst snd]. rewrite Hp, Hd.
  unfold xnamed_compiles in C1. cbn [fst snd] in C1. rewrite Hd in C1.
  assert (Wf : wf_desc d) by (rewrite Forall_forall in Wd; apply Wd; eapply nth_error_In, Hd).
  assert (Hd' : nth_error (pdesc p) (find_axis ds a) = Some d) by (rewrite Hp; exact Hd).
  rewrite (axis_std c dbg def _ v p d W Hd' Wf C1).
  destruct (construct_axis_ok dbg def _ (std c def d v) p d W Hd') as [A B].
  destruct (dbg && contradictsb d (std c def d v)).
  - rewrite (A eq_refl). reflexivity.
  - destruct (B eq_refl) as (p' & E & Hp' & W' & _). rewrite E. cbn [bind].
    apply IH; [intros x Hx; apply Hin; right; exact Hx|exact C2|congruence|exact W'].
Qed.

Lemma runtime_nb ds : (exists d, In d ds /\ runtime d) <-> is_fully_static ds = false.
Proof.
  rewrite fully_static_nb, Nat.eqb_neq. split.
  - intros (d & Hd & Hr) H. destruct (static_all ds H d Hd) as [s Hs]. apply (Hr _ Hs).
  - intros H. induction ds as [|d ds IH]; [exfalso; apply H; reflexivity|]. cbn [nb_runtime] in H.
    destruct (acont d) as [| t | s] eqn:E.
    + exists d. split; [left; reflexivity|]. intros s. congruence.
    + exists d. split; [left; reflexivity|]. intros s. congruence.
    + destruct (IH H) as (e & He & Hr). exists e. split; [right; exact He|exact Hr].
Qed.

Lemma accepted_named_iff dbg ds os : distinct_axes ds -> incl (map fst os) (map aid ds) ->
  (accepted_named c dbg ds os <-> is_fully_static ds || forallb (xnamed_compiles c dbg ds) os = true).
Proof.
  intros Hds Hin. unfold accepted_named. rewrite runtime_nb. destruct (is_fully_static ds); cbn [orb].
  - split; [reflexivity|discriminate].
  - rewrite forallb_forall. split.
    + intros H [a v] Ho. unfold xnamed_compiles. cbn [fst snd].
      destruct (find_axis_spec ds a) as (d & Hd & Ha). { apply Hin. apply (in_map fst _ _ Ho). }
      rewrite Hd. apply supports_compiles. apply (H eq_refl); [eapply nth_error_In, Hd|subst a; exact Ho].
    + intros H _ d v Hd Ho. specialize (H _ Ho). unfold xnamed_compiles in H. cbn [fst snd] in H.
      apply In_nth_error in Hd. destruct Hd as [i Hi]. rewrite (find_axis_unique ds i d Hds Hi), Hi in H.
      apply supports_compiles, H.
Qed.

Lemma xnamed_std dbg ds def os : Forall wf_desc ds -> distinct_axes ds -> incl (map fst os) (map aid ds) ->
  accepted_named c dbg ds os ->
  xconstruct_named c dbg ds def os = pconstruct_named dbg ds def (map (std_named def ds) os).
Proof.
  intros Wd Hds Hin Ha. apply (accepted_named_iff dbg ds os Hds Hin) in Ha.
  unfold xconstruct_named, pconstruct_named. destruct (is_fully_static ds); [reflexivity|]. cbn [orb] in Ha. rewrite Ha.
  apply fold_std; [exact Wd|exact Hin|exact Ha|reflexivity|apply pdefault_wfp].
Qed.

Lemma In_std_named def ds os d v : distinct_axes ds -> In d ds -> In (aid d, v) os ->
  In (aid d, std c def d v) (map (std_named def ds) os).
Proof.
  intros Hds Hd Ho. apply in_map_iff. exists (aid d, v). split; [|exact Ho]. unfold std_named. cbn [fst snd].
  apply In_nth_error in Hd. destruct Hd as [i Hi]. rewrite (find_axis_unique ds i d Hds Hi), Hi. reflexivity.
Qed.

Lemma named_total dbg ds def os : Forall sane_desc ds -> distinct_axes ds -> NoDup (map fst os) ->
  incl (map fst os) (map aid ds) -> accepted_named c dbg ds os ->
  (exists p, xconstruct_named c dbg ds def os = Ok p /\ pdesc p = ds /\ wfp p /\
     (forall d v, In d ds -> In (aid d, v) os -> exists r, pget_axis p (aid d) = Ok r /\ holds c def d v r) /\
     (forall d, In d ds -> runtime d -> ~ In (aid d) (map fst os) -> pget_axis p (aid d) = Ok (CI (axis_type d) 0))) \/
  (dbg = true /\ xconstruct_named c dbg ds def os = Abort).
Proof.
  intros Sd Hds Hn Hin Ha. rewrite (xnamed_std dbg ds def os (sane_wf ds Sd) Hds Hin Ha).
  pose proof (std_named_fst def ds os) as F.
  assert (Hn' : NoDup (map fst (map (std_named def ds) os))) by (rewrite F; exact Hn).
  assert (Hin' : incl (map fst (map (std_named def ds) os)) (map aid ds)) by (rewrite F; exact Hin).
  destruct (named_total_l dbg ds def _ Hds Hn' Hin') as [(p & E & D & W)|[E1 E2]]; [left|right; auto].
  exists p. split; [exact E|]. split; [exact D|]. split; [exact W|].
  destruct (named_reads_back_l dbg ds def _ p Hds Hn' Hin' E) as [R1 R2]. split.
  - intros d v Hd Ho. exists (expected def d (std c def d v)). split; [apply R1; [exact Hd|apply In_std_named; assumption]|].
    destruct (is_dynamic d) eqn:Dy.
    + apply (std_holds c dbg). apply supports_compiles. apply Ha; [|exact Hd|exact Ho].
      exists d. split; [exact Hd|apply is_dynamic_runtime; exact Dy].
    + unfold is_dynamic in Dy. unfold holds, expected. destruct (acont d); [discriminate..|reflexivity].
  - intros d Hd Hr Hno. apply R2; [exact Hd|exact Hr|rewrite F; exact Hno].
Qed.

Lemma named_abort ds def os : Forall sane_desc ds -> Forall (fun o => sane_given (snd o)) os -> distinct_axes ds ->
  NoDup (map fst os) -> incl (map fst os) (map aid ds) -> (exists d, In d ds /\ runtime d) ->
  accepted_named c true ds os ->
  (xconstruct_named c true ds def os = Abort <-> exists d v, In d ds /\ In (aid d, v) os /\ denies c d v).
Proof.
  intros Sd Sv Hds Hn Hin Hr Ha. pose proof (sane_wf ds Sd) as Wd. rewrite (xnamed_std true ds def os Wd Hds Hin Ha).
  pose proof (std_named_fst def ds os) as F.
  assert (Hn' : NoDup (map fst (map (std_named def ds) os))) by (rewrite F; exact Hn).
  assert (Hin' : incl (map fst (map (std_named def ds) os)) (map aid ds)) by (rewrite F; exact Hin).
  unfold pconstruct_named. rewrite (proj1 (runtime_nb ds) Hr).
  destruct (construct_named_ok true def ds Hds _ (pdefault ds) eq_refl (pdefault_wfp ds) Hn' Hin') as [A1 A2].
  cbn [andb] in *.
  assert (HC : named_clash ds (map (std_named def ds) os) = true <-> exists d v, In d ds /\ In (aid d, v) os /\ denies c d v).
  { assert (G : forall d v, In d ds -> In (aid d, v) os -> (contradictsb d (std c def d v) = true <-> denies c d v)).
    { intros d v Hd Ho. apply std_denies.
      - apply (proj1 (Forall_forall _ _) Sd d Hd).
      - apply (proj1 (Forall_forall _ _) Wd d Hd).
      - apply (proj1 (Forall_forall _ _) Sv _ Ho).
      - apply supports_compiles. apply (Ha Hr d v Hd Ho). }
    unfold named_clash. rewrite existsb_exists. split.
    - intros (o' & Ho & H). apply in_map_iff in Ho. destruct Ho as ([a v] & <- & Ho).
      apply existsb_exists in H. destruct H as (d & Hd & H).
      apply andb_true_iff in H. destruct H as [H1 H2]. unfold std_named in H1, H2. cbn [fst snd] in *.
      apply axis_id_eqb_spec in H1. subst a. exists d, v. split; [exact Hd|]. split; [exact Ho|].
      apply G; [exact Hd|exact Ho|].
      destruct (In_nth_error _ _ Hd) as [i Hi]. rewrite (find_axis_unique ds i d Hds Hi), Hi in H2. exact H2.
    - intros (d & v & Hd & Ho & H). exists (aid d, std c def d v). split; [apply In_std_named; assumption|].
      apply existsb_exists. exists d. split; [exact Hd|]. cbn [fst snd]. rewrite axis_id_eqb_refl.
      apply (G d v Hd Ho) in H. rewrite H. reflexivity. }
  rewrite <- HC. destruct (named_clash ds _).
  - split; [reflexivity|intros _; apply A1; reflexivity].
  - destruct (A2 eq_refl) as (p & H1 & _). rewrite H1. split; discriminate.
Qed.

Lemma named_rejected dbg ds def os : Forall sane_desc ds -> distinct_axes ds -> NoDup (map fst os) ->
  incl (map fst os) (map aid ds) ->
  (xconstruct_named c dbg ds def os = UB <-> ~ accepted_named c dbg ds os).
Proof.
  intros Sd Hds Hn Hin. split.
  - intros H Ha. destruct (named_total dbg ds def os Sd Hds Hn Hin Ha) as [(p & E & _)|[_ E]]; congruence.
  - intros H. unfold xconstruct_named. rewrite (accepted_named_iff dbg ds os Hds Hin) in H.
    destruct (is_fully_static ds); [exfalso; apply H; reflexivity|]. cbn [orb] in H.
    destruct (forallb (xnamed_compiles c dbg ds) os); [exfalso; apply H; reflexivity|reflexivity].
Qed.

Lemma named_order dbg ds def os os' : Forall sane_desc ds -> distinct_axes ds -> NoDup (map fst os) ->
  incl (map fst os) (map aid ds) -> Permutation os os' ->
  xconstruct_named c dbg ds def os = xconstruct_named c dbg ds def os'.
Proof.
  intros Sd Hds Hn Hin HP.
  assert (Hn' : NoDup (map fst os')) by (apply (Permutation_NoDup (Permutation_map fst HP) Hn)).
  assert (Hin' : incl (map fst os') (map aid ds)).
  { intros a H. apply Hin. apply (Permutation_in a (Permutation_sym (Permutation_map fst HP))), H. }
  assert (HA : accepted_named c dbg ds os <-> accepted_named c dbg ds os').
  { unfold accepted_named. split; intros H Hr d v Hd Ho; apply (H Hr d v Hd).
    - apply (Permutation_in _ (Permutation_sym HP) Ho).
    - apply (Permutation_in _ HP Ho). }
  pose proof (accepted_named_iff dbg ds os Hds Hin) as D.
  destruct (is_fully_static ds || forallb (xnamed_compiles c dbg ds) os) eqn:E.
  - assert (Ha : accepted_named c dbg ds os) by (apply D; reflexivity).
    rewrite (xnamed_std dbg ds def os (sane_wf ds Sd) Hds Hin Ha).
    rewrite (xnamed_std dbg ds def os' (sane_wf ds Sd) Hds Hin' (proj1 HA Ha)).
    apply named_permutation_l; [exact Hds|rewrite std_named_fst; exact Hn|rewrite std_named_fst; exact Hin|].
    apply Permutation_map, HP.
  - assert (Ha : ~ accepted_named c dbg ds os) by (intros H; apply D in H; discriminate).
    rewrite (proj2 (named_rejected dbg ds def os Sd Hds Hn Hin) Ha). symmetry.
    apply (named_rejected dbg ds def os' Sd Hds Hn' Hin'). tauto.
Qed.

(** *** Types that behave as numbers *)
Lemma axis_numbers num dbg def i v p d : behaves_as c num -> wfp p -> nth_error (pdesc p) i = Some d ->
  xconstruct_axis c dbg def i v p = construct_axis dbg def i (as_numbers num v) p.
Proof.
  intros (f & q & Ef & Eq & Hf & Hq) W Hd. unfold xconstruct_axis, construct_axis, xdimension, xagrees.
  rewrite (pcontains_ok _ _ _ Hd). cbn [bind]. unfold is_dynamic. destruct (acont d) as [| t | s] eqn:E.
  - destruct v as [e|x]; [reflexivity|]. rewrite Ef. cbn [bind as_numbers as_dimension]. rewrite Hf. reflexivity.
  - destruct v as [e|x]; [reflexivity|]. rewrite Ef. cbn [bind as_numbers as_dimension]. rewrite Hf. reflexivity.
  - rewrite (pget_ok p i) by exact W. rewrite (nth_static p i d s W Hd E). cbn [bind].
    destruct v as [e|x]; cbn [as_numbers].
    + destruct (ext_is_joker e); reflexivity.
    + rewrite Eq, Hq. reflexivity.
Qed.

Lemma axis_numbers_keeps num dbg def i v p d p' : behaves_as c num -> wfp p -> nth_error (pdesc p) i = Some d ->
  construct_axis dbg def i (as_numbers num v) p = Ok p' -> wfp p' /\ pdesc p' = pdesc p.
Proof.
  intros Hb W Hd H. destruct (construct_axis_ok dbg def i (as_numbers num v) p d W Hd) as [A B].
  destruct (dbg && contradictsb d (as_numbers num v)); [rewrite (A eq_refl) in H; discriminate|].
  destruct (B eq_refl) as (q & E & D & W' & _). rewrite H in E. injection E as <-. auto.
Qed.

Lemma from_numbers num dbg def vs : behaves_as c num -> forall i p, wfp p -> (i + length vs = length (pdesc p))%nat ->
  xconstruct_from c dbg def i vs p = construct_from dbg def i (map (as_numbers num) vs) p.
Proof.
  intros Hb. induction vs as [|v vs IH]; intros i p W Hl; [reflexivity|]. cbn [length] in Hl.
  destruct (nth_error (pdesc p) i) as [d|] eqn:Hd; [|apply nth_error_None in Hd; lia].
  cbn [xconstruct_from construct_from map]. rewrite (axis_numbers num dbg def i v p d Hb W Hd).
  destruct (construct_axis dbg def i (as_numbers num v) p) as [p'| | |] eqn:E; [|reflexivity..]. cbn [bind].
  destruct (axis_numbers_keeps num dbg def i v p d p' Hb W Hd E) as [W' D]. apply IH; [exact W'|rewrite D; lia].
Qed.

Lemma behaves_compiles num dbg d v : behaves_as c num -> xcompiles c dbg d v = true.
Proof.
  intros (f & q & Ef & Eq & _). unfold xcompiles. destruct v; [reflexivity|]. rewrite Ef, Eq.
  destruct (is_dynamic d); [reflexivity|apply orb_true_r].
Qed.

Lemma forallb_all {A} (f : A -> bool) l : (forall x, f x = true) -> forallb f l = true.
Proof. intros H. apply forallb_forall. auto. Qed.

Lemma map_repeat {A B} (f : A -> B) x n : map f (repeat x n) = repeat (f x) n.
Proof. induction n; cbn; congruence. Qed.

Lemma numbers_l num dbg ds def vs : behaves_as c num -> x_size c = true ->
  xconstruct c dbg ds def vs = pconstruct dbg ds def (map (as_numbers num) vs).
Proof.
  intros Hb Hs. unfold xconstruct, pconstruct. rewrite map_length, Hs. cbn [orb].
  rewrite (forallb_all (fun p => xcompiles c dbg (fst p) (snd p))) by (intros x; apply (behaves_compiles num), Hb).
  rewrite !andb_true_r. destruct (Nat.leb_spec (length vs) (length ds)) as [Hl|]; [|reflexivity].
  rewrite (from_numbers num dbg def _ Hb 0 (pdefault ds) (pdefault_wfp ds)).
  - rewrite map_app, map_repeat. reflexivity.
  - cbn [pdesc pdefault]. rewrite app_length, repeat_length. lia.
Qed.

Lemma numbers_named_l num dbg ds def os : behaves_as c num -> incl (map fst os) (map aid ds) ->
  xconstruct_named c dbg ds def os = pconstruct_named dbg ds def (map (fun o => (fst o, as_numbers num (snd o))) os).
Proof.
  intros Hb Hin. unfold xconstruct_named, pconstruct_named. destruct (is_fully_static ds); [reflexivity|].
  assert (HC : forallb (xnamed_compiles c dbg ds) os = true).
  { apply forallb_forall. intros [a v] Ho. unfold xnamed_compiles. cbn [fst snd].
    destruct (find_axis_spec ds a) as (d & Hd & _); [apply Hin, (in_map fst _ _ Ho)|].
    rewrite Hd. apply (behaves_compiles num), Hb. }
  rewrite HC. clear HC.
  assert (G : forall p, pdesc p = ds -> wfp p ->
    kfold_right (fun p o => xconstruct_axis c dbg def (find_axis (pdesc p) (fst o)) (snd o) p) os p =
    kfold_right (construct_named_one dbg def) (map (fun o => (fst o, as_numbers num (snd o))) os) p).
  { induction os as [|[a v] os IH]; intros p Hp W; [reflexivity|]. cbn [map fst snd kfold_right].
    unfold construct_named_one at 1. cbn [fst snd].
    destruct (find_axis_spec ds a (Hin a (or_introl eq_refl))) as (d & Hd & _).
    assert (Hd' : nth_error (pdesc p) (find_axis (pdesc p) a) = Some d) by (rewrite Hp; exact Hd).
    rewrite (axis_numbers num dbg def _ v p d Hb W Hd').
    destruct (construct_axis dbg def _ (as_numbers num v) p) as [p'| | |] eqn:E; [|reflexivity..]. cbn [bind].
    destruct (axis_numbers_keeps num dbg def _ v p d p' Hb W Hd' E) as [W' D].
    apply IH; [intros x Hx; apply Hin; right; exact Hx|congruence|exact W']. }
  apply G; [reflexivity|apply pdefault_wfp].
Qed.

(** *** of_size *)
Lemma descriptors_none vs x : x_desc c = None -> In (Own x) vs -> xdescriptors c vs = None.
Proof.
  intros H. induction vs as [|v vs IH]; intros []; cbn [xdescriptors].
  - subst v. cbn [xdescriptor]. rewrite H. reflexivity.
  - rewrite (IH H0). destruct (xdescriptor c v); reflexivity.
Qed.

Lemma descriptors_nth vs : forall ds, xdescriptors c vs = Some ds -> length ds = length vs /\
  forall i v, nth_error vs i = Some v -> exists k, xdescriptor c v = Some k /\ nth_error ds i = Some k.
Proof.
  induction vs as [|v vs IH]; intros ds H; cbn [xdescriptors] in H.
  - injection H as <-. split; [reflexivity|]. intros [|i] v H; discriminate.
  - destruct (xdescriptor c v) as [k|] eqn:E; [|discriminate]. destruct (xdescriptors c vs) as [l|]; [|discriminate].
    injection H as <-. destruct (IH l eq_refl) as [I1 I2]. split; [cbn; congruence|].
    intros [|i] w Hw; cbn in Hw |- *; [injection Hw as <-; eauto|apply I2, Hw].
Qed.

Lemma normalize_from_nth l : forall i sz j k, nth_error l j = Some k -> exists d, nth_error (normalize_from i sz l) j = Some d /\
  acont d = snd k /\ (forall a, fst k = Some a -> aid d = a).
Proof.
  induction l as [|[o ct] l IH]; intros i sz [|j] k H; try discriminate; cbn in H |- *.
  - injection H as <-. eexists. split; [reflexivity|]. cbn. split; [reflexivity|]. intros a ->. reflexivity.
  - apply IH, H.
Qed.

Lemma normalize_from_length l : forall i sz, length (normalize_from i sz l) = length l.
Proof. induction l as [|[o ct] l IH]; intros i sz; [reflexivity|]. cbn. rewrite IH. reflexivity. Qed.

Lemma padded_full ds (vs : list (xextent X)) : length ds = length vs -> padded ds vs = vs.
Proof. intros H. unfold padded. rewrite H, Nat.sub_diag. reflexivity. Qed.

Lemma wfc_conv v : wfc v -> conv (cty v) v = v.
Proof. intros H. unfold conv. rewrite cast_id by exact H. destruct v; reflexivity. Qed.

Lemma build_gives dbg def vs a k p : Forall wf_given vs -> (forall s, k = CStatic s -> wfc s) ->
  x_desc c = Some (a, k) -> xbuild c dbg def vs = Ok p ->
  (forall i v, nth_error vs i = Some v -> exists r, pget p i = Ok r /\ sized c def k v r) /\
  length (pdesc p) = length vs /\
  (forall i x d n, nth_error vs i = Some (Own x) -> nth_error (pdesc p) i = Some d -> a = Some n -> aid d = n).
Proof.
  intros Wv Wk Hk. unfold xbuild. destruct (xdescriptors c vs) as [l|] eqn:E; [|discriminate]. intros H.
  destruct (descriptors_nth vs l E) as [L N].
  assert (LN : length (normalize l) = length vs) by (unfold normalize; rewrite normalize_from_length; exact L).
  assert (Wd : Forall wf_desc (normalize l)).
  { apply Forall_forall. intros d Hd. apply In_nth_error in Hd. destruct Hd as [i Hi].
    destruct (nth_error vs i) as [v|] eqn:Hv.
    - destruct (N i v Hv) as (k' & K1 & K2). destruct (normalize_from_nth l 0 (Z.of_nat (length l)) i k' K2) as (d' & D1 & D2 & _).
      unfold normalize in Hi. rewrite Hi in D1. injection D1 as <-. unfold wf_desc. rewrite D2.
      rewrite Forall_forall in Wv. pose proof (Wv v (nth_error_In _ _ Hv)) as Ww.
      destruct v as [e|x]; cbn [xdescriptor] in K1.
      + injection K1 as <-. cbn [snd]. destruct e; cbn; auto.
      + rewrite Hk in K1. injection K1 as <-. cbn [snd]. destruct k; auto.
    - apply nth_error_None in Hv. assert (nth_error (normalize l) i = None) by (apply nth_error_None; lia). congruence. }
  assert (Ha : accepted c dbg (normalize l) vs).
  { apply accepted_iff. unfold xconstruct in H. fold (padded (normalize l) vs) in H.
    match goal with |- ?b = true => destruct b; [reflexivity|discriminate] end. }
  rewrite (xconstruct_std c dbg (normalize l) def vs Wd Ha) in H. rewrite (padded_full _ _ LN) in H.
  destruct (construct_full_ok dbg (normalize l) def _ (stds_length c def (normalize l) vs (eq_sym LN))) as [A B].
  destruct (dbg && clash (normalize l) (stds c def (normalize l) vs)); [rewrite (A eq_refl) in H; discriminate|].
  destruct (B eq_refl) as (p' & H1 & H2 & H3 & H4). rewrite H in H1. injection H1 as <-.
  split; [|split; [rewrite H2; exact LN|]].
  - intros i v Hv. destruct (N i v Hv) as (k' & K1 & K2).
    destruct (normalize_from_nth l 0 (Z.of_nat (length l)) i k' K2) as (d & D1 & D2 & _). fold (normalize l) in D1.
    exists (expected def d (std c def d v)). split.
    + rewrite pget_ok by exact H3. rewrite H4, (nth_map2 _ _ _ _ _ _ D1 (stds_nth c def _ _ i d v D1 Hv)). reflexivity.
    + assert (Hc : xcompiles c dbg d v = true).
      { apply (accepted_compiles c dbg (normalize l) vs i d v Ha D1). rewrite (padded_full _ _ LN). exact Hv. }
      rewrite Forall_forall in Wv. pose proof (Wv v (nth_error_In _ _ Hv)) as Ww.
      unfold sized, expected, std, xcompiles, is_dynamic, axis_type in *. rewrite D2 in *.
      destruct v as [e|x]; cbn [xdescriptor] in K1.
      * injection K1 as <-. cbn [snd]. destruct e as [|n|n]; cbn [to_descriptor]; [reflexivity| |reflexivity].
        apply wfc_conv, Ww.
      * rewrite Hk in K1. injection K1 as <-. cbn [snd] in *. destruct k as [| t | s]; [| |reflexivity].
        -- destruct (x_dim c) as [f|] eqn:F; [|discriminate]. exists f. auto.
        -- destruct (x_dim c) as [f|] eqn:F; [|discriminate]. exists f. auto.
  - intros i x d n Hv Hd Hn. destruct (N i _ Hv) as (k' & K1 & K2).
    destruct (normalize_from_nth l 0 (Z.of_nat (length l)) i k' K2) as (d' & D1 & D2 & D3). fold (normalize l) in D1.
    rewrite H2, D1 in Hd. injection Hd as <-. cbn [xdescriptor] in K1. rewrite Hk in K1. injection K1 as <-.
    apply D3. cbn [fst]. exact Hn.
Qed.

Lemma clash_nth ds : forall es, clash ds es = true <->
  exists i d e, nth_error ds i = Some d /\ nth_error es i = Some e /\ contradictsb d e = true.
Proof.
  induction ds as [|d ds IH]; intros [|e es]; cbn [clash].
  - split; [discriminate|]. intros ([|i] & d & e & H & _); discriminate.
  - split; [discriminate|]. intros ([|i] & d & e' & H & _); discriminate.
  - split; [discriminate|]. intros ([|i] & d' & e & _ & H & _); discriminate.
  - rewrite orb_true_iff, IH. split.
    + intros [H|(i & d' & e' & H)]; [exists O, d, e; auto|exists (S i), d', e'; exact H].
    + intros ([|i] & d' & e' & H1 & H2 & H3).
      * cbn in H1, H2. injection H1 as <-. injection H2 as <-. left; exact H3.
      * right. exists i, d', e'. auto.
Qed.

Lemma descriptors_some vs : x_desc c <> None -> exists l, xdescriptors c vs = Some l.
Proof.
  intros H. induction vs as [|v vs [l IH]]; [exists []; reflexivity|]. cbn [xdescriptors]. rewrite IH.
  destruct v as [e|x]; cbn [xdescriptor]; [eauto|]. destruct (x_desc c) as [k|]; [eauto|congruence].
Qed.

Lemma build_cases dbg def vs a k : Forall wf_given vs -> (forall s, k = CStatic s -> wfc s) ->
  x_size c = true -> x_desc c = Some (a, k) ->
  (forall x d, In (Own x) vs -> acont d = k -> xcompiles c dbg d (Own x) = true) ->
  (xbuild c dbg def vs = Abort /\ dbg = true /\
     exists s q x, k = CStatic s /\ x_eq c = Some q /\ In (Own x) vs /\ q x s = false) \/
  ((exists p, xbuild c dbg def vs = Ok p) /\
   forall s q x, dbg = true -> k = CStatic s -> x_eq c = Some q -> In (Own x) vs -> q x s = true).
Proof.
  intros Wv Wk Hs Hk HC. unfold xbuild.
  destruct (descriptors_some vs) as [l E]; [congruence|]. rewrite E.
  destruct (descriptors_nth vs l E) as [L N].
  assert (LN : length (normalize l) = length vs) by (unfold normalize; rewrite normalize_from_length; exact L).
  assert (G : forall i d v, nth_error (normalize l) i = Some d -> nth_error vs i = Some v ->
    match v with Std e => acont d = to_descriptor e | Own _ => acont d = k end).
  { intros i d v Hd Hv. destruct (N i v Hv) as (k' & K1 & K2).
    destruct (normalize_from_nth l 0 (Z.of_nat (length l)) i k' K2) as (d' & D1 & D2 & _).
    unfold normalize in Hd. rewrite Hd in D1. injection D1 as <-. rewrite D2. destruct v as [e|x]; cbn [xdescriptor] in K1.
    - injection K1 as <-. reflexivity.
    - rewrite Hk in K1. injection K1 as <-. reflexivity. }
  assert (Wd : Forall wf_desc (normalize l)).
  { apply Forall_forall. intros d Hd. apply In_nth_error in Hd. destruct Hd as [i Hi].
    destruct (nth_error vs i) as [v|] eqn:Hv.
    - specialize (G i d v Hi Hv). rewrite Forall_forall in Wv. pose proof (Wv v (nth_error_In _ _ Hv)) as Ww.
      unfold wf_desc. destruct v as [e|x]; rewrite G; [destruct e; cbn; auto|]. destruct k; auto.
    - apply nth_error_None in Hv. assert (nth_error (normalize l) i = None) by (apply nth_error_None; lia). congruence. }
  assert (Ha : accepted c dbg (normalize l) vs).
  { split; [lia|]. split; [auto|]. rewrite (padded_full _ _ LN). intros i d v Hd Hv. apply supports_compiles.
    specialize (G i d v Hd Hv). destruct v as [e|x]; [reflexivity|]. apply HC; [eapply nth_error_In, Hv|exact G]. }
  rewrite (xconstruct_std c dbg (normalize l) def vs Wd Ha). rewrite (padded_full _ _ LN).
  destruct (construct_full_ok dbg (normalize l) def _ (stds_length c def (normalize l) vs (eq_sym LN))) as [A B].
  destruct (dbg && clash (normalize l) (stds c def (normalize l) vs)) eqn:Eq.
  - left. apply andb_true_iff in Eq. destruct Eq as [E1 E2]. split; [apply A; reflexivity|]. split; [exact E1|].
    apply clash_nth in E2. destruct E2 as (i & d & e & Hd & He & Hx).
    destruct (nth_error vs i) as [v|] eqn:Hv.
    + rewrite (stds_nth c def _ _ i d v Hd Hv) in He. injection He as <-. specialize (G i d v Hd Hv).
      unfold contradictsb, std in Hx. destruct v as [e|x]; rewrite G in Hx.
      * destruct e; cbn in Hx; try discriminate. rewrite ceqb_refl in Hx. discriminate.
      * destruct k as [| t | s]; try discriminate. destruct (x_eq c) as [q|] eqn:Eq; [|discriminate].
        destruct (q x s) eqn:Qx; [discriminate|]. exists s, q, x. split; [reflexivity|]. split; [reflexivity|].
        split; [eapply nth_error_In, Hv|exact Qx].
    + apply nth_error_None in Hv. assert (nth_error (normalize l) i = None) by (apply nth_error_None; lia). congruence.
  - right. destruct (B eq_refl) as (p & H1 & _). split; [eauto|]. intros s q x -> -> Qe Hin. cbn [andb] in Eq.
    destruct (q x s) eqn:Qx; [reflexivity|]. exfalso. apply Bool.not_true_iff_false in Eq. apply Eq. apply clash_nth.
    apply In_nth_error in Hin. destruct Hin as [i Hv].
    destruct (nth_error (normalize l) i) as [d|] eqn:Hd; [|apply nth_error_None in Hd; assert (nth_error vs i = None) by (apply nth_error_None; lia); congruence].
    exists i, d, (std c def d (Own x)). split; [exact Hd|]. split; [apply stds_nth; assumption|].
    specialize (G i d _ Hd Hv). cbn beta iota in G. unfold contradictsb, std. rewrite G, Qe, Qx.
    rewrite (other_differs s (Wk s eq_refl)). reflexivity.
Qed.

Lemma build_runtime dbg def vs a k f : Forall wf_given vs -> (forall s, k <> CStatic s) ->
  x_size c = true -> x_desc c = Some (a, k) -> x_dim c = Some f -> exists p, xbuild c dbg def vs = Ok p.
Proof.
  intros Wv Wk Hs Hk Hf.
  destruct (build_cases dbg def vs a k Wv (fun s H => False_ind _ (Wk s H)) Hs Hk) as [(_ & _ & s & q & x & H & _)|[H _]].
  - intros x d _ Hd. unfold xcompiles, is_dynamic. rewrite Hd, Hf. destruct k; [reflexivity..|]. exfalso; apply (Wk _ eq_refl).
  - exfalso. apply (Wk _ H).
  - exact H.
Qed.

Lemma build_static_unchecked def vs a s : Forall wf_given vs -> wfc s -> x_size c = true ->
  x_desc c = Some (a, CStatic s) -> exists p, xbuild c false def vs = Ok p.
Proof.
  intros Wv Ws Hs Hk.
  destruct (build_cases false def vs a (CStatic s) Wv (fun s' H => match H in _ = k return match k with CStatic s' => wfc s' | _ => True end with eq_refl => Ws end) Hs Hk) as [(_ & H & _)|[H _]].
  - intros x d _ Hd. unfold xcompiles, is_dynamic. rewrite Hd. reflexivity.
  - discriminate.
  - exact H.
Qed.

Lemma build_static_checked def vs a s q : Forall wf_given vs -> wfc s -> x_size c = true ->
  x_desc c = Some (a, CStatic s) -> x_eq c = Some q ->
  ((forall x, In (Own x) vs -> q x s = true) <-> exists p, xbuild c true def vs = Ok p) /\
  ((exists x, In (Own x) vs /\ q x s = false) <-> xbuild c true def vs = Abort).
Proof.
  intros Wv Ws Hs Hk Hq.
  destruct (build_cases true def vs a (CStatic s) Wv (fun s' H => match H in _ = k return match k with CStatic s' => wfc s' | _ => True end with eq_refl => Ws end) Hs Hk)
    as [(E & _ & s' & q' & x & [= <-] & H1 & H2 & H3)|[[p E] H]].
  - intros x d _ Hd. unfold xcompiles, is_dynamic. rewrite Hd, Hq. reflexivity.
  - rewrite Hq in H1. injection H1 as <-. rewrite E. split; split.
    + intros G. rewrite (G x H2) in H3. discriminate.
    + intros [p G]. discriminate.
    + reflexivity.
    + intros _. exists x. auto.
  - rewrite E. split; split.
    + intros _. exists p. reflexivity.
    + intros _ x Hx. apply (H s q x eq_refl eq_refl Hq Hx).
    + intros (x & Hx & Hn). rewrite (H s q x eq_refl eq_refl Hq Hx) in Hn. discriminate.
    + discriminate.
Qed.

Lemma build_rejected dbg def vs x : In (Own x) vs ->
  x_size c = false \/ x_desc c = None \/
  (exists a k, x_desc c = Some (a, k) /\ (forall s, k <> CStatic s) /\ x_dim c = None) ->
  xbuild c dbg def vs = UB.
Proof.
  intros Hin H. unfold xbuild. destruct (xdescriptors c vs) as [l|] eqn:E; [|reflexivity].
  destruct (descriptors_nth vs l E) as [L N].
  assert (LN : length (normalize l) = length vs) by (unfold normalize; rewrite normalize_from_length; exact L).
  unfold xconstruct. fold (padded (normalize l) vs). rewrite (padded_full _ _ LN).
  destruct H as [H|[H|(a & k & H1 & H2 & H3)]].
  - rewrite H. assert (E' : existsb is_own vs = true) by (apply existsb_exists; exists (Own x); auto).
    rewrite E'. cbn [orb negb]. rewrite andb_false_r. reflexivity.
  - rewrite (descriptors_none vs x H Hin) in E. discriminate.
  - assert (F : forallb (fun p => xcompiles c dbg (fst p) (snd p)) (combine (normalize l) vs) = false).
    { apply Bool.not_true_iff_false. intros F. rewrite forallb_forall in F.
      apply In_nth_error in Hin. destruct Hin as [i Hv]. destruct (N i _ Hv) as (k' & K1 & K2).
      destruct (normalize_from_nth l 0 (Z.of_nat (length l)) i k' K2) as (d & D1 & D2 & _). fold (normalize l) in D1.
      cbn [xdescriptor] in K1. rewrite H1 in K1. injection K1 as <-.
      specialize (F (d, Own x)). cbn [fst snd] in F. unfold xcompiles, is_dynamic in F. rewrite D2, H3 in F. cbn [snd] in F.
      destruct k as [| t | s]; [| |apply (H2 s eq_refl)].
      - assert (false = true); [|discriminate]. apply F. apply (nth_error_In _ i).
        clear -D1 Hv. revert D1 Hv. generalize (normalize l). revert i. induction vs as [|w ws IH]; intros [|i] [|e es] D1 Hv;
          cbn in *; try discriminate; [congruence|apply IH; assumption].
      - assert (false = true); [|discriminate]. apply F. apply (nth_error_In _ i).
        clear -D1 Hv. revert D1 Hv. generalize (normalize l). revert i. induction vs as [|w ws IH]; intros [|i] [|e es] D1 Hv;
          cbn in *; try discriminate; [congruence|apply IH; assumption]. }
    rewrite F, andb_false_r. reflexivity.
Qed.

Lemma forced_unchanged t (vs : list (xextent X)) : (forall v, In v vs -> exists x, v = Own x) -> map (xforce_type t) vs = vs.
Proof.
  induction vs as [|v vs IH]; intros H; [reflexivity|]. cbn [map]. destruct (H v (or_introl eq_refl)) as [x ->].
  cbn [xforce_type]. rewrite IH; [reflexivity|]. intros w Hw. apply H. right. exact Hw.
Qed.

Lemma forced_gives dbg t vs a k p : Forall wf_given vs -> (forall s, k = CStatic s -> wfc s) ->
  x_desc c = Some (a, k) -> xof_size_as c dbg t vs = Ok p ->
  forall i v, nth_error vs i = Some v -> exists r, pget p i = Ok r /\
    match v with Std e => r = conv t (size_of e) | Own _ => sized c (int 0) k v r end.
Proof.
  intros Wv Wk Hk H i v Hv. unfold xof_size_as, xof_size in H.
  assert (Wf : Forall wf_given (map (xforce_type t) vs)).
  { apply Forall_map. revert Wv. apply Forall_impl. intros [e|x] We; [|exact I]. destruct e; cbn; try apply cast_range.
    rewrite <- (cast_small t 0) by lia. apply cast_range. }
  destruct (build_gives dbg (int 0) _ a k p Wf Wk Hk H) as (G & _).
  assert (Hv' : nth_error (map (xforce_type t) vs) i = Some (xforce_type t v)) by (rewrite nth_error_map, Hv; reflexivity).
  destruct (G i _ Hv') as (r & R1 & R2). exists r. split; [exact R1|]. destruct v as [e|x]; [|exact R2].
  destruct e; cbn in R2 |- *; [|exact R2..]. subst r. unfold conv. cbn. rewrite cast_small by lia. reflexivity.
Qed.

Lemma named_own_rejected dbg os a k x : In (a, k, Own x) os -> xof_size_named c dbg os = UB.
Proof.
  intros H. unfold xof_size_named. assert (E : xnamed_descriptors os = None); [|rewrite E; reflexivity].
  induction os as [|[[b j] v] os IH]; [destruct H|]. cbn [xnamed_descriptors]. destruct H as [[= -> -> ->]|H].
  - reflexivity.
  - rewrite (IH H). destruct (xoption_descriptor j v); reflexivity.
Qed.

Lemma both_gives dbg vs a k p : Forall wf_given vs -> (forall s, k = CStatic s -> wfc s) ->
  x_desc c = Some (a, k) ->
  (xof_size c dbg vs = Ok p -> forall i v, nth_error vs i = Some v ->
     exists r, pget p i = Ok r /\ sized c (int 0) k v r /\ (v = Std EJoker -> r = int 0)) /\
  (xwith_strides c dbg vs = Ok p -> forall i v, nth_error vs i = Some v ->
     exists r, pget p i = Ok r /\ sized c (int 1) k v r /\ (v = Std EJoker -> r = int 1)).
Proof.
  intros Wv Wk Hk. split; intros H i v Hv;
    (destruct (build_gives dbg _ vs a k p Wv Wk Hk H) as (G & _); destruct (G i v Hv) as (r & Hr & Hs);
     exists r; split; [exact Hr|]; split; [exact Hs|]; intros ->; exact Hs).
Qed.
End Own.
