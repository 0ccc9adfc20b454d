(** Proofs for C101. *)
From Coq Require Import ZArith String List Bool Lia Permutation.
From Verif Require Import Outcome CInt CIntFacts Prefilled PrefilledSpec PrefilledFacts PrefilledFacts2 PrefilledFacts3
  NamedSize NamedSizeSpec NamedSizeFacts Ctor CtorSpec.
Import ListNotations.
Open Scope Z_scope.

Lemma some_names_in {A} (l : list (option A)) a : In a (some_names l) <-> In (Some a) l.
Proof.
  induction l as [|[b|] l IH]; cbn [some_names In]; [tauto| |].
  - rewrite IH. split; intros [H|H]; auto; [left; congruence|left; congruence].
  - rewrite IH. split; [auto|]. intros [H|H]; [discriminate|exact H].
Qed.
Lemma some_names_inj {A} (l : list (option A)) : NoDup (some_names l) -> forall i j a,
  nth_error l i = Some (Some a) -> nth_error l j = Some (Some a) -> i = j.
Proof.
  induction l as [|x l IH]; intros HN i j a Hi Hj; [destruct i; discriminate|].
  assert (HN' : NoDup (some_names l)) by (destruct x; cbn [some_names] in HN; [inversion HN; assumption|exact HN]).
  destruct i as [|i], j as [|j]; cbn [nth_error] in *; [reflexivity| | |f_equal; eauto].
  - injection Hi as ->. cbn [some_names] in HN. inversion HN as [|? ? N _]; subst. exfalso. apply N, some_names_in.
    exact (nth_error_In _ _ Hj).
  - injection Hj as ->. cbn [some_names] in HN. inversion HN as [|? ? N _]; subst. exfalso. apply N, some_names_in.
    exact (nth_error_In _ _ Hi).
Qed.

Definition key (n : nat) (i : nat) (o : option axis_id) : axis_id :=
  match o with Some a => a | None => implicit (Z.of_nat n - 1 - Z.of_nat i) end.
Lemma key_user n i a : (i < n)%nat -> user_axis a -> key n i None <> a.
Proof. intros H U E. subst a. cbn in U. lia. Qed.
Lemma key_none n i j : key n i None = key n j None -> i = j.
Proof. unfold key, implicit. intros H. injection H as H. lia. Qed.

Lemma ds_length ty : length (normalize ty) = length ty.
Proof. apply normalize_from_length. Qed.
Lemma ds_nth ty i o c : nth_error ty i = Some (o, c) ->
  nth_error (normalize ty) i = Some {| aid := key (length ty) i o; acont := c |}.
Proof. intros H. unfold normalize. rewrite (normalize_from_nth ty 0 _ i o c H). reflexivity. Qed.
Lemma ds_nth_inv ty i d : nth_error (normalize ty) i = Some d ->
  exists o c, nth_error ty i = Some (o, c) /\ d = {| aid := key (length ty) i o; acont := c |}.
Proof.
  intros H. assert (L : (i < length ty)%nat) by (rewrite <- ds_length; apply nth_error_Some; congruence).
  destruct (nth_error ty i) as [[o c]|] eqn:E; [|apply nth_error_None in E; lia].
  exists o, c. split; [reflexivity|]. rewrite (ds_nth ty i o c E) in H. congruence.
Qed.

Lemma keyed_length l : forall i n, length (keyed i n l) = length l.
Proof. induction l as [|g l IH]; intros; cbn [keyed length]; [reflexivity|]. rewrite IH. reflexivity. Qed.
Lemma keyed_nth_from l n : forall i k g, nth_error l k = Some g ->
  nth_error (keyed i n l) k = Some (match name_of g with Some a => a | None => implicit (n - 1 - (i + Z.of_nat k)) end, kext g).
Proof.
  induction l as [|h l IH]; intros i [|k] g H; cbn [nth_error keyed] in *; try discriminate.
  - injection H as ->. rewrite Z.add_0_r. destruct g; reflexivity.
  - rewrite (IH (i + 1) k g H). do 2 f_equal. destruct (name_of g); [reflexivity|]. f_equal. lia.
Qed.
Lemma os_nth n l k g : nth_error l k = Some g ->
  nth_error (keyed 0 (Z.of_nat n) l) k = Some (key n k (name_of g), kext g).
Proof. intros H. rewrite (keyed_nth_from l _ 0 k g H). unfold key. reflexivity. Qed.
Lemma os_in n l x e : In (x, e) (keyed 0 (Z.of_nat n) l) <->
  exists k g, nth_error l k = Some g /\ x = key n k (name_of g) /\ e = kext g.
Proof.
  split.
  - intros H. apply In_nth_error in H. destruct H as (k & H).
    assert (L : (k < length l)%nat) by (rewrite <- (keyed_length l 0 (Z.of_nat n)); apply nth_error_Some; congruence).
    destruct (nth_error l k) as [g|] eqn:E; [|apply nth_error_None in E; lia].
    rewrite (os_nth n l k g E) in H. injection H as <- <-. eauto.
  - intros (k & g & H & -> & ->). exact (nth_error_In _ _ (os_nth n l k g H)).
Qed.

Section Facts.
Variables (ty : shape_type) (l : list karg).
Hypotheses (PT : proper (some_names (map fst ty))) (PL : proper (names_given l)).
Let n := length ty.
Let ds := normalize ty.
Let os := keyed 0 (Z.of_nat n) l.

Lemma ty_user i a c : nth_error ty i = Some (Some a, c) -> user_axis a.
Proof using PT.
  intros H. destruct PT as [_ U]. rewrite Forall_forall in U. apply U, some_names_in.
  apply (in_map fst) with (x := (Some a, c)). exact (nth_error_In _ _ H).
Qed.
Lemma l_user i a e : nth_error l i = Some (KNamed a e) -> user_axis a.
Proof using PL.
  intros H. destruct PL as [_ U]. rewrite Forall_forall in U. apply U, some_names_in.
  apply (in_map name_of) with (x := KNamed a e). exact (nth_error_In _ _ H).
Qed.

Lemma ds_distinct : distinct_axes ds.
Proof using PT.
  unfold distinct_axes, ds. apply NoDup_nth_error. intros i j Hi E. rewrite map_length, ds_length in Hi.
  rewrite !nth_error_map in E.
  destruct (nth_error ty i) as [[o c]|] eqn:Ei; [|apply nth_error_None in Ei; lia].
  rewrite (ds_nth ty i o c Ei) in E. cbn [option_map aid] in E.
  destruct (nth_error (normalize ty) j) as [d|] eqn:Ej; [|discriminate].
  destruct (ds_nth_inv ty j d Ej) as (o' & c' & Ej' & ->). cbn [option_map aid] in E. injection E as E.
  assert (Hj : (j < length ty)%nat) by (apply nth_error_Some; congruence).
  destruct o as [a|], o' as [b|].
  - cbn in E. subst b. apply (some_names_inj (map fst ty) (proj1 PT) i j a); rewrite nth_error_map; [rewrite Ei|rewrite Ej']; reflexivity.
  - exfalso. apply (key_user (length ty) j a Hj (ty_user i a c Ei)). symmetry. exact E.
  - exfalso. apply (key_user (length ty) i b Hi (ty_user j b c' Ej')). exact E.
  - exact (key_none _ _ _ E).
Qed.

Lemma os_distinct : (length l <= n)%nat -> NoDup (map fst os).
Proof using PL.
  intros L. apply NoDup_nth_error. intros i j Hi E. unfold os in *. rewrite map_length, keyed_length in Hi.
  rewrite !nth_error_map in E.
  destruct (nth_error l i) as [g|] eqn:Ei; [|apply nth_error_None in Ei; lia].
  rewrite (os_nth n l i g Ei) in E. cbn [option_map fst] in E.
  destruct (nth_error l j) as [h|] eqn:Ej.
  2: { apply nth_error_None in Ej. rewrite (proj2 (nth_error_None _ _)) in E; [discriminate|]. rewrite keyed_length. exact Ej. }
  rewrite (os_nth n l j h Ej) in E. cbn [option_map fst] in E. injection E as E.
  assert (Hj : (j < length l)%nat) by (apply nth_error_Some; congruence).
  destruct g as [e|a e], h as [e'|b e']; cbn [name_of] in E.
  - exact (key_none _ _ _ E).
  - exfalso. apply (key_user n i b ltac:(lia) (l_user j b e' Ej)). exact E.
  - exfalso. apply (key_user n j a ltac:(lia) (l_user i a e Ei)). symmetry. exact E.
  - cbn in E. subst b. apply (some_names_inj (map name_of l) (proj1 PL) i j a); rewrite nth_error_map; [rewrite Ei|rewrite Ej]; reflexivity.
Qed.

(** Which values are given for a place. *)
Lemma given_for_in a e : given_for l a = Some e <-> In (KNamed a e) l.
Proof using PL.
  destruct PL as [HN _]. clear - HN. unfold names_given in HN. induction l as [|[x|b x] m IH]; cbn [given_for In map name_of some_names] in *.
  - split; [discriminate|tauto].
  - rewrite (IH HN). split; [auto|]. intros [H|H]; [discriminate|exact H].
  - inversion HN as [|? ? N HN']; subst. destruct (axis_id_eqb a b) eqn:E.
    + apply axis_id_eqb_spec in E. subst b. split.
      * intros H. left. congruence.
      * intros [H|H]; [congruence|]. exfalso. apply N, some_names_in. exact (in_map name_of _ _ H).
    + rewrite (IH HN'). split; [auto|]. intros [H|H]; [|exact H]. injection H as <- _.
      rewrite (proj2 (axis_id_eqb_spec b b) eq_refl) in E. discriminate.
Qed.
Lemma extent_at_in i o c e : (length l <= n)%nat -> forallb is_kpos l = false -> nth_error ty i = Some (o, c) ->
  (extent_at ty l i = Some e <-> In (key n i o, e) os).
Proof using PT PL.
  intros L NP H. assert (Hi : (i < n)%nat) by (apply nth_error_Some; congruence).
  unfold extent_at. rewrite H.
  assert (B : forallb (fun g => match name_of g with None => true | _ => false end) l = forallb is_kpos l).
  { clear. induction l as [|[x|b x] m IH]; cbn; [reflexivity|exact IH|reflexivity]. }
  rewrite B, NP. transitivity (match o with Some a => given_for l a | None => match nth_error l i with Some (KPos e) => Some e | _ => None end end = Some e).
  { destruct l as [|g m]; [discriminate NP|]. destruct o; reflexivity. }
  unfold os. rewrite os_in. destruct o as [a|].
  - rewrite given_for_in. split.
    + intros K. apply In_nth_error in K. destruct K as (k & K). exists k, (KNamed a e). auto.
    + intros (k & g & K & X & ->). destruct g as [x|b x]; cbn [name_of] in X.
      * exfalso. apply (key_user n k a); [|exact (ty_user i a c H)|symmetry; exact X].
        assert (k < length l)%nat by (apply nth_error_Some; congruence). lia.
      * cbn in X. subst b. exact (nth_error_In _ _ K).
  - split.
    + destruct (nth_error l i) as [[x|b x]|] eqn:K; try discriminate. intros E. injection E as ->. exists i, (KPos e). auto.
    + intros (k & g & K & X & ->). destruct g as [x|b x]; cbn [name_of] in X.
      * apply key_none in X. subst k. rewrite K. reflexivity.
      * exfalso. apply (key_user n i b Hi (l_user k b x K)). exact X.
Qed.

(** The order asked for. *)
Lemma keys_match_iff : length l = n -> (keys_match ds os = true <-> map name_of l = map fst ty).
Proof using PT PL.
  intros L.
  assert (G : forall (a : list desc) (b : list (axis_id * extent)), keys_match a b = true <-> map aid a = map fst b).
  { induction a as [|d a IH]; intros [|o b]; cbn; try (split; [discriminate|discriminate]); [tauto|].
    rewrite andb_true_iff, axis_id_eqb_spec, IH. split; [intros [-> ->]; reflexivity|]. intros E. injection E as -> ->. auto. }
  rewrite G. split; intros E.
  - apply nth_ext_error; [rewrite !map_length; exact L|]. intros k.
    destruct (nth_error l k) as [g|] eqn:K.
    2: { rewrite !nth_error_map, K. apply nth_error_None in K. rewrite (proj2 (nth_error_None ty k)); [reflexivity|]. fold n. lia. }
    assert (Hk : (k < n)%nat) by (rewrite <- L; apply nth_error_Some; congruence).
    destruct (nth_error ty k) as [[o c]|] eqn:T; [|apply nth_error_None in T; fold n in T; lia].
    rewrite !nth_error_map, K, T. cbn [option_map fst].
    assert (E' : nth_error (map aid ds) k = nth_error (map fst os) k) by (rewrite E; reflexivity).
    rewrite !nth_error_map in E'. unfold ds, os in E'. rewrite (ds_nth ty k o c T), (os_nth n l k g K) in E'.
    cbn [option_map aid fst] in E'. injection E' as E'. fold n in E'.
    destruct g as [x|b x], o as [a|]; cbn [name_of] in *; [| reflexivity| |].
    + exfalso. apply (key_user n k a Hk (ty_user k a c T)). symmetry. exact E'.
    + cbn in E'. congruence.
    + exfalso. apply (key_user n k b Hk (l_user k b x K)). exact E'.
  - apply nth_ext_error; [unfold ds, os; rewrite !map_length, ds_length, keyed_length; fold n; lia|]. intros k.
    assert (E' : nth_error (map name_of l) k = nth_error (map fst ty) k) by (rewrite E; reflexivity).
    rewrite !nth_error_map in E' |- *. unfold ds, os.
    destruct (nth_error l k) as [g|] eqn:K, (nth_error ty k) as [[o c]|] eqn:T; cbn [option_map fst] in E'; try discriminate.
    + rewrite (ds_nth ty k o c T), (os_nth n l k g K). cbn [option_map aid fst]. fold n. congruence.
    + apply nth_error_None in K, T. rewrite (proj2 (nth_error_None (normalize ty) k)) by (rewrite ds_length; exact T).
      rewrite (proj2 (nth_error_None (keyed 0 (Z.of_nat n) l) k)) by (rewrite keyed_length; exact K). reflexivity.
Qed.

Lemma implicit_at i o c : nth_error ty i = Some (o, c) ->
  is_implicit {| aid := key n i o; acont := c |} = match o with None => true | Some _ => false end.
Proof using PT.
  intros H. assert (Hi : (i < n)%nat) by (apply nth_error_Some; congruence). unfold is_implicit. cbn [aid].
  destruct o as [a|]; cbn [key].
  - pose proof (ty_user i a c H) as U. destruct a as [z|s]; [cbn in U; apply Z.ltb_ge; exact U|reflexivity].
  - unfold implicit. apply Z.ltb_lt. lia.
Qed.
Lemma fully_implicit_false : (exists a, In (Some a) (map fst ty)) -> is_fully_implicit ds = false.
Proof using PT.
  intros (a & H). apply In_nth_error in H. destruct H as (k & H). rewrite nth_error_map in H.
  destruct (nth_error ty k) as [[o c]|] eqn:T; [|discriminate]. cbn in H. injection H as ->.
  apply not_true_is_false. intros E. unfold is_fully_implicit in E. rewrite forallb_forall in E.
  specialize (E _ (nth_error_In _ _ (ds_nth ty k _ c T))). fold n in E. rewrite (implicit_at k _ c T) in E. discriminate.
Qed.
Lemma fully_explicit_false : In None (map fst ty) -> is_fully_explicit ds = false.
Proof using PT.
  intros H. apply In_nth_error in H. destruct H as (k & H). rewrite nth_error_map in H.
  destruct (nth_error ty k) as [[o c]|] eqn:T; [|discriminate]. cbn in H. injection H as ->.
  apply not_true_is_false. intros E. unfold is_fully_explicit in E. rewrite forallb_forall in E.
  specialize (E _ (nth_error_In _ _ (ds_nth ty k _ c T))). fold n in E. rewrite (implicit_at k _ c T) in E. discriminate.
Qed.
Lemma fully_explicit_true : ~ In None (map fst ty) -> is_fully_explicit ds = true.
Proof using PT.
  intros H. apply forallb_forall. intros d Hd. apply In_nth_error in Hd. destruct Hd as (k & Hk).
  destruct (ds_nth_inv ty k d Hk) as (o & c & T & ->). fold n. rewrite (implicit_at k o c T).
  destruct o; [reflexivity|]. exfalso. apply H. exact (in_map fst _ _ (nth_error_In _ _ T)).
Qed.
Lemma mixed_fits_iff : existsb is_kpos l = true -> forallb is_kpos l = false ->
  (mixed_fits ds os = true <-> map name_of l = map fst ty).
Proof using PT PL.
  intros X Y. apply existsb_exists in X. destruct X as (g & Hg & G).
  assert (Y' : exists b e, In (KNamed b e) l).
  { clear - Y. induction l as [|[x|b x] m IH]; cbn in Y; [discriminate| |].
    - destruct (IH Y) as (b & e & H). exists b, e. right. exact H.
    - exists b, x. left. reflexivity. }
  destruct Y' as (b & e & Hb).
  assert (Lo : length os = length l) by apply keyed_length. assert (Ld : length ds = n) by apply ds_length.
  unfold mixed_fits, is_ordered. rewrite Lo, Ld. split.
  - rewrite !andb_true_iff. intros [[[A B] C] D]. apply negb_true_iff in A, B. rewrite B in D.
    destruct (n =? length l)%nat eqn:E; cbn [negb] in D; [|discriminate]. apply Nat.eqb_eq in E. apply (keys_match_iff (eq_sym E)). exact D.
  - intros E. assert (L : length l = n) by (pose proof (f_equal (@length _) E) as F; rewrite !map_length in F; exact F).
    rewrite (fully_implicit_false); [|exists b; rewrite <- E; exact (in_map name_of _ _ Hb)].
    rewrite (fully_explicit_false); [|rewrite <- E; destruct g as [x|? ?]; [exact (in_map name_of _ _ Hg)|discriminate G]].
    rewrite L, Nat.leb_refl, Nat.eqb_refl. cbn [negb andb]. apply keys_match_iff; assumption.
Qed.
Lemma named_only_unfit : existsb is_kpos l = false -> mixed_fits ds os = false.
Proof using PT PL.
  intros X. apply not_true_is_false. intros E. unfold mixed_fits, is_ordered in E. rewrite !andb_true_iff in E.
  destruct E as [[[A B] C] D]. apply negb_true_iff in A, B. rewrite B in D.
  destruct (length ds =? length os)%nat eqn:L; cbn [negb] in D; [|discriminate]. apply Nat.eqb_eq in L.
  assert (Lo : length os = length l) by apply keyed_length. assert (Ld : length ds = n) by apply ds_length.
  pose proof (proj1 (keys_match_iff ltac:(lia)) D) as F.
  rewrite fully_explicit_true in B; [discriminate|]. rewrite <- F. intros K. apply in_map_iff in K. destruct K as ([x|b x] & K & I0).
  - assert (T : existsb is_kpos l = true) by (apply existsb_exists; exists (KPos x); auto). congruence.
  - discriminate K.
Qed.

Lemma static_iff : is_fully_static ds = true <-> Forall fixed_place ty.
Proof using.
  unfold ds. rewrite fully_static_nb, Nat.eqb_eq. unfold normalize. generalize (Z.of_nat (length ty)). generalize 0.
  clear. induction ty as [|[o c] m IH]; intros i z; cbn [normalize_from nb_runtime acont].
  - split; constructor.
  - specialize (IH (i + 1) z). destruct c as [|t|v].
    1,2: split; [discriminate|]; intros F; inversion F as [|? ? (v & W) _]; subst; discriminate W.
    rewrite IH. split; [intros F; constructor; [exists v; reflexivity|exact F]|intros F; inversion F; assumption].
Qed.
Lemma found_iff : found ds os = true <-> Forall fixed_place ty \/ incl (map fst os) (map aid ds).
Proof using.
  unfold found. rewrite orb_true_iff, static_iff, forallb_forall. apply or_iff_compat_l. split.
  - intros H a Ha. apply in_map_iff in Ha. destruct Ha as (o & <- & Ho). specialize (H o Ho). apply Nat.ltb_lt in H.
    clear - H. unfold find_axis in H. induction ds as [|d m IH]; cbn in *; [lia|].
    destruct (axis_id_eqb (aid d) (fst o)) eqn:E; [left; apply axis_id_eqb_spec; exact E|right; apply IH; lia].
  - intros H o Ho. apply Nat.ltb_lt, find_axis_lt, H. exact (in_map fst _ _ Ho).
Qed.
Lemma named_incl : existsb is_kpos l = false ->
  (incl (map fst os) (map aid ds) <-> incl (names_given l) (some_names (map fst ty))).
Proof using PT PL.
  intros X. split; intros H a Ha.
  - apply some_names_in in Ha. apply in_map_iff in Ha. destruct Ha as ([x|b x] & E & Hg); [discriminate E|]. cbn in E. injection E as ->.
    apply In_nth_error in Hg. destruct Hg as (k & K).
    specialize (H a). assert (In a (map fst os)).
    { apply (in_map fst) with (x := (a, x)). apply os_in. exists k, (KNamed a x). auto. }
    specialize (H H0). apply in_map_iff in H. destruct H as (d & D & Hd). apply In_nth_error in Hd. destruct Hd as (i & Hi).
    destruct (ds_nth_inv ty i d Hi) as (o & c & T & ->). cbn [aid] in D. destruct o as [b|].
    + cbn in D. subst b. apply some_names_in. exact (in_map fst _ _ (nth_error_In _ _ T)).
    + exfalso. apply (key_user (length ty) i a); [apply nth_error_Some; congruence|exact (l_user k a x K)|exact D].
  - apply in_map_iff in Ha. destruct Ha as ([y e] & <- & Ho). cbn [fst]. apply os_in in Ho. destruct Ho as (k & g & K & -> & ->).
    destruct g as [x|b x].
    + exfalso. assert (T : existsb is_kpos l = true) by (apply existsb_exists; exists (KPos x); split; [exact (nth_error_In _ _ K)|reflexivity]). congruence.
    + cbn [name_of key]. specialize (H b). assert (I0 : In b (names_given l)).
      { apply some_names_in. exact (in_map name_of _ _ (nth_error_In _ _ K)). }
      specialize (H I0). apply some_names_in in H. apply in_map_iff in H. destruct H as ([o c] & E & Ht). cbn in E. subst o.
      apply In_nth_error in Ht. destruct Ht as (i & T). pose proof (nth_error_In _ _ (ds_nth ty i _ c T)) as D.
      exact (in_map aid _ _ D).
Qed.

(** The constructor chosen. *)
Lemma construct_cases dbg def :
  (l = [] /\ construct_shape dbg ds def l = Ok (pdefault ds)) \/
  (l <> [] /\ forallb is_kpos l = true /\ construct_shape dbg ds def l = pconstruct dbg ds def (map kext l)) \/
  (forallb is_kpos l = false /\ accepted ty l /\ (length l <= n)%nat /\
   (Forall fixed_place ty \/ incl (map fst os) (map aid ds)) /\
   construct_shape dbg ds def l = pconstruct_named dbg ds def os) \/
  (forallb is_kpos l = false /\ ~ accepted ty l /\ construct_shape dbg ds def l = UB).
Proof using PT PL.
  assert (Ld : length ds = n) by apply ds_length.
  assert (Z0 : l = [] \/ l <> []) by (destruct l; [auto|right; discriminate]). destruct Z0 as [Z0|Z0].
  { left. split; [exact Z0|]. rewrite Z0. reflexivity. }
  assert (C : construct_shape dbg ds def l =
     if forallb is_kpos l then pconstruct dbg ds def (map kext l)
     else if existsb is_kpos l then if mixed_fits ds os then if found ds os then pconstruct_named dbg ds def os else UB else UB
     else if mixed_fits ds os then UB else if (length l <=? length ds)%nat && found ds os then pconstruct_named dbg ds def os else UB).
  { unfold construct_shape. rewrite Ld. fold os. clear - Z0. destruct l; [contradiction Z0; reflexivity|reflexivity]. }
  rewrite C. destruct (forallb is_kpos l) eqn:P; [right; left; auto|]. right. right.
  assert (NA : ~ Forall (fun g => name_of g = None) l).
  { intros F. rewrite Forall_forall in F. assert (forallb is_kpos l = true); [|congruence]. apply forallb_forall. intros g Hg.
    specialize (F g Hg). destruct g; [reflexivity|discriminate F]. }
  destruct (existsb is_kpos l) eqn:X.
  - assert (NN : ~ Forall (fun g => name_of g <> None) l).
    { intros F. rewrite Forall_forall in F. apply existsb_exists in X. destruct X as (g & Hg & G). destruct g; [|discriminate G].
      exact (F _ Hg eq_refl). }
    destruct (mixed_fits ds os) eqn:M.
    + left. pose proof (proj1 (mixed_fits_iff X P) M) as E.
      assert (L : length l = n) by (pose proof (f_equal (@length _) E) as F; rewrite !map_length in F; exact F).
      assert (I0 : incl (map fst os) (map aid ds)).
      { assert (S0 : keys_match ds os = true) by (apply keys_match_iff; assumption).
        clear - S0. revert S0. generalize os. induction ds as [|d m IH]; intros [|o q] S0; cbn in *; try discriminate; [intros x; auto|].
        apply andb_true_iff in S0. destruct S0 as [S1 S2]. apply axis_id_eqb_spec in S1. intros x [<-|Hx]; [left; exact S1|right; exact (IH q S2 x Hx)]. }
      rewrite (proj2 found_iff (or_intror I0)). split; [reflexivity|]. split; [right; right; right; exact E|]. split; [lia|]. auto.
    + right. split; [reflexivity|]. split; [|reflexivity]. intros [A|[[A _]|[[A _]|A]]]; [contradiction|contradiction|contradiction|].
      apply (mixed_fits_iff X P) in A. congruence.
  - rewrite (named_only_unfit X), Ld.
    assert (NN : Forall (fun g => name_of g <> None) l).
    { apply Forall_forall. intros g Hg. destruct g as [x|? ?]; [|discriminate]. exfalso.
      assert (T : existsb is_kpos l = true) by (apply existsb_exists; exists (KPos x); auto). congruence. }
    assert (AI : accepted ty l <-> (length l <= n)%nat /\ (Forall fixed_place ty \/ incl (map fst os) (map aid ds))).
    { unfold accepted. rewrite <- (named_incl X). fold n. split.
      - intros [A|[[A _]|[[_ [A B]]|A]]]; [contradiction|contradiction|auto|].
        assert (L : length l = n) by (pose proof (f_equal (@length _) A) as F; rewrite !map_length in F; exact F).
        split; [lia|]. right. apply (named_incl X). unfold names_given. rewrite A. intros x; auto.
      - intros [A B]. right. right. left. auto. }
    destruct (length l <=? n)%nat eqn:L; cbn [andb].
    + apply Nat.leb_le in L. destruct (found ds os) eqn:F.
      * left. apply found_iff in F. split; [reflexivity|]. split; [apply AI; auto|]. auto.
      * right. split; [reflexivity|]. split; [|reflexivity]. rewrite AI. intros [_ K]. apply found_iff in K. congruence.
    + apply Nat.leb_gt in L. right. split; [reflexivity|]. split; [|reflexivity]. rewrite AI. intros [K _]. lia.
Qed.

Lemma positional_accepted : l <> [] -> forallb is_kpos l = true -> (accepted ty l <-> (length l <= n)%nat).
Proof using PL.
  intros Z0 P. rewrite forallb_forall in P.
  assert (A : Forall (fun g => name_of g = None) l).
  { apply Forall_forall. intros g Hg. specialize (P g Hg). destruct g; [reflexivity|discriminate]. }
  unfold accepted. fold n. split.
  - intros [B|[[_ B]|[[_ [B _]]|B]]]; [contradiction|exact B|exact B|].
    pose proof (f_equal (@length _) B) as F. rewrite !map_length in F. fold n in F. lia.
  - intros B. right. left. auto.
Qed.

Lemma ctor_accepts_l dbg def :
  (accepted ty l -> (exists p, construct_shape dbg ds def l = Ok p /\ pdesc p = ds /\ wfp p) \/
                    (dbg = true /\ construct_shape dbg ds def l = Abort)) /\
  (~ accepted ty l -> construct_shape dbg ds def l = UB).
Proof using PT PL.
  assert (Ld : length ds = n) by apply ds_length.
  destruct (construct_cases dbg def) as [[E ->]|[[E [P ->]]|[[P [A [L [F ->]]]]|[P [A ->]]]]].
  - split; [|intros N; exfalso; apply N; left; exact E]. intros _. left. exists (pdefault ds). split; [reflexivity|]. split; [reflexivity|apply pdefault_wfp].
  - rewrite (positional_accepted E P). split.
    + intros L. apply construct_total_l. rewrite map_length, Ld. exact L.
    + intros L. unfold pconstruct. rewrite map_length, Ld. destruct (Nat.leb_spec (length l) n); [contradiction|reflexivity].
  - split; [|contradiction]. intros _. destruct F as [F|F].
    + destruct (named_static_only_l dbg ds def os) as (p & E1 & E2 & E3 & _); [|left; eauto].
      apply static_iff in F. rewrite fully_static_nb in F. apply Nat.eqb_eq in F. exact F.
    + apply named_total_l; [apply ds_distinct|apply os_distinct; exact L|exact F].
  - split; [contradiction|reflexivity].
Qed.

Lemma fill_nth (vs : list extent) i : (length vs <= n)%nat -> (i < n)%nat ->
  nth_error (repeat (EInt (int 1)) (n - length vs) ++ vs) i =
  if (i + length vs <? n)%nat then Some (EInt (int 1)) else nth_error vs (i + length vs - n).
Proof using.
  intros L Hi. destruct (Nat.ltb_spec (i + length vs) n).
  - rewrite nth_error_app1 by (rewrite repeat_length; lia). apply nth_error_repeat. lia.
  - rewrite nth_error_app2 by (rewrite repeat_length; lia). rewrite repeat_length. f_equal. lia.
Qed.
Lemma extent_positional i : l <> [] -> forallb is_kpos l = true -> (length l <= n)%nat -> (i < n)%nat ->
  extent_at ty l i = nth_error (repeat (EInt (int 1)) (n - length (map kext l)) ++ map kext l) i.
Proof using PL.
  intros Z0 P L Hi. rewrite fill_nth by (try rewrite map_length; assumption). rewrite map_length, nth_error_map.
  unfold extent_at.
  assert (B : forallb (fun g => match name_of g with None => true | _ => false end) l = true).
  { etransitivity; [|exact P]. clear. induction l as [|[x|b x] m IH]; cbn; [reflexivity|exact IH|reflexivity]. }
  rewrite B. fold n. destruct l; [contradiction Z0; reflexivity|reflexivity].
Qed.
Lemma held_expected def i o c e : held_at def c (Some e) = expected def {| aid := key n i o; acont := c |} e.
Proof using. unfold held_at, expected, axis_type. cbn [acont]. destruct c, e; reflexivity. Qed.

Lemma ctor_values_l dbg def p : construct_shape dbg ds def l = Ok p ->
  exists vs, to_values p = Ok vs /\ length vs = length ty /\
    forall i o c, nth_error ty i = Some (o, c) -> nth_error vs i = Some (held_at def c (extent_at ty l i)).
Proof using PT PL.
  intros E. assert (Ld : length ds = n) by apply ds_length.
  assert (W : accepted ty l -> wfp p /\ pdesc p = ds).
  { intros A. destruct (proj1 (ctor_accepts_l dbg def) A) as [(q & Q & D & W)|[_ Q]]; rewrite E in Q; [|discriminate].
    injection Q as <-. auto. }
  assert (A : accepted ty l).
  { destruct (construct_cases dbg def) as [[Z0 _]|[[Z0 [P C]]|[[P [A _]]|[P [A C]]]]].
    - left. exact Z0.
    - apply (positional_accepted Z0 P). rewrite C in E. unfold pconstruct in E. rewrite map_length, Ld in E.
      destruct (Nat.leb_spec (length l) n); [assumption|discriminate].
    - exact A.
    - rewrite C in E. discriminate. }
  destruct (W A) as [W1 D]. exists (values p). split; [apply to_values_ok, W1|]. split; [rewrite values_length, D by exact W1; exact Ld|].
  intros i o c T. assert (Hi : (i < n)%nat) by (apply nth_error_Some; congruence).
  pose proof (ds_nth ty i o c T) as Hd. fold ds n in Hd.
  enough (G : pget p i = Ok (held_at def c (extent_at ty l i))).
  { rewrite pget_ok in G by exact W1. destruct (nth_error (values p) i); [congruence|discriminate]. }
  assert (St : forall v, c = CStatic v -> pget p i = Ok v).
  { intros v ->. rewrite pget_ok by exact W1. rewrite <- D in Hd. rewrite (nth_static p i _ v W1 Hd eq_refl). reflexivity. }
  destruct (construct_cases dbg def) as [[Z0 C]|[[Z0 [P C]]|[[P [_ [L [F C]]]]|[P [N _]]]]]; [| | |contradiction]; rewrite C in E.
  - injection E as <-. rewrite pget_ok by exact W1. rewrite pdefault_values, nth_error_map, Hd. cbn [option_map].
    rewrite Z0. unfold default_value, held_at, extent_at, axis_type. cbn [acont]. destruct c; reflexivity.
  - pose proof (proj1 (positional_accepted Z0 P) A) as L. rewrite extent_positional by assumption.
    destruct (nth_error (repeat (EInt (int 1)) (n - length (map kext l)) ++ map kext l) i) as [e|] eqn:G.
    2: { exfalso. apply nth_error_None in G. rewrite app_length, repeat_length, map_length in G. lia. }
    rewrite (held_expected def i o c e). apply (construct_reads_back_l dbg ds def (map kext l) p); [rewrite map_length, Ld; exact L|exact E|exact Hd|].
    rewrite Ld. exact G.
  - destruct F as [F|F].
    { rewrite Forall_forall in F. destruct (F _ (nth_error_In _ _ T)) as (v & V). cbn in V. subst c. rewrite (St v eq_refl). reflexivity. }
    destruct (named_reads_back_l dbg ds def os p ds_distinct (os_distinct L) F E) as [R1 R2].
    assert (K : pget p i = pget_axis p (key n i o)).
    { unfold pget_axis. rewrite D. pose proof (find_axis_unique ds i _ ds_distinct Hd) as FA. cbn [aid] in FA. rewrite FA. reflexivity. }
    destruct (extent_at ty l i) as [e|] eqn:G.
    + apply (extent_at_in i o c e L P T) in G. rewrite K, (held_expected def i o c e).
      exact (R1 _ e (nth_error_In _ _ Hd) G).
    + destruct c as [|t|v]; [| |rewrite (St v eq_refl); reflexivity].
      all: rewrite K; etransitivity; [apply (R2 _ (nth_error_In _ _ Hd)); [intros v; discriminate|]|reflexivity].
      all: intros X; apply in_map_iff in X; destruct X as ([y e] & Y & X); cbn in Y; subst y;
        apply (extent_at_in i o _ e L P T) in X; congruence.
Qed.

Lemma ctor_checks_l def : accepted ty l -> Forall sane_place ty -> Forall (fun g => sane_ext (kext g)) l ->
  (construct_shape true ds def l = Abort <->
   mismatch ty l /\ (names_given l = [] \/ ~ Forall fixed_place ty)).
Proof using PT PL.
  intros A ST SL. assert (Ld : length ds = n) by apply ds_length.
  assert (Sd : Forall sane_desc ds).
  { apply Forall_forall. intros d Hd. apply In_nth_error in Hd. destruct Hd as (i & Hi).
    destruct (ds_nth_inv ty i d Hi) as (o & c & T & ->). rewrite Forall_forall in ST. exact (ST _ (nth_error_In _ _ T)). }
  assert (CN : forall i o c e, contradicts {| aid := key n i o; acont := c |} e <->
     exists v, c = CStatic v /\ match e with EJoker => False | EInt w | EConst w => cval w <> cval v end).
  { intros i o c e. unfold contradicts. cbn [acont]. destruct c as [|t|v], e; split; try tauto; try (intros (? & H & _); discriminate).
    all: try (intros H; exists v; auto). all: intros (w & W & H); try (injection W as <-); assumption. }
  destruct (construct_cases true def) as [[Z0 ->]|[[Z0 [P ->]]|[[P [_ [L [F ->]]]]|[P [N _]]]]]; [| | |contradiction].
  - split; [discriminate|]. intros [(i & o & c & e & _ & H & _) _]. rewrite Z0 in H. discriminate H.
  - pose proof (proj1 (positional_accepted Z0 P) A) as L.
    assert (NG : names_given l = []).
    { clear - P. unfold names_given. induction l as [|[x|b x] m IH]; cbn in *; [reflexivity|exact (IH P)|discriminate]. }
    rewrite construct_abort_iff_l; [|exact Sd| |rewrite map_length, Ld; exact L].
    2: { apply Forall_forall. intros e He. apply in_map_iff in He. destruct He as (g & <- & Hg). rewrite Forall_forall in SL. auto. }
    rewrite Ld. split.
    + intros (i & d & e & Hd & He & C). split; [|left; exact NG]. destruct (ds_nth_inv ty i d Hd) as (o & c & T & ->). fold n in C.
      apply CN in C. destruct C as (v & -> & C). exists i, o, v, e. split; [exact T|].
      assert (Hi : (i < n)%nat) by (apply nth_error_Some; congruence). split; [|exact C].
      rewrite extent_positional by assumption. exact He.
    + intros [(i & o & c & e & T & He & C) _]. exists i, {| aid := key n i o; acont := CStatic c |}, e.
      assert (Hi : (i < n)%nat) by (apply nth_error_Some; congruence).
      split; [exact (ds_nth ty i o _ T)|]. rewrite extent_positional in He by assumption. split; [exact He|]. apply CN. exists c. auto.
  - assert (NG : names_given l <> []).
    { clear - P. unfold names_given. induction l as [|[x|b x] m IH]; cbn in *; [discriminate|exact (IH P)|discriminate]. }
    assert (Dec : Forall fixed_place ty \/ ~ Forall fixed_place ty).
    { rewrite <- static_iff. destruct (is_fully_static ds); [left; reflexivity|right; discriminate]. }
    destruct Dec as [Dec|Dec].
    + destruct (named_static_only_l true ds def os) as (p & E1 & _).
      { pose proof (proj2 static_iff Dec) as X. rewrite fully_static_nb in X. apply Nat.eqb_eq in X. exact X. }
      rewrite E1. split; [discriminate|]. intros [_ [H|H]]; contradiction.
    + destruct F as [F|F]; [contradiction|].
      rewrite named_abort_iff_l; [|apply ds_distinct|apply os_distinct; exact L|exact F| |exact Sd|].
      * split.
        -- intros (d & e & Hd & He & C). split; [|right; exact Dec]. apply In_nth_error in Hd. destruct Hd as (i & Hi).
           destruct (ds_nth_inv ty i d Hi) as (o & c & T & ->). fold n in C, He. cbn [aid] in He.
           apply CN in C. destruct C as (v & -> & C). exists i, o, v, e. split; [exact T|]. split; [|exact C].
           apply (extent_at_in i o _ e L P T). exact He.
        -- intros [(i & o & c & e & T & He & C) _]. exists {| aid := key n i o; acont := CStatic c |}, e.
           split; [exact (nth_error_In _ _ (ds_nth ty i o _ T))|]. split; [apply (extent_at_in i o _ e L P T); exact He|].
           apply CN. exists c. auto.
      * rewrite <- static_iff, fully_static_nb, Nat.eqb_eq in Dec. lia.
      * apply Forall_forall. intros [y e] Ho. apply os_in in Ho. destruct Ho as (k & g & K & -> & ->). cbn [snd].
        rewrite Forall_forall in SL. exact (SL _ (nth_error_In _ _ K)).
Qed.
End Facts.

Lemma keyed_named l : forallb is_kpos l = false -> existsb is_kpos l = false -> forall n,
  keyed 0 n l = map (fun g => (match g with KNamed a _ => a | KPos _ => AIdx 0 end, kext g)) l.
Proof.
  intros _ X n. generalize 0 at 1. induction l as [|[x|b x] m IH]; intros i; cbn in *; [reflexivity|discriminate|]. rewrite IH by exact X. reflexivity.
Qed.
Lemma ctor_any_order_l ty l l' dbg def : proper (some_names (map fst ty)) -> proper (names_given l) -> accepted ty l ->
  Forall (fun g => name_of g <> None) l -> Permutation l l' ->
  construct_shape dbg (normalize ty) def l = construct_shape dbg (normalize ty) def l'.
Proof.
  intros PT PL A NN HP.
  destruct l as [|g m].
  { apply Permutation_nil in HP. subst l'. reflexivity. }
  assert (X : forall k, Permutation (g :: m) k -> forallb is_kpos k = false /\ existsb is_kpos k = false).
  { intros k K. assert (F : Forall (fun g => name_of g <> None) k) by (eapply Permutation_Forall; eassumption).
    assert (E : existsb is_kpos k = false).
    { apply not_true_is_false. intros E. apply existsb_exists in E. destruct E as (h & Hh & E). rewrite Forall_forall in F.
      specialize (F h Hh). destruct h; [contradiction F; reflexivity|discriminate E]. }
    split; [|exact E]. apply Permutation_length in K. destruct k as [|h k]; [discriminate K|]. cbn in E |- *. apply orb_false_iff in E. destruct E as [-> _]. reflexivity. }
  assert (PL' : proper (names_given l')).
  { destruct PL as [N U]. unfold names_given in *.
    assert (Q : Permutation (some_names (map name_of (g :: m))) (some_names (map name_of l'))).
    { apply (Permutation_map name_of) in HP. revert HP. generalize (map name_of (g :: m)) (map name_of l'). induction 1 as [|[x|] p q _ IH|[x|] [y|] p|p q r _ IH1 _ IH2]; cbn [some_names]; try (constructor; assumption); try apply Permutation_refl; try exact IH.
      eapply Permutation_trans; eassumption. }
    split; [eapply Permutation_NoDup; eassumption|eapply Permutation_Forall; eassumption]. }
  assert (A' : accepted ty l').
  { assert (LL : length l' = length (g :: m)) by (symmetry; apply Permutation_length; exact HP).
    assert (B : (length (g :: m) <= length ty)%nat /\ (Forall fixed_place ty \/ incl (names_given (g :: m)) (some_names (map fst ty)))).
    { destruct A as [A|[[A _]|[[_ B]|A]]]; [discriminate| |exact B|].
      - inversion A as [|? ? G _]; subst. inversion NN as [|? ? G' _]; subst. contradiction.
      - split; [apply Nat.eq_le_incl; pose proof (f_equal (@length _) A) as F; rewrite !map_length in F; exact F|right; unfold names_given; rewrite A; intros x; auto]. }
    right. right. left. split; [eapply Permutation_Forall; eassumption|]. rewrite LL. split; [apply B|]. destruct B as [_ [B|B]]; [auto|right].
    intros x Hx. apply B. apply some_names_in in Hx. apply some_names_in. apply in_map_iff in Hx. destruct Hx as (h & H1 & H2). apply in_map_iff. exists h.
    split; [exact H1|]. eapply Permutation_in; [apply Permutation_sym; exact HP|exact H2]. }
  destruct (X _ (Permutation_refl _)) as [X1 X2]. destruct (X _ HP) as [Y1 Y2].
  destruct (construct_cases ty (g :: m) PT PL dbg def) as [[Z0 _]|[[_ [P _]]|[[_ [_ [L [F ->]]]]|[_ [N _]]]]]; [discriminate|congruence| |contradiction].
  destruct (construct_cases ty l' PT PL' dbg def) as [[Z0 _]|[[_ [P _]]|[[_ [_ [_ [_ ->]]]]|[_ [N _]]]]]; [|congruence| |contradiction].
  { apply Permutation_length in HP. subst l'. discriminate HP. }
  destruct F as [F|F].
  - pose proof (proj2 (static_iff ty) F) as S0. unfold pconstruct_named. rewrite S0. reflexivity.
  - apply named_permutation_l; [apply ds_distinct; exact PT|apply os_distinct; assumption|exact F|].
    rewrite !keyed_named by assumption. apply Permutation_map. exact HP.
Qed.
