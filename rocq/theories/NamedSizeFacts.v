(** Proofs for of_size with named extents. *)
From Coq Require Import ZArith String List Bool Lia Permutation.
From Verif Require Import Outcome CInt CIntFacts Prefilled PrefilledSpec PrefilledFacts PrefilledFacts2
  PrefilledFacts3 NamedSize NamedSizeSpec.
Import ListNotations.
Open Scope Z_scope.

Lemma normalize_from_nth l : forall i sz k o c, nth_error l k = Some (o, c) ->
  nth_error (normalize_from i sz l) k =
  Some {| aid := match o with Some a => a | None => implicit (sz - 1 - (i + Z.of_nat k)) end; acont := c |}.
Proof.
  induction l as [|[o c] l IH]; intros i sz [|k] o' c' H; cbn [nth_error normalize_from] in *; try discriminate.
  - injection H as -> ->. rewrite Z.add_0_r. reflexivity.
  - rewrite (IH _ _ _ _ _ H). do 3 f_equal. destruct o'; [reflexivity|]. f_equal. lia.
Qed.

Lemma normalize_from_length l : forall i sz, length (normalize_from i sz l) = length l.
Proof. induction l as [|[o c] l IH]; intros; cbn [normalize_from length]; [reflexivity|]. rewrite IH. reflexivity. Qed.

Lemma descs_length l : length (arg_descs l) = length l.
Proof. unfold arg_descs, normalize. rewrite normalize_from_length, map_length. reflexivity. Qed.

Lemma descs_nth l k a : nth_error l k = Some a ->
  nth_error (arg_descs l) k =
  Some {| aid := match arg_axis a with Some x => x | None => implicit (Z.of_nat (length l) - 1 - Z.of_nat k) end;
          acont := arg_content a |}.
Proof.
  intros H. unfold arg_descs, normalize. rewrite map_length.
  rewrite (normalize_from_nth _ 0 _ k (arg_axis a) (arg_content a)).
  - reflexivity.
  - rewrite nth_error_map, H. reflexivity.
Qed.

Lemma names_nth l : forall k a x, nth_error l k = Some a -> arg_axis a = Some x -> In x (names l).
Proof.
  induction l as [|b l IH]; intros [|k] a x H E; cbn [nth_error] in H; try discriminate.
  - injection H as ->. destruct a; cbn in *; try discriminate; injection E as ->; left; reflexivity.
  - specialize (IH _ _ _ H E). destruct b; cbn [names]; [exact IH|right; exact IH..].
Qed.

Lemma names_inj l : NoDup (names l) -> forall i j a b x, nth_error l i = Some a -> nth_error l j = Some b ->
  arg_axis a = Some x -> arg_axis b = Some x -> i = j.
Proof.
  induction l as [|c l IH]; intros Hn i j a b x Hi Hj Ha Hb; [destruct i; discriminate|].
  assert (Hl : NoDup (names l)) by (destruct c; cbn [names] in Hn; [exact Hn|inversion Hn; assumption..]).
  destruct i as [|i], j as [|j]; cbn [nth_error] in *; [reflexivity| | |].
  - injection Hi as ->. exfalso. pose proof (names_nth _ _ _ _ Hj Hb) as X.
    destruct a; cbn in *; try discriminate; injection Ha as ->; inversion Hn; contradiction.
  - injection Hj as ->. exfalso. pose proof (names_nth _ _ _ _ Hi Ha) as X.
    destruct b; cbn in *; try discriminate; injection Hb as ->; inversion Hn; contradiction.
  - f_equal. exact (IH Hl i j a b x Hi Hj Ha Hb).
Qed.

Lemma descs_distinct l : NoDup (names l) -> Forall user_axis (names l) -> distinct_axes (arg_descs l).
Proof.
  intros Hn Hu. unfold distinct_axes. apply NoDup_nth_error. intros i j Hi E.
  rewrite map_length, descs_length in Hi.
  rewrite !nth_error_map in E.
  destruct (nth_error l i) as [a|] eqn:Ea; [|apply nth_error_None in Ea; lia].
  rewrite (descs_nth l i a Ea) in E. cbn [option_map aid] in E.
  destruct (nth_error l j) as [b|] eqn:Eb.
  2:{ apply nth_error_None in Eb. rewrite (proj2 (nth_error_None (arg_descs l) j)) in E; [discriminate|].
      rewrite descs_length. exact Eb. }
  rewrite (descs_nth l j b Eb) in E. cbn [option_map aid] in E. injection E as E.
  assert (Hlj : (j < length l)%nat) by (apply nth_error_Some; rewrite Eb; discriminate).
  assert (U : forall k c x, nth_error l k = Some c -> arg_axis c = Some x -> user_axis x).
  { intros k c x Hk Hc. rewrite Forall_forall in Hu. apply Hu. exact (names_nth l k c x Hk Hc). }
  destruct (arg_axis a) as [x|] eqn:Xa, (arg_axis b) as [y|] eqn:Xb.
  - subst y. exact (names_inj l Hn i j a b x Ea Eb Xa Xb).
  - exfalso. pose proof (U i a x Ea Xa) as V. rewrite E in V. unfold user_axis, implicit in V. lia.
  - exfalso. pose proof (U j b y Eb Xb) as V. rewrite <- E in V. unfold user_axis, implicit in V. lia.
  - unfold implicit in E. injection E as E. lia.
Qed.

Lemma conv_self v : wfc v -> conv (cty v) v = v.
Proof. intros H. unfold conv. destruct v as [t z]. cbn in *. f_equal. apply cast_id, H. Qed.

(** As [given_size], for any axis. *)
Inductive given_value : arg -> extent -> Prop :=
| givenv_pos e : wf_extent e -> given_value (APos e) e
| givenv_named a e : wf_extent e -> given_value (ANamed a CJoker e) e.
Lemma given_size_value a e : given_size a e -> given_value a e.
Proof. destruct 1; constructor; assumption. Qed.
Lemma given_sizes_values l es : Forall2 given_size l es -> Forall2 given_value l es.
Proof. induction 1; constructor; [apply given_size_value; assumption|assumption]. Qed.

Lemma given_expected z a e d : in_ty I32 z -> given_value a e -> acont d = arg_content a ->
  expected (int z) d e = value_or (int z) e.
Proof.
  intros Hz H Hd. unfold expected, axis_type. rewrite Hd.
  destruct H as [[|v|v] W|x [|v|v] W]; cbn [arg_content to_descriptor content_type value_or wf_extent] in *;
    try (apply conv_self, W); try reflexivity; exact (conv_self (int z) Hz).
Qed.

Lemma ceqb_same v : ceqb v v = true.
Proof. apply ceqb_refl. Qed.

Lemma given_no_clash a e d : given_value a e -> acont d = arg_content a -> contradictsb d e = false.
Proof.
  intros H Hd. unfold contradictsb. rewrite Hd.
  destruct H as [[|v|v] W|x [|v|v] W]; cbn; try reflexivity; rewrite ceqb_refl; reflexivity.
Qed.

Lemma given_extent a e : given_value a e -> arg_extent a = e.
Proof. destruct 1; reflexivity. Qed.
Lemma given_no_bare a e : given_value a e -> is_bare a = false /\ has_content a = false.
Proof. destruct 1; auto. Qed.
Lemma given_user l es : Forall2 given_size l es -> Forall user_axis (names l).
Proof.
  induction 1 as [|a e l es H _ IH]; [constructor|]. destruct H; cbn [names]; [exact IH|constructor; assumption].
Qed.
Lemma given_extents l es : Forall2 given_value l es -> map arg_extent l = es.
Proof. induction 1 as [|a e l es H _ IH]; [reflexivity|]. cbn. rewrite (given_extent a e H), IH. reflexivity. Qed.
Lemma given_bares l es : Forall2 given_value l es -> existsb is_bare l = false /\ existsb has_content l = false.
Proof.
  induction 1 as [|a e l es H _ [I J]]; [auto|]. cbn [existsb]. destruct (given_no_bare a e H) as [-> ->]. auto.
Qed.

Lemma Forall2_nth {A B} (R : A -> B -> Prop) l m : Forall2 R l m -> forall k b, nth_error m k = Some b ->
  exists a, nth_error l k = Some a /\ R a b.
Proof.
  induction 1 as [|a b l m H _ IH]; intros [|k] c E; cbn [nth_error] in *; try discriminate.
  - injection E as <-. eauto.
  - exact (IH k c E).
Qed.
Lemma Forall2_nth_l {A B} (R : A -> B -> Prop) l m : Forall2 R l m -> forall k a, nth_error l k = Some a ->
  exists b, nth_error m k = Some b /\ R a b.
Proof.
  induction 1 as [|a b l m H _ IH]; intros [|k] c E; cbn [nth_error] in *; try discriminate.
  - injection E as <-. eauto.
  - exact (IH k c E).
Qed.

Lemma Forall2_len {A B} (R : A -> B -> Prop) l m : Forall2 R l m -> length l = length m.
Proof. induction 1; cbn; congruence. Qed.

Lemma combine_nth_error {A B} (l : list A) : forall (m : list B) k a b, nth_error l k = Some a ->
  nth_error m k = Some b -> nth_error (combine l m) k = Some (a, b).
Proof.
  induction l as [|x l IH]; intros [|y m] [|k] a b Ha Hb; cbn in *; try discriminate.
  - injection Ha as ->. injection Hb as ->. reflexivity.
  - apply IH; assumption.
Qed.
Lemma map_fst_combine {A B} (l : list A) : forall (m : list B), length l = length m -> map fst (combine l m) = l.
Proof.
  induction l as [|x l IH]; intros [|y m] H; cbn in *; try discriminate; [reflexivity|].
  rewrite IH by lia. reflexivity.
Qed.

Lemma nth_ext_error {A} (l : list A) : forall m, length l = length m ->
  (forall k, nth_error l k = nth_error m k) -> l = m.
Proof.
  induction l as [|x l IH]; intros [|y m] H E; cbn in *; try discriminate; [reflexivity|].
  pose proof (E O) as X. cbn in X. injection X as ->. f_equal. apply IH; [lia|]. intros k. exact (E (S k)).
Qed.

Lemma named_no_clash l es : Forall2 given_value l es -> distinct_axes (arg_descs l) ->
  named_clash (arg_descs l) (combine (map aid (arg_descs l)) es) = false.
Proof.
  intros HG HD. apply not_true_is_false. intros H. unfold named_clash in H.
  apply existsb_exists in H. destruct H as ([x e] & Ho & H). apply existsb_exists in H.
  destruct H as (d & Hd & H). apply andb_true_iff in H. destruct H as [H1 H2]. cbn [fst snd] in *.
  apply axis_id_eqb_spec in H1. subst x.
  apply In_nth_error in Ho. destruct Ho as [k Hk]. apply In_nth_error in Hd. destruct Hd as [j Hj].
  assert (Lk : (k < length (arg_descs l))%nat).
  { assert ((k < length (combine (map aid (arg_descs l)) es))%nat) by (apply nth_error_Some; rewrite Hk; discriminate).
    rewrite combine_length, map_length in H. lia. }
  assert (Le : length es = length (arg_descs l))
    by (rewrite descs_length; symmetry; exact (Forall2_len _ _ _ HG)).
  destruct (nth_error (arg_descs l) k) as [d'|] eqn:Dk; [|apply nth_error_None in Dk; lia].
  destruct (nth_error es k) as [e'|] eqn:Ek; [|apply nth_error_None in Ek; lia].
  assert (Da : nth_error (map aid (arg_descs l)) k = Some (aid d')) by (rewrite nth_error_map, Dk; reflexivity).
  rewrite (combine_nth_error _ _ _ _ _ Da Ek) in Hk. injection Hk as Hx ->.
  assert (j = k).
  { apply (proj1 (NoDup_nth_error _) HD).
    - rewrite map_length. apply nth_error_Some. rewrite Hj. discriminate.
    - rewrite Da, nth_error_map, Hj. cbn. f_equal. symmetry. exact Hx. }
  subst j. rewrite Dk in Hj. injection Hj as ->.
  destruct (Forall2_nth _ _ _ HG k e Ek) as (a & Ha & G).
  rewrite (descs_nth l k a Ha) in Dk. injection Dk as <-.
  rewrite (given_no_clash a e) in H2; [discriminate|exact G|reflexivity].
Qed.

Lemma positional_no_clash l es ds : Forall2 given_value l es -> map acont ds = map arg_content l ->
  clash ds es = false.
Proof.
  intros H. revert ds. induction H as [|a e l es G _ IH]; intros [|d ds] E; cbn [map clash] in *; try discriminate; [reflexivity|].
  injection E as E1 E2. rewrite (given_no_clash a e d G E1), (IH ds E2). reflexivity.
Qed.

Lemma descs_contents l : map acont (arg_descs l) = map arg_content l.
Proof.
  apply nth_ext_error; [rewrite !map_length; apply descs_length|]. intros k. rewrite !nth_error_map.
  destruct (nth_error l k) as [a|] eqn:E.
  - rewrite (descs_nth l k a E). reflexivity.
  - apply nth_error_None in E. rewrite (proj2 (nth_error_None _ _)); [reflexivity|]. rewrite descs_length. exact E.
Qed.

Lemma expected_all z l es ds : in_ty I32 z -> Forall2 given_value l es -> map acont ds = map arg_content l ->
  map2 (expected (int z)) ds es = map (value_or (int z)) es.
Proof.
  intros Hz H. revert ds. induction H as [|a e l es G _ IH]; intros [|d ds] E; cbn [map map2] in *; try discriminate; [reflexivity|].
  injection E as E1 E2. rewrite (given_expected z a e d Hz G E1), (IH ds E2). reflexivity.
Qed.

Lemma values_by_get p ws : wfp p -> length ws = length (pdesc p) ->
  (forall k w, nth_error ws k = Some w -> pget p k = Ok w) -> to_values p = Ok ws.
Proof.
  intros Hw Hl H. rewrite to_values_ok by exact Hw. f_equal. symmetry.
  apply nth_ext_error; [rewrite values_length by exact Hw; exact Hl|]. intros k.
  destruct (nth_error ws k) as [w|] eqn:E.
  - specialize (H k w E). rewrite pget_ok in H by exact Hw.
    destruct (nth_error (values p) k) as [v|] eqn:F; [injection H as ->; reflexivity|discriminate].
  - apply nth_error_None in E. symmetry. apply nth_error_None. rewrite values_length by exact Hw. lia.
Qed.

Lemma build_args_l dbg z l es : in_ty I32 z -> Forall2 given_value l es -> distinct_axes (arg_descs l) ->
  exists p, build_args dbg (int z) l = Ok p /\ wfp p /\ pdesc p = arg_descs l /\
    to_values p = Ok (map (value_or (int z)) es) /\
    forall a c e, In (ANamed a c e) l -> pget_axis p a = Ok (value_or (int z) e).
Proof.
  intros Hz HG HD.
  assert (Lx : length es = length (arg_descs l)) by (rewrite descs_length; symmetry; exact (Forall2_len _ _ _ HG)).
  assert (HP : exists p, build_args dbg (int z) l = Ok p /\ wfp p /\ pdesc p = arg_descs l /\
                to_values p = Ok (map (value_or (int z)) es)).
  { unfold build_args. rewrite (given_extents l es HG).
    destruct (given_bares l es HG) as [-> ->]. cbn [andb].
    destruct (existsb is_named l).
    - set (os := combine (map aid (arg_descs l)) es).
      assert (Fs : map fst os = map aid (arg_descs l)) by (apply map_fst_combine; rewrite map_length; lia).
      assert (No : NoDup (map fst os)) by (rewrite Fs; exact HD).
      assert (Io : incl (map fst os) (map aid (arg_descs l))) by (rewrite Fs; apply incl_refl).
      assert (Ex : exists p, pconstruct_named dbg (arg_descs l) (int z) os = Ok p /\ pdesc p = arg_descs l /\ wfp p).
      { destruct (named_total_l dbg (arg_descs l) (int z) os HD No Io) as [E|[-> A]]; [exact E|exfalso].
        unfold pconstruct_named in A. destruct (is_fully_static (arg_descs l)); [discriminate|].
        destruct (construct_named_ok true (int z) (arg_descs l) HD os (pdefault (arg_descs l)) eq_refl
                    (pdefault_wfp _) No Io) as [_ A2].
        pose proof (named_no_clash l es HG HD) as NC. fold os in NC. rewrite NC in A2. destruct (A2 eq_refl) as (q & Q & _).
        rewrite Q in A. discriminate. }
      destruct Ex as (p & E & Dp & Wp). exists p. split; [exact E|]. split; [exact Wp|]. split; [exact Dp|].
      apply values_by_get; [exact Wp|rewrite map_length, Dp; exact Lx|]. intros k w Hk.
      rewrite nth_error_map in Hk. destruct (nth_error es k) as [e|] eqn:Ek; [|discriminate].
      injection Hk as <-. destruct (Forall2_nth _ _ _ HG k e Ek) as (a & Ha & G).
      pose proof (descs_nth l k a Ha) as Dk.
      match type of Dk with _ = Some ?x => set (d := x) in * end.
      destruct (named_reads_back_l dbg (arg_descs l) (int z) os p HD No Io E) as [R _].
      assert (Ho : In (aid d, e) os).
      { apply (nth_error_In _ k). apply combine_nth_error; [rewrite nth_error_map, Dk; reflexivity|exact Ek]. }
      pose proof (R d e (nth_error_In _ _ Dk) Ho) as X. unfold pget_axis in X.
      rewrite Dp, (find_axis_unique _ k d HD Dk) in X. rewrite X. f_equal. apply (given_expected z a e d Hz G). reflexivity.
    - destruct (pconstruct_ok dbg (arg_descs l) (int z) es) as [_ P]; [lia|].
      rewrite Lx, Nat.sub_diag in P. cbn [repeat app] in P.
      rewrite (positional_no_clash l es _ HG (descs_contents l)), andb_false_r in P.
      destruct (P eq_refl) as (p & E & Dp & Wp & Vp). exists p. split; [exact E|]. split; [exact Wp|].
      split; [exact Dp|]. rewrite to_values_ok, Vp by exact Wp. f_equal. apply (expected_all z l); [exact Hz|exact HG|apply descs_contents]. }
  destruct HP as (p & E & Wp & Dp & Vp). exists p. do 4 (split; [assumption|]).
  intros x c e Hi. apply In_nth_error in Hi. destruct Hi as [k Hk].
  destruct (Forall2_nth_l _ _ _ HG k _ Hk) as (e' & Ek & G). inversion G; subst.
  pose proof (descs_nth l k _ Hk) as Dk. cbn [arg_axis] in Dk.
  unfold pget_axis. rewrite Dp.
  match type of Dk with _ = Some ?x => set (d := x) in * end.
  replace x with (aid d) by reflexivity.
  rewrite (find_axis_unique _ k d HD Dk). rewrite pget_ok by exact Wp.
  rewrite to_values_ok in Vp by exact Wp. injection Vp as Vp. rewrite Vp, nth_error_map, Ek. reflexivity.
Qed.

Lemma of_size_args_l dbg l es : Forall2 given_size l es -> NoDup (names l) ->
  exists p, of_size_args dbg l = Ok p /\ wfp p /\ pdesc p = arg_descs l /\
    to_values p = Ok (map size_of es) /\
    forall a c e, In (ANamed a c e) l -> pget_axis p a = Ok (size_of e).
Proof.
  intros HG HN. apply (build_args_l dbg 0 l es).
  - unfold in_ty; simpl; lia.
  - apply given_sizes_values, HG.
  - apply descs_distinct; [exact HN|exact (given_user l es HG)].
Qed.

Lemma names_perm l l' : Permutation l l' -> Permutation (names l) (names l').
Proof.
  induction 1; [constructor| | |econstructor; eassumption].
  - destruct x; cbn [names]; [assumption|constructor; assumption..].
  - destruct x, y; cbn [names]; try apply Permutation_refl; constructor.
Qed.

Lemma of_size_any_order_l dbg l l' : Permutation l l' ->
  Forall (fun a => exists e, given_size a e) l -> NoDup (names l) ->
  exists p p', of_size_args dbg l = Ok p /\ of_size_args dbg l' = Ok p' /\
    forall a, In a (names l) -> exists v, pget_axis p a = Ok v /\ pget_axis p' a = Ok v.
Proof.
  intros HP HF HN.
  assert (X : forall m, Forall (fun a => exists e, given_size a e) m -> exists es, Forall2 given_size m es).
  { induction 1 as [|a m [e H] _ [es IH]]; [exists []; constructor|exists (e :: es); constructor; assumption]. }
  destruct (X l HF) as [es Hes].
  assert (HF' : Forall (fun a => exists e, given_size a e) l').
  { rewrite Forall_forall in *. intros a Ha. apply HF. apply (Permutation_in a (Permutation_sym HP)), Ha. }
  destruct (X l' HF') as [es' Hes'].
  assert (HN' : NoDup (names l')) by (apply (Permutation_NoDup (names_perm l l' HP) HN)).
  destruct (of_size_args_l dbg l es Hes HN) as (p & E & _ & _ & _ & R).
  destruct (of_size_args_l dbg l' es' Hes' HN') as (p' & E' & _ & _ & _ & R').
  exists p, p'. split; [exact E|]. split; [exact E'|]. intros a Ha.
  assert (exists c e, In (ANamed a c e) l) as (c & e & Hi).
  { clear - HF Ha. induction HF as [|b l [e Hb] _ IH]; [destruct Ha|].
    destruct Hb; cbn [names] in Ha.
    - destruct (IH Ha) as (c & e' & H'). exists c, e'. right. exact H'.
    - destruct Ha as [->|Ha]; [exists CJoker, e; left; reflexivity|].
      destruct (IH Ha) as (c & e' & H'). exists c, e'. right. exact H'. }
  exists (size_of e). split; [exact (R a c e Hi)|]. apply (R' a c e). apply (Permutation_in _ HP), Hi.
Qed.

(** Bare axes. *)
Lemma bare_no_clash l : existsb is_named l = false -> forall ds, map acont ds = map arg_content l ->
  clash ds (map arg_extent l) = false.
Proof.
  induction l as [|a l IH]; intros Hn [|d ds] E; cbn [map clash existsb] in *; try discriminate; [reflexivity|].
  apply orb_false_iff in Hn. destruct Hn as [Ha Hn]. injection E as E1 E2. rewrite (IH Hn ds E2), orb_false_r.
  unfold contradictsb. rewrite E1. destruct a as [[|v|v]|x [| |]|]; cbn in *; try reflexivity; try discriminate.
  rewrite ceqb_refl. reflexivity.
Qed.

Lemma bare_axis_l dbg l : existsb is_named l = false -> NoDup (names l) -> Forall user_axis (names l) ->
  exists p, of_size_args dbg l = Ok p /\ wfp p /\
    forall a c, In (AAxis a c) l -> exists t, pget_axis p a = Ok (CI t 0) /\
      t = match c with CJoker => I32 | CType t => t | CStatic v => cty v end.
Proof.
  intros Hn HN HU. pose proof (descs_distinct l HN HU) as HD. unfold of_size_args, build_args. rewrite Hn.
  destruct (pconstruct_ok dbg (arg_descs l) (int 0) (map arg_extent l)) as [_ P];
    [rewrite map_length, descs_length; lia|].
  rewrite map_length, descs_length, Nat.sub_diag in P. cbn [repeat app] in P.
  rewrite (bare_no_clash l Hn _ (descs_contents l)), andb_false_r in P.
  destruct (P eq_refl) as (p & E & Dp & Wp & Vp). exists p. split; [exact E|]. split; [exact Wp|].
  intros a c Hi. apply In_nth_error in Hi. destruct Hi as [k Hk].
  pose proof (descs_nth l k _ Hk) as Dk. cbn [arg_axis arg_content] in Dk.
  unfold pget_axis. rewrite Dp.
  match type of Dk with _ = Some ?x => set (d := x) in * end.
  replace a with (aid d) by reflexivity.
  rewrite (find_axis_unique _ k d HD Dk), pget_ok, Vp by exact Wp.
  assert (Ek : nth_error (map arg_extent l) k = Some EJoker) by (rewrite nth_error_map, Hk; reflexivity).
  rewrite (nth_map2 _ _ _ _ _ _ Dk Ek). eexists. split; [|reflexivity].
  unfold expected, axis_type, d. cbn [acont]. destruct c as [|t|[t z]]; cbn [content_type cty];
    [reflexivity|destruct t; reflexivity..].
Qed.

(** Options holding constants, on axes with a declared type. *)
Lemma static_named_l dbg (l : list (axis_id * content * cint)) :
  NoDup (map (fun x => fst (fst x)) l) -> Forall user_axis (map (fun x => fst (fst x)) l) -> l <> [] ->
  exists p, of_size_args dbg (map (fun x => ANamed (fst (fst x)) (snd (fst x)) (EConst (snd x))) l) = Ok p /\
    forall a c v, In (a, c, v) l ->
      pget_axis p a = Ok match c with CJoker => v | CType t => conv t v | CStatic w => conv (cty w) v end.
Proof.
  intros HN HU HE. set (g := fun x : axis_id * content * cint => ANamed (fst (fst x)) (snd (fst x)) (EConst (snd x))).
  assert (Nm : names (map g l) = map (fun x => fst (fst x)) l)
    by (clear; induction l as [|x l IH]; [reflexivity|]; cbn [map names g]; rewrite <- IH; reflexivity).
  assert (HD : distinct_axes (arg_descs (map g l))) by (apply descs_distinct; rewrite Nm; assumption).
  assert (HS : is_fully_static (arg_descs (map g l)) = true).
  { rewrite fully_static_nb. apply Nat.eqb_eq.
    assert (X : forall ds, Forall (fun c => exists v, c = CStatic v) (map acont ds) -> nb_runtime ds = O).
    { induction ds as [|d ds IH]; intros F; [reflexivity|]. cbn [map nb_runtime] in *. inversion F as [|? ? [v Hv] F']; subst.
      rewrite Hv. apply IH, F'. }
    apply X. rewrite descs_contents. rewrite map_map. apply Forall_forall. intros c Hc. apply in_map_iff in Hc.
    destruct Hc as (x & <- & _). eexists. reflexivity. }
  unfold of_size_args, build_args. rewrite HS. cbn [negb]. rewrite andb_false_r.
  assert (existsb is_named (map g l) = true) as -> by (destruct l; [congruence|reflexivity]).
  assert (existsb is_bare (map g l) = false) as ->
    by (clear; induction l; [reflexivity|]; cbn [map existsb]; rewrite IHl; reflexivity).
  unfold pconstruct_named. rewrite HS. eexists. split; [reflexivity|].
  intros a c v Hi. apply (in_map g) in Hi. apply In_nth_error in Hi. destruct Hi as [k Hk].
  pose proof (descs_nth _ k _ Hk) as Dk. cbn [g arg_axis arg_content fst snd] in Dk.
  unfold pget_axis. cbn [pdesc pdefault].
  match type of Dk with _ = Some ?x => set (d := x) in * end.
  change a with (aid d).
  rewrite (find_axis_unique _ k d HD Dk), pget_ok by apply pdefault_wfp.
  rewrite (nth_static (pdefault _) k d _ (pdefault_wfp _) Dk eq_refl).
  destruct c; reflexivity.
Qed.

(** A run-time value for an axis written with a content: its descriptor is a type, so the list is not static. *)
Lemma runtime_not_static ds : Exists (fun d => match acont d with CStatic _ => False | _ => True end) ds ->
  is_fully_static ds = false.
Proof.
  intros H. rewrite fully_static_nb. apply Nat.eqb_neq.
  induction H as [d ds H|d ds H IH]; cbn [nb_runtime]; destruct (acont d); try contradiction; try discriminate; exact IH.
Qed.

Lemma typed_axis_number_l dbg l a c v : In (ANamed a c (EInt v)) l -> c <> CJoker -> of_size_args dbg l = UB.
Proof.
  intros HI HC. unfold of_size_args, build_args.
  rewrite (proj2 (existsb_exists is_named l)); [|exists (ANamed a c (EInt v)); auto].
  destruct (existsb is_bare l); [reflexivity|].
  rewrite (proj2 (existsb_exists has_content l)); [|exists (ANamed a c (EInt v)); split; [exact HI|]; destruct c; [congruence|reflexivity..]].
  rewrite runtime_not_static; [reflexivity|].
  apply Exists_exists. destruct (In_nth_error l _ HI) as [k E]. pose proof (descs_nth l k _ E) as D.
  eexists. split; [exact (nth_error_In _ _ D)|]. exact I.
Qed.

Lemma bare_axis_with_options_l dbg l a c x d e : In (AAxis a c) l -> In (ANamed x d e) l -> of_size_args dbg l = UB.
Proof.
  intros A N. unfold of_size_args, build_args.
  rewrite (proj2 (existsb_exists is_named l)); [|exists (ANamed x d e); auto].
  rewrite (proj2 (existsb_exists is_bare l)); [reflexivity|]. exists (AAxis a c). auto.
Qed.

(** ** Sizes without names *)
Lemma sized_l dbg es : Forall wf_extent es -> exists p, of_size dbg es = Ok p /\ wfp p /\ to_values p = Ok (map size_of es) /\
  map is_dynamic (pdesc p) = map (fun e => match e with EConst _ => false | _ => true end) es.
Proof.
  intros W. unfold of_size. set (ds := normalize (map (fun e => (None, to_descriptor e)) es)).
  assert (L : length ds = length es) by (unfold ds, normalize; rewrite normalize_from_length, map_length; reflexivity).
  destruct (pconstruct_ok dbg ds (int 0) es ltac:(lia)) as [_ B].
  rewrite L, Nat.sub_diag in B. cbn [repeat app] in B.
  assert (G : forall es i sz, Forall wf_extent es ->
    let ds := normalize_from i sz (map (fun e => (None, to_descriptor e)) es) in
    clash ds es = false /\ map2 (expected (int 0)) ds es = map size_of es /\
    map is_dynamic ds = map (fun e => match e with EConst _ => false | _ => true end) es).
  { clear. intros es. induction es as [|e es IH]; intros i sz W; [repeat split|]. inversion W as [|? ? We Wes]; subst.
    destruct (IH (i + 1)%Z sz Wes) as (C & V & D). cbn [map normalize_from clash map2].
    rewrite C, V, D, orb_false_r. destruct e as [|v|v].
    - split; [reflexivity|]. split; reflexivity.
    - split; [reflexivity|]. split; [|reflexivity]. unfold expected, axis_type. cbn [acont to_descriptor size_of]. f_equal.
      destruct v as [t z]. exact (conv_exact t (CI t z) We).
    - split; [|split; reflexivity]. unfold contradictsb. cbn [acont to_descriptor]. rewrite ceqb_same. reflexivity. }
  destruct (G es 0 (Z.of_nat (length (map (fun e => (@None axis_id, to_descriptor e)) es))) W) as (C & V & D).
  destruct B as (p & E & Dp & Wp & Vp); [fold (normalize (map (fun e => (@None axis_id, to_descriptor e)) es)) in C; fold ds in C; rewrite C; apply andb_false_r|].
  exists p. split; [exact E|]. split; [exact Wp|]. rewrite to_values_ok, Vp, Dp by exact Wp. split; [f_equal; exact V|exact D].
Qed.

Lemma sized_as_l dbg t es : exists p, of_size_as dbg t es = Ok p /\ wfp p /\
  to_values p = Ok (map (fun e => conv t (size_of e)) es) /\
  map is_dynamic (pdesc p) = map (fun e => match e with EConst _ => false | _ => true end) es.
Proof.
  destruct (sized_l dbg (map (force_type t) es)) as (p & E & W & V & D).
  { apply Forall_forall. intros e I. apply in_map_iff in I as (x & <- & _). destruct x; cbn; [destruct t; split; cbv; discriminate|apply conv_wf..]. }
  exists p. split; [exact E|]. split; [exact W|]. rewrite V, D, !map_map. split.
  - f_equal. apply map_ext. intros [|v|v]; [|reflexivity..]. cbn [force_type size_of]. symmetry. apply (conv_exact t (int 0)).
    destruct t; split; cbv; discriminate.
  - apply map_ext. intros []; reflexivity.
Qed.
