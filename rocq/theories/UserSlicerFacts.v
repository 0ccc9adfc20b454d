(** Facts about slicers of the user (C98). *)
From Coq Require Import ZArith List Bool Lia.
From Verif Require Import Outcome CInt CIntFacts Spec SpecFacts ShapeSpec Shape ShapeFacts ShapeFacts2 EndRatio EndRatioSpec
  Memory MemFacts Container ContainerSpec ContainerFacts ContainerFacts2 ContainerFacts3 Slicer SlicerSpec
  SlicerFacts SlicerFacts2 SlicerFacts3 SlicerFacts4 UserSlicer UserSlicerSpec.
Import ListNotations.
Open Scope Z_scope.

(** ** One axis *)
Lemma skipn_cons {X} (l : list X) : forall k x r, skipn k l = x :: r -> nth_error l k = Some x /\ skipn (S k) l = r.
Proof. induction l as [|y l IH]; intros [|k] x r H; cbn in *; try discriminate; [injection H as -> ->; auto|]. apply IH in H. exact H. Qed.

Lemma says_ok c st k x d sl o n s : axis x -> wfc d -> 0 <= cval d -> cval x * cval d <= 2147483647 -> 0 <= s ->
  nth_error c k = Some x -> nth_error st k = Some d -> says c st k x d sl o n s ->
  exists co cn cd, xreindex c k sl = Ok co /\ cval co = o /\ wfc co /\ (xwide c k sl -> promote (cty co) = cty co) /\
    xreshape c k sl = Ok cn /\ cval cn = n /\ wfc cn /\ xrestride st k sl = Ok cd /\ cval cd = s * cval d /\ wfc cd.
Proof.
  intros A W Dn B S Hc Hd H. destruct sl as [sl|u]; cbn [says xreindex xreshape xrestride xwide] in *.
  - rewrite Hc, Hd. destruct H as [T Sx]. destruct (takes_ok _ _ _ _ _ A T) as (co & cn & E1 & V1 & W1 & P1 & E2 & V2 & W2).
    destruct (takes_facts _ _ _ _ _ A T) as [_ Sn].
    destruct (restride_pos [d] [sl] [s]) as (st' & E3 & V3 & W3 & _).
    + constructor; [exact W|constructor].
    + constructor; [exact Dn|constructor].
    + constructor; [apply (takes_step _ _ _ _ _ T)|constructor].
    + reflexivity.
    + constructor; [lia|constructor].
    + constructor; [|constructor]. rewrite Z.abs_eq by nia. nia.
    + cbn [mapM2] in E3. apply bind_inv in E3 as (cd & E3 & E4). rewrite bind_ok in E4. injection E4 as <-.
      cbn in V3. injection V3 as V3. inversion W3; subst.
      exists co, cn, cd. repeat (split; [first [assumption|reflexivity]|]). assumption.
  - destruct H as ((f & E1 & E2 & Wf & Vf) & Hn & Hs). rewrite E1, E2.
    assert (N : exists cn, Ok (match u_count u with Some f => f c k | None => int 1 end) = Ok cn /\ cval cn = n /\ wfc cn).
    { eexists. split; [reflexivity|]. destruct (u_count u); [destruct Hn; auto|]. subst n. split; [reflexivity|apply wf1]. }
    destruct N as (cn & F1 & F2 & F3).
    assert (D : exists cd, match u_stride u with
              | Some f => Ok (f st k)
              | None => match nth_error st k with Some d => Ok d | None => UB end
              end = Ok cd /\ cval cd = s * cval d /\ wfc cd).
    { destruct (u_stride u); [eexists; split; [reflexivity|destruct Hs; auto]|]. rewrite Hd. exists d. subst s. split; [reflexivity|]. split; [lia|exact W]. }
    destruct D as (cd & G1 & G2 & G3). exists (f c k), cn, cd. repeat (split; [first [assumption|reflexivity]|]).
    split; [intros P; apply P; reflexivity|]. repeat (split; [assumption|]). assumption.
Qed.

(** ** All axes *)
Lemma cut_length c st k xs ds sls os ns ss : cut_from c st k xs ds sls os ns ss ->
  length ds = length xs /\ length sls = length xs /\ length os = length xs /\ length ns = length xs /\ length ss = length xs.
Proof. induction 1; cbn; intuition lia. Qed.

Lemma cut_in_box c st k xs ds sls os ns ss : cut_from c st k xs ds sls os ns ss -> in_box (vals xs) os.
Proof. induction 1 as [|k x xs d ds sl sls o os n ns s ss Hs (H0 & H1 & H2 & H3) H IH]; constructor; assumption. Qed.

Lemma cut_nonneg c st k xs ds sls os ns ss : cut_from c st k xs ds sls os ns ss -> nonnegs ns /\ nonnegs ss.
Proof. induction 1 as [|k x xs d ds sl sls o os n ns s ss Hs (H0 & H1 & H2 & H3) H [IH1 IH2]]; split; constructor; assumption. Qed.

Lemma cut_place c st k xs ds sls os ns ss : cut_from c st k xs ds sls os ns ss -> forall js, in_box ns js ->
  in_box (vals xs) (place os ss js).
Proof.
  induction 1 as [|k x xs d ds sl sls o os n ns s ss Hs (H0 & H1 & H2 & H3) H IH]; intros js B.
  - inversion B; subst. constructor.
  - inversion B as [|? ? j js' Bj B']; subst. cbn [vals map place]. constructor; [|apply IH, B'].
    specialize (H3 ltac:(lia)). nia.
Qed.

Lemma cut_reach c st k xs ds sls os ns ss : cut_from c st k xs ds sls os ns ss -> forall js, in_box ns js ->
  absdot (times ss (strides_of (vals xs))) js <= prod (vals xs) - 1.
Proof.
  induction 1 as [|k x xs d ds sl sls o os n ns s ss Hs (H0 & H1 & H2 & H3) H IH]; intros js B.
  - reflexivity.
  - inversion B as [|? ? j js' Bj B']; subst. specialize (IH _ B'). cbn [vals map strides_of times absdot]. rewrite prod_cons. fold (vals xs).
    pose proof (prod_ge1 _ (in_box_pos _ _ (cut_in_box _ _ _ _ _ _ _ _ _ H))) as P. specialize (H3 ltac:(lia)).
    assert (J : Z.abs (s * j) <= cval x - 1) by nia.
    replace (s * prod (vals xs) * j) with ((s * j) * prod (vals xs)) by lia.
    rewrite Z.abs_mul, (Z.abs_eq (prod (vals xs))) by lia. nia.
Qed.

Lemma cut_ok c st k xs ds sls os ns ss : cut_from c st k xs ds sls os ns ss -> skipn k c = xs -> skipn k st = ds ->
  Forall axis xs -> wfs ds -> vals ds = strides_of (vals xs) -> prod (vals xs) <= 2147483647 ->
  exists cos cns st', map_index (xreindex c) k sls = Ok cos /\ vals cos = os /\ wfs cos /\
    ((forall i sl, nth_error sls i = Some sl -> xwide c (k + i) sl) -> Forall (fun c => promote (cty c) = cty c) cos) /\
    map_index (xreshape c) k sls = Ok cns /\ vals cns = ns /\ wfs cns /\
    map_index (xrestride st) k sls = Ok st' /\ vals st' = times ss (vals ds) /\ wfs st'.
Proof.
  induction 1 as [|k x xs d ds sl sls o os n ns s ss Hs (H0 & H1 & H2 & H3) H IH]; intros Ec Ed A W V B.
  - exists [], [], []. repeat (split; [solve [reflexivity | constructor | intros; constructor]|]). constructor.
  - destruct (skipn_cons _ _ _ _ Ec) as [Nc Sc]. destruct (skipn_cons _ _ _ _ Ed) as [Nd Sd].
    inversion A as [|? ? Ax A']; subst. inversion W as [|? ? Wd W']; subst. cbn [vals map strides_of times] in V, B. rewrite prod_cons in B.
    injection V as V1 V2.
    pose proof (prod_ge1 _ (in_box_pos _ _ (cut_in_box _ _ _ _ _ _ _ _ _ H))) as Pp.
    assert (B1 : cval x * cval d <= 2147483647) by (rewrite V1; exact B).
    assert (B2 : prod (vals (skipn (S k) c)) <= 2147483647) by (change (cval x * prod (vals (skipn (S k) c)) <= 2147483647) in B; nia).
    destruct (IH eq_refl eq_refl A' W' V2 B2) as (cos & cns & st' & E1 & U1 & X1 & P1 & E2 & U2 & X2 & E3 & U3 & X3).
    assert (Dn : 0 <= cval d) by (rewrite V1; exact (Z.le_trans _ _ _ Z.le_0_1 Pp)).
    destruct (says_ok c st k x d sl o n s Ax Wd Dn B1 H1 Nc Nd Hs) as (co & cn & cd & F1 & G1 & Y1 & Q1 & F2 & G2 & Y2 & F3 & G3 & Y3).
    exists (co :: cos), (cn :: cns), (cd :: st'). cbn [map_index]. rewrite F1, F2, F3, !bind_ok, E1, E2, E3, !bind_ok. cbn [vals map times].
    fold (vals cos) (vals cns) (vals st') (vals (skipn (S k) st)). rewrite G1, G2, G3, U1, U2, U3.
    split; [reflexivity|]. split; [reflexivity|]. split; [constructor; assumption|]. split.
    { intros Hw. constructor.
      - apply Q1. specialize (Hw O sl eq_refl). rewrite Nat.add_0_r in Hw. exact Hw.
      - apply P1. intros i sl' Hi. specialize (Hw (S i) sl' Hi). rewrite Nat.add_succ_r in Hw. exact Hw. }
    split; [reflexivity|]. split; [reflexivity|]. split; [constructor; assumption|]. split; [reflexivity|]. split; [reflexivity|].
    constructor; assumption.
Qed.

Lemma some_xslicer_guard sls : some_xslicer sls -> forallb xindex sls = false.
Proof.
  intros (sl & I & N). apply not_true_iff_false. intros F. rewrite forallb_forall in F. specialize (F sl I).
  destruct sl as [sl|u]; [|discriminate]. destruct sl; try discriminate. exact (N i eq_refl).
Qed.
Lemma cut_guard c st k xs ds sls os ns ss : cut_from c st k xs ds sls os ns ss -> existsb xconst_index sls = false.
Proof.
  induction 1 as [|k x xs d ds sl sls o os n ns s ss Hs Ho H IH]; [reflexivity|]. cbn [existsb]. rewrite IH, orb_false_r.
  destruct sl as [sl|u]; [|reflexivity]. destruct Hs as [T _]. destruct T; reflexivity.
Qed.

(** ** The slice *)
Lemma xslice_l dbg ss0 st0 c sls cs st os ns ss tys : default_layout c ->
  (1 <= length sls <= length (c_shape c))%nat -> compress (length sls) (c_shape c) = Ok cs -> get_stride c = Ok st ->
  cut cs (compress_stride (length sls) st) sls os ns ss -> some_xslicer sls -> (dbg = true -> all_wide cs sls) ->
  posprod ns <= 2147483647 ->
  exists v, xslice_container dbg ss0 st0 c sls = Ok v /\ dims v = ns /\ legal (c_shape v) /\ addressable v tys /\
    c_data v = padd (c_data c) (rank (vals cs) os) /\ strides_z v = times ss (strides_of (vals cs)) /\
    (forall js, in_box ns js -> in_box (vals cs) (place os ss js) /\
       elem v js = padd (c_data c) (rank (vals cs) (place os ss js))) /\
    (forall js is_, in_box ns js -> in_box (dims c) is_ ->
       merge_coord (length (c_shape c) - length sls + 1) (dims c) is_ = place os ss js -> elem v js = elem c is_).
Proof.
  intros D N Cs Gs Ct Sm Wd Pn. pose proof D as (Lg & Ne & _).
  destruct (compress_ok (length sls) (c_shape c) Lg N) as (cs' & Cs' & Vcs & Lc & Ln).
  rewrite Cs in Cs'. injection Cs' as <-. pose proof (legal_axis cs Lc) as Ax.
  destruct (cut_length _ _ _ _ _ _ _ _ _ Ct) as (L0 & L1 & L2 & L3 & L4).
  destruct (default_stride_any c D) as (st1 & Gs1 & Ws & Vs & Ls & _). rewrite Gs in Gs1. injection Gs1 as <-.
  set (d := compress_stride (length sls) st) in *.
  assert (Wdd : wfs d) by (apply Forall_skipn; exact Ws).
  assert (Vd : vals d = strides_of (vals cs)).
  { unfold d, compress_stride. rewrite vals_skipn, Vs. rewrite strides_skip.
    - rewrite Vcs. f_equal. f_equal. rewrite Ls. lia.
    - unfold dims. rewrite vals_length, Ls. lia. }
  assert (Pc : prod (vals cs) <= 2147483647).
  { destruct Lc as (_ & Q1 & Q2). pose proof (prod_le_posprod _ Q1). lia. }
  destruct (cut_ok _ _ _ _ _ _ _ _ _ Ct eq_refl eq_refl Ax Wdd Vd Pc) as (cos & cns & st' & E1 & U1 & X1 & P1 & E2 & U2 & X2 & E3 & U3 & X3).
  destruct (cut_nonneg _ _ _ _ _ _ _ _ _ Ct) as [Nn Nss].
  pose proof (cut_in_box _ _ _ _ _ _ _ _ _ Ct) as Bo.
  unfold xslice_container. rewrite (some_xslicer_guard _ Sm), Gs, bind_ok. unfold xorigin, xslice_shape, xslice_stride.
  rewrite Cs, !bind_ok, (cut_guard _ _ _ _ _ _ _ _ _ Ct). fold d. rewrite E1, E2, E3, !bind_ok.
  assert (Lcos : length cos = length cs) by (rewrite <- L2, <- U1; unfold vals; rewrite map_length; reflexivity).
  destruct (linear_index_ok dbg cs cos) as (o & Eo & Vo & Wo).
  { exact Lc. }
  { intros ->. cbn in L1. lia. }
  { split; [exact X1|]. rewrite U1. exact Bo. }
  { intros Hd. apply wide_fits; [exact Ax|exact Lcos|apply P1]. exact (Wd Hd). }
  rewrite Eo, bind_ok. rewrite U1 in Vo.
  assert (Lk : legal cns) by (split; [exact X2|]; rewrite U2; split; [exact Nn|exact Pn]).
  assert (Nek : cns <> []) by (intros ->; cbn in U2; subst ns; cbn in L3; lia).
  destruct (make_view_given ss0 st0 cns st' (padd (c_data c) (cast I64 (cval o))) Lk Nek) as (v & Ev).
  exists v. split; [exact Ev|]. destruct (kind_given _ _ _ _ _ _ Ev) as (Vsh & Vd' & Vg & Vk).
  assert (Dv : dims v = ns) by (unfold dims; rewrite Vsh; exact U2).
  assert (Lv : legal (c_shape v)) by (rewrite Vsh; exact Lk).
  assert (Av : c_data v = padd (c_data c) (rank (vals cs) os)).
  { rewrite Vd'. f_equal. rewrite Vo. apply cast_I64_small.
    pose proof (rank_range _ _ Bo). destruct Lc as (_ & Q1 & Q2). pose proof (prod_le_posprod _ Q1). unfold max31. lia. }
  split; [exact Dv|]. split; [exact Lv|].
  assert (Sz : strides_z v = times ss (strides_of (vals cs))) by (unfold strides_z; rewrite Vg, U3, Vd; reflexivity).
  assert (El : forall js, in_box ns js -> in_box (vals cs) (place os ss js) /\
       elem v js = padd (c_data c) (rank (vals cs) (place os ss js))).
  { intros js B. pose proof (in_box_length _ _ B) as Lj.
    split; [eapply cut_place; eassumption|]. unfold elem. rewrite Sz, Av, padd_padd. f_equal.
    assert (length (vals cs) = length cs) by apply vals_length.
    rewrite !rank_dot by (try rewrite place_length; congruence).
    rewrite dot_place; rewrite ?strides_of_length; congruence. }
  split.
  { split; [|split].
    - split; [apply Lv|]. split; [unfold dims; apply Lv|]. split; [|exact Vk].
      exists st'. split; [exact Vg|]. split; [exact X3|]. rewrite Vsh.
      assert (E4 : length (vals cns) = length ns) by (rewrite U2; reflexivity). rewrite vals_length in E4. rewrite E4, L3.
      assert (E5 : length (vals st') = length (times ss (vals d))) by (rewrite U3; reflexivity).
      rewrite vals_length in E5. rewrite E5, Vd.
      assert (E6 : length (strides_of (vals cs)) = length ss) by (rewrite strides_of_length, vals_length; congruence).
      rewrite <- L4. clear -E6. revert ss E6. induction (strides_of (vals cs)) as [|x l IH]; intros [|s ss] E; try discriminate; [reflexivity|].
      simpl. f_equal. apply IH. simpl in E. congruence.
    - left. rewrite Sz. assert (Q : nonnegs (strides_of (vals cs))) by (apply strides_of_nonneg; destruct Lc as (_ & Q & _); exact Q).
      clear -Q Nss. revert Q. generalize (strides_of (vals cs)). induction Nss as [|s ss Hs _ IH]; intros [|x l] Q; cbn [times]; try constructor.
      + inversion Q; subst. nia.
      + inversion Q; subst. apply IH. assumption.
    - left. intros js B. rewrite Dv in B. rewrite Sz. pose proof (cut_reach _ _ _ _ _ _ _ _ _ Ct js B). lia. }
  split; [exact Av|]. split; [exact Sz|]. split; [exact El|].
  intros js is_ B Bi M. destruct (El js B) as [_ ->]. rewrite (default_elem c is_ D Bi). f_equal.
  rewrite <- M, Vcs. unfold dims. apply merge_coord_rank. exact Bi.
Qed.

Lemma xslice_get_l {T} (m : mem T) dbg ss0 st0 c sls cs st os ns ss : default_layout c ->
  (1 <= length sls <= length (c_shape c))%nat -> compress (length sls) (c_shape c) = Ok cs -> get_stride c = Ok st ->
  cut cs (compress_stride (length sls) st) sls os ns ss -> some_xslicer sls -> (dbg = true -> all_wide cs sls) ->
  posprod ns <= 2147483647 ->
  exists v, xslice_container dbg ss0 st0 c sls = Ok v /\ dims v = ns /\
    (forall js, in_box ns js -> exists is_, in_box (dims c) is_ /\
       merge_coord (length (c_shape c) - length sls + 1) (dims c) is_ = place os ss js) /\
    (forall js is_, coord_of v js -> coord_of c is_ ->
       merge_coord (length (c_shape c) - length sls + 1) (dims c) (vals is_) = place os ss (vals js) ->
       get m v js = get m c is_ /\ forall x, put m v js x = put m c is_ x).
Proof.
  intros D N Cs Gs Ct Sm Wd Pn.
  destruct (xslice_l dbg ss0 st0 c sls cs st os ns ss [] D N Cs Gs Ct Sm Wd Pn) as (v & Ev & Dv & Lv & _ & _ & _ & El & Em).
  exists v. split; [exact Ev|]. split; [exact Dv|]. split.
  - intros js B. destruct (El js B) as [P _].
    destruct D as (Lg & Ne & _). destruct (compress_ok (length sls) (c_shape c) Lg N) as (cs' & Cs' & Vcs & _).
    rewrite Cs in Cs'. injection Cs' as <-. rewrite Vcs in P. apply merge_coord_surj; [| |exact P].
    + destruct Lg as (_ & Q & _). exact Q.
    + unfold dims. destruct (c_shape c); [contradiction|discriminate].
  - intros js is_ Cj Ci M.
    destruct (xslice_l dbg ss0 st0 c sls cs st os ns ss (map cty js) D N Cs Gs Ct Sm Wd Pn) as (v' & Ev' & _ & _ & Av & _).
    rewrite Ev in Ev'. injection Ev' as <-.
    pose proof Cj as [Wj Bj]. pose proof Ci as [Wi Bi]. pose proof Bj as Bj'. rewrite Dv in Bj'.
    specialize (Em _ _ Bj' Bi M).
    pose proof (default_addressable c (map cty is_) D) as Ac.
    unfold get, put, ref. rewrite (elem_address v js), (elem_address c is_) by assumption.
    rewrite Em. auto.
Qed.

(** ** In the place of slicers of the library *)
Lemma stands_maps c st : forall xs ds k sls sls', skipn k c = xs -> skipn k st = ds ->
  length xs = length sls' -> length ds = length sls' -> length sls = length sls' ->
  (forall i sl sl', nth_error sls i = Some sl -> nth_error sls' i = Some sl' -> stands_for c st (k + i) sl sl') ->
  map_index (xreindex c) k sls = mapM2 reindex1 xs sls' /\ map_index (xreshape c) k sls = mapM2 reshape1 xs sls' /\
  map_index (xrestride st) k sls = mapM2 restride1 ds sls'.
Proof.
  induction xs as [|x xs IH]; intros ds k sls sls' Ec Ed L1 L2 L3 F.
  - destruct sls'; [|discriminate]. destruct sls; [|discriminate]. destruct ds; [|discriminate]. auto.
  - destruct sls' as [|sl' sls']; [discriminate|]. destruct sls as [|sl sls]; [discriminate|]. destruct ds as [|d ds]; [discriminate|].
    destruct (skipn_cons _ _ _ _ Ec) as [Nc Sc]. destruct (skipn_cons _ _ _ _ Ed) as [Nd Sd].
    destruct (IH ds (S k) sls sls' Sc Sd) as (I1 & I2 & I3); try (cbn in *; congruence).
    { intros i s s' H H'. specialize (F (S i) s s' H H'). rewrite Nat.add_succ_r in F. exact F. }
    cbn [map_index mapM2]. rewrite I1, I2, I3. specialize (F O sl sl' eq_refl eq_refl). rewrite Nat.add_0_r in F.
    destruct sl as [sl|u]; cbn [stands_for] in F.
    + subst sl'. cbn [xreindex xreshape xrestride]. rewrite Nc, Nd. auto.
    + destruct F as (x' & d' & f & Hx & Hd & Ei & Ev & R1 & R2 & R3). rewrite Nc in Hx. injection Hx as <-. rewrite Nd in Hd. injection Hd as <-.
      cbn [xreindex xreshape xrestride]. rewrite Ei, Ev, R1. split; [reflexivity|].
      split.
      * destruct (u_count u); rewrite R2; reflexivity.
      * destruct (u_stride u); rewrite R3; [reflexivity|]. rewrite Nd. reflexivity.
Qed.

Lemma stands_l dbg ss0 st0 c cs st sls sls' : compress (length sls) (c_shape c) = Ok cs -> get_stride c = Ok st ->
  length sls = length sls' -> length cs = length sls -> length (compress_stride (length sls) st) = length sls ->
  some_slicer sls' -> some_xslicer sls -> (forall i, ~ In (SConst i) sls') ->
  (forall i sl sl', nth_error sls i = Some sl -> nth_error sls' i = Some sl' ->
     stands_for cs (compress_stride (length sls) st) i sl sl') ->
  xslice_container dbg ss0 st0 c sls = slice_container dbg ss0 st0 c sls'.
Proof.
  intros Cs Gs L Lc Ld S1 S2 Nc F. unfold xslice_container, slice_container.
  rewrite (some_slicer_guard _ S1), (some_xslicer_guard _ S2), Gs, !bind_ok. unfold xorigin, origin, xslice_shape, slice_shape, xslice_stride, slice_stride.
  destruct (stands_maps cs (compress_stride (length sls) st) cs _ O sls sls' eq_refl eq_refl (eq_trans Lc L) (eq_trans Ld L) L
    (fun i sl sl' H H' => F i sl sl' H H')) as (I1 & I2 & I3).
  rewrite <- L, Cs, !bind_ok, I1, I2, I3.
  replace (existsb const_index sls') with false.
  2:{ symmetry. apply not_true_iff_false. intros X. apply existsb_exists in X as (sl & I & E). destruct sl; try discriminate. exact (Nc _ I). }
  replace (existsb xconst_index sls) with false; [reflexivity|].
  symmetry. apply not_true_iff_false. intros X. apply existsb_exists in X as (sl & I & E). apply In_nth_error in I as (i & Hi).
  destruct (nth_error sls' i) as [sl'|] eqn:Hi'.
  - specialize (F i sl sl' Hi Hi'). destruct sl as [sl|u]; [|discriminate]. cbn in F. subst sl'. destruct sl; try discriminate.
    exact (Nc _ (nth_error_In _ _ Hi')).
  - apply nth_error_None in Hi'. assert (i < length sls)%nat by (apply nth_error_Some; congruence). lia.
Qed.

(** ** Calls that do not compile *)
Lemma map_index_bad {X Y} (f : nat -> X -> outcome Y) l : forall k ys, map_index f k l = Ok ys -> forall x, In x l -> exists i y, f i x = Ok y.
Proof.
  induction l as [|a l IH]; intros k ys H x I; [contradiction|]. cbn [map_index] in H.
  apply bind_inv in H as (y & E & H). apply bind_inv in H as (ys' & E' & H). destruct I as [<-|I]; [eauto|]. eapply IH; eassumption.
Qed.
Lemma no_index_l dbg ss0 st0 c sls u v : In (User u) sls -> (u_index u = None \/ u_convertible u = true) ->
  xslice_container dbg ss0 st0 c sls <> Ok v.
Proof.
  intros I H E. unfold xslice_container in E. destruct (forallb xindex sls); [discriminate|].
  apply bind_inv in E as (st & _ & E). apply bind_inv in E as (o & Eo & _). unfold xorigin in Eo.
  apply bind_inv in Eo as (cs & _ & Eo). destruct (existsb xconst_index sls); [discriminate|].
  apply bind_inv in Eo as (is_ & Em & _). destruct (map_index_bad _ _ _ _ Em _ I) as (i & y & E).
  cbn [xreindex] in E. destruct (u_index u); [|discriminate]. destruct H as [H|H]; [discriminate|]. rewrite H in E. discriminate.
Qed.

(** ** A first index that does not exist *)
Lemma outside_l ss0 st0 c sls cs st cos : default_layout c -> (1 <= length sls <= length (c_shape c))%nat ->
  compress (length sls) (c_shape c) = Ok cs -> get_stride c = Ok st -> some_xslicer sls ->
  (forall sl, In sl sls -> exists u, sl = User u /\ u_convertible u = false) ->
  length cos = length sls ->
  (forall k u x, nth_error sls k = Some (User u) -> nth_error cos k = Some x -> exists f, u_index u = Some f /\ f cs k = x) ->
  wfs cos -> nonnegs (vals cos) -> Forall (fun c => promote (cty c) = cty c) cos -> ~ in_box (vals cs) (vals cos) ->
  xslice_container true ss0 st0 c sls = Abort.
Proof.
  intros D N Cs Gs Sm Us Ln Fs W Nn P NB. pose proof D as (Lg & _ & _).
  destruct (compress_ok (length sls) (c_shape c) Lg N) as (cs' & Cs' & _ & Lc & Lcs). rewrite Cs in Cs'. injection Cs' as <-.
  unfold xslice_container. rewrite (some_xslicer_guard _ Sm), Gs, bind_ok. unfold xorigin. rewrite Cs, bind_ok.
  replace (existsb xconst_index sls) with false.
  2:{ symmetry. apply not_true_iff_false. intros X. apply existsb_exists in X as (sl & I & E). destruct (Us _ I) as (u & -> & _). discriminate. }
  assert (E : map_index (xreindex cs) 0 sls = Ok cos).
  { assert (G : forall l k c0, (forall sl, In sl l -> exists u, sl = User u /\ u_convertible u = false) -> length c0 = length l ->
        (forall i u x, nth_error l i = Some (User u) -> nth_error c0 i = Some x -> exists f, u_index u = Some f /\ f cs (k + i)%nat = x) ->
        map_index (xreindex cs) k l = Ok c0).
    { induction l as [|sl l IH]; intros k [|x c0] U L F; try discriminate; [reflexivity|]. cbn [map_index].
      destruct (U sl (or_introl eq_refl)) as (u & -> & Cv). destruct (F O u x eq_refl eq_refl) as (f & Ef & Ex). rewrite Nat.add_0_r in Ex.
      cbn [xreindex]. rewrite Ef, Cv, bind_ok, (IH (S k) c0), bind_ok, Ex; [reflexivity| |cbn in L; congruence|].
      - intros s I. apply U. right. exact I.
      - intros i u' x' H H'. specialize (F (S i) u' x' H H'). rewrite Nat.add_succ_r in F. exact F. }
    apply G; assumption. }
  rewrite E, bind_ok. unfold linear_index, kassert.
  assert (F : contains cs cos = false).
  { destruct (contains cs cos) eqn:C; [|reflexivity]. exfalso. apply NB.
    assert (length cos = length cs) by congruence.
    apply (contains_ok cs cos) in C; try assumption; [apply legal_wf, Lc|]. apply wide_fits; [apply legal_axis, Lc| |]; assumption. }
  rewrite bind_ok, F. reflexivity.
Qed.

(** ** Reachability *)
Lemma xunit_step c st k x d sl o n s : xunit sl = true -> says c st k x d sl o n s -> honest sl s -> s = 1.
Proof.
  destruct sl as [sl|u]; cbn [xunit says honest].
  - intros U [T _] _. apply (unit_step sl s U (takes_step _ _ _ _ _ T)).
  - intros U _ H. apply H. destruct (u_has_step u) as [[|]|]; cbn in U; try discriminate; reflexivity.
Qed.
Lemma xpreserve_l dbg ss0 st0 c sls cs st os ns ss : default_layout c ->
  (length sls = 1 \/ length sls = 2)%nat -> (length sls <= length (c_shape c))%nat -> compress (length sls) (c_shape c) = Ok cs -> get_stride c = Ok st ->
  cut cs (compress_stride (length sls) st) sls os ns ss -> some_xslicer sls -> (dbg = true -> all_wide cs sls) ->
  Forall2 honest sls ss -> xpreserve sls = true ->
  exists v, xslice_container dbg ss0 st0 c sls = Ok v /\ dims v = ns /\
    forall js, in_box ns js -> elem v js = padd (c_data v) (rank (dims v) js).
Proof.
  intros D Ln Lo Cs Gs Ct Sm Wd Hn Pr. pose proof D as (Lg & _ & _).
  destruct (compress_ok (length sls) (c_shape c) Lg ltac:(lia)) as (cs' & Cs' & _ & Lc & _). rewrite Cs in Cs'. injection Cs' as <-.
  pose proof (legal_axis cs Lc) as Ax. destruct Lc as (_ & Nc & Pc).
  assert (U : (exists x o n, cs = [x] /\ os = [o] /\ ns = [n] /\ ss = [1] /\ on_axis x o n 1) \/
    (exists x y o p n q s, cs = [x; y] /\ os = [o; p] /\ ns = [n; q] /\ ss = [s; 1] /\ on_axis x o n s /\ on_axis y p q 1 /\
       (n = 1 \/ (s = 1 /\ p = 0 /\ q = cval y)))).
  { unfold cut in Ct. inversion Ct as [|k x xs d ds sl sls' o os' n ns' s ss' Hs Ho Ct' E1 E2 E3 E4 E5 E6 E7]; subst; [cbn in Ln; lia|].
    inversion Hn as [|? ? ? ? Hh Hn']; subst.
    inversion Ct' as [|k2 y ys e es sl2 sls2 p os2 q ns2 t ss2 Hs2 Ho2 Ct2]; subst.
    - left. cbn [xpreserve] in Pr. assert (Pu : xunit sl = true) by (destruct sl as [[]|]; exact Pr).
      rewrite (xunit_step _ _ _ _ _ _ _ _ _ Pu Hs Hh) in *. exists x, o, n. auto.
    - right. inversion Hn' as [|? ? ? ? Hh2 Hn2]; subst.
      inversion Ct2; subst; [|cbn in Ln; lia].
      assert (Y : Forall axis [x; y]) by exact Ax. inversion Y as [|? ? Ax1 Y']; subst. inversion Y' as [|? ? Ax2 _]; subst.
      assert (G : (exists i, sl = Lib (SIdx i)) /\ xunit sl2 = true \/ (exists e, sl = Lib (SEnd e)) /\ xunit sl2 = true \/ xunit sl = true /\ sl2 = Lib SAll).
      { revert Pr. clear. destruct sl as [[|e0|i0|i0|b0 s0 e0 l0]|u]; destruct sl2 as [[|?|?|?|? [?|] ? ?]|u2]; cbn [xpreserve xunit_interval unit_interval xunit unit_slicer]; intros P;
          try discriminate; auto; try (left; split; [eexists; reflexivity|exact P]); try (right; left; split; [eexists; reflexivity|exact P]);
          try (right; right; split; [|reflexivity]; try reflexivity; try exact P; apply andb_true_iff in P; apply P).
        }
      destruct G as [[[i ->] G]|[[[e0 ->] G]|[G ->]]].
      + rewrite (xunit_step _ _ _ _ _ _ _ _ _ G Hs2 Hh2) in *. destruct Hs as [T Sx]. inversion T; subst.
        exists x, y, (cval i), p, 1, q, 1. repeat (split; [first [reflexivity|assumption]|]). left; reflexivity.
      + rewrite (xunit_step _ _ _ _ _ _ _ _ _ G Hs2 Hh2) in *. destruct Hs as [T Sx]. inversion T; subst.
        exists x, y, o, p, 1, q, 1. repeat (split; [first [reflexivity|assumption]|]). left; reflexivity.
      + rewrite (xunit_step _ _ _ _ _ _ _ _ _ G Hs Hh) in *. destruct Hs2 as [T Sx]. inversion T; subst.
        exists x, y, o, 0, n, (cval y), 1. repeat (split; [first [reflexivity|assumption]|]). right; auto. }
  assert (Bp : posprod ns <= 2147483647).
  { destruct U as [(x & o & n & -> & -> & -> & -> & (O1 & O2 & O3 & O4))|(x & y & o & p & n & q & s & -> & -> & -> & -> & (O1 & O2 & O3 & O4) & (Q1 & Q2 & Q3 & Q4) & K)].
    - cbn [vals map] in Pc. rewrite !posprod_cons in *. assert (n <= cval x) by (destruct (Z_lt_le_dec 0 n); [specialize (O4 ltac:(lia))|]; lia).
      unfold posprod in *. cbn [fold_right] in *. lia.
    - cbn [vals map] in Pc. rewrite !posprod_cons in *. assert (q <= cval y) by (destruct (Z_lt_le_dec 0 q); [specialize (Q4 ltac:(lia))|]; lia).
      assert (Hn1 : n <= cval x) by (destruct K as [->|[-> _]]; [lia|]; destruct (Z_lt_le_dec 0 n); [specialize (O4 ltac:(lia))|]; lia).
      assert (Z.max 1 n <= Z.max 1 (cval x)) by lia. assert (Z.max 1 q <= Z.max 1 (cval y)) by lia.
      pose proof (Z.mul_le_mono_nonneg (Z.max 1 n) (Z.max 1 (cval x)) (Z.max 1 q) (Z.max 1 (cval y)) ltac:(lia) ltac:(lia) ltac:(lia) ltac:(lia)) as M.
      unfold posprod in *. cbn [fold_right] in *. rewrite !Z.mul_1_r in *. exact (Z.le_trans _ _ _ M Pc). }
  destruct (xslice_l dbg ss0 st0 c sls cs st os ns ss [] D ltac:(lia) Cs Gs Ct Sm Wd Bp) as (v & Ev & Dv & _ & _ & Dav & Szv & El & _).
  exists v. split; [exact Ev|]. split; [exact Dv|]. intros js Bj. unfold elem. f_equal. rewrite Dv, Szv.
  rewrite (rank_dot ns js) by (apply in_box_length, Bj). clear Dv El Ev Dav Szv.
  destruct U as [(x & o & n & -> & -> & -> & -> & _)|(x & y & o & p & n & q & s & -> & -> & -> & -> & _ & _ & K)].
  - reflexivity.
  - inversion Bj as [|? ? j1 js1 B1 Bj1]; subst. inversion Bj1 as [|? ? j2 js2 B2 Bj2]; subst. inversion Bj2; subst.
    destruct K as [->|(-> & -> & ->)]; cbn [vals map strides_of times dot]; rewrite ?prod_cons; change (prod []) with 1; [assert (j1 = 0) by lia; subst; lia|lia].
Qed.

(** ** In terms of containers in the default layout *)
Lemma stands_default_l dbg ss0 st0 c cs st sls sls' : default_layout c -> (1 <= length sls <= length (c_shape c))%nat ->
  compress (length sls) (c_shape c) = Ok cs -> get_stride c = Ok st -> length sls = length sls' ->
  some_slicer sls' -> some_xslicer sls -> (forall i, ~ In (SConst i) sls') ->
  (forall i sl sl', nth_error sls i = Some sl -> nth_error sls' i = Some sl' ->
     stands_for cs (compress_stride (length sls) st) i sl sl') ->
  xslice_container dbg ss0 st0 c sls = slice_container dbg ss0 st0 c sls'.
Proof.
  intros D N Cs Gs L S1 S2 Nc F. pose proof D as (Lg & _ & _).
  destruct (compress_ok (length sls) (c_shape c) Lg N) as (cs' & Cs' & _ & _ & Lcs). rewrite Cs in Cs'. injection Cs' as <-.
  destruct (default_stride_any c D) as (st1 & Gs1 & _ & _ & Ls & _). rewrite Gs in Gs1. injection Gs1 as <-.
  eapply stands_l; try eassumption. unfold compress_stride. rewrite skipn_length, Ls. lia.
Qed.

(** ** Slices of shapes *)
Lemma map_index_nth {X Y} (f : nat -> X -> outcome Y) (g : nat -> X -> Y) l : forall k, (forall i x, In x l -> f i x = Ok (g i x)) ->
  exists ys, map_index f k l = Ok ys /\ length ys = length l /\ forall i x, nth_error l i = Some x -> nth_error ys i = Some (g (k + i)%nat x).
Proof.
  induction l as [|a l IH]; intros k H; [exists []; split; [reflexivity|]; split; [reflexivity|]; intros [|i] x E; discriminate|].
  destruct (IH (S k)) as (ys & E & L & Nt); [intros i x I; apply H; right; exact I|].
  exists (g k a :: ys). cbn [map_index]. rewrite (H k a (or_introl eq_refl)), bind_ok, E, bind_ok. split; [reflexivity|]. split; [cbn; congruence|].
  intros [|i] x Hx; cbn in Hx |- *; [injection Hx as ->; rewrite Nat.add_0_r; reflexivity|]. rewrite (Nt i x Hx), Nat.add_succ_r. reflexivity.
Qed.
Lemma shape_asks_l s cs sls : compress (length sls) s = Ok cs -> (forall sl, In sl sls -> exists u, sl = User u) ->
  exists sh, xslice_shape s sls = Ok sh /\ length sh = length sls /\
    forall k u, nth_error sls k = Some (User u) ->
      match u_count u with Some f => nth_error sh k = Some (f cs k) | None => nth_error sh k = Some (int 1) end.
Proof.
  intros Cs Us. unfold xslice_shape. rewrite Cs, bind_ok.
  destruct (map_index_nth (xreshape cs) (fun k sl => match sl with User u => match u_count u with Some f => f cs k | None => int 1 end | Lib _ => int 1 end) sls O)
    as (ys & E & L & Nt).
  { intros i x I. destruct (Us x I) as (u & ->). reflexivity. }
  exists ys. split; [exact E|]. split; [exact L|]. intros k u H. specialize (Nt k _ H). cbn in Nt. destruct (u_count u); exact Nt.
Qed.

Lemma no_has_step_l u sl : u_has_step u = None ->
  xpreserve [User u] = false /\ xpreserve [User u; sl] = false /\ xpreserve [sl; User u] = false.
Proof.
  intros H. assert (X : xunit (User u) = false) by (cbn; rewrite H; reflexivity).
  split; [exact X|]. split.
  - destruct sl as [[]|]; try reflexivity. cbn [xpreserve xunit_interval]. rewrite X. apply andb_false_r.
  - destruct sl as [[]|]; try reflexivity; exact X.
Qed.
