(** Facts about slicing containers. *)
From Coq Require Import ZArith List Bool Lia.
From Verif Require Import Outcome CInt CIntFacts Spec SpecFacts ShapeSpec Shape ShapeFacts ShapeFacts2 EndRatio
  Memory MemFacts Container ContainerSpec ContainerFacts ContainerFacts2 AlgoFacts4 Slicer SlicerSpec SlicerFacts SlicerFacts2.
Import ListNotations.
Open Scope Z_scope.

Lemma takes_facts n sl o k s : axis n -> takes n sl o k s -> 0 <= k /\ s <> 0.
Proof.
  intros [Wn Bn] H. destruct H as [ |i Wi|e z He|b s e bz ez sz Hb He Hs R1 R2 Ps
    |b s bz sz Hb Hs Rb Ps|b s l bz lz sz Hb Hl Hs R1 R2 Ps|b s l bz lz sz Hb Hl Hs R1 R2 Ps]; try lia.
  - pose proof (ceil_div_bounds (ez - bz) sz ltac:(lia) Ps). lia.
  - pose proof (ceil_div_bounds (bz + 1) (- sz) ltac:(lia) ltac:(lia)). lia.
Qed.

Definition step_of (sl : slc) (s : Z) : Prop :=
  match sl with SSlice _ (Some c) _ _ => wfc c /\ cval c = s | _ => s = 1 end.

Lemma takes_step n sl o k s : takes n sl o k s -> step_of sl s.
Proof.
  intros H. destruct H as [ |i Wi|e z He|b s e bz ez sz Hb He Hs R1 R2 Ps
    |b s bz sz Hb Hs Rb Ps|b s l bz lz sz Hb Hl Hs R1 R2 Ps|b s l bz lz sz Hb Hl Hs R1 R2 Ps];
  try reflexivity; destruct s; exact Hs.
Qed.

Lemma each_steps ns sls os ks ss : sliced_each ns sls os ks ss -> Forall2 step_of sls ss.
Proof. induction 1; constructor; [eapply takes_step; eassumption|assumption]. Qed.

Lemma each_length ns sls os ks ss : sliced_each ns sls os ks ss ->
  length sls = length ns /\ length os = length ns /\ length ks = length ns /\ length ss = length ns.
Proof. induction 1; simpl; [auto|]. intuition congruence. Qed.

Lemma legal_axis s : legal s -> Forall axis s.
Proof.
  induction s as [|x s IH]; intros L; [constructor|]. destruct (legal_cons _ _ L) as (W & B & P & L').
  constructor; [|apply IH, L']. split; [exact W|].
  destruct L as (_ & N & Q). unfold vals in *. cbn [map] in *. rewrite posprod_cons in Q. inversion N; subst.
  pose proof (posprod_pos (map cval s)). nia.
Qed.

Lemma each_ok ns sls os ks ss : Forall axis ns -> sliced_each ns sls os ks ss ->
  exists cos cks, mapM2 reindex1 ns sls = Ok cos /\ vals cos = os /\ wfs cos /\
    (Forall wide sls -> Forall (fun c => promote (cty c) = cty c) cos) /\
    mapM2 reshape1 ns sls = Ok cks /\ vals cks = ks /\ wfs cks.
Proof.
  intros A H. induction H as [|n sl o k s ns sls os ks ss Ht Hi H IH].
  - exists [], []. repeat (split; [solve [reflexivity | constructor | intros; constructor]|]). constructor.
  - inversion A; subst. destruct IH as (cos & cks & E1 & V1 & W1 & P1 & E2 & V2 & W2); [assumption|].
    destruct (takes_ok n sl o k s) as (co & ck & F1 & U1 & X1 & Q1 & F2 & U2 & X2); try assumption.
    exists (co :: cos), (ck :: cks). cbn [mapM2]. rewrite F1, E1, F2, E2, !bind_ok. subst.
    split; [reflexivity|]. split; [reflexivity|]. split; [constructor; assumption|].
    split; [|split; [reflexivity|split; [reflexivity|constructor; assumption]]].
    intros Fw. inversion Fw; subst. constructor; [apply Q1; assumption|apply P1; assumption].
Qed.

Lemma each_in_box ns sls os ks ss : sliced_each ns sls os ks ss -> in_box (vals ns) os.
Proof. induction 1 as [|n sl o k s ns sls os ks ss Ht [Hi _] H IH]; constructor; [lia|assumption]. Qed.

Lemma wide_fits ns cos : Forall axis ns -> length cos = length ns ->
  Forall (fun c => promote (cty c) = cty c) cos -> fits ns cos.
Proof.
  intros A. revert cos. induction A as [|n ns [Wn Bn] A IH]; intros [|c cos] L F; try discriminate; [constructor|].
  inversion F as [|? ? Pc F']; subst. constructor; [|apply IH; [simpl in L; congruence|assumption]].
  revert Pc. unfold in_ty. destruct (cty c); simpl; intros Pc; try discriminate; lia.
Qed.

(** The strides of a slice. *)
Lemma restride_pos st sls ss : wfs st -> nonnegs (vals st) -> Forall2 step_of sls ss -> length st = length sls ->
  Forall (fun s => 0 < s) ss -> Forall (fun x => Z.abs x <= 2147483647) (times ss (vals st)) ->
  exists st', mapM2 restride1 st sls = Ok st' /\ vals st' = times ss (vals st) /\ wfs st' /\ nonnegs (vals st').
Proof.
  intros W N F. revert st W N. induction F as [|sl s sls ss Hs F IH]; intros [|d st] W N L P B; try discriminate.
  - exists []. repeat (split; [solve [reflexivity | constructor]|]). constructor.
  - inversion W; inversion N; inversion P; subst. cbn [vals map times] in B. inversion B; subst.
    destruct (IH st) as (st' & E & V & W' & N'); try assumption; [simpl in L; congruence|].
    assert (R : exists c, restride1 d sl = Ok c /\ cval c = s * cval d /\ wfc c).
    { assert (D : s = 1 -> exists c, Ok d = Ok c /\ cval c = s * cval d /\ wfc c).
      { intros ->. exists d. split; [reflexivity|]. split; [lia|assumption]. }
      destruct sl as [|?|?|?|b [c|] e l]; try (apply D; exact Hs).
      destruct Hs as [Wc Vc]. cbn [restride1]. unfold cmul.
      destruct (arith_nonneg Z.mul c d) as (x & Ex & Vx & Wx & _); try assumption; try lia.
      { unfold max31. rewrite Vc in *. nia. }
      exists x. rewrite Vx, Vc. auto. }
    destruct R as (c & Ec & Vc & Wc). exists (c :: st'). cbn [mapM2]. rewrite Ec, E, !bind_ok.
    split; [reflexivity|]. cbn [vals map times]. unfold vals in V. rewrite Vc, V. split; [reflexivity|].
    split; [constructor; assumption|]. constructor; [nia|]. rewrite <- V. assumption.
Qed.

Lemma restride_sgn st sls ss : wfs st -> signeds st -> Forall2 step_of sls ss -> length st = length sls ->
  Forall (fun sl => match sl with SSlice _ (Some s) _ _ => is_signed (cty s) = true | _ => True end) sls ->
  Forall (fun x => Z.abs x <= 2147483647) (times ss (vals st)) ->
  exists st', mapM2 restride1 st sls = Ok st' /\ vals st' = times ss (vals st) /\ wfs st' /\ signeds st'.
Proof.
  intros W N F. revert st W N. induction F as [|sl s sls ss Hs F IH]; intros [|d st] W N L P B; try discriminate.
  - exists []. repeat (split; [solve [reflexivity | constructor]|]). constructor.
  - inversion W; inversion N; inversion P; subst. cbn [vals map times] in B. inversion B; subst.
    destruct (IH st) as (st' & E & V & W' & N'); try assumption; [simpl in L; congruence|].
    assert (R : exists c, restride1 d sl = Ok c /\ cval c = s * cval d /\ wfc c /\ is_signed (cty c) = true).
    { assert (D : s = 1 -> exists c, Ok d = Ok c /\ cval c = s * cval d /\ wfc c /\ is_signed (cty c) = true).
      { intros ->. exists d. split; [reflexivity|]. split; [lia|]. split; assumption. }
      destruct sl as [|?|?|?|b [c|] e l]; try (apply D; exact Hs).
      destruct Hs as [Wc Vc]. cbn [restride1]. unfold cmul.
      destruct (arith_signed Z.mul c d) as (x & Ex & Vx & Wx & Sx); try assumption.
      { unfold max31. rewrite Vc in *. lia. }
      exists x. rewrite Vx, Vc. auto. }
    destruct R as (c & Ec & Vc & Wc & Sc). exists (c :: st'). cbn [mapM2]. rewrite Ec, E, !bind_ok.
    split; [reflexivity|]. cbn [vals map times]. unfold vals in V. rewrite Vc, V. split; [reflexivity|].
    split; constructor; assumption.
Qed.

(** Dot products and places. *)
Lemma dot_place ds os ss js : length os = length ds -> length ss = length ds -> length js = length ds ->
  dot ds (place os ss js) = dot ds os + dot (times ss ds) js.
Proof.
  revert os ss js. induction ds as [|d ds IH]; intros [|o os] [|s ss] [|j js] L1 L2 L3; try discriminate; [reflexivity|].
  cbn [place times dot]. rewrite IH by (simpl in *; congruence). lia.
Qed.

Lemma place_length os ss js : length ss = length os -> length js = length os -> length (place os ss js) = length os.
Proof.
  revert ss js. induction os as [|o os IH]; intros [|s ss] [|j js] L1 L2; try discriminate; [reflexivity|].
  simpl. f_equal. apply IH; simpl in *; congruence.
Qed.

Lemma in_box_cons_inv n ns i is_ : in_box (n :: ns) (i :: is_) -> 0 <= i < n /\ in_box ns is_.
Proof. intros H. inversion H; auto. Qed.

Lemma each_place ns sls os ks ss : Forall axis ns -> sliced_each ns sls os ks ss -> forall js, in_box ks js ->
  in_box (vals ns) (place os ss js).
Proof.
  intros A H. induction H as [|n sl o k s ns sls os ks ss Ht Hi H IH]; intros js B.
  - inversion B; subst. constructor.
  - inversion B as [|? ? j js' Bj B']; subst. inversion A as [|? ? An A']; subst.
    specialize (IH A' _ B'). cbn [vals map place]. constructor; [|exact IH].
    destruct Hi as (H1 & H2 & _). specialize (H2 ltac:(lia)). destruct (takes_facts _ _ _ _ _ An Ht) as [_ S].
    destruct (Z_lt_le_dec s 0); nia.
Qed.

Lemma each_dims ns sls os ks ss : Forall axis ns -> sliced_each ns sls os ks ss ->
  nonnegs ks /\ posprod ks <= posprod (vals ns).
Proof.
  intros A H. induction H as [|n sl o k s ns sls os ks ss Ht Hi H IH]; [split; [constructor|reflexivity]|].
  inversion A as [|? ? An A']; subst. destruct (IH A') as [N P]. destruct (takes_facts _ _ _ _ _ An Ht) as [K S].
  split; [constructor; assumption|]. cbn [vals map]. rewrite !posprod_cons. fold (vals ns).
  destruct Hi as (H1 & H2 & _).
  assert (k <= cval n).
  { destruct (Z_lt_le_dec 0 k) as [Pk|Pk]; [|lia]. specialize (H2 Pk). destruct (Z_lt_le_dec s 0); nia. }
  pose proof (posprod_pos ks). pose proof (posprod_pos (vals ns)). nia.
Qed.

Lemma in_box_pos ns is_ : in_box ns is_ -> Forall (fun n => 1 <= n) ns.
Proof. induction 1; constructor; [lia|assumption]. Qed.

Lemma prod_ge1 ns : Forall (fun n => 1 <= n) ns -> 1 <= prod ns.
Proof. induction 1; [cbv; discriminate|]. rewrite prod_cons. nia. Qed.

Lemma each_reach ns sls os ks ss : Forall axis ns -> sliced_each ns sls os ks ss -> forall js, in_box ks js ->
  absdot (times ss (strides_of (vals ns))) js <= prod (vals ns) - 1.
Proof.
  intros A H. induction H as [|n sl o k s ns sls os ks ss Ht Hi H IH]; intros js B.
  - simpl. reflexivity.
  - inversion B as [|? ? j js' Bj B']; subst. inversion A as [|? ? An A']; subst.
    specialize (IH A' _ B'). cbn [vals map strides_of times absdot]. rewrite prod_cons. fold (vals ns).
    pose proof (prod_ge1 _ (in_box_pos _ _ (each_in_box _ _ _ _ _ H))) as P.
    destruct Hi as (H1 & H2 & _). specialize (H2 ltac:(lia)).
    assert (J : Z.abs (s * j) <= cval n - 1) by (destruct (Z_lt_le_dec s 0); nia).
    replace (s * prod (vals ns) * j) with ((s * j) * prod (vals ns)) by lia.
    rewrite Z.abs_mul, (Z.abs_eq (prod (vals ns))) by lia. nia.
Qed.

Lemma each_times ns sls os ks ss : Forall axis ns -> sliced_each ns sls os ks ss -> prod (vals ns) <= 2147483647 ->
  Forall (fun x => Z.abs x <= 2147483647) (times ss (strides_of (vals ns))).
Proof.
  intros A H. induction H as [|n sl o k s ns sls os ks ss Ht Hi H IH]; intros P; [constructor|].
  inversion A as [|? ? An A']; subst. cbn [vals map strides_of times]. fold (vals ns).
  pose proof (prod_ge1 _ (in_box_pos _ _ (each_in_box _ _ _ _ _ H))) as Q.
  cbn [vals map] in P. rewrite prod_cons in P. fold (vals ns) in P. destruct Hi as (H1 & _ & H3).
  constructor.
  - rewrite Z.abs_mul, (Z.abs_eq (prod (vals ns))) by lia. nia.
  - apply IH; [assumption|nia].
Qed.

Lemma strides_skip k ns : (k < length ns)%nat ->
  skipn k (strides_of ns) = strides_of (merge_axes (S k) ns).
Proof.
  intros H. unfold merge_axes. cbn [strides_of].
  revert ns H. induction k as [|k IH]; intros [|n ns] H; simpl in H; try lia; [reflexivity|].
  cbn [strides_of skipn]. rewrite IH by lia. reflexivity.
Qed.

Lemma kind_given st_shape st_stride sh st data v : make_view st_shape st_stride sh (Some st) data = Ok v ->
  c_shape v = sh /\ c_data v = data /\ get_stride v = Ok st /\
  match c_kind v with K1 | K1S => length (c_shape v) = 1%nat | K2 | K2S => length (c_shape v) = 2%nat | _ => True end.
Proof.
  unfold make_view, make_accessor. destruct (st_shape && st_stride); cbn [bind]; [intros E; injection E as <-; repeat split|].
  destruct (as_stride sh) as [d| | |]; cbn [bind]; try discriminate.
  destruct st_shape; [|destruct sh as [|a [|b [|c sh]]]]; cbn [bind]; intros E; injection E as <-; repeat split.
Qed.

Lemma make_view_given st_shape st_stride sh st data : legal sh -> sh <> [] ->
  exists v, make_view st_shape st_stride sh (Some st) data = Ok v.
Proof.
  intros Lg Ne. destruct (as_stride_ok sh Lg Ne) as (d & E & _). unfold make_view, make_accessor.
  destruct (st_shape && st_stride); cbn [bind]; [eexists; reflexivity|]. rewrite E. cbn [bind].
  destruct st_shape; [|destruct sh as [|a [|b [|c sh]]]]; cbn [bind]; eexists; reflexivity.
Qed.

Lemma sliced_steps ns sls os ks ss : sliced ns sls os ks ss -> Forall2 step_of sls ss.
Proof. intros H. exact (each_steps _ _ _ _ _ (proj2 H)). Qed.
Lemma sliced_length ns sls os ks ss : sliced ns sls os ks ss ->
  length sls = length ns /\ length os = length ns /\ length ks = length ns /\ length ss = length ns.
Proof. intros H. exact (each_length _ _ _ _ _ (proj2 H)). Qed.
Lemma sliced_ok ns sls os ks ss : Forall axis ns -> sliced ns sls os ks ss ->
  exists cos cks, mapM2 reindex1 ns sls = Ok cos /\ vals cos = os /\ wfs cos /\
    (Forall wide sls -> Forall (fun c => promote (cty c) = cty c) cos) /\
    mapM2 reshape1 ns sls = Ok cks /\ vals cks = ks /\ wfs cks.
Proof. intros A H. exact (each_ok _ _ _ _ _ A (proj2 H)). Qed.
Lemma sliced_in_box ns sls os ks ss : sliced ns sls os ks ss -> in_box (vals ns) os.
Proof. intros H. exact (each_in_box _ _ _ _ _ (proj2 H)). Qed.
Lemma sliced_place ns sls os ks ss : Forall axis ns -> sliced ns sls os ks ss -> forall js, in_box ks js ->
  in_box (vals ns) (place os ss js).
Proof. intros A H. exact (each_place _ _ _ _ _ A (proj2 H)). Qed.
Lemma sliced_dims ns sls os ks ss : Forall axis ns -> sliced ns sls os ks ss ->
  nonnegs ks /\ posprod ks <= posprod (vals ns).
Proof. intros A H. exact (each_dims _ _ _ _ _ A (proj2 H)). Qed.
Lemma sliced_reach ns sls os ks ss : Forall axis ns -> sliced ns sls os ks ss -> forall js, in_box ks js ->
  absdot (times ss (strides_of (vals ns))) js <= prod (vals ns) - 1.
Proof. intros A H. exact (each_reach _ _ _ _ _ A (proj2 H)). Qed.
Lemma sliced_times ns sls os ks ss : Forall axis ns -> sliced ns sls os ks ss -> prod (vals ns) <= 2147483647 ->
  Forall (fun x => Z.abs x <= 2147483647) (times ss (strides_of (vals ns))).
Proof. intros A H. exact (each_times _ _ _ _ _ A (proj2 H)). Qed.

Lemma some_slicer_guard sls : some_slicer sls -> forallb is_index sls = false.
Proof.
  intros (sl & I & N). apply not_true_iff_false. intros F. rewrite forallb_forall in F. specialize (F sl I).
  destruct sl; try discriminate. exact (N i eq_refl).
Qed.
Lemma sliced_guards ns sls os ks ss : sliced ns sls os ks ss -> forallb is_index sls = false /\ existsb const_index sls = false.
Proof.
  intros [Sm H]. split; [apply some_slicer_guard, Sm|]. clear Sm. induction H as [|n sl o k s ns sls os ks ss Ht Hi H IH]; [reflexivity|].
  cbn [existsb]. rewrite IH. destruct Ht; reflexivity.
Qed.

(** Slicing, the strides being given. *)
Lemma slice_core dbg ss0 st0 c sls cs os ks ss st st' : legal (c_shape c) -> get_stride c = Ok st ->
  (1 <= length sls)%nat -> compress (length sls) (c_shape c) = Ok cs -> legal cs -> sliced cs sls os ks ss ->
  (dbg = true -> Forall wide sls) -> slice_stride (compress_stride (length sls) st) sls = Ok st' ->
  exists v, slice_container dbg ss0 st0 c sls = Ok v /\ dims v = ks /\ legal (c_shape v) /\ get_stride v = Ok st' /\
    c_data v = padd (c_data c) (rank (vals cs) os) /\
    match c_kind v with K1 | K1S => length (c_shape v) = 1%nat | K2 | K2S => length (c_shape v) = 2%nat | _ => True end.
Proof.
  intros Lg Gs N1 Cs Lc Sl Wd St. pose proof (legal_axis cs Lc) as Ax.
  destruct (sliced_length _ _ _ _ _ Sl) as (L1 & L2 & L3 & L4).
  destruct (sliced_ok _ _ _ _ _ Ax Sl) as (cos & cks & E1 & V1 & W1 & P1 & E2 & V2 & W2).
  destruct (sliced_guards _ _ _ _ _ Sl) as [G1 G2].
  unfold slice_container. rewrite G1, Gs, bind_ok. unfold origin, slice_shape. rewrite Cs, !bind_ok, G2. rewrite E1, E2, !bind_ok.
  assert (Lcos : length cos = length cs) by (rewrite <- L2, <- V1; unfold vals; rewrite map_length; reflexivity).
  destruct (linear_index_ok dbg cs cos) as (o & Eo & Vo & Wo).
  - exact Lc.
  - intros ->. simpl in L1. lia.
  - split; [exact W1|]. rewrite V1. eapply sliced_in_box; exact Sl.
  - intros D. apply wide_fits; [exact Ax|exact Lcos|apply P1, Wd, D].
  - rewrite Eo, bind_ok, St, bind_ok. rewrite V1 in Vo.
    destruct (sliced_dims _ _ _ _ _ Ax Sl) as [Nk Pk].
    assert (Lk : legal cks) by (split; [exact W2|]; rewrite V2; split; [exact Nk|]; destruct Lc as (_ & _ & Q); lia).
    assert (Nek : cks <> []) by (intros ->; cbn in V2; subst ks; cbn in L3; lia).
    destruct (make_view_given ss0 st0 cks st' (padd (c_data c) (cast I64 (cval o))) Lk Nek) as (v & Ev).
    exists v. split; [exact Ev|]. destruct (kind_given _ _ _ _ _ _ Ev) as (Vs & Vd & Vg & Vk).
    split; [unfold dims; rewrite Vs; exact V2|].
    split. { rewrite Vs. split; [exact W2|]. rewrite V2. split; [exact Nk|]. destruct Lc as (_ & _ & Q). lia. }
    split; [exact Vg|]. split; [|exact Vk]. rewrite Vd. f_equal. rewrite Vo. apply cast_I64_small.
    pose proof (rank_range _ _ (sliced_in_box _ _ _ _ _ Sl)). destruct Lc as (_ & Q1 & Q2).
    pose proof (prod_le_posprod _ Q1). unfold max31. lia.
Qed.

Definition sign_of (st' : stride) (tys : list ity) : Prop :=
  nonnegs (vals st') \/ (signeds st' /\ Forall (fun t => is_signed t = true) tys).

Lemma default_stride_any c : default_layout c ->
  exists st, get_stride c = Ok st /\ wfs st /\ vals st = strides_of (dims c) /\ length st = length (c_shape c) /\
    (signeds (c_shape c) -> signeds st).
Proof.
  intros D. destruct (default_wf c D) as ((W & N & (st & G & Ws & L) & K) & Sz & Nn). exists st.
  split; [exact G|]. split; [exact Ws|].
  split; [unfold strides_z in Sz; rewrite G in Sz; exact Sz|]. split; [exact L|].
  intros S. destruct (default_stride c D S) as (st2 & G2 & _ & S2 & _). rewrite G in G2. injection G2 as <-. exact S2.
Qed.

Lemma Forall_skipn {A} (P : A -> Prop) n l : Forall P l -> Forall P (skipn n l).
Proof. revert l. induction n; intros l H; [exact H|]. destruct H; simpl; [constructor|]. apply IHn. assumption. Qed.

Lemma slice_default_l dbg ss0 st0 c sls cs os ks ss tys : default_layout c ->
  (1 <= length sls <= length (c_shape c))%nat -> compress (length sls) (c_shape c) = Ok cs ->
  sliced cs sls os ks ss -> (dbg = true -> Forall wide sls) -> directed c sls ss tys ->
  exists v, slice_container dbg ss0 st0 c sls = Ok v /\ dims v = ks /\ legal (c_shape v) /\ addressable v tys /\
    c_data v = padd (c_data c) (rank (vals cs) os) /\ strides_z v = times ss (strides_of (vals cs)) /\
    (forall js, in_box ks js -> in_box (vals cs) (place os ss js) /\
       elem v js = padd (c_data c) (rank (vals cs) (place os ss js))) /\
    (forall js is_, in_box ks js -> in_box (dims c) is_ ->
       merge_coord (length (c_shape c) - length sls + 1) (dims c) is_ = place os ss js -> elem v js = elem c is_).
Proof.
  intros D N Cs Sl Wd Dr. pose proof D as (Lg & Ne & _).
  destruct (compress_ok (length sls) (c_shape c) Lg N) as (cs' & Cs' & Vcs & Lc & Ln).
  rewrite Cs in Cs'. injection Cs' as <-. pose proof (legal_axis cs Lc) as Ax.
  destruct (sliced_length _ _ _ _ _ Sl) as (L1 & L2 & L3 & L4).
  destruct (default_stride_any c D) as (st & Gs & Ws & Vs & Ls & Ss).
  set (d := compress_stride (length sls) st).
  assert (Wdd : wfs d) by (apply Forall_skipn; exact Ws).
  assert (Ld : length d = length sls) by (unfold d, compress_stride; rewrite skipn_length, Ls; lia).
  assert (Vd : vals d = strides_of (vals cs)).
  { unfold d, compress_stride. rewrite vals_skipn, Vs. rewrite strides_skip.
    - rewrite Vcs. f_equal. f_equal. rewrite Ls. lia.
    - unfold dims. rewrite vals_length, Ls. lia. }
  assert (Pc : prod (vals cs) <= 2147483647).
  { destruct Lc as (_ & Q1 & Q2). pose proof (prod_le_posprod _ Q1). lia. }
  assert (Tm : Forall (fun x => Z.abs x <= 2147483647) (times ss (vals d))).
  { rewrite Vd. eapply sliced_times; eassumption. }
  assert (Rs : exists st', slice_stride d sls = Ok st' /\ vals st' = times ss (vals d) /\ wfs st' /\ sign_of st' tys).
  { destruct Dr as [Pp|(Sc & St & Ssl)].
    - destruct (restride_pos d sls ss) as (st' & A1 & A2 & A3 & A4); try assumption.
      + rewrite Vd. apply strides_of_nonneg. destruct Lc as (_ & Q & _). exact Q.
      + eapply sliced_steps; exact Sl.
      + exists st'. unfold slice_stride. split; [exact A1|]. split; [exact A2|]. split; [exact A3|]. left; exact A4.
    - destruct (restride_sgn d sls ss) as (st' & A1 & A2 & A3 & A4); try assumption.
      + apply Forall_skipn. apply Ss, Sc.
      + eapply sliced_steps; exact Sl.
      + exists st'. unfold slice_stride. split; [exact A1|]. split; [exact A2|]. split; [exact A3|]. right; split; assumption. }
  destruct Rs as (st' & Est & Vst & Wst & Sst).
  destruct (slice_core dbg ss0 st0 c sls cs os ks ss st st') as (v & Ev & Dv & Lv & Gv & Av & Kv); try assumption; try lia.
  exists v. split; [exact Ev|]. split; [exact Dv|]. split; [exact Lv|].
  assert (Sz : strides_z v = times ss (strides_of (vals cs))) by (unfold strides_z; rewrite Gv, Vst, Vd; reflexivity).
  assert (El : forall js, in_box ks js -> in_box (vals cs) (place os ss js) /\
       elem v js = padd (c_data c) (rank (vals cs) (place os ss js))).
  { intros js B. pose proof (in_box_length _ _ B) as Lj.
    split; [eapply sliced_place; eassumption|]. unfold elem. rewrite Sz, Av, padd_padd. f_equal.
    assert (length (vals cs) = length cs) by apply vals_length.
    rewrite !rank_dot by (try rewrite place_length; congruence).
    rewrite dot_place; rewrite ?strides_of_length; congruence. }
  split.
  { split; [|split].
    - split; [apply Lv|]. split; [unfold dims; apply Lv|]. split; [|exact Kv].
      exists st'. split; [exact Gv|]. split; [exact Wst|].
      assert (E : length (vals (c_shape v)) = length ks) by (unfold dims in Dv; rewrite Dv; reflexivity).
      rewrite vals_length in E. rewrite E, L3.
      assert (E2 : length (vals st') = length (times ss (vals d))) by (rewrite Vst; reflexivity).
      rewrite vals_length in E2. rewrite E2. clear -L1 L4 Ld.
      assert (length (vals d) = length ss) by (rewrite vals_length; congruence). rewrite <- L4. clear -H.
      revert ss H. induction (vals d) as [|x l IH]; intros [|s ss] E; try discriminate; [reflexivity|].
      simpl. f_equal. apply IH. simpl in E. congruence.
    - unfold sign_ok. destruct Sst as [Q|[Q1 Q2]].
      + left. rewrite Sz, <- Vd, <- Vst. exact Q.
      + right. split; [exists st'; split; assumption|exact Q2].
    - left. intros js B. rewrite Dv in B. rewrite Sz. pose proof (sliced_reach _ _ _ _ _ Ax Sl js B). lia. }
  split; [exact Av|]. split; [exact Sz|]. split; [exact El|].
  intros js is_ B Bi M. destruct (El js B) as [_ ->]. rewrite (default_elem c is_ D Bi). f_equal.
  rewrite <- M, Vcs. unfold dims. apply merge_coord_rank. exact Bi.
Qed.

(** For examples: one of the slicers is not an index. *)
Ltac by_slicer :=
  first [ exists_slicer ltac:(left; reflexivity) | exists_slicer ltac:(right; left; reflexivity)
        | exists_slicer ltac:(right; right; left; reflexivity) ]
with exists_slicer t := eexists; split; [t|intros ? ?; discriminate].
