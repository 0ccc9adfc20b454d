(** Facts about slicing containers: composition, reachability. *)
From Coq Require Import ZArith List Bool Lia.
From Verif Require Import Outcome CInt CIntFacts Spec SpecFacts ShapeSpec Shape ShapeFacts ShapeFacts2 EndRatio
  Memory MemFacts Container ContainerSpec ContainerFacts ContainerFacts2 Slicer SlicerSpec SlicerFacts SlicerFacts2 SlicerFacts3.
Import ListNotations.
Open Scope Z_scope.

Lemma merge_coord_surj k ns x : Forall (fun n => 0 <= n) ns -> ns <> [] -> in_box (merge_axes k ns) x ->
  exists is_, in_box ns is_ /\ merge_coord k ns is_ = x.
Proof.
  intros N Ne B. pose proof (rank_range _ _ B) as R. rewrite merge_axes_prod in R.
  destruct (rank_surj ns (rank (merge_axes k ns) x)) as (is_ & Bi & E); [apply prod_pos_all; [assumption|lia]|assumption|assumption|].
  exists is_. split; [exact Bi|]. destruct (merge_coord_rank k ns is_ Bi) as [B2 E2].
  apply (rank_inj (merge_axes k ns)); try assumption. congruence.
Qed.

Lemma slice_default_get_l {T} (m : mem T) dbg ss0 st0 c sls cs os ks ss : default_layout c ->
  (1 <= length sls <= length (c_shape c))%nat -> compress (length sls) (c_shape c) = Ok cs ->
  sliced cs sls os ks ss -> (dbg = true -> Forall wide sls) ->
  (forall tys, Forall (fun t => is_signed t = true) tys -> directed c sls ss tys) ->
  exists v, slice_container dbg ss0 st0 c sls = Ok v /\ dims v = ks /\ legal (c_shape v) /\
    (forall js, in_box ks js -> exists is_, in_box (dims c) is_ /\
       merge_coord (length (c_shape c) - length sls + 1) (dims c) is_ = place os ss js) /\
    (forall js is_, coord_of v js -> coord_of c is_ -> directed c sls ss (map cty js) ->
       merge_coord (length (c_shape c) - length sls + 1) (dims c) (vals is_) = place os ss (vals js) ->
       get m v js = get m c is_ /\ forall x, put m v js x = put m c is_ x).
Proof.
  intros D N Cs Sl Wd Dr.
  destruct (slice_default_l dbg ss0 st0 c sls cs os ks ss [] D N Cs Sl Wd) as (v & Ev & Dv & Lv & _ & _ & _ & El & Em);
    [apply Dr; constructor|].
  exists v. split; [exact Ev|]. split; [exact Dv|]. split; [exact Lv|]. split.
  - intros js B. destruct (El js B) as [P _].
    destruct D as (Lg & Ne & _). destruct (compress_ok (length sls) (c_shape c) Lg N) as (cs' & Cs' & Vcs & _).
    rewrite Cs in Cs'. injection Cs' as <-. rewrite Vcs in P. apply merge_coord_surj; [| |exact P].
    + destruct Lg as (_ & Q & _). exact Q.
    + unfold dims. destruct (c_shape c); [contradiction|discriminate].
  - intros js is_ Cj Ci Dj M.
    destruct (slice_default_l dbg ss0 st0 c sls cs os ks ss (map cty js) D N Cs Sl Wd Dj) as (v' & Ev' & _ & _ & Av & _).
    rewrite Ev in Ev'. injection Ev' as <-.
    pose proof Cj as [Wj Bj]. pose proof Ci as [Wi Bi]. pose proof Bj as Bj'. rewrite Dv in Bj'.
    specialize (Em _ _ Bj' Bi M).
    pose proof (default_addressable c (map cty is_) D) as Ac.
    unfold get, put, ref. rewrite (elem_address v js), (elem_address c is_) by assumption.
    rewrite Em. auto.
Qed.

(** Slicing a view with arbitrary strides, one slicer per axis. *)
Lemma times_length ss ds : length ss = length ds -> length (times ss ds) = length ds.
Proof. revert ds; induction ss; intros [|d ds] E; try discriminate; [reflexivity|]. simpl. f_equal. apply IHss. simpl in E; congruence. Qed.

Lemma slice_strided_l dbg ss0 st0 c sls os ks ss b off : wf_container c -> legal (c_shape c) -> c_shape c <> [] ->
  sliced (c_shape c) sls os ks ss -> (dbg = true -> Forall wide sls) ->
  (nonnegs (strides_z c) /\ Forall (fun s => 0 < s) ss \/
   (exists st, get_stride c = Ok st /\ signeds st) /\
   Forall (fun sl => match sl with SSlice _ (Some s) _ _ => is_signed (cty s) = true | _ => True end) sls) ->
  Forall (fun x => Z.abs x <= 2147483647) (times ss (strides_z c)) ->
  c_data c = Ptr b off ->
  exists v, slice_container dbg ss0 st0 c sls = Ok v /\ dims v = ks /\ legal (c_shape v) /\
    strides_z v = times ss (strides_z c) /\ c_data v = padd (c_data c) (rank (dims c) os) /\
    forall js, in_box ks js ->
      (elem v js = elem c (place os ss js) <-> rank (dims c) os = dot (strides_z c) os).
Proof.
  intros (W & N & (st & G & Ws & L) & K) Lg Ne Sl Wd Dr Tm Dt.
  destruct (sliced_length _ _ _ _ _ Sl) as (L1 & L2 & L3 & L4).
  assert (Cs : compress (length sls) (c_shape c) = Ok (c_shape c)).
  { unfold compress. rewrite L1. rewrite Nat.leb_refl, Nat.eqb_refl, andb_true_r.
    destruct (c_shape c); [contradiction|reflexivity]. }
  assert (Sz : strides_z c = vals st) by (unfold strides_z; rewrite G; reflexivity).
  assert (Cst : compress_stride (length sls) st = st).
  { unfold compress_stride. replace (length st - length sls)%nat with 0%nat by lia. reflexivity. }
  assert (Rs : exists st', slice_stride st sls = Ok st' /\ vals st' = times ss (vals st)).
  { rewrite Sz in *. destruct Dr as [[Pn Pp]|[(st2 & G2 & S2) Ssl]].
    - destruct (restride_pos st sls ss) as (st' & A1 & A2 & _); try assumption; try congruence; eauto.
      eapply sliced_steps; exact Sl.
    - rewrite G in G2. injection G2 as <-.
      destruct (restride_sgn st sls ss) as (st' & A1 & A2 & _); try assumption; try congruence; eauto.
      eapply sliced_steps; exact Sl. }
  destruct Rs as (st' & Est & Vst).
  destruct (slice_core dbg ss0 st0 c sls (c_shape c) os ks ss st st') as (v & Ev & Dv & Lv & Gv & Av & _); try assumption.
  - rewrite L1. destruct (c_shape c); [contradiction|simpl; lia].
  - rewrite Cst. exact Est.
  - exists v. split; [exact Ev|]. split; [exact Dv|]. split; [exact Lv|].
    assert (Szv : strides_z v = times ss (strides_z c)) by (unfold strides_z at 1; rewrite Gv, Vst, Sz; reflexivity).
    split; [exact Szv|]. split; [exact Av|].
    intros js B. unfold elem. rewrite Szv, Av, padd_padd. fold (dims c).
    pose proof (in_box_length _ _ B) as Lj.
    assert (Lz : length (strides_z c) = length (c_shape c)) by (rewrite Sz, vals_length; exact L).
    rewrite dot_place by congruence. rewrite Dt. split.
    + intros E. apply padd_inj in E. lia.
    + intros ->. reflexivity.
Qed.

Lemma dot_zeros ds n : dot ds (repeat 0 n) = 0.
Proof. revert n; induction ds as [|d ds IH]; intros [|n]; simpl; try reflexivity. rewrite IH. lia. Qed.

(** Two slices in a row. *)
Lemma place_place os ss ps ts js : length ps = length os -> length ss = length os -> length ts = length os ->
  length js = length os ->
  place os ss (place ps ts js) = place (place os ss ps) (times ss ts) js.
Proof.
  revert ss ps ts js. induction os as [|o os IH]; intros [|s ss] [|p ps] [|t ts] [|j js] L1 L2 L3 L4; try discriminate; [reflexivity|].
  cbn [place times]. rewrite IH by (simpl in *; congruence). f_equal. lia.
Qed.

Lemma slice_slice_l d1 d2 a1 b1 a2 b2 c sls1 sls2 os1 ks1 ss1 os2 ks2 ss2 v1 b off :
  default_layout c -> sliced (c_shape c) sls1 os1 ks1 ss1 -> (d1 = true -> Forall wide sls1) ->
  Forall (fun s => 0 < s) ss1 -> slice_container d1 a1 b1 c sls1 = Ok v1 ->
  sliced (c_shape v1) sls2 os2 ks2 ss2 -> (d2 = true -> Forall wide sls2) -> Forall (fun s => 0 < s) ss2 ->
  Forall (fun x => Z.abs x <= 2147483647) (times ss2 (strides_z v1)) ->
  c_data c = Ptr b off ->
  exists v2, slice_container d2 a2 b2 v1 sls2 = Ok v2 /\ dims v2 = ks2 /\
    forall js, in_box ks2 js ->
      (elem v2 js = elem c (place os1 ss1 (place os2 ss2 js)) <->
       rank ks1 os2 = dot (times ss1 (strides_of (dims c))) os2).
Proof.
  intros D S1 W1 P1 E1 S2 W2 P2 Tm Dt. pose proof D as (Lg & Ne & _).
  destruct (sliced_length _ _ _ _ _ S1) as (L1 & L2 & L3 & L4).
  assert (Cs : compress (length sls1) (c_shape c) = Ok (c_shape c)).
  { unfold compress. rewrite L1. rewrite Nat.leb_refl, Nat.eqb_refl, andb_true_r.
    destruct (c_shape c); [contradiction|reflexivity]. }
  assert (Ln : (1 <= length sls1 <= length (c_shape c))%nat).
  { rewrite L1. destruct (c_shape c); [contradiction|simpl; lia]. }
  destruct (slice_default_l d1 a1 b1 c sls1 (c_shape c) os1 ks1 ss1 [] D Ln Cs S1 W1 (or_introl P1))
    as (v & Ev & Dv & Lv & Av & Dav & Szv & El & _).
  rewrite E1 in Ev. injection Ev as <-. destruct Av as (Wv & Sg & _).
  assert (Nv : c_shape v1 <> []).
  { intros E. unfold dims in Dv. rewrite E in Dv. simpl in Dv. subst ks1. simpl in L3.
    destruct (c_shape c); [contradiction|discriminate]. }
  destruct (slice_strided_l d2 a2 b2 v1 sls2 os2 ks2 ss2 b (off + rank (dims c) os1)) as (v2 & Ev2 & Dv2 & _ & Sz2 & Da2 & El2);
    try assumption.
  - left. split; [|exact P2]. rewrite Szv. clear -P1 L4 Lg.
    assert (N : nonnegs (strides_of (vals (c_shape c)))) by (apply strides_of_nonneg; apply Lg).
    revert N. generalize (strides_of (vals (c_shape c))). clear -P1. induction P1 as [|s ss Hs P IH]; intros ds N; [constructor|].
    destruct N as [|d ds Hd N]; [constructor|]. simpl. constructor; [nia|apply IH, N].
  - rewrite Dav, Dt. unfold dims. reflexivity.
  - exists v2. split; [exact Ev2|]. split; [exact Dv2|]. intros js B. specialize (El2 js B).
    change (vals (c_shape c)) with (dims c) in Szv.
    rewrite <- Dv, <- Szv. rewrite <- El2.
    assert (E : elem v1 (place os2 ss2 js) = elem c (place os1 ss1 (place os2 ss2 js))).
    { assert (Bp : in_box ks1 (place os2 ss2 js)).
      { rewrite <- Dv. unfold dims. eapply sliced_place; [apply legal_axis, Lv|exact S2|exact B]. }
      destruct (El _ Bp) as [Bp2 ->]. rewrite (default_elem c); [reflexivity|exact D|exact Bp2]. }
    rewrite E. tauto.
Qed.

Lemma slice_slice_origin_l d1 d2 a1 b1 a2 b2 c sls1 sls2 os1 ks1 ss1 ks2 ss2 v1 b off :
  default_layout c -> sliced (c_shape c) sls1 os1 ks1 ss1 -> (d1 = true -> Forall wide sls1) ->
  Forall (fun s => 0 < s) ss1 -> slice_container d1 a1 b1 c sls1 = Ok v1 ->
  sliced (c_shape v1) sls2 (repeat 0 (length sls2)) ks2 ss2 -> (d2 = true -> Forall wide sls2) -> Forall (fun s => 0 < s) ss2 ->
  Forall (fun x => Z.abs x <= 2147483647) (times ss2 (strides_z v1)) ->
  c_data c = Ptr b off ->
  exists v2, slice_container d2 a2 b2 v1 sls2 = Ok v2 /\ dims v2 = ks2 /\
    forall js, in_box ks2 js ->
      elem v2 js = elem c (place os1 ss1 (place (repeat 0 (length sls2)) ss2 js)).
Proof.
  intros D S1 W1 P1 E1 S2 W2 P2 Tm Dt.
  destruct (slice_slice_l d1 d2 a1 b1 a2 b2 c sls1 sls2 os1 ks1 ss1 _ ks2 ss2 v1 b off D S1 W1 P1 E1 S2 W2 P2 Tm Dt)
    as (v2 & Ev2 & Dv2 & El). exists v2. split; [exact Ev2|]. split; [exact Dv2|].
  intros js B. apply El; [exact B|]. rewrite dot_zeros.
  destruct (sliced_length _ _ _ _ _ S1) as (_ & _ & L3 & _). destruct (sliced_length _ _ _ _ _ S2) as (L1 & L2 & _).
  rewrite rank_dot; [apply dot_zeros|]. rewrite L2. clear -D S1 W1 P1 E1 L1 L3.
  pose proof D as (Lg & Ne & _). destruct (sliced_length _ _ _ _ _ S1) as (M1 & M2 & M3 & M4).
  assert (Cs : compress (length sls1) (c_shape c) = Ok (c_shape c)).
  { unfold compress. rewrite M1. rewrite Nat.leb_refl, Nat.eqb_refl, andb_true_r.
    destruct (c_shape c); [contradiction|reflexivity]. }
  assert (Ln : (1 <= length sls1 <= length (c_shape c))%nat).
  { rewrite M1. destruct (c_shape c); [contradiction|simpl; lia]. }
  destruct (slice_default_l d1 a1 b1 c sls1 (c_shape c) os1 ks1 ss1 [] D Ln Cs S1 W1 (or_introl P1))
    as (v & Ev & Dv & _). rewrite E1 in Ev. injection Ev as <-. rewrite <- Dv. unfold dims. rewrite vals_length. reflexivity.
Qed.

Lemma slice_slice_default_l d1 d2 a1 b1 a2 b2 c sls1 sls2 os1 ks1 ss1 os2 ks2 ss2 v1 b off :
  default_layout c -> sliced (c_shape c) sls1 os1 ks1 ss1 -> (d1 = true -> Forall wide sls1) ->
  Forall (fun s => 0 < s) ss1 -> slice_container d1 a1 b1 c sls1 = Ok v1 ->
  (forall k, (k < length ks1)%nat -> nth k (strides_z v1) 0 = prod (skipn (S k) ks1)) ->
  sliced (c_shape v1) sls2 os2 ks2 ss2 -> (d2 = true -> Forall wide sls2) -> Forall (fun s => 0 < s) ss2 ->
  Forall (fun x => Z.abs x <= 2147483647) (times ss2 (strides_z v1)) ->
  c_data c = Ptr b off ->
  exists v2, slice_container d2 a2 b2 v1 sls2 = Ok v2 /\ dims v2 = ks2 /\
    forall js, in_box ks2 js -> elem v2 js = elem c (place os1 ss1 (place os2 ss2 js)).
Proof.
  intros D S1 W1 P1 E1 Df S2 W2 P2 Tm Dt.
  destruct (slice_slice_l d1 d2 a1 b1 a2 b2 c sls1 sls2 os1 ks1 ss1 _ ks2 ss2 v1 b off D S1 W1 P1 E1 S2 W2 P2 Tm Dt)
    as (v2 & Ev2 & Dv2 & El). exists v2. split; [exact Ev2|]. split; [exact Dv2|].
  intros js B. apply El; [exact B|].
  destruct (sliced_length _ _ _ _ _ S2) as (L1 & L2 & _).
  pose proof D as (Lg & Ne & _). destruct (sliced_length _ _ _ _ _ S1) as (M1 & M2 & M3 & M4).
  assert (Cs : compress (length sls1) (c_shape c) = Ok (c_shape c)).
  { unfold compress. rewrite M1. rewrite Nat.leb_refl, Nat.eqb_refl, andb_true_r.
    destruct (c_shape c); [contradiction|reflexivity]. }
  assert (Ln : (1 <= length sls1 <= length (c_shape c))%nat).
  { rewrite M1. destruct (c_shape c); [contradiction|simpl; lia]. }
  destruct (slice_default_l d1 a1 b1 c sls1 (c_shape c) os1 ks1 ss1 [] D Ln Cs S1 W1 (or_introl P1))
    as (v & Ev & Dv & _ & _ & _ & Sz & _). rewrite E1 in Ev. injection Ev as <-.
  assert (Lk : length (c_shape v1) = length ks1) by (rewrite <- Dv; unfold dims; rewrite vals_length; reflexivity).
  rewrite rank_dot by congruence. unfold dims. rewrite <- Sz. f_equal.
  apply nth_ext with (d := 0) (d' := 0).
  - rewrite strides_of_length, Sz, times_length; rewrite ?strides_of_length, ?vals_length; lia.
  - intros k Hk. rewrite strides_of_length in Hk. rewrite Df by exact Hk. apply (nth_error_nth _ _ 0). apply strides_of_nth. exact Hk.
Qed.

(** Reachability. *)
Lemma unit_step sl s : unit_slicer sl = true -> step_of sl s -> s = 1.
Proof. destruct sl as [|?|?|?|b [c|] e l]; simpl; intros U H; try discriminate; exact H. Qed.

Lemma preserve_sound_l dbg ss0 st0 c sls cs os ks ss : default_layout c ->
  (length sls = 1 \/ length sls = 2)%nat -> (length sls <= length (c_shape c))%nat ->
  compress (length sls) (c_shape c) = Ok cs -> sliced cs sls os ks ss -> (dbg = true -> Forall wide sls) ->
  preserve_reachability sls = true ->
  exists v, slice_container dbg ss0 st0 c sls = Ok v /\ dims v = ks /\
    forall js, in_box ks js -> elem v js = padd (c_data v) (rank (dims v) js).
Proof.
  intros D Ln Lo Cs Sl Wd Pr.
  assert (U : Forall (fun s => 0 < s) ss /\ (forall n, length ss = n -> ss = repeat 1 n)).
  { destruct Ln as [Ln|Ln].
    - pose proof (proj2 Sl) as Se; inversion Se as [|n sl o k s ns sls' os' ks' ss' Ht Hi Sl']; subst; [discriminate|].
      destruct sls'; [|discriminate]. inversion Sl'; subst.
      assert (Pu : unit_slicer sl = true) by (destruct sl; exact Pr).
      rewrite (unit_step sl s Pu (takes_step _ _ _ _ _ Ht)). split; [constructor; [lia|constructor]|]. intros n3 <-. reflexivity.
    - pose proof (proj2 Sl) as Se; inversion Se as [|n sl o k s ns sls' os' ks' ss' Ht Hi Sl']; subst; [discriminate|].
      inversion Sl' as [|n2 sl2 o2 k2 s2 ns2 sls2 os2 ks2 ss2 Ht2 Hi2 Sl2]; subst; [discriminate|].
      destruct sls2; [|discriminate]. inversion Sl2; subst.
      assert (E : unit_slicer sl = true /\ unit_slicer sl2 = true).
      { revert Pr. clear. destruct sl as [|?|?|?|? [?|] ? ?], sl2 as [|?|?|?|? [?|] ? ?]; cbn; auto; discriminate. }
      destruct E as [E1 E2].
      rewrite (unit_step sl s E1 (takes_step _ _ _ _ _ Ht)), (unit_step sl2 s2 E2 (takes_step _ _ _ _ _ Ht2)).
      split; [repeat constructor; lia|]. intros n3 <-. reflexivity. }
  destruct U as [Up Ue].
  destruct (slice_default_l dbg ss0 st0 c sls cs os ks ss [] D ltac:(lia) Cs Sl Wd (or_introl Up))
    as (v & Ev & Dv & Lv & Av & Dav & Szv & El & _).
  exists v. split; [exact Ev|]. split; [exact Dv|]. intros js B. unfold elem. f_equal. rewrite Dv.
  rewrite (rank_dot ks js) by (apply in_box_length, B). rewrite Szv. clear Dv.
  destruct Ln as [Ln|Ln].
  - pose proof (proj2 Sl) as Se; inversion Se as [|n sl o k s ns sls' os' ks' ss' Ht Hi Sl']; subst; [discriminate|].
    destruct sls'; [|discriminate]. inversion Sl'; subst. rewrite (Ue 1%nat eq_refl). reflexivity.
  - pose proof (proj2 Sl) as Se; inversion Se as [|n sl o k s ns sls' os' ks' ss' Ht Hi Sl']; subst; [discriminate|].
    inversion Sl' as [|n2 sl2 o2 k2 s2 ns2 sls2 os2 ks2 ss2 Ht2 Hi2 Sl2]; subst; [discriminate|].
    destruct sls2; [|discriminate]. inversion Sl2; subst. rewrite (Ue 2%nat eq_refl).
    pose proof (in_box_length _ _ B) as Lj. destruct js as [|j1 [|j2 [|j3 js]]]; try discriminate.
    apply in_box_cons_inv in B as [B1 B]. apply in_box_cons_inv in B as [B2 _].
    cbn [vals map strides_of repeat times dot prod fold_right].
    assert (E : k2 = cval n2 \/ k = 1).
    { revert Pr Ht Ht2. clear. destruct sl2 as [|?|?|?|? [?|] ? ?].
      - intros _ _ H. inversion H; subst. left; reflexivity.
      - destruct sl as [|?|?|?|? [?|] ? ?]; cbn; intros P H1 _; try discriminate; inversion H1; auto.
      - destruct sl as [|?|?|?|? [?|] ? ?]; cbn; intros P H1 _; try discriminate; inversion H1; auto.
      - destruct sl as [|?|?|?|? [?|] ? ?]; cbn; intros P H1 _; try discriminate; inversion H1; auto.
      - destruct sl as [|?|?|?|? [?|] ? ?]; cbn; intros P H1 _; try discriminate; inversion H1; auto.
      - destruct sl as [|?|?|?|? [?|] ? ?]; cbn; intros P H1 _; try discriminate; inversion H1; auto. }
    destruct E as [->|E]; [lia|]. assert (j1 = 0) by lia. subst j1. lia.
Qed.

(** The assertion of linear_index applies to the origin of a slice. *)
Lemma slice_abort_core st0 ss0 c sls cs cos : default_layout c -> legal cs ->
  forallb is_index sls = false -> existsb const_index sls = false ->
  compress (length sls) (c_shape c) = Ok cs -> mapM2 reindex1 cs sls = Ok cos -> wfs cos -> length cos = length cs ->
  nonnegs (vals cos) -> Forall (fun c => promote (cty c) = cty c) cos -> ~ in_box (vals cs) (vals cos) ->
  slice_container true ss0 st0 c sls = Abort.
Proof.
  intros D Lc G1 G2 Cs E W L N P NB. destruct (default_stride_any c D) as (st & G & _).
  unfold slice_container. rewrite G1, G, bind_ok. unfold origin. rewrite Cs, bind_ok, G2, E, bind_ok.
  unfold linear_index, kassert.
  assert (F : contains cs cos = false).
  { destruct (contains cs cos) eqn:C; [|reflexivity]. exfalso. apply NB.
    apply (contains_ok cs cos) in C; try assumption; [apply legal_wf, Lc|]. apply wide_fits; [apply legal_axis, Lc| |]; assumption. }
  rewrite bind_ok, F. reflexivity.
Qed.

Lemma drop_all_l ss0 st0 c n k : default_layout c -> c_shape c = [n] -> wfc k -> promote (cty k) = cty k ->
  cval n <= cval k -> slice_container true ss0 st0 c [drop_first k] = Abort.
Proof.
  intros D S W P R. pose proof D as (Lg & _ & _). rewrite S in Lg.
  destruct (legal_cons _ _ Lg) as (Wn & Bn & _ & _).
  eapply (slice_abort_core st0 ss0 c _ [n] [k]); try assumption; try reflexivity.
  - rewrite S. reflexivity.
  - constructor; [exact W|constructor].
  - constructor; [lia|constructor].
  - constructor; [exact P|constructor].
  - intros B. apply in_box_cons_inv in B as [B _]. lia.
Qed.

Lemma reindex_all cs : mapM2 reindex1 cs (repeat SAll (length cs)) = Ok (repeat (int 0) (length cs)).
Proof. induction cs as [|n cs IH]; [reflexivity|]. cbn [length repeat mapM2 reindex1]. rewrite bind_ok, IH. reflexivity. Qed.

Lemma empty_slice_l ss0 st0 c n : default_layout c -> prod (dims c) = 0 -> (1 <= n <= length (c_shape c))%nat ->
  slice_container true ss0 st0 c (repeat SAll n) = Abort.
Proof.
  intros D Z0 N. pose proof D as (Lg & _ & _).
  destruct (compress_ok n (c_shape c) Lg N) as (cs & Cs & Vcs & Lc & Ln).
  eapply (slice_abort_core st0 ss0 c _ cs (repeat (int 0) n)); try assumption.
  - destruct n; [lia|reflexivity].
  - clear. induction n; [reflexivity|assumption].
  - rewrite repeat_length. exact Cs.
  - rewrite <- Ln. apply reindex_all.
  - clear. induction n; constructor; [apply wf0|assumption].
  - rewrite repeat_length. congruence.
  - clear. induction n; constructor; [simpl; lia|assumption].
  - clear. induction n; constructor; [reflexivity|assumption].
  - intros B. apply rank_range in B. rewrite Vcs, merge_axes_prod in B. fold (dims c) in B. rewrite Z0 in B. lia.
Qed.

(** ** Calls that are no slices *)
Lemma indexes_alone_l dbg a b c is_ : slice_container dbg a b c (map SIdx is_) = UB.
Proof.
  unfold slice_container. replace (forallb is_index (map SIdx is_)) with true; [reflexivity|].
  induction is_ as [|i is_ IH]; [reflexivity|]. exact IH.
Qed.
Lemma constant_index_l dbg a b c sls i v : In (SConst i) sls -> slice_container dbg a b c sls <> Ok v.
Proof.
  intros I E. assert (X : existsb const_index sls = true) by (apply existsb_exists; exists (SConst i); auto).
  unfold slice_container, origin in E. rewrite X in E.
  destruct (forallb is_index sls); [discriminate|]. apply bind_inv in E as (st & _ & E).
  apply bind_inv in E as (o & E & _). apply bind_inv in E as (cc & _ & E). discriminate.
Qed.
