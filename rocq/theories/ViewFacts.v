(** Slices, reversed and reshaped views as operands of the algorithms. *)
From Coq Require Import ZArith List Bool Lia.
From Verif Require Import Outcome CInt CIntFacts Spec SpecFacts ShapeSpec Shape ShapeFacts ShapeFacts2 EndRatio Memory MemFacts Container
  ContainerSpec ContainerFacts ContainerFacts2 Algo AlgoSpec AlgoFacts AlgoFacts2 AlgoFacts3 AlgoFacts4 Slicer SlicerSpec
  SlicerFacts SlicerFacts2 SlicerFacts3 SlicerFacts4 ViewSpec.
Import ListNotations.
Open Scope Z_scope.

Lemma place_inj os ss : Forall (fun s => s <> 0) ss -> length ss = length os -> forall a b, length a = length os ->
  length b = length os -> place os ss a = place os ss b -> a = b.
Proof.
  intros F. revert os. induction F as [|s ss Hs F IH]; intros [|o os] L a b La Lb E; try discriminate.
  - destruct a, b; try discriminate. reflexivity.
  - destruct a as [|x a], b as [|y b]; try discriminate. simpl in E. injection E as E1 E2. f_equal.
    + nia.
    + simpl in *. apply (IH os); lia || assumption.
Qed.

Lemma sliced_steps_nonzero ns sls os ks ss : Forall axis ns -> sliced ns sls os ks ss -> Forall (fun s => s <> 0) ss.
Proof.
  intros A [_ S]. induction S; constructor; inversion A; subst.
  - eapply takes_facts; eassumption.
  - auto.
Qed.

Section Slice.
Context {T : Type} (m : mem T) (dbg ss0 st0 : bool) (c : container) (sls : list slc) (cs : list cint)
  (os ks ss : list Z) (v : container).
Hypotheses (D : default_layout c) (N : (1 <= length sls <= length (c_shape c))%nat)
  (Cs : compress (length sls) (c_shape c) = Ok cs) (Sl : sliced cs sls os ks ss)
  (Wd : dbg = true -> Forall wide sls) (Ev : slice_container dbg ss0 st0 c sls = Ok v)
  (Dr : directed c sls ss (ctypes v)).
Let mc := merge_coord (length (c_shape c) - length sls + 1) (dims c).

Lemma slice_view : dims v = ks /\ addressable v (ctypes v) /\
  (forall js, in_box ks js -> exists is_, in_box (dims c) is_ /\ mc is_ = place os ss js) /\
  (forall js is_, in_box ks js -> in_box (dims c) is_ -> mc is_ = place os ss js -> elem v js = elem c is_) /\
  (forall a b i, in_box ks a -> in_box ks b -> mc i = place os ss a -> mc i = place os ss b -> a = b).
Proof.
  destruct (slice_default_l dbg ss0 st0 c sls cs os ks ss (ctypes v) D N Cs Sl Wd Dr)
    as (v' & Ev' & Dv & Lv & Av & _ & _ & El & Em).
  rewrite Ev in Ev'. injection Ev' as <-. split; [exact Dv|]. split; [exact Av|].
  pose proof D as (Lg & Ne & _). destruct (compress_ok (length sls) (c_shape c) Lg N) as (cs' & Cs' & Vcs & Lc & _).
  rewrite Cs in Cs'. injection Cs' as <-.
  split; [|split; [exact Em|]].
  - intros js B. destruct (El js B) as [P _]. rewrite Vcs in P. apply merge_coord_surj; [| |exact P].
    + destruct Lg as (_ & Q & _). exact Q.
    + unfold dims. destruct (c_shape c); [contradiction|discriminate].
  - intros a b i Ba Bb Ea Eb. rewrite Ea in Eb.
    destruct (sliced_length _ _ _ _ _ Sl) as (L1 & L2 & L3 & L4).
    apply in_box_length in Ba, Bb.
    apply (place_inj os ss) in Eb; try congruence.
    eapply sliced_steps_nonzero; [apply legal_axis; exact Lc|exact Sl].
Qed.

Lemma slice_can_read_l : readable m c -> can_read m v v.
Proof.
  intros R. destruct slice_view as (Dv & Av & Ex & El & _). split; [exact Av|]. split; [intros i; auto|].
  intros js B. rewrite Dv in B. destruct (Ex js B) as (i & Bi & Ei). destruct (R i Bi) as (x & Hx).
  exists x. unfold value. rewrite (El js i B Bi Ei). exact Hx.
Qed.

Lemma slice_can_write_l : writable m c -> can_write m v v.
Proof.
  intros W. destruct slice_view as (Dv & Av & Ex & El & Inj). split; [exact Av|]. split; [intros i; auto|]. split.
  - intros a b Ha Hb E. rewrite Dv in Ha, Hb. destruct (Ex a Ha) as (i & Bi & Ei). destruct (Ex b Hb) as (j & Bj & Ej).
    rewrite (El a i Ha Bi Ei), (El b j Hb Bj Ej) in E.
    apply (proj1 (proj2 (proj2 (default_can_write m c c D eq_refl W)))) in E; [|assumption..]. subst j.
    eapply Inj; eassumption.
  - intros js B. rewrite Dv in B. destruct (Ex js B) as (i & Bi & Ei). rewrite (El js i B Bi Ei). apply W. exact Bi.
Qed.

Lemma slice_frame m' : writable m c -> frame v v m m' ->
  others_kept c sls os ks ss m m'.
Proof.
  intros W (Sc & F). destruct slice_view as (Dv & Av & Ex & El & Inj).
  pose proof (proj1 (proj2 (proj2 (default_can_write m c c D eq_refl W)))) as Di.
  split; [|split; [|exact Sc]].
  - intros i Bi P. apply F. intros js B E. rewrite Dv in B. destruct (Ex js B) as (j & Bj & Ej).
    rewrite (El js j B Bj Ej) in E. apply Di in E; [|assumption..]. subst j. apply P. exists js. split; [assumption|split; assumption].
  - intros p Hp. apply F. intros js B. rewrite Dv in B. destruct (Ex js B) as (j & Bj & Ej).
    rewrite (El js j B Bj Ej). apply Hp. exact Bj.
Qed.

Lemma fill_slice_l x : writable m c ->
  exists m', fill v x m = Ok m' /\
    (forall is_, picked c sls os ks ss is_ -> value m' c is_ x) /\
    others_kept c sls os ks ss m m'.
Proof.
  intros W. destruct (fill_l v x m (slice_can_write_l W)) as (m' & E & V & F).
  exists m'. split; [exact E|]. split; [|apply slice_frame; assumption].
  intros i (js & B & Bi & Ei). destruct slice_view as (Dv & Av & Ex & El & Inj). unfold value.
  rewrite <- (El js i B Bi Ei). apply V. rewrite Dv. exact B.
Qed.

Lemma transform_slice_l f : readable m c ->
  exists m', transform f v v [] m = Ok m' /\
    (forall is_ x, picked c sls os ks ss is_ -> value m c is_ x -> value m' c is_ (f [x])) /\
    others_kept c sls os ks ss m m'.
Proof.
  intros R. pose proof (readable_writable m c R) as W. pose proof (slice_can_write_l W) as Cw.
  destruct (transform_l f v v [] m Cw) as (m' & E & V & F).
  - constructor; [apply slice_can_read_l; exact R|constructor].
  - constructor; [|constructor]. apply distinct_no_cross. apply Cw.
  - exists m'. split; [exact E|]. split; [|apply slice_frame; assumption].
    intros i x (js & B & Bi & Ei) Hx. destruct slice_view as (Dv & Av & Ex & El & Inj). unfold value.
    rewrite <- (El js i B Bi Ei). apply V; [rewrite Dv; exact B|]. constructor; [|constructor].
    unfold value. rewrite (El js i B Bi Ei). exact Hx.
Qed.

Lemma reduce_slice_l {A} (f : A -> T -> A) init : readable m c ->
  exists vs, Forall2 (fun js x => exists is_, at_position c sls os ss js is_ /\ value m c is_ x)
               (box ks) vs /\
    reduce v f init m = Ok (fold_left f vs init, m).
Proof.
  intros R. destruct (reduce_values_l v f init m (slice_can_read_l R)) as (vs & V & _ & E).
  exists vs. split; [|exact E]. destruct slice_view as (Dv & Av & Ex & El & Inj). unfold values in V. rewrite Dv in V.
  assert (G : forall l, (forall js, In js l -> in_box ks js) -> forall vs', Forall2 (fun is_ x => value m v is_ x) l vs' ->
    Forall2 (fun js x => exists is_, at_position c sls os ss js is_ /\ value m c is_ x) l vs').
  { intros l Hl vs' F. induction F; constructor.
    - assert (B : in_box ks x) by (apply Hl; left; reflexivity). destruct (Ex x B) as (i & Bi & Ei). exists i.
      split; [split; assumption|]. unfold value. rewrite <- (El x i B Bi Ei). exact H.
    - apply IHF. intros js Hj. apply Hl. right. exact Hj. }
  apply G; [intros js Hj; apply box_In; exact Hj|exact V].
Qed.

Lemma any_of_slice_l (f : T -> bool) : readable m c ->
  exists b, any_of v f m = Ok (b, m) /\
    (b = true <-> exists is_ x, picked c sls os ks ss is_ /\ value m c is_ x /\ f x = true).
Proof.
  intros R. destruct (any_of_l v f m (slice_can_read_l R)) as (b & E & I). exists b. split; [exact E|].
  destruct slice_view as (Dv & Av & Ex & El & Inj). rewrite I. split.
  - intros (js & x & B & V & Fx). rewrite Dv in B. destruct (Ex js B) as (i & Bi & Ei). exists i, x.
    split; [exists js; split; [assumption|split; assumption]|]. split; [|exact Fx].
    unfold value in *. rewrite <- (El js i B Bi Ei). exact V.
  - intros (i & x & (js & B & Bi & Ei) & V & Fx). exists js, x. split; [rewrite Dv; exact B|]. split; [|exact Fx].
    unfold value in *. rewrite (El js i B Bi Ei). exact V.
Qed.
End Slice.

(** Values by rank. *)
Lemma Forall2_map_l {A B C} (P : B -> C -> Prop) (g : A -> B) l vs :
  Forall2 (fun a v => P (g a) v) l vs <-> Forall2 P (map g l) vs.
Proof.
  split; intros H.
  - induction H; constructor; assumption.
  - remember (map g l) as ml eqn:E. generalize dependent l. induction H as [|b v ml vs H _ IHForall2]; intros [|a l'] E; try discriminate; constructor.
    + simpl in E. injection E as E _. subst. exact H.
    + apply IHForall2. simpl in E. injection E as _ E. exact E.
Qed.

Lemma Forall2_ext_in {A B} (P Q : A -> B -> Prop) l vs : (forall a v, In a l -> P a v -> Q a v) ->
  Forall2 P l vs -> Forall2 Q l vs.
Proof.
  intros H F. induction F; constructor.
  - apply H; [left; reflexivity|assumption].
  - apply IHF. intros a v I. apply H. right. exact I.
Qed.

Definition cells_at {T} (m : mem T) (p : ptr) (ks : list Z) (vs : list T) : Prop :=
  Forall2 (fun k v => peek m (padd p k) = Some v) ks vs.

Lemma box_ranks ns : nonnegs ns -> map (rank ns) (box ns) = zrange 0 (Z.to_nat (prod ns)).
Proof. intros N. rewrite (box_rank_zrange ns N). f_equal. rewrite <- (box_length ns N), Nat2Z.id. reflexivity. Qed.

Lemma default_values_rank {T} (m : mem T) c vs : default_layout c ->
  (values m c c vs <-> cells_at m (c_data c) (zrange 0 (Z.to_nat (prod (dims c)))) vs).
Proof.
  intros D. pose proof D as ((_ & Nn & _) & _ & _). unfold cells_at.
  change (vals (c_shape c)) with (dims c) in Nn. rewrite <- (box_ranks (dims c) Nn). rewrite <- Forall2_map_l. split.
  - apply Forall2_ext_in. intros a v I H. apply box_In in I. unfold value in H. rewrite (default_elem c a D I) in H. exact H.
  - apply Forall2_ext_in. intros a v I H. apply box_In in I. unfold value. rewrite (default_elem c a D I). exact H.
Qed.

Lemma rev_zrange n : map (fun k => Z.of_nat n - 1 - k) (zrange 0 n) = rev (zrange 0 n).
Proof.
  induction n; [reflexivity|]. assert (E : zrange 0 (S n) = zrange 0 n ++ [Z.of_nat n]).
  { replace (S n) with (n + 1)%nat by lia. rewrite zrange_app. reflexivity. }
  rewrite E at 2. rewrite rev_app_distr. change (zrange 0 (S n)) with (0 :: zrange (1 + 0) n).
  rewrite <- (zrange_shift 1 0 n). cbn [map rev app]. f_equal; [lia|]. rewrite <- IHn, map_map.
  apply map_ext. intros a. lia.
Qed.

Lemma Forall2_rev {A B} (P : A -> B -> Prop) l vs : Forall2 P l vs -> Forall2 P (rev l) (rev vs).
Proof. induction 1; simpl; [constructor|]. apply Forall2_app; [assumption|]. constructor; [assumption|constructor]. Qed.

Lemma reverse_view_l {T} (m : mem T) ss c : default_layout c -> signeds (c_shape c) ->
  exists rc, reverse ss c = Ok rc /\ dims rc = dims c /\ ctypes rc = ctypes c /\
    (readable m c -> can_read m rc rc) /\ (writable m c -> can_write m rc rc) /\
    (forall is_, in_box (dims c) is_ -> elem rc is_ = elem c (mirror_coord (dims c) is_)) /\
    (forall vs, values m c c vs -> values m rc rc (rev vs)).
Proof.
  intros D S. destruct (reverse_l ss c D S) as (rc & E & Es & A & El). exists rc. split; [exact E|].
  assert (Ed : dims rc = dims c) by (unfold dims; rewrite Es; reflexivity).
  assert (Et : ctypes rc = ctypes c) by (unfold ctypes; rewrite Es; reflexivity).
  split; [exact Ed|]. split; [exact Et|]. split; [|split; [|split; [exact El|]]].
  - intros R. split; [rewrite Et; exact A|]. split; [intros i; auto|]. intros i B. rewrite Ed in B.
    destruct (R (mirror_coord (dims c) i) (mirror_box _ _ B)) as (x & Hx). exists x. unfold value. rewrite (El i B). exact Hx.
  - intros W. split; [rewrite Et; exact A|]. split; [intros i; auto|]. split.
    + intros a b Ha Hb H. rewrite Ed in Ha, Hb. rewrite (El a Ha), (El b Hb) in H.
      apply (proj1 (proj2 (proj2 (default_can_write m c c D eq_refl W)))) in H; [|apply mirror_box; assumption..].
      rewrite <- (mirror_invol _ _ Ha), H. apply mirror_invol. exact Hb.
    + intros i B. rewrite Ed in B. rewrite (El i B). apply W. apply mirror_box. exact B.
  - intros vs V. apply (default_values_rank m c vs D) in V. unfold cells_at in V. apply Forall2_rev in V.
    rewrite <- rev_zrange in V. pose proof D as ((_ & Nn & _) & _ & _). change (vals (c_shape c)) with (dims c) in Nn.
    pose proof (prod_nonneg _ Nn) as Pn. rewrite Z2Nat.id in V by exact Pn.
    rewrite <- (box_ranks (dims c) Nn), map_map in V. rewrite <- Forall2_map_l in V.
    unfold values. rewrite Ed. revert V. apply Forall2_ext_in. intros a v I H. apply box_In in I. unfold value.
    rewrite (El a I), (default_elem c _ D) by (apply mirror_box; exact I). rewrite mirror_rank by exact I. exact H.
Qed.

Lemma reduce_reverse_l {T A} ss c (f : A -> T -> A) init m : default_layout c -> signeds (c_shape c) -> readable m c ->
  exists rc vs, reverse ss c = Ok rc /\ values m c c vs /\ reduce rc f init m = Ok (fold_left f (rev vs) init, m).
Proof.
  intros D S R. destruct (reverse_view_l m ss c D S) as (rc & E & _ & _ & Cr & _ & _ & V).
  destruct (values_exist m c c (default_can_read m c c D eq_refl R)) as (vs & Hv).
  exists rc, vs. split; [exact E|]. split; [exact Hv|].
  destruct (reduce_values_l rc f init m (Cr R)) as (vs' & V' & _ & Er). rewrite Er.
  rewrite (values_unique m rc rc vs' (rev vs) V' (V vs Hv)). reflexivity.
Qed.

Lemma filter_rev_length {A} (f : A -> bool) l : length (filter f (rev l)) = length (filter f l).
Proof.
  assert (F : forall a b, filter f (a ++ b) = filter f a ++ filter f b).
  { induction a; intros b; simpl; [reflexivity|]. destruct (f a); simpl; rewrite IHa; reflexivity. }
  induction l; simpl; [reflexivity|]. rewrite F, app_length, IHl. simpl. destruct (f a); simpl; lia.
Qed.

Lemma count_reverse_l {T} ss c (f : T -> bool) m : default_layout c -> signeds (c_shape c) -> readable m c ->
  exists rc, reverse ss c = Ok rc /\ count_if rc f m = count_if c f m /\ all_of rc f m = all_of c f m /\
    any_of rc f m = any_of c f m /\ none_of rc f m = none_of c f m.
Proof.
  intros D S R. destruct (reverse_view_l m ss c D S) as (rc & E & Ed & _ & Cr & _ & El & V).
  exists rc. split; [exact E|]. specialize (Cr R). pose proof (default_can_read m c c D eq_refl R) as Cc.
  pose proof D as (Lg & _ & _). pose proof (legal_prod _ Lg) as Hp. change (vals (c_shape c)) with (dims c) in Hp.
  assert (Ex : forall P : T -> Prop, (exists is_ v, in_box (dims rc) is_ /\ value m rc is_ v /\ P v) <->
                       (exists is_ v, in_box (dims c) is_ /\ value m c is_ v /\ P v)).
  { intros P. rewrite Ed. split; intros (i & v & B & Hv & Q).
    - exists (mirror_coord (dims c) i), v. split; [apply mirror_box; exact B|]. split; [|exact Q].
      unfold value in *. rewrite <- (El i B). exact Hv.
    - exists (mirror_coord (dims c) i), v. split; [apply mirror_box; exact B|]. split; [|exact Q].
      unfold value in *. rewrite El by (apply mirror_box; exact B). rewrite mirror_invol by exact B. exact Hv. }
  split.
  - destruct (count_if_values_l rc f m Cr) as (vs' & V' & Er); [rewrite Ed; unfold max31 in *; lia|].
    destruct (count_if_values_l c f m Cc) as (vs & Vc & Ec); [unfold max31 in *; lia|]. rewrite Er, Ec.
    rewrite (values_unique m rc rc vs' (rev vs) V' (V vs Vc)), filter_rev_length. reflexivity.
  - destruct (all_of_l rc f m Cr) as (b1 & -> & I1). destruct (all_of_l c f m Cc) as (b1' & -> & I1').
    destruct (any_of_l rc f m Cr) as (b2 & -> & I2). destruct (any_of_l c f m Cc) as (b2' & -> & I2').
    destruct (none_of_l rc f m Cr) as (b3 & -> & I3). destruct (none_of_l c f m Cc) as (b3' & -> & I3').
    assert (B : forall x y : bool, (x = true <-> y = true) -> Ok (x, m) = Ok (y, m)).
    { intros [] [] H; try reflexivity; exfalso; destruct H as [H1 H2]; [discriminate H1|discriminate H2]; reflexivity. }
    split; [|split]; apply B.
    + rewrite I1, I1'. specialize (Ex (fun v => f v = false)).
      split; intros H i v Bi Hv; destruct (f v) eqn:Fv; try reflexivity; exfalso.
      * destruct (proj2 Ex) as (j & w & Bj & Hw & Fw); [exists i, v; auto|]. rewrite (H j w Bj Hw) in Fw. discriminate.
      * destruct (proj1 Ex) as (j & w & Bj & Hw & Fw); [exists i, v; auto|]. rewrite (H j w Bj Hw) in Fw. discriminate.
    + rewrite I2, I2'. apply (Ex (fun v => f v = true)).
    + rewrite I3, I3'. rewrite (Ex (fun v => f v = true)). reflexivity.
Qed.

Lemma reshape_reduce_l {T A} ss c sh (f : A -> T -> A) init m : default_layout c -> legal sh -> sh <> [] ->
  prod (vals sh) = prod (dims c) -> readable m c ->
  exists v vs, reshape_view ss c sh = Ok v /\ can_read m v v /\ can_write m v v /\
    values m c c vs /\ values m v v vs /\ reduce v f init m = reduce c f init m.
Proof.
  intros D L Ne P R. destruct (make_view_default_l ss sh (c_data c) L Ne) as (v & E & Dv & Es & Ed).
  assert (Pv : prod (dims v) = prod (dims c)) by (unfold dims at 1; rewrite Es; exact P).
  assert (Q : forall vs, values m c c vs <-> values m v v vs).
  { intros vs. rewrite !default_values_rank by assumption. rewrite Pv, Ed. reflexivity. }
  destruct (values_exist m c c (default_can_read m c c D eq_refl R)) as (vs & Hv).
  assert (Rv : readable m v).
  { intros i B. apply Q in Hv. assert (In i (box (dims v))) by (apply box_In; exact B). clear -Hv H. unfold values in Hv.
    induction Hv; [contradiction|]. destruct H as [<-|H]; [eexists; eassumption|]. apply IHHv. exact H. }
  pose proof (default_can_read m v v Dv eq_refl Rv) as Cv.
  exists v, vs. split; [exact E|]. split; [exact Cv|].
  split; [apply default_can_write; [exact Dv|reflexivity|apply readable_writable; exact Rv]|].
  split; [exact Hv|]. split; [apply Q; exact Hv|].
  destruct (reduce_values_l v f init m Cv) as (v1 & H1 & _ & E1).
  destruct (reduce_values_l c f init m (default_can_read m c c D eq_refl R)) as (v2 & H2 & _ & E2).
  rewrite E1, E2. apply Q in H1. rewrite (values_unique m c c v1 v2 H1 H2). reflexivity.
Qed.

Lemma copy_reverse_l {T} ss c out (m : mem T) : default_layout c -> signeds (c_shape c) -> readable m c ->
  can_write m out out -> dims out = dims c -> ctypes out = ctypes c -> no_alias c c out ->
  exists rc m', reverse ss c = Ok rc /\ copy out rc m = Ok m' /\
    (forall is_ v, in_box (dims c) is_ -> value m c (mirror_coord (dims c) is_) v -> value m' out is_ v) /\
    frame out out m m'.
Proof.
  intros D S R Cw Ed Et Na. destruct (reverse_view_l m ss c D S) as (rc & E & Er & Ert & Cr & _ & El & _).
  exists rc. destruct (Cr R) as (A & _ & V).
  destruct (copy_l out rc m Cw) as (m' & Ec & Vc & F).
  - split; [rewrite Et, <- Ert; exact A|]. split; [intros i; rewrite Ed, Er; auto|]. intros i B. apply V. rewrite Er, <- Ed. exact B.
  - intros a b Ha Hb _. rewrite Ed in Ha, Hb. rewrite (El a Ha). apply Na; [apply mirror_box; exact Ha|exact Hb].
  - exists m'. split; [exact E|]. split; [exact Ec|]. split; [|exact F].
    intros i v B Hv. apply Vc; [rewrite Ed; exact B|]. unfold value. rewrite (El i B). exact Hv.
Qed.
