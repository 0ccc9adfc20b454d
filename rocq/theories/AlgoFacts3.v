From Coq Require Import ZArith List Bool Lia Sorted.
From Verif Require Import Outcome CInt CIntFacts Spec SpecFacts ShapeSpec Shape ShapeFacts ShapeFacts2
  ForEach ForEachSpec ForEachFacts Memory MemFacts Container ContainerSpec ContainerFacts ContainerFacts2
  ContainerFacts3 Algo AlgoSpec AlgoFacts AlgoFacts2.
Import ListNotations.
Open Scope Z_scope.

(** ** Values in row-major order *)
Lemma values_exist {T} (m : mem T) c0 c : can_read m c0 c -> exists vs, values m c0 c vs.
Proof.
  intros (_ & _ & R). unfold values.
  assert (G : Forall (in_box (dims c0)) (box (dims c0))) by (apply Forall_forall; intros; apply box_In; assumption).
  induction G as [|is_ l B _ (vs & IH)]; [exists []; constructor|].
  destruct (R is_ B) as (v & Hv). exists (v :: vs). constructor; assumption.
Qed.

Lemma Forall2_split {A B} (P : A -> B -> Prop) l vs : Forall2 P l vs -> forall pre x post, l = pre ++ x :: post ->
  exists v, nth_error vs (length pre) = Some v /\ P x v.
Proof.
  induction 1 as [|a v l vs Ha _ IH]; intros pre x post E; [destruct pre; discriminate|].
  destruct pre as [|p pre]; simpl in E; injection E as -> E; [exists v; split; [reflexivity|assumption]|].
  simpl. eapply IH. exact E.
Qed.

Lemma Forall2_len {A B} (P : A -> B -> Prop) l vs : Forall2 P l vs -> length l = length vs.
Proof. induction 1; simpl; congruence. Qed.

Lemma values_at {T} (m : mem T) c0 c vs pre is_ post : values m c0 c vs -> box (dims c0) = pre ++ is_ :: post ->
  exists v, nth_error vs (length pre) = Some v /\ value m c is_ v.
Proof. intros V E. exact (Forall2_split _ _ _ V _ _ _ E). Qed.

Lemma firstn_snoc {A} (l : list A) n v : nth_error l n = Some v -> firstn (S n) l = firstn n l ++ [v].
Proof.
  revert l. induction n as [|n IH]; intros [|x l] H; try discriminate; simpl in *; [congruence|].
  f_equal. apply IH. exact H.
Qed.

Lemma values_unique {T} (m : mem T) c0 c vs vs' : values m c0 c vs -> values m c0 c vs' -> vs = vs'.
Proof.
  unfold values, value. intros H. revert vs'. induction H as [|a v l vs Ha _ IH]; intros vs' H'; inversion H'; subst.
  - reflexivity.
  - f_equal; [congruence|]. apply IH. assumption.
Qed.

(** ** C37 *)
Lemma reduce_l {T A} c (f : A -> T -> A) init m vs : can_read m c c -> values m c c vs ->
  reduce c f init m = Ok (fold_left f vs init, m).
Proof.
  intros CR V. unfold reduce.
  pose (st := fun pre : list (list Z) => (fold_left f (firstn (length pre) vs) init, m)).
  change (init, m) with (st []).
  rewrite (map_containers_inv _ c [] m st).
  - unfold st. rewrite (Forall2_len _ _ _ V), firstn_all. reflexivity.
  - apply can_read_live. exact CR.
  - constructor.
  - intros pre. apply same_refl.
  - intros pre is_ post E. destruct (values_at _ _ _ _ _ _ _ V E) as (v & Ev & Hv).
    cbn [map st snd fst]. rewrite (load_peek _ _ _ Hv), bind_ok. unfold st. rewrite app_length. cbn [length].
    rewrite Nat.add_1_r, (firstn_snoc _ _ _ Ev), fold_left_app. reflexivity.
Qed.

(** ** C38 *)
Lemma fold_and {T} (f : T -> bool) vs : forall a, fold_left (fun a e => a && f e) vs a = a && forallb f vs.
Proof.
  induction vs as [|v vs IH]; intros a; simpl; [rewrite andb_true_r; reflexivity|].
  rewrite IH, andb_assoc. reflexivity.
Qed.
Lemma fold_or {T} (f : T -> bool) vs : forall a, fold_left (fun a e => a || f e) vs a = a || existsb f vs.
Proof.
  induction vs as [|v vs IH]; intros a; simpl; [rewrite orb_false_r; reflexivity|].
  rewrite IH, orb_assoc. reflexivity.
Qed.

Lemma values_In {T} (m : mem T) c vs v : values m c c vs ->
  (In v vs <-> exists is_, in_box (dims c) is_ /\ value m c is_ v).
Proof.
  intros V. split.
  - intros I. unfold values in V.
    assert (G : forall l, Forall2 (fun is_ v => value m c is_ v) l vs -> exists is_, In is_ l /\ value m c is_ v).
    { clear V. intros l V. induction V as [|a w l vs Ha _ IH]; [destruct I|].
      destruct I as [->|I]; [exists a; split; [left; reflexivity|assumption]|].
      destruct (IH I) as (is_ & I' & Hv). exists is_. split; [right|]; assumption. }
    destruct (G _ V) as (is_ & I' & Hv). exists is_. split; [apply box_In; exact I'|exact Hv].
  - intros (is_ & B & Hv). destruct (box_split _ _ B) as (pre & post & E).
    destruct (values_at _ _ _ _ _ _ _ V E) as (w & Ew & Hw).
    assert (v = w) by (unfold value in *; congruence). subst. eapply nth_error_In; exact Ew.
Qed.

Lemma all_of_l {T} c (f : T -> bool) m : can_read m c c ->
  exists b, all_of c f m = Ok (b, m) /\
    (b = true <-> forall is_ v, in_box (dims c) is_ -> value m c is_ v -> f v = true).
Proof.
  intros CR. destruct (values_exist m c c CR) as (vs & V). unfold all_of.
  rewrite (reduce_l c _ _ m vs CR V), fold_and. eexists. split; [reflexivity|].
  rewrite andb_true_l, forallb_forall. split.
  - intros H is_ v B Hv. apply H. apply (values_In m c vs v V). eauto.
  - intros H v I. apply (values_In m c vs v V) in I. destruct I as (is_ & B & Hv). eauto.
Qed.

Lemma any_of_l {T} c (f : T -> bool) m : can_read m c c ->
  exists b, any_of c f m = Ok (b, m) /\
    (b = true <-> exists is_ v, in_box (dims c) is_ /\ value m c is_ v /\ f v = true).
Proof.
  intros CR. destruct (values_exist m c c CR) as (vs & V). unfold any_of.
  rewrite (reduce_l c _ _ m vs CR V), fold_or. eexists. split; [reflexivity|].
  rewrite orb_false_l, existsb_exists. split.
  - intros (v & I & H). apply (values_In m c vs v V) in I. destruct I as (is_ & B & Hv). eauto 6.
  - intros (is_ & v & B & Hv & H). exists v. split; [|exact H]. apply (values_In m c vs v V). eauto.
Qed.

Lemma none_of_l {T} c (f : T -> bool) m : can_read m c c ->
  exists b, none_of c f m = Ok (b, m) /\
    (b = true <-> ~ exists is_ v, in_box (dims c) is_ /\ value m c is_ v /\ f v = true).
Proof.
  intros CR. destruct (any_of_l c f m CR) as (b & E & H). unfold none_of. rewrite E, bind_ok. cbn [fst snd].
  eexists. split; [reflexivity|]. rewrite <- H. destruct b; simpl; intuition congruence.
Qed.

Lemma fold_count {T} (f : T -> bool) vs : forall a, 0 <= a -> a + Z.of_nat (length vs) < 2 ^ 64 ->
  fold_left (fun a e => size_add a (f e)) vs a = a + Z.of_nat (length (filter f vs)).
Proof.
  induction vs as [|v vs IH]; intros a Ha Hl; [simpl; lia|].
  cbn [fold_left length] in *. unfold size_add at 2.
  assert (E : (a + (if f v then 1 else 0)) mod 2 ^ 64 = a + (if f v then 1 else 0)).
  { apply Z.mod_small. destruct (f v); lia. }
  rewrite E, IH; [|destruct (f v); lia|destruct (f v); lia].
  cbn [filter]. destruct (f v); cbn [length]; lia.
Qed.

Lemma count_if_l {T} c (f : T -> bool) m vs : can_read m c c -> values m c c vs ->
  prod (dims c) < 2 ^ 64 ->
  count_if c f m = Ok (Z.of_nat (length (filter f vs)), m).
Proof.
  intros CR V P. destruct (live_wf m c (can_read_live _ _ _ CR)) as [_ Nn].
  unfold count_if. rewrite (reduce_l c _ _ m vs CR V), fold_count; [rewrite Z.add_0_l; reflexivity|lia|].
  rewrite <- (Forall2_len _ _ _ V). pose proof (box_length (dims c) Nn). lia.
Qed.

(** ** C39 *)
Lemma combine_nth {A B} (l : list A) (r : list B) n a b : nth_error l n = Some a -> nth_error r n = Some b ->
  nth_error (combine l r) n = Some (a, b).
Proof.
  revert l r. induction n as [|n IH]; intros [|x l] [|y r] H1 H2; try discriminate; simpl in *; [congruence|].
  apply IH; assumption.
Qed.

Lemma reduce2_l {T A B} c1 c2 (R : A -> B -> A) (f : T -> T -> B) init m vs1 vs2 :
  can_read m c1 c1 -> can_read m c1 c2 -> values m c1 c1 vs1 -> values m c1 c2 vs2 ->
  transform_reduce c1 c2 init R f m =
  Ok (fold_left (fun a p => R a (f (fst p) (snd p))) (combine vs1 vs2) init, m).
Proof.
  intros CR1 CR2 V1 V2. unfold transform_reduce.
  pose (g := fun a p => R a (f (fst p) (snd p))).
  pose (st := fun pre : list (list Z) => (fold_left g (firstn (length pre) (combine vs1 vs2)) init, m)).
  change (init, m) with (st []).
  rewrite (map_containers_inv _ c1 [c2] m st).
  - unfold st. rewrite firstn_all2; [reflexivity|].
    rewrite combine_length, <- (Forall2_len _ _ _ V1), <- (Forall2_len _ _ _ V2). lia.
  - apply can_read_live. exact CR1.
  - constructor; [apply can_read_live; exact CR2|constructor].
  - intros pre. apply same_refl.
  - intros pre is_ post E. destruct (values_at _ _ _ _ _ _ _ V1 E) as (v1 & E1 & H1).
    destruct (values_at _ _ _ _ _ _ _ V2 E) as (v2 & E2 & H2).
    cbn [map st snd fst]. rewrite (load_peek _ _ _ H1), bind_ok, (load_peek _ _ _ H2), bind_ok.
    unfold st. rewrite app_length. cbn [length].
    rewrite Nat.add_1_r, (firstn_snoc _ _ _ (combine_nth _ _ _ _ _ E1 E2)), fold_left_app. reflexivity.
Qed.

Lemma inner_product_l {T A B} dbg c1 c2 (R : A -> B -> A) (f : T -> T -> B) init m vs1 vs2 :
  can_read m c1 c1 -> can_read m c1 c2 -> values m c1 c1 vs1 -> values m c1 c2 vs2 ->
  legal (c_shape c1) -> legal (c_shape c2) -> c_shape c1 <> [] -> dims c1 = dims c2 ->
  inner_product dbg c1 c2 init R f m =
  Ok (fold_left (fun a p => R a (f (fst p) (snd p))) (combine vs1 vs2) init, m).
Proof.
  intros CR1 CR2 V1 V2 L1 L2 Ne Eq. unfold inner_product.
  assert (Hl : length (c_shape c1) = length (c_shape c2)).
  { apply (f_equal (@length Z)) in Eq. unfold dims, vals in Eq. rewrite !map_length in Eq. exact Eq. }
  destruct (shape_eq_same_order _ _ L1 L2 Ne Hl) as (r & E & H).
  assert (r = true) by (apply H; exact Eq). subst r. rewrite E, kassert_ok, bind_ok.
  exact (reduce2_l c1 c2 R f init m vs1 vs2 CR1 CR2 V1 V2).
Qed.

Lemma inner_product_abort_l {T A B} c1 c2 (R : A -> B -> A) (f : T -> T -> B) init m :
  legal (c_shape c1) -> legal (c_shape c2) -> c_shape c1 <> [] ->
  length (c_shape c1) = length (c_shape c2) -> dims c1 <> dims c2 ->
  inner_product true c1 c2 init R f m = Abort.
Proof.
  intros L1 L2 Ne Hl Eq. unfold inner_product.
  destruct (shape_eq_same_order _ _ L1 L2 Ne Hl) as (r & E & H). rewrite E.
  destruct r; [exfalso; apply Eq, H; reflexivity|]. reflexivity.
Qed.

Lemma inner_product_release_l {T A B} c1 c2 (R : A -> B -> A) (f : T -> T -> B) init m :
  inner_product false c1 c2 init R f m = transform_reduce c1 c2 init R f m.
Proof. reflexivity. Qed.

(** ** C40 *)
Definition scan {T B} (f1 : T -> B -> T) (f2 : T -> B) (init : T) (vs : list T) : T :=
  fold_left (fun a v => f1 a (f2 v)) vs init.

Lemma rank_pre ns pre is_ post : nonnegs ns -> box ns = pre ++ is_ :: post -> in_box ns is_ ->
  length pre = Z.to_nat (rank ns is_).
Proof.
  intros Nn E B. rewrite (box_split_rank _ _ _ _ Nn E), firstn_length.
  pose proof (rank_range _ _ B). pose proof (box_length ns Nn). lia.
Qed.

Lemma inclusive_l {T B} in_ out (init : T) (f1 : T -> B -> T) f2 m vs : can_read m in_ in_ -> can_write m in_ out ->
  no_cross_alias in_ in_ out -> values m in_ in_ vs ->
  exists m', transform_inclusive_scan in_ out init f1 f2 m = Ok m' /\
    (forall is_, in_box (dims in_) is_ ->
       value m' out is_ (scan f1 f2 init (firstn (Z.to_nat (rank (dims in_) is_) + 1) vs))) /\
    frame in_ out m m'.
Proof.
  intros CR CW NA V. destruct (live_wf m in_ (can_read_live _ _ _ CR)) as [_ Nn].
  pose (val := fun (pre : list (list Z)) (_ : list Z) => Some (scan f1 f2 init (firstn (length pre + 1) vs))).
  pose proof CW as (_ & _ & D & Vd).
  pose proof (pmem_result out val in_ m Nn D Vd) as (R & F). cbv zeta in R, F.
  exists (pmem out val m (box (dims in_))). unfold transform_inclusive_scan.
  pose (st := fun pre : list (list Z) => (scan f1 f2 init (firstn (length pre) vs), pmem out val m pre)).
  change (init, m) with (st []).
  rewrite (map_containers_inv _ in_ [out] m st).
  - split; [reflexivity|]. split; [|exact F]. intros is_ Bi.
    destruct (box_split _ _ Bi) as (pre & post & E). specialize (R pre _ post E). unfold val in R at 1.
    rewrite (rank_pre _ _ _ _ Nn E Bi) in R. exact R.
  - apply can_read_live. exact CR.
  - constructor; [apply can_write_live; exact CW|constructor].
  - intros pre. apply pmem_same.
  - intros pre is_ post E. destruct (box_split_notin _ _ _ _ Nn E) as (_ & Bi & _).
    destruct (values_at _ _ _ _ _ _ _ V E) as (v & Ev & Hv).
    assert (Hv' : value (snd (st pre)) in_ is_ v).
    { unfold value, peek, st. cbn [snd]. rewrite (pmem_read in_ in_ out val m pre is_ post); assumption. }
    cbn [map]. rewrite (load_peek _ _ _ Hv'), bind_ok. unfold st. cbn [fst snd].
    assert (Es : f1 (scan f1 f2 init (firstn (length pre) vs)) (f2 v) = scan f1 f2 init (firstn (length pre + 1) vs)).
    { rewrite Nat.add_1_r, (firstn_snoc _ _ _ Ev). unfold scan. rewrite fold_left_app. reflexivity. }
    rewrite Es, store_valid by (apply pmem_same, Vd, Bi). rewrite bind_ok, pmem_step, app_length.
    cbn [length]. reflexivity.
Qed.

Lemma exclusive_l {T B} in_ out (init : T) (f1 : T -> B -> T) f2 m vs : can_read m in_ in_ -> can_write m in_ out ->
  no_alias in_ in_ out -> values m in_ in_ vs ->
  exists m', transform_exclusive_scan in_ out init f1 f2 m = Ok m' /\
    (forall is_, in_box (dims in_) is_ ->
       value m' out is_ (scan f1 f2 init (firstn (Z.to_nat (rank (dims in_) is_)) vs))) /\
    frame in_ out m m'.
Proof.
  intros CR CW NA V. destruct (live_wf m in_ (can_read_live _ _ _ CR)) as [_ Nn].
  pose (val := fun (pre : list (list Z)) (_ : list Z) => Some (scan f1 f2 init (firstn (length pre) vs))).
  pose proof CW as (_ & _ & D & Vd).
  pose proof (pmem_result out val in_ m Nn D Vd) as (R & F). cbv zeta in R, F.
  exists (pmem out val m (box (dims in_))). unfold transform_exclusive_scan.
  pose (st := fun pre : list (list Z) => (scan f1 f2 init (firstn (length pre) vs), pmem out val m pre)).
  change (init, m) with (st []).
  rewrite (map_containers_inv _ in_ [out] m st).
  - split; [reflexivity|]. split; [|exact F]. intros is_ Bi.
    destruct (box_split _ _ Bi) as (pre & post & E). specialize (R pre _ post E). unfold val in R at 1.
    rewrite (rank_pre _ _ _ _ Nn E Bi) in R. exact R.
  - apply can_read_live. exact CR.
  - constructor; [apply can_write_live; exact CW|constructor].
  - intros pre. apply pmem_same.
  - intros pre is_ post E. destruct (box_split_notin _ _ _ _ Nn E) as (_ & Bi & _).
    destruct (values_at _ _ _ _ _ _ _ V E) as (v & Ev & Hv).
    cbn [map]. unfold st. cbn [fst snd].
    rewrite store_valid by (apply pmem_same, Vd, Bi). rewrite bind_ok.
    assert (Hv' : value (upd (pmem out val m pre) (elem out is_) (scan f1 f2 init (firstn (length pre) vs))) in_ is_ v).
    { unfold value. rewrite peek_upd_other by (apply not_eq_sym, NA; assumption). unfold peek.
      rewrite (pmem_read in_ in_ out val m pre is_ post); try assumption. intros a b Ha Hb _. apply NA; assumption. }
    rewrite (load_peek _ _ _ Hv'), bind_ok, pmem_step, app_length. cbn [length].
    rewrite Nat.add_1_r, (firstn_snoc _ _ _ Ev). unfold scan at 3. rewrite fold_left_app. reflexivity.
Qed.
