(** Assertions only stop programs (C75). *)
From Coq Require Import ZArith List Bool Lia.
From Verif Require Import Outcome CInt CIntFacts Spec ShapeSpec Shape ShapeFacts ShapeFacts2 Prefilled PrefilledFacts PrefilledFacts3
  NamedSize NamedStride Memory Container Source Slicer Label Algo Context Sums Search Calls Objects Convert CheckSpec.
Import ListNotations.
Open Scope Z_scope.

Lemma stops_refl {A} (x : outcome A) : only_stops x x. Proof. left. reflexivity. Qed.
Lemma stops_bind {A B} (d r : outcome A) (f g : A -> outcome B) : only_stops d r ->
  (forall a, r = Ok a -> only_stops (f a) (g a)) -> only_stops (bind d f) (bind r g).
Proof. intros [->| ->] H; [|right; reflexivity]. destruct r as [a| | |]; cbn [bind]; [apply H; reflexivity|left; reflexivity..]. Qed.
Lemma stops_after {A B} (x : outcome A) (f g : A -> outcome B) :
  (forall a, x = Ok a -> only_stops (f a) (g a)) -> only_stops (bind x f) (bind x g).
Proof. intros H. apply stops_bind; [apply stops_refl|exact H]. Qed.
Lemma stops_assert {A} b (f : unit -> outcome A) : only_stops (bind (kassert true (Ok b)) f) (bind (kassert false (Ok b)) f).
Proof. destruct b; cbn [kassert bind]; [left|right]; reflexivity. Qed.
Lemma stops_confirms {A} (d r : outcome A) : only_stops d r -> confirms d r.
Proof. intros [->| ->] x E; [exact E|discriminate]. Qed.
Lemma confirms_assert {A} c (f : unit -> outcome A) : confirms (bind (kassert true c) f) (bind (kassert false c) f).
Proof. intros r. destruct c as [[|]| | |]; cbn [kassert bind]; intros E; try discriminate; exact E. Qed.

(** ** Positions *)
Lemma linear_stops s is_ : only_stops (linear_index true s is_) (linear_index false s is_).
Proof. apply stops_assert. Qed.
Lemma coordinates_confirm i s : confirms (coordinates true i s) (coordinates false i s).
Proof. apply confirms_assert. Qed.
Lemma coordinates_stops i s n : numel s = Ok n -> only_stops (coordinates true i s) (coordinates false i s).
Proof. intros E. unfold coordinates. rewrite E, bind_ok. apply stops_assert. Qed.
Lemma origin_stops s sls : only_stops (origin true s sls) (origin false s sls).
Proof. apply stops_after. intros c _. destruct (existsb const_index sls); [apply stops_refl|]. apply stops_after. intros is_ _. apply linear_stops. Qed.
Lemma slice_stops a b c sls : only_stops (slice_container true a b c sls) (slice_container false a b c sls).
Proof.
  unfold slice_container. destruct (forallb is_index sls); [apply stops_refl|].
  apply stops_after. intros st _. apply stops_bind; [apply origin_stops|]. intros. apply stops_refl.
Qed.
Lemma slice_labelled_stops a b x sls : only_stops (slice_labelled true a b x sls) (slice_labelled false a b x sls).
Proof. apply stops_after. intros l _. apply stops_bind; [apply slice_stops|]. intros. apply stops_refl. Qed.

(** ** Searches *)
Section Search.
Context {T : Type}.
Lemma bisect_stops (cond : T -> bool) c m n : numel (c_shape c) = Ok n -> forall fuel count first it,
  only_stops (bisect true cond c m fuel count first it) (bisect false cond c m fuel count first it).
Proof.
  intros E. induction fuel as [|fuel IH]; intros count first it; cbn [bisect]; [destruct (clt (int 0) count); apply stops_refl|].
  destruct (clt (int 0) count); [|apply stops_refl].
  apply stops_after. intros step _. apply stops_after. intros it' _. apply stops_bind; [eapply coordinates_stops; exact E|].
  intros pos _. apply stops_after. intros e _. destruct (cond e); [|apply IH].
  apply stops_after. intros i2 _. apply stops_after. intros s1 _. apply stops_after. intros c' _. apply IH.
Qed.
Lemma result_stops c n k r : numel (c_shape c) = Ok k -> only_stops (bound_result true c n r) (bound_result false c n r).
Proof.
  intros E. unfold bound_result. destruct (clt (fst r) n); [|apply stops_refl].
  apply stops_bind; [eapply coordinates_stops; exact E|]. intros. apply stops_refl.
Qed.
Lemma lower_stops (less : T -> T -> bool) c x m : only_stops (lower_bound true less c x m) (lower_bound false less c x m).
Proof.
  apply stops_after. intros n E. destruct (ceqb n (int 0)); [apply stops_refl|].
  apply stops_bind; [eapply bisect_stops; exact E|]. intros r _. eapply result_stops. exact E.
Qed.
Lemma upper_stops (less : T -> T -> bool) c x m : only_stops (upper_bound true less c x m) (upper_bound false less c x m).
Proof.
  apply stops_after. intros n E. apply stops_bind; [eapply bisect_stops; exact E|]. intros r _. eapply result_stops. exact E.
Qed.
Lemma binary_stops (less : T -> T -> bool) c x m : only_stops (binary_search true less c x m) (binary_search false less c x m).
Proof. apply stops_bind; [apply lower_stops|]. intros. apply stops_refl. Qed.

Context {Q : Type}.
Lemma bisect_call_stops (cond : T -> Q -> outcome (bool * Q)) c m n : numel (c_shape c) = Ok n -> forall fuel count first it q,
  only_stops (bisect_call true cond c m fuel count first it q) (bisect_call false cond c m fuel count first it q).
Proof.
  intros E. induction fuel as [|fuel IH]; intros count first it q; cbn [bisect_call]; [destruct (clt (int 0) count); apply stops_refl|].
  destruct (clt (int 0) count); [|apply stops_refl].
  apply stops_after. intros step _. apply stops_after. intros it' _. apply stops_bind; [eapply coordinates_stops; exact E|].
  intros pos _. apply stops_after. intros e _. apply stops_after. intros r _. destruct (fst r); [|apply IH].
  apply stops_after. intros i2 _. apply stops_after. intros s1 _. apply stops_after. intros c' _. apply IH.
Qed.
Lemma lower_call_stops (f : T -> T -> Q -> outcome (bool * Q)) c x q m :
  only_stops (lower_bound_call true f c x q m) (lower_bound_call false f c x q m).
Proof.
  apply stops_after. intros n E. destruct (ceqb n (int 0)); [apply stops_refl|].
  apply stops_bind; [eapply bisect_call_stops; exact E|]. intros r _. apply stops_bind; [eapply result_stops; exact E|].
  intros. apply stops_refl.
Qed.
Lemma upper_call_stops (f : T -> T -> Q -> outcome (bool * Q)) c x q m :
  only_stops (upper_bound_call true f c x q m) (upper_bound_call false f c x q m).
Proof.
  apply stops_after. intros n E. apply stops_bind; [eapply bisect_call_stops; exact E|]. intros r _.
  apply stops_bind; [eapply result_stops; exact E|]. intros. apply stops_refl.
Qed.
Lemma binary_call_stops (f : T -> T -> Q -> outcome (bool * Q)) c x q m :
  only_stops (binary_search_call true f c x q m) (binary_search_call false f c x q m).
Proof. apply stops_bind; [apply lower_call_stops|]. intros. apply stops_refl. Qed.
End Search.

(** ** inner_product *)
Lemma inner_confirm {T A B} c1 c2 (init : A) (R : A -> B -> A) (F : T -> T -> B) m :
  confirms (inner_product true c1 c2 init R F m) (inner_product false c1 c2 init R F m).
Proof. apply confirms_assert. Qed.
Lemma inner_stops {T A B} c1 c2 (init : A) (R : A -> B -> A) (F : T -> T -> B) m b : shape_eq (c_shape c1) (c_shape c2) = Ok b ->
  only_stops (inner_product true c1 c2 init R F m) (inner_product false c1 c2 init R F m).
Proof. intros E. unfold inner_product. rewrite E. apply stops_assert. Qed.
Lemma inner_call_confirm {T A B Q} c1 c2 (init : A) (R : A -> B -> Q -> outcome (A * Q)) (F : T -> T -> Q -> outcome (B * Q)) q m :
  confirms (inner_product_call true c1 c2 init R F q m) (inner_product_call false c1 c2 init R F q m).
Proof. apply confirms_assert. Qed.
Lemma inner_call_stops {T A B Q} c1 c2 (init : A) (R : A -> B -> Q -> outcome (A * Q)) (F : T -> T -> Q -> outcome (B * Q)) q m b :
  shape_eq (c_shape c1) (c_shape c2) = Ok b ->
  only_stops (inner_product_call true c1 c2 init R F q m) (inner_product_call false c1 c2 init R F q m).
Proof. intros E. unfold inner_product_call. rewrite E. apply stops_assert. Qed.

(** ** Shapes and strides *)
Lemma static_get p i : pcontains (pdesc p) i = Ok false -> exists v, pget p i = Ok v.
Proof.
  intros H. assert (Hi : exists d, nth_error (pdesc p) i = Some d).
  { destruct (nth_error (pdesc p) i) as [d|] eqn:E; [eauto|]. exfalso. unfold pcontains in H. rewrite map_descriptor_eq in H.
    cbn [Prefilled.index] in H. apply nth_error_None in E.
    assert (N : nth_error (index_from 0 (pdesc p)) i = None) by (apply nth_error_None; rewrite index_from_length; exact E).
    rewrite N in H. discriminate. }
  destruct Hi as (d & Hd). rewrite (pcontains_ok _ _ _ Hd) in H. injection H as H. unfold pget. rewrite Hd.
  rewrite map_descriptor_eq. cbn [Prefilled.index]. rewrite (index_from_nth _ _ _ _ Hd), H. cbn.
  unfold is_dynamic in H. destruct (acont d); try discriminate. eauto.
Qed.
Lemma axis_stops def i v p : only_stops (construct_axis true def i v p) (construct_axis false def i v p).
Proof.
  apply stops_after. intros [|] E; [apply stops_refl|]. destruct (ext_is_joker v); [apply stops_assert|].
  destruct (static_get p i E) as (g & ->). rewrite bind_ok. apply stops_assert.
Qed.
Lemma construct_stops def : forall vs i p, only_stops (construct_from true def i vs p) (construct_from false def i vs p).
Proof.
  induction vs as [|v vs IH]; intros i p; [apply stops_refl|]. cbn [construct_from].
  apply stops_bind; [apply axis_stops|]. intros. apply IH.
Qed.
Lemma pconstruct_stops ds def vs : only_stops (pconstruct true ds def vs) (pconstruct false ds def vs).
Proof. unfold pconstruct. destruct (length vs <=? length ds)%nat; [apply construct_stops|apply stops_refl]. Qed.
Lemma fold_stops def : forall os p,
  only_stops (kfold_right (construct_named_one true def) os p) (kfold_right (construct_named_one false def) os p).
Proof.
  induction os as [|o os IH]; intros p; [apply stops_refl|]. cbn [kfold_right].
  apply stops_bind; [apply axis_stops|]. intros. apply IH.
Qed.
Lemma named_stops ds def os : only_stops (pconstruct_named true ds def os) (pconstruct_named false ds def os).
Proof. unfold pconstruct_named. destruct (is_fully_static ds); [apply stops_refl|apply fold_stops]. Qed.
Lemma convert_stops : forall vs i p, only_stops (convert_from true i vs p) (convert_from false i vs p).
Proof.
  induction vs as [|v vs IH]; intros i p; [apply stops_refl|]. cbn [convert_from].
  apply stops_after. intros b E. apply stops_bind; [|intros; apply IH]. destruct b; [apply stops_refl|].
  destruct (static_get p i E) as (g & ->). rewrite bind_ok. apply stops_assert.
Qed.
Lemma pconvert_stops ds src : only_stops (pconvert true ds src) (pconvert false ds src).
Proof.
  unfold pconvert. destruct (length (pdesc src) =? length ds)%nat; [|apply stops_refl]. apply stops_after. intros. apply convert_stops.
Qed.
Lemma shape_construct_stops dst src : only_stops (shape_construct true dst src) (shape_construct false dst src).
Proof.
  unfold shape_construct. destruct (length dst =? length (pdesc src))%nat; [apply pconvert_stops|].
  destruct (length (pdesc src) <? length dst)%nat; [apply stops_after; intros; apply pconstruct_stops|].
  destruct (same_axes _ _); [|apply stops_refl].
  apply stops_after. intros. apply stops_after. intros. apply convert_stops.
Qed.
Lemma shape_convert_stops dst src : only_stops (shape_convert true dst src) (shape_convert false dst src).
Proof. unfold shape_convert. destruct (is_contructible_from dst (pdesc src)); [apply shape_construct_stops|apply stops_refl]. Qed.
Lemma pindex_stops p i : only_stops (pindex true p i) (pindex false p i).
Proof.
  unfold pindex. destruct (is_fully_static (pdesc p)); [apply stops_refl|].
  destruct (i <? length (pdesc p))%nat eqn:E; cbn [kassert bind]; [|right; reflexivity].
  apply Nat.ltb_lt in E. destruct (nth_error (pdesc p) i) as [d|] eqn:Hd; [|apply nth_error_None in Hd; lia].
  rewrite (pcontains_ok _ _ _ Hd). cbn [bind]. destruct (is_dynamic d); [apply stops_refl|right; reflexivity].
Qed.
Lemma of_size_stops es : only_stops (of_size true es) (of_size false es). Proof. apply pconstruct_stops. Qed.
Lemma of_size_as_stops t es : only_stops (of_size_as true t es) (of_size_as false t es). Proof. apply of_size_stops. Qed.
Lemma build_stops def l : only_stops (build_args true def l) (build_args false def l).
Proof.
  unfold build_args. destruct (existsb is_named l); [|apply pconstruct_stops]. destruct (existsb is_bare l); [apply stops_refl|].
  destruct (existsb has_content l && negb (is_fully_static (arg_descs l))); [apply stops_refl|apply named_stops].
Qed.
Lemma pas_stride_stops p : only_stops (pas_stride true p) (pas_stride false p).
Proof. apply stops_after. intros es _. apply stops_after. intros t _. apply build_stops. Qed.
Lemma pcompress_stops n p : only_stops (pcompress_stride true n p) (pcompress_stride false n p).
Proof. apply stops_after. intros es _. apply build_stops. Qed.

(** ** Containers on sources *)
Lemma default_stops s : only_stops (default_shape true s) (default_shape false s).
Proof. destruct s; apply stops_bind; try apply of_size_stops; intros; apply stops_refl. Qed.
Lemma pick_stops g s : only_stops (pick_size true g s) (pick_size false g s).
Proof. destruct g; [apply stops_refl|]. apply stops_bind; [apply default_stops|]. intros; apply stops_refl. Qed.
Lemma view_stops g s : only_stops (view_on true g s) (view_on false g s).
Proof. apply stops_bind; [apply pick_stops|]. intros; apply stops_refl. Qed.
Lemma table_stops {T} (m : mem T) g s : only_stops (table_from m true g s) (table_from m false g s).
Proof. apply stops_bind; [apply pick_stops|]. intros; apply stops_refl. Qed.
Lemma table_as_stops t m g s : only_stops (table_as t m true g s) (table_as t m false g s).
Proof. apply stops_bind; [apply pick_stops|]. intros; apply stops_refl. Qed.
