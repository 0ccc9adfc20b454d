(** Assertions in the constructors of typed shapes, extents and slicers of the user's types, containers built from options, sums of
    numbers, and whole programs. *)
From Coq Require Import ZArith List Bool Lia.
From Verif Require Import Outcome CInt CIntFacts Shape ShapeFacts Prefilled NamedSize NamedStride Names Extension Ctor EndRatio Memory Container
  Source Slicer SliceText SliceKinds UserSlicer Convert Settings Algo Search Sums FloatSums FloatCompare Bools Program CheckSpec CheckFacts.
Import ListNotations.
Open Scope Z_scope.

Lemma confirms_refl {A} (x : outcome A) : confirms x x. Proof. intros r E. exact E. Qed.
Lemma confirms_bind {A B} (d r : outcome A) (f g : A -> outcome B) : confirms d r ->
  (forall a, confirms (f a) (g a)) -> confirms (bind d f) (bind r g).
Proof. intros H K x E. destruct d as [a| | |]; try discriminate. rewrite (H a eq_refl). exact (K a x E). Qed.
Lemma confirms_after {A B} (x : outcome A) (f g : A -> outcome B) : (forall a, confirms (f a) (g a)) -> confirms (bind x f) (bind x g).
Proof. apply confirms_bind, confirms_refl. Qed.

(** ** Shapes *)
Lemma ctor_stops ds def l : only_stops (construct_shape true ds def l) (construct_shape false ds def l).
Proof.
  unfold construct_shape. destruct l as [|a l]; [apply stops_refl|]. destruct (forallb is_kpos (a :: l)); [apply pconstruct_stops|].
  destruct (existsb is_kpos (a :: l)); destruct (mixed_fits _ _); try apply stops_refl.
  - destruct (found _ _); [apply named_stops|apply stops_refl].
  - destruct (_ && _); [apply named_stops|apply stops_refl].
Qed.
Lemma pcompress_shape_stops n p : only_stops (pcompress true n p) (pcompress false n p).
Proof.
  unfold pcompress. destruct (_ && _); [|apply stops_refl]. destruct (_ =? _)%nat; [apply stops_refl|]. apply stops_after. intros es _.
  destruct (firstn _ es); [apply stops_refl|]. apply stops_after. intros v _. apply build_stops.
Qed.
Lemma pshape_eq_stops p q : only_stops (pshape_eq true p q) (pshape_eq false p q).
Proof. apply stops_bind; [apply pcompress_shape_stops|]. intros a _. apply stops_bind; [apply pcompress_shape_stops|]. intros. apply stops_refl. Qed.

(** ** Extents of the user's types *)
Lemma same_tests {A} (f g : A -> bool) l : (forall a, f a = g a) -> forallb f l = forallb g l.
Proof. intros H. induction l as [|a l IH]; [reflexivity|]. cbn [forallb]. rewrite H, IH. reflexivity. Qed.
Section Own.
  Context {X : Type} (c : custom X).
  Lemma xaxis_confirm def i v p : confirms (xconstruct_axis c true def i v p) (xconstruct_axis c false def i v p).
  Proof. apply confirms_after. intros [|]; [apply confirms_refl|]. apply confirms_assert. Qed.
  Lemma xfrom_confirm def : forall vs i p, confirms (xconstruct_from c true def i vs p) (xconstruct_from c false def i vs p).
  Proof. induction vs as [|v vs IH]; intros i p; [apply confirms_refl|]. apply confirms_bind; [apply xaxis_confirm|]. intros. apply IH. Qed.
  Lemma compiles_weaker d v : xcompiles c true d v = true -> xcompiles c false d v = true.
  Proof. destruct v as [e|x]; [reflexivity|]. cbn [xcompiles negb orb]. destruct (is_dynamic d); auto. Qed.
  Lemma xconstruct_confirm ds def vs : confirms (xconstruct c true ds def vs) (xconstruct c false ds def vs).
  Proof.
    intros r. unfold xconstruct. destruct (_ && _)%bool eqn:E; [|discriminate]. apply andb_prop in E as [E1 E2].
    rewrite E1. rewrite forallb_forall in E2. replace (forallb _ _) with true; [apply xfrom_confirm|].
    symmetry. apply forallb_forall. intros x Hx. apply compiles_weaker, E2, Hx.
  Qed.
  Lemma xnamed_confirm ds def os : confirms (xconstruct_named c true ds def os) (xconstruct_named c false ds def os).
  Proof.
    intros r. unfold xconstruct_named. destruct (is_fully_static ds); [auto|]. destruct (forallb (xnamed_compiles c true ds) os) eqn:E; [|discriminate].
    replace (forallb (xnamed_compiles c false ds) os) with true.
    - revert r. change (confirms (kfold_right (fun p o => xconstruct_axis c true def (find_axis (pdesc p) (fst o)) (snd o) p) os (pdefault ds))
        (kfold_right (fun p o => xconstruct_axis c false def (find_axis (pdesc p) (fst o)) (snd o) p) os (pdefault ds))).
      generalize (pdefault ds). clear. induction os as [|o os IH]; intros p; [apply confirms_refl|]. cbn [kfold_right].
      apply confirms_bind; [apply xaxis_confirm|]. intros. apply IH.
    - symmetry. rewrite forallb_forall in *. intros o Ho. specialize (E o Ho). unfold xnamed_compiles in *.
      destruct (nth_error ds _); [|exact E]. apply compiles_weaker. exact E.
  Qed.
  Lemma xbuild_confirm def vs : confirms (xbuild c true def vs) (xbuild c false def vs).
  Proof. unfold xbuild. destruct (xdescriptors c vs); [apply xconstruct_confirm|apply confirms_refl]. Qed.

  Context (q : X -> cint -> bool) (Hq : x_eq c = Some q).
  Lemma xaxis_stops def i v p : only_stops (xconstruct_axis c true def i v p) (xconstruct_axis c false def i v p).
  Proof using Hq.
    apply stops_after. intros [|] E; [apply stops_refl|]. destruct (static_get p i E) as (g & ->). rewrite bind_ok.
    unfold xagrees. rewrite Hq. destruct v; apply stops_assert.
  Qed.
  Lemma xfrom_stops def : forall vs i p, only_stops (xconstruct_from c true def i vs p) (xconstruct_from c false def i vs p).
  Proof using Hq. induction vs as [|v vs IH]; intros i p; [apply stops_refl|]. apply stops_bind; [apply xaxis_stops|]. intros. apply IH. Qed.
  Lemma compiles_both d v : xcompiles c true d v = xcompiles c false d v.
  Proof using Hq. destruct v as [e|x]; [reflexivity|]. cbn [xcompiles negb orb]. rewrite Hq. reflexivity. Qed.
  Lemma xconstruct_stops ds def vs : only_stops (xconstruct c true ds def vs) (xconstruct c false ds def vs).
  Proof using Hq.
    unfold xconstruct. rewrite (same_tests (fun p => xcompiles c true (fst p) (snd p)) (fun p => xcompiles c false (fst p) (snd p)));
      [|intros p; apply compiles_both]. destruct (_ && _)%bool; [apply xfrom_stops|apply stops_refl].
  Qed.
  Lemma xnamed_stops ds def os : only_stops (xconstruct_named c true ds def os) (xconstruct_named c false ds def os).
  Proof using Hq.
    unfold xconstruct_named. destruct (is_fully_static ds); [apply stops_refl|].
    rewrite (same_tests (xnamed_compiles c true ds) (xnamed_compiles c false ds));
      [|intros o; unfold xnamed_compiles; destruct (nth_error ds _); [apply compiles_both|reflexivity]].
    destruct (forallb _ os); [|apply stops_refl]. generalize (pdefault ds).
    induction os as [|o os IH]; intros p; [apply stops_refl|]. cbn [kfold_right]. apply stops_bind; [apply xaxis_stops|]. intros. apply IH.
  Qed.
  Lemma xbuild_stops def vs : only_stops (xbuild c true def vs) (xbuild c false def vs).
  Proof using Hq. unfold xbuild. destruct (xdescriptors c vs); [apply xconstruct_stops|apply stops_refl]. Qed.
End Own.

(** ** Slices *)
Lemma pslice_shape_stops p sls : only_stops (pslice_shape true p sls) (pslice_shape false p sls).
Proof.
  apply stops_bind; [apply pcompress_shape_stops|]. intros c _. apply stops_after. intros ns _. apply stops_after. intros rs _. apply build_stops.
Qed.
Lemma pslice_stride_stops p sls : only_stops (pslice_stride true p sls) (pslice_stride false p sls).
Proof.
  apply stops_bind; [apply pcompress_stops|]. intros c _. apply stops_after. intros ns _. apply stops_after. intros rs _. apply build_stops.
Qed.
Lemma pslice_stops c p r sls : only_stops (pslice_container true c p r sls) (pslice_container false c p r sls).
Proof.
  apply stops_bind; [apply pslice_shape_stops|]. intros q _. apply stops_bind; [apply pslice_stride_stops|]. intros s _.
  apply stops_bind; [apply pcompress_shape_stops|]. intros p' _. apply stops_after. intros ns _. apply stops_after. intros is_ _.
  destruct (existsb _ _); [apply stops_refl|]. apply stops_bind; [apply slice_stops|]. intros. apply stops_refl.
Qed.
Lemma xorigin_stops s sls : only_stops (xorigin true s sls) (xorigin false s sls).
Proof.
  apply stops_after. intros c _. destruct (existsb _ _); [apply stops_refl|]. apply stops_after. intros is_ _. apply linear_stops.
Qed.
Lemma xslice_stops a b c sls : only_stops (xslice_container true a b c sls) (xslice_container false a b c sls).
Proof.
  unfold xslice_container. destruct (forallb _ _); [apply stops_refl|]. apply stops_after. intros st _.
  apply stops_bind; [apply xorigin_stops|]. intros. apply stops_refl.
Qed.

(** ** Containers built from options *)
Lemma pick_of_stops o : only_stops (pick_size_of true o) (pick_size_of false o).
Proof. apply stops_bind; [apply default_stops|]. intros. apply stops_refl. Qed.
Lemma build_view_stops o : only_stops (build_view true o) (build_view false o).
Proof. apply stops_after. intros t _. apply stops_bind; [apply pick_of_stops|]. intros. apply stops_refl. Qed.
Lemma build_table_stops m o : only_stops (build_table m true o) (build_table m false o).
Proof. apply stops_after. intros t _. apply stops_bind; [apply pick_of_stops|]. intros. apply stops_refl. Qed.
Lemma stable_stops t m g s : only_stops (stable_as t m true g s) (stable_as t m false g s).
Proof. apply stops_bind; [apply pick_stops|]. intros. apply stops_refl. Qed.

(** ** Sums *)
Lemma inner_from_confirm a b init m : confirms (inner_from true a b init m) (inner_from false a b init m).
Proof. apply confirms_assert. Qed.
Lemma ninner_from_confirm ta t1 t2 a b init m : confirms (ninner_from true ta t1 t2 a b init m) (ninner_from false ta t1 t2 a b init m).
Proof. apply confirms_assert. Qed.
Lemma sinner_from_confirm a b init m : confirms (sinner_from true a b init m) (sinner_from false a b init m).
Proof. apply confirms_assert. Qed.
Lemma inner_from_stops a b init m r : shape_eq (c_shape a) (c_shape b) = Ok r -> only_stops (inner_from true a b init m) (inner_from false a b init m).
Proof. intros E. unfold inner_from. rewrite E. apply stops_assert. Qed.
Lemma ninner_from_stops ta t1 t2 a b init m r : shape_eq (c_shape a) (c_shape b) = Ok r ->
  only_stops (ninner_from true ta t1 t2 a b init m) (ninner_from false ta t1 t2 a b init m).
Proof. intros E. unfold ninner_from. rewrite E. apply stops_assert. Qed.
Lemma sinner_from_stops a b init m r : shape_eq (c_shape a) (c_shape b) = Ok r -> only_stops (sinner_from true a b init m) (sinner_from false a b init m).
Proof. intros E. unfold sinner_from. rewrite E. apply stops_assert. Qed.

(** ** Programs *)
Section Programs.
  Context {S T : Type}.
  Lemma kstep_stops (k : kstate T) (o : op S T) : (forall h1 h2 i f g, o <> OInner h1 h2 i f g) -> only_stops (kstep true k o) (kstep false k o).
  Proof.
    intros N. destruct o; try apply stops_refl; [| exfalso; eapply N; reflexivity| | |]; cbn [kstep].
    - apply stops_after. intros. apply stops_after. intros. apply stops_bind; [apply slice_stops|]. intros. apply stops_refl.
    - apply stops_after. intros. apply stops_bind; [apply lower_stops|]. intros. apply stops_refl.
    - apply stops_after. intros. apply stops_bind; [apply upper_stops|]. intros. apply stops_refl.
    - apply stops_after. intros. apply stops_bind; [apply binary_stops|]. intros. apply stops_refl.
  Qed.
  Lemma kstep_confirm (k : kstate T) (o : op S T) : confirms (kstep true k o) (kstep false k o).
  Proof.
    destruct o; try (apply stops_confirms, kstep_stops; discriminate). cbn [kstep].
    apply confirms_after. intros. apply confirms_after. intros. apply confirms_bind; [apply inner_confirm|]. intros. apply confirms_refl.
  Qed.
  Lemma kruns_stops (p : program S T) : (forall s h1 h2 i f g, p_call p s <> Some (OInner h1 h2 i f g)) -> forall n k s,
    only_stops (kruns true p n k s) (kruns false p n k s).
  Proof.
    intros N. induction n as [|n IH]; intros k s; [apply stops_refl|]. cbn [kruns]. destruct (p_call p s) as [o|] eqn:E; [|apply stops_refl].
    apply stops_bind; [apply kstep_stops; intros h1 h2 i f g ->; exact (N s _ _ _ _ _ E)|]. intros [k1 r] _. apply IH.
  Qed.
  Lemma kruns_confirm (p : program S T) : forall n k s, confirms (kruns true p n k s) (kruns false p n k s).
  Proof.
    induction n as [|n IH]; intros k s; [apply confirms_refl|]. cbn [kruns]. destruct (p_call p s) as [o|]; [|apply confirms_refl].
    apply confirms_bind; [apply kstep_confirm|]. intros [k1 r]. apply IH.
  Qed.
End Programs.
