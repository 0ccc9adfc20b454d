(** Property C75: assertions only stop programs. *)
From Coq Require Import ZArith List Bool Lia.
From Verif Require Import Outcome CInt CIntFacts Spec ShapeSpec Shape ShapeFacts ShapeFacts2 Prefilled NamedSize NamedStride Memory
  Container Source Slicer Label Algo Search Calls Convert CheckSpec CheckFacts
  EndRatio Names Extension Ctor SliceText SliceKinds UserSlicer Settings Sums FloatSums FloatCompare Bools Program CheckFacts2.
Import ListNotations.
Open Scope Z_scope.

(** ** With assertions a call gives what it gives without them, or the program is stopped *)
Theorem positions_checked : forall s is_ sls st_shape st_stride c (x : labelled),
  only_stops (linear_index true s is_) (linear_index false s is_) /\
  only_stops (origin true s sls) (origin false s sls) /\
  only_stops (slice_container true st_shape st_stride c sls) (slice_container false st_shape st_stride c sls) /\
  only_stops (slice_labelled true st_shape st_stride x sls) (slice_labelled false st_shape st_stride x sls).
Proof.
  exact (fun s is_ sls a b c x => conj (linear_stops s is_) (conj (origin_stops s sls)
    (conj (slice_stops a b c sls) (slice_labelled_stops a b x sls)))).
Qed.
Print Assumptions positions_checked.

Theorem searches_checked : forall (T Q : Type) (less : T -> T -> bool) (f : T -> T -> Q -> outcome (bool * Q)) c x q m,
  (only_stops (lower_bound true less c x m) (lower_bound false less c x m) /\
   only_stops (upper_bound true less c x m) (upper_bound false less c x m) /\
   only_stops (binary_search true less c x m) (binary_search false less c x m)) /\
  (only_stops (lower_bound_call true f c x q m) (lower_bound_call false f c x q m) /\
   only_stops (upper_bound_call true f c x q m) (upper_bound_call false f c x q m) /\
   only_stops (binary_search_call true f c x q m) (binary_search_call false f c x q m)).
Proof.
  exact (fun T Q less f c x q m => conj
    (conj (lower_stops less c x m) (conj (upper_stops less c x m) (binary_stops less c x m)))
    (conj (lower_call_stops f c x q m) (conj (upper_call_stops f c x q m) (binary_call_stops f c x q m)))).
Qed.
Print Assumptions searches_checked.

Theorem shapes_checked : forall ds def vs os dst src t es l p i n,
  (only_stops (pconstruct true ds def vs) (pconstruct false ds def vs) /\
   only_stops (pconstruct_named true ds def os) (pconstruct_named false ds def os) /\
   only_stops (shape_convert true dst src) (shape_convert false dst src) /\
   only_stops (pindex true p i) (pindex false p i)) /\
  (only_stops (of_size true es) (of_size false es) /\
   only_stops (of_size_as true t es) (of_size_as false t es) /\
   only_stops (of_size_args true l) (of_size_args false l) /\
   only_stops (with_strides_args true l) (with_strides_args false l) /\
   only_stops (pas_stride true p) (pas_stride false p) /\
   only_stops (pcompress_stride true n p) (pcompress_stride false n p)).
Proof.
  exact (fun ds def vs os dst src t es l p i n => conj
    (conj (pconstruct_stops ds def vs) (conj (named_stops ds def os) (conj (shape_convert_stops dst src) (pindex_stops p i))))
    (conj (of_size_stops es) (conj (of_size_as_stops t es) (conj (build_stops (int 0) l) (conj (build_stops (int 1) l)
      (conj (pas_stride_stops p) (pcompress_stops n p))))))).
Qed.
Print Assumptions shapes_checked.

Theorem sources_checked : forall (T : Type) (m : mem T) m' t given s,
  only_stops (view_on true given s) (view_on false given s) /\
  only_stops (table_from m true given s) (table_from m false given s) /\
  only_stops (table_as t m' true given s) (table_as t m' false given s).
Proof. exact (fun T m m' t g s => conj (view_stops g s) (conj (table_stops m g s) (table_as_stops t m' g s))). Qed.
Print Assumptions sources_checked.

(** Constructors of shapes of a given type, merged axes, equality of shapes; slices with constants and slicers of the user's types;
    containers built from options. *)
Theorem typed_shapes_checked : forall ds def l n p q,
  only_stops (construct_shape true ds def l) (construct_shape false ds def l) /\
  only_stops (pcompress true n p) (pcompress false n p) /\ only_stops (pshape_eq true p q) (pshape_eq false p q).
Proof. exact (fun ds def l n p q => conj (ctor_stops ds def l) (conj (pcompress_shape_stops n p) (pshape_eq_stops p q))). Qed.
Print Assumptions typed_shapes_checked.
Theorem other_slices_checked : forall c p r sls a b us,
  only_stops (pslice_container true c p r sls) (pslice_container false c p r sls) /\
  only_stops (xslice_container true a b c us) (xslice_container false a b c us).
Proof. exact (fun c p r sls a b us => conj (pslice_stops c p r sls) (xslice_stops a b c us)). Qed.
Print Assumptions other_slices_checked.
Theorem options_checked : forall o m t m' given s,
  only_stops (build_view true o) (build_view false o) /\ only_stops (build_table m true o) (build_table m false o) /\
  only_stops (stable_as t m' true given s) (stable_as t m' false given s).
Proof. exact (fun o m t m' g s => conj (build_view_stops o) (conj (build_table_stops m o) (stable_stops t m' g s))). Qed.
Print Assumptions options_checked.

(** Extents of a type of the user: if its objects can be compared with integers; in any case, a call that compiles and returns with
    assertions returns the same without. *)
Theorem own_extents_checked : forall (X : Type) (c : custom X) q ds def vs os, x_eq c = Some q ->
  only_stops (xconstruct c true ds def vs) (xconstruct c false ds def vs) /\
  only_stops (xconstruct_named c true ds def os) (xconstruct_named c false ds def os) /\
  only_stops (xbuild c true def vs) (xbuild c false def vs).
Proof. exact (fun X c q ds def vs os H => conj (xconstruct_stops c q H ds def vs) (conj (xnamed_stops c q H ds def os) (xbuild_stops c q H def vs))). Qed.
Print Assumptions own_extents_checked.
Theorem own_extents_confirmed : forall (X : Type) (c : custom X) ds def vs os,
  confirms (xconstruct c true ds def vs) (xconstruct c false ds def vs) /\
  confirms (xconstruct_named c true ds def os) (xconstruct_named c false ds def os) /\
  confirms (xbuild c true def vs) (xbuild c false def vs).
Proof. exact (fun X c ds def vs os => conj (xconstruct_confirm c ds def vs) (conj (xnamed_confirm c ds def os) (xbuild_confirm c def vs))). Qed.
Print Assumptions own_extents_confirmed.

(** Where the assertion computes something that can overflow, this holds if it does not. *)
Theorem coordinates_checked : forall i s n, numel s = Ok n -> only_stops (coordinates true i s) (coordinates false i s).
Proof. exact coordinates_stops. Qed.
Print Assumptions coordinates_checked.

Theorem inner_product_checked : forall (T A B Q : Type) c1 c2 (init : A) (R : A -> B -> A) (F : T -> T -> B)
    (Rc : A -> B -> Q -> outcome (A * Q)) (Fc : T -> T -> Q -> outcome (B * Q)) q m b,
  shape_eq (c_shape c1) (c_shape c2) = Ok b ->
  only_stops (inner_product true c1 c2 init R F m) (inner_product false c1 c2 init R F m) /\
  only_stops (inner_product_call true c1 c2 init Rc Fc q m) (inner_product_call false c1 c2 init Rc Fc q m).
Proof.
  exact (fun T A B Q c1 c2 init R F Rc Fc q m b E =>
    conj (inner_stops c1 c2 init R F m b E) (inner_call_stops c1 c2 init Rc Fc q m b E)).
Qed.
Print Assumptions inner_product_checked.

Theorem sums_checked : forall a b r init m ta t1 t2 ninit nm sinit sm, shape_eq (c_shape a) (c_shape b) = Ok r ->
  only_stops (inner_from true a b init m) (inner_from false a b init m) /\
  only_stops (ninner_from true ta t1 t2 a b ninit nm) (ninner_from false ta t1 t2 a b ninit nm) /\
  only_stops (sinner_from true a b sinit sm) (sinner_from false a b sinit sm).
Proof.
  exact (fun a b r init m ta t1 t2 ninit nm sinit sm E => conj (inner_from_stops a b init m r E)
    (conj (ninner_from_stops ta t1 t2 a b ninit nm r E) (sinner_from_stops a b sinit sm r E))).
Qed.
Print Assumptions sums_checked.

(* and what they return with assertions they return without, whatever the shapes *)
Theorem sums_confirmed : forall a b init m ta t1 t2 ninit nm sinit sm,
  confirms (inner_from true a b init m) (inner_from false a b init m) /\
  confirms (ninner_from true ta t1 t2 a b ninit nm) (ninner_from false ta t1 t2 a b ninit nm) /\
  confirms (sinner_from true a b sinit sm) (sinner_from false a b sinit sm).
Proof.
  exact (fun a b init m ta t1 t2 ninit nm sinit sm => conj (inner_from_confirm a b init m)
    (conj (ninner_from_confirm ta t1 t2 a b ninit nm) (sinner_from_confirm a b sinit sm))).
Qed.
Print Assumptions sums_confirmed.

(** In any case a call that returns with assertions returns the same without. *)
Theorem results_confirmed : forall (T A B Q : Type) i s c1 c2 (init : A) (R : A -> B -> A) (F : T -> T -> B)
    (Rc : A -> B -> Q -> outcome (A * Q)) (Fc : T -> T -> Q -> outcome (B * Q)) q m,
  confirms (coordinates true i s) (coordinates false i s) /\
  confirms (inner_product true c1 c2 init R F m) (inner_product false c1 c2 init R F m) /\
  confirms (inner_product_call true c1 c2 init Rc Fc q m) (inner_product_call false c1 c2 init Rc Fc q m).
Proof.
  exact (fun T A B Q i s c1 c2 init R F Rc Fc q m =>
    conj (coordinates_confirm i s) (conj (inner_confirm c1 c2 init R F m) (inner_call_confirm c1 c2 init Rc Fc q m))).
Qed.
Print Assumptions results_confirmed.

(** ** Whole programs: what a program does with assertions up to any of its calls, it does without; and unless it calls inner_product,
    all assertions do is to stop it. *)
Theorem programs_confirmed : forall (S T : Type) (p : program S T) n k s, confirms (kruns true p n k s) (kruns false p n k s).
Proof. exact @kruns_confirm. Qed.
Print Assumptions programs_confirmed.
Theorem programs_checked : forall (S T : Type) (p : program S T),
  (forall s h1 h2 i f g, p_call p s <> Some (OInner h1 h2 i f g)) ->
  forall n k s, only_stops (kruns true p n k s) (kruns false p n k s).
Proof. exact @kruns_stops. Qed.
Print Assumptions programs_checked.

(** ** An assertion that is undefined itself *)
(** 65536 x 65536: the position of element 65537 is {1, 1}; comparing with the number of elements overflows. *)
Theorem assertion_overflow_refuted : exists i s p,
  coordinates false i s = Ok p /\ vals p = [1; 1] /\ linear_index false s p = Ok i /\ coordinates true i s = UB.
Proof. exists (int 65537), [int 65536; int 65536], [int 1; int 1]. vm_compute. auto. Qed.
Print Assumptions assertion_overflow_refuted.

(** ** Non-trivial instances *)
Definition ka : container := Cn K2 [int 2; int 3] [] (Ptr 0 0).
Definition kb : container := Cn K2 [int 3; int 2] [] (Ptr 0 0).
Definition km : mem Z := [Some (map Some [1; 3; 3; 3; 5; 8])].
(** The same with and without assertions. *)
Example unchanged_ex : forall dbg,
  linear_index dbg [int 2; int 3] [int 1; int 1] = Ok (int 4) /\
  coordinates dbg (int 4) [int 2; int 3] = Ok [int 1; int 1] /\
  lower_bound dbg Z.ltb ka 4 km = Ok (Some [int 1; int 1]) /\
  of_size dbg [EConst (int 2); EInt (int 3)] =
    Ok {| pdesc := normalize [(None, CStatic (int 2)); (None, CType I32)]; pstore := [int 3] |} /\
  inner_product dbg ka ka 0 Z.add Z.mul km = Ok (117, km).
Proof. intros [|]; vm_compute; auto. Qed.
(** Stopped with assertions, something without. *)
Example stopped_ex :
  (linear_index true [int 2; int 3] [int 2; int 0], coordinates true (int 6) [int 2; int 3],
   inner_product true ka kb 0 Z.add Z.mul km,
   pconstruct true (normalize [(None, CStatic (int 2)); (None, CType I32)]) (int 0) [EInt (int 5); EInt (int 3)])
  = (Abort, Abort, Abort, Abort) /\
  linear_index false [int 2; int 3] [int 2; int 0] = Ok (int 6) /\
  coordinates false (int 6) [int 2; int 3] = Ok [int 2; int 0] /\
  pconstruct false (normalize [(None, CStatic (int 2)); (None, CType I32)]) (int 0) [EInt (int 5); EInt (int 3)] =
    Ok {| pdesc := normalize [(None, CStatic (int 2)); (None, CType I32)]; pstore := [int 3] |}.
Proof. vm_compute. auto. Qed.
Example numel_ex : numel [int 2; int 3] = Ok (int 6). Proof. reflexivity. Qed.
Example shape_eq_ex : shape_eq (c_shape ka) (c_shape kb) = Ok false. Proof. reflexivity. Qed.
(** A program that slices a table and stores into the slice: index 5 of an axis of 6, then index 9. *)
Definition slicing (i : Z) : program nat Z :=
  Prog (fun s => match s with
                 | 0%nat => Some (ONew 0 false [int 2; int 6])
                 | 1%nat => Some (OSlice 0 false false (Tab 0) [SAll; SIdx (int i)])
                 | 2%nat => Some (OPut (View 0) [int 1; int 0] 7)
                 | _ => None
                 end) (fun s _ => Datatypes.S s).
Example programs_ex : (forall i s h1 h2 x f g, p_call (slicing i) s <> Some (OInner h1 h2 x f g)) /\
  (exists r, kruns true (slicing 5) 9 (kinit []) 0%nat = Ok r /\ kruns false (slicing 5) 9 (kinit []) 0%nat = Ok r) /\
  kruns true (slicing 9) 9 (kinit []) 0%nat = Abort /\ kruns false (slicing 9) 9 (kinit []) 0%nat = UB /\
  exists r, kruns false (slicing 9) 2 (kinit []) 0%nat = Ok r.
Proof.
  split; [intros i [|[|[|s]]] h1 h2 x f g; discriminate|]. split; [eexists; split; [vm_compute; reflexivity|vm_compute; reflexivity]|]. split; [vm_compute; reflexivity|].
  split; [reflexivity|]. eexists. reflexivity.
Qed.
(** shape<3, _>(x, 5) for a type that cannot be compared: compiles without assertions only. *)
Example own_extents_ex :
  let mute := {| x_size := true; x_desc := None; x_dim := Some (fun x _ => int x); x_eq := None |} in
  let len := {| x_size := true; x_desc := None; x_dim := Some (fun x _ => int x); x_eq := Some (fun x s => ceqb (int x) s) |} in
  let ds := normalize [(None, CStatic (int 3)); (None, CJoker)] in
  (exists p, xconstruct mute false ds (int 0) [Own 4; Own 5] = Ok p) /\ xconstruct mute true ds (int 0) [Own 4; Own 5] = UB /\
  (exists p, xconstruct len false ds (int 0) [Own 4; Own 5] = Ok p) /\ xconstruct len true ds (int 0) [Own 4; Own 5] = Abort /\
  exists p, xconstruct len true ds (int 0) [Own 3; Own 5] = Ok p /\ xconstruct len false ds (int 0) [Own 3; Own 5] = Ok p.
Proof.
  cbn zeta. split; [eexists; reflexivity|]. split; [reflexivity|]. split; [eexists; reflexivity|]. split; [reflexivity|].
  eexists. split; reflexivity.
Qed.
