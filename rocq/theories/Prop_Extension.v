(** Property C95: extents of user types. *)
From Coq Require Import ZArith String List Bool Lia Permutation.
From Verif Require Import Outcome CInt CIntFacts Prefilled PrefilledSpec PrefilledFacts NamedSize NamedSizeSpec
  Extension ExtensionSpec ExtensionFacts ExtensionFacts2.
Import ListNotations.
Open Scope Z_scope.

(** Types a program may use. A length in some unit, kept as an int, convertible to size_t, with both customisations:
    to_descriptor gives as<short> and as_dimension the int. *)
Definition len : custom Z :=
  {| x_size := true; x_desc := Some (None, CType I16); x_dim := Some (fun x _ => int x);
     x_eq := Some (fun x s => ceqb (int x) s) |}.
(** A floating-point type, here with integral values: convertible, comparable and printable, not customised. *)
Definition real : custom Z :=
  {| x_size := true; x_desc := None; x_dim := None; x_eq := Some (fun x s => x =? cval s) |}.
(** Types of test/unit/utility/extensions: as_dimension only (11), and to_descriptor only (11). *)
Definition special_dim : custom unit :=
  {| x_size := false; x_desc := None; x_dim := Some (fun _ _ => int 11); x_eq := None |}.
(** A type whose descriptor is the number 4. *)
Definition quad : custom Z :=
  {| x_size := true; x_desc := Some (None, CStatic (int 4)); x_dim := Some (fun x _ => int x);
     x_eq := Some (fun x s => ceqb (int x) s) |}.
(** shape<height[3], width, depth[as<uint8_t>]>. *)
Definition ex_ds : list desc :=
  [ {| aid := AName "height"; acont := CStatic (int 3) |};
    {| aid := AName "width"; acont := CJoker |};
    {| aid := AName "depth"; acont := CType U8 |} ].
Example ex_ds_sane : Forall sane_desc ex_ds.
Proof. repeat constructor; cbv; discriminate. Qed.
Example ex_ds_distinct : distinct_axes ex_ds.
Proof. repeat constructor; cbn; intuition discriminate. Qed.

(** *** Positional values on a shape or stride whose axes are given *)
Theorem own_values_read_back : forall (X : Type) (c : custom X) dbg ds def vs, Forall sane_desc ds -> accepted c dbg ds vs ->
  (exists p, xconstruct c dbg ds def vs = Ok p /\ pdesc p = ds /\ wfp p /\
     forall i d v, nth_error ds i = Some d -> nth_error (padded ds vs) i = Some v ->
       exists r, pget p i = Ok r /\ holds c def d v r) \/
  (dbg = true /\ xconstruct c dbg ds def vs = Abort).
Proof. exact @own_total_l. Qed.
Print Assumptions own_values_read_back.

Example own_values_ex : accepted len true ex_ds [Own 3; Own 5; Own 300] /\
  (exists p, xconstruct len true ex_ds (int 0) [Own 3; Own 5; Own 300] = Ok p /\
     to_values p = Ok [int 3; int 5; CI U8 44]) /\
  xconstruct len true ex_ds (int 0) [Own 4; Own 5; Own 6] = Abort /\
  (exists p, xconstruct len false ex_ds (int 0) [Own 4; Std EJoker; Own 6] = Ok p /\
     to_values p = Ok [int 3; int 0; CI U8 6]).
Proof.
  split; [apply accepted_iff; reflexivity|]. split; [eexists; split; reflexivity|]. split; [reflexivity|].
  eexists; split; reflexivity.
Qed.

Theorem own_values_refused_iff : forall (X : Type) (c : custom X) ds def vs, Forall sane_desc ds -> Forall sane_given vs ->
  accepted c true ds vs ->
  (xconstruct c true ds def vs = Abort <->
   exists i d v, nth_error ds i = Some d /\ nth_error (padded ds vs) i = Some v /\ denies c d v).
Proof. exact @own_abort_iff_l. Qed.
Print Assumptions own_values_refused_iff.

Theorem own_values_rejected_iff : forall (X : Type) (c : custom X) dbg ds def vs, Forall sane_desc ds ->
  (xconstruct c dbg ds def vs = UB <-> ~ accepted c dbg ds vs).
Proof. exact @own_rejected_iff_l. Qed.
Print Assumptions own_values_rejected_iff.

(** A value its compile-time extent denies; a type without as_dimension on a run-time axis. *)
Example own_values_refused_ex : Forall sane_given [Own 4; Own 5; Own 6] /\ accepted len true ex_ds [Own 4; Own 5; Own 6] /\
  denies len {| aid := AName "height"; acont := CStatic (int 3) |} (Own 4) /\
  ~ accepted real true ex_ds [Own 3; Own 5; Own 6].
Proof.
  split; [repeat constructor|]. split; [apply accepted_iff; reflexivity|]. split.
  - destruct (proj1 (own_values_refused_iff Z len ex_ds (int 0) [Own 4; Own 5; Own 6] ex_ds_sane
      ltac:(repeat constructor) ltac:(apply accepted_iff; reflexivity)) eq_refl) as ([|[|[|i]]] & d & v & E1 & E2 & H);
      [|exfalso|exfalso|destruct i; discriminate]; injection E1 as <-; injection E2 as <-; [exact H| |]; exact H.
  - apply (own_values_rejected_iff Z real true ex_ds (int 0)); [exact ex_ds_sane|reflexivity].
Qed.

(** *** Named values *)
Theorem own_named_read_back : forall (X : Type) (c : custom X) dbg ds def os, Forall sane_desc ds -> distinct_axes ds ->
  NoDup (map fst os) -> incl (map fst os) (map aid ds) -> accepted_named c dbg ds os ->
  (exists p, xconstruct_named c dbg ds def os = Ok p /\ pdesc p = ds /\ wfp p /\
     (forall d v, In d ds -> In (aid d, v) os -> exists r, pget_axis p (aid d) = Ok r /\ holds c def d v r) /\
     (forall d, In d ds -> runtime d -> ~ In (aid d) (map fst os) -> pget_axis p (aid d) = Ok (CI (axis_type d) 0))) \/
  (dbg = true /\ xconstruct_named c dbg ds def os = Abort).
Proof. exact @named_total. Qed.
Print Assumptions own_named_read_back.

Theorem own_named_refused_iff : forall (X : Type) (c : custom X) ds def os, Forall sane_desc ds ->
  Forall (fun o => sane_given (snd o)) os -> distinct_axes ds ->
  NoDup (map fst os) -> incl (map fst os) (map aid ds) -> (exists d, In d ds /\ runtime d) ->
  accepted_named c true ds os ->
  (xconstruct_named c true ds def os = Abort <-> exists d v, In d ds /\ In (aid d, v) os /\ denies c d v).
Proof. exact @named_abort. Qed.
Print Assumptions own_named_refused_iff.

Theorem own_named_rejected_iff : forall (X : Type) (c : custom X) dbg ds def os, Forall sane_desc ds -> distinct_axes ds ->
  NoDup (map fst os) -> incl (map fst os) (map aid ds) ->
  (xconstruct_named c dbg ds def os = UB <-> ~ accepted_named c dbg ds os).
Proof. exact @named_rejected. Qed.
Print Assumptions own_named_rejected_iff.

Theorem own_named_order : forall (X : Type) (c : custom X) dbg ds def os os', Forall sane_desc ds -> distinct_axes ds ->
  NoDup (map fst os) -> incl (map fst os) (map aid ds) -> Permutation os os' ->
  xconstruct_named c dbg ds def os = xconstruct_named c dbg ds def os'.
Proof. exact @named_order. Qed.
Print Assumptions own_named_order.

(** The value of an option need not be convertible to size_t. *)
Example own_named_ex :
  let os := [(AName "depth", Own tt); (AName "width", Std (EInt (int 7)))] in
  accepted_named special_dim true ex_ds os /\
  (exists p, xconstruct_named special_dim true ex_ds (int 0) os = Ok p /\ to_values p = Ok [int 3; int 7; CI U8 11]) /\
  xconstruct special_dim true ex_ds (int 0) [Own tt] = UB /\
  xconstruct_named special_dim true ex_ds (int 0) [(AName "height", Own tt)] = UB /\
  (exists p, xconstruct_named special_dim false ex_ds (int 0) [(AName "height", Own tt)] = Ok p /\
     to_values p = Ok [int 3; int 0; CI U8 0]).
Proof.
  split; [apply accepted_named_iff; [exact ex_ds_distinct|intros a H; cbn in *; tauto|reflexivity]|].
  split; [eexists; split; reflexivity|]. split; [reflexivity|]. split; [reflexivity|]. eexists; split; reflexivity.
Qed.
(** A named value its compile-time extent denies, in any order. *)
Example own_named_refused_ex :
  let os := [(AName "depth", Own 9); (AName "height", Own 4)] in
  Forall (fun o => sane_given (snd o)) os /\ NoDup (map fst os) /\ incl (map fst os) (map aid ex_ds) /\
  (exists d, In d ex_ds /\ runtime d) /\ accepted_named len true ex_ds os /\ Permutation os (rev os) /\
  xconstruct_named len true ex_ds (int 0) os = Abort /\
  ~ accepted_named special_dim true ex_ds [(AName "height", Own tt)].
Proof.
  cbn zeta. split; [repeat constructor|]. split; [repeat constructor; cbn; intuition discriminate|].
  split; [intros a H; cbn in *; intuition|]. split; [exists {| aid := AName "width"; acont := CJoker |}; split; [right; left; reflexivity|intros s; discriminate]|].
  split; [apply accepted_named_iff; [exact ex_ds_distinct|intros a H; cbn in *; intuition|reflexivity]|].
  split; [apply perm_swap|]. split; [reflexivity|].
  apply (own_named_rejected_iff unit special_dim true ex_ds (int 0)); [exact ex_ds_sane|exact ex_ds_distinct| | |reflexivity].
  - repeat constructor. intros [].
  - intros a H. cbn in *. intuition.
Qed.

(** *** Types that behave as numbers *)
Theorem own_as_numbers : forall (X : Type) (c : custom X) num dbg ds def vs, behaves_as c num -> x_size c = true ->
  xconstruct c dbg ds def vs = pconstruct dbg ds def (map (as_numbers num) vs).
Proof. exact @numbers_l. Qed.
Print Assumptions own_as_numbers.

Theorem own_as_numbers_named : forall (X : Type) (c : custom X) num dbg ds def os, behaves_as c num ->
  incl (map fst os) (map aid ds) ->
  xconstruct_named c dbg ds def os = pconstruct_named dbg ds def (map (fun o => (fst o, as_numbers num (snd o))) os).
Proof. exact @numbers_named_l. Qed.
Print Assumptions own_as_numbers_named.

Example own_as_numbers_ex : behaves_as len int.
Proof. do 2 eexists. split; [reflexivity|]. split; [reflexivity|]. split; reflexivity. Qed.

(** *** of_size and with_strides *)
Theorem own_sizes : forall (X : Type) (c : custom X) dbg def vs a k p, Forall wf_given vs ->
  (forall s, k = CStatic s -> wfc s) -> x_desc c = Some (a, k) -> xbuild c dbg def vs = Ok p ->
  (forall i v, nth_error vs i = Some v -> exists r, pget p i = Ok r /\ sized c def k v r) /\
  length (pdesc p) = length vs /\
  (forall i x d n, nth_error vs i = Some (Own x) -> nth_error (pdesc p) i = Some d -> a = Some n -> aid d = n).
Proof. exact @build_gives. Qed.
Print Assumptions own_sizes.

Example own_sizes_ex :
  (exists p, xof_size len true [Std (EConst (int 2)); Own 70000; Std EJoker] = Ok p /\
     to_values p = Ok [int 2; CI I16 4464; int 0]) /\
  (exists p, xwith_strides len true [Own 8; Std EJoker] = Ok p /\ to_values p = Ok [CI I16 8; int 1]).
Proof. split; eexists; split; reflexivity. Qed.

(** of_size and with_strides: what a joker stands for. *)
Theorem own_sizes_and_strides : forall (X : Type) (c : custom X) dbg vs a k p, Forall wf_given vs ->
  (forall s, k = CStatic s -> wfc s) -> x_desc c = Some (a, k) ->
  (xof_size c dbg vs = Ok p -> forall i v, nth_error vs i = Some v ->
     exists r, pget p i = Ok r /\ sized c (int 0) k v r /\ (v = Std EJoker -> r = int 0)) /\
  (xwith_strides c dbg vs = Ok p -> forall i v, nth_error vs i = Some v ->
     exists r, pget p i = Ok r /\ sized c (int 1) k v r /\ (v = Std EJoker -> r = int 1)).
Proof. exact @both_gives. Qed.
Print Assumptions own_sizes_and_strides.

Theorem own_sizes_runtime_total : forall (X : Type) (c : custom X) dbg def vs a k f, Forall wf_given vs ->
  (forall s, k <> CStatic s) -> x_size c = true -> x_desc c = Some (a, k) -> x_dim c = Some f ->
  exists p, xbuild c dbg def vs = Ok p.
Proof. exact @build_runtime. Qed.
Print Assumptions own_sizes_runtime_total.

Theorem own_sizes_static_unchecked : forall (X : Type) (c : custom X) def vs a s, Forall wf_given vs -> wfc s ->
  x_size c = true -> x_desc c = Some (a, CStatic s) -> exists p, xbuild c false def vs = Ok p.
Proof. exact @build_static_unchecked. Qed.
Print Assumptions own_sizes_static_unchecked.

Theorem own_sizes_static_checked : forall (X : Type) (c : custom X) def vs a s q, Forall wf_given vs -> wfc s ->
  x_size c = true -> x_desc c = Some (a, CStatic s) -> x_eq c = Some q ->
  ((forall x, In (Own x) vs -> q x s = true) <-> exists p, xbuild c true def vs = Ok p) /\
  ((exists x, In (Own x) vs /\ q x s = false) <-> xbuild c true def vs = Abort).
Proof. exact @build_static_checked. Qed.
Print Assumptions own_sizes_static_checked.

(** of_size(quad{4}, 3, quad{4}) and of_size(quad{4}, quad{9}). *)
Example own_sizes_static_ex : Forall wf_given [Own 4; Std (EInt (int 3)); Own 4] /\ Forall wf_given [Own 4; Own 9] /\
  (exists p, xof_size quad true [Own 4; Std (EInt (int 3)); Own 4] = Ok p /\ to_values p = Ok [int 4; int 3; int 4]) /\
  xof_size quad true [Own 4; Own 9] = Abort /\
  (exists p, xof_size quad false [Own 4; Own 9] = Ok p /\ to_values p = Ok [int 4; int 4]).
Proof.
  split; [repeat constructor; cbv; discriminate|]. split; [repeat constructor|].
  split; [eexists; split; reflexivity|]. split; [reflexivity|]. eexists; split; reflexivity.
Qed.

(** Without assertions the object has no say: of_size(quad{9}) has size 4. *)
Theorem own_size_is_that_of_the_object_refuted : exists (X : Type) (c : custom X) x f p,
  x_dim c = Some f /\ f x (int 0) = int 9 /\ xof_size c false [Own x] = Ok p /\ to_values p = Ok [int 4] /\
  xof_size c true [Own x] = Abort /\ xwith_strides c false [Own x] = Ok p /\ xwith_strides c true [Own x] = Abort.
Proof.
  exists Z, quad, 9. do 2 eexists. split; [reflexivity|]. split; [reflexivity|]. split; [reflexivity|]. split; [reflexivity|].
  split; [reflexivity|]. split; reflexivity.
Qed.
Print Assumptions own_size_is_that_of_the_object_refuted.

(** Being convertible to size_t is not enough, although it is what the concept and the documentation ask for. *)
Theorem own_sizes_rejected : forall (X : Type) (c : custom X) dbg def vs x, In (Own x) vs ->
  x_size c = false \/ x_desc c = None \/
  (exists a k, x_desc c = Some (a, k) /\ (forall s, k <> CStatic s) /\ x_dim c = None) ->
  xbuild c dbg def vs = UB.
Proof. exact @build_rejected. Qed.
Print Assumptions own_sizes_rejected.
Example own_sizes_rejected_ex : xof_size special_dim false [Std (EInt (int 2)); Own tt] = UB /\ xof_size real true [Own 3] = UB /\
  xof_size_named len true [(AName "width", CJoker, Own 3)] = UB.
Proof. split; [reflexivity|]. split; reflexivity. Qed.

Theorem convertible_sizes_accepted_refuted : exists (X : Type) (c : custom X) x,
  x_size c = true /\ xof_size c false [Own x] = UB /\ xof_size c true [Own x] = UB /\
  xconstruct c false ex_ds (int 0) [Own x] = UB /\
  exists p, xconstruct c true ex_ds (int 0) [Own x; Std (EInt (int 5)); Std (EInt (int 6))] = Ok p.
Proof.
  exists Z, real, 3. split; [reflexivity|]. split; [reflexivity|]. split; [reflexivity|]. split; [reflexivity|].
  eexists; reflexivity.
Qed.
Print Assumptions convertible_sizes_accepted_refuted.

Theorem own_named_sizes_rejected : forall (X : Type) (c : custom X) dbg os a k x, In (a, k, Own x) os ->
  xof_size_named c dbg os = UB.
Proof. exact @named_own_rejected. Qed.
Print Assumptions own_named_sizes_rejected.

(** *** of_size<T> *)
Theorem own_sizes_forced : forall (X : Type) (c : custom X) dbg t vs a k p, Forall wf_given vs ->
  (forall s, k = CStatic s -> wfc s) -> x_desc c = Some (a, k) -> xof_size_as c dbg t vs = Ok p ->
  forall i v, nth_error vs i = Some v -> exists r, pget p i = Ok r /\
    match v with Std e => r = conv t (size_of e) | Own _ => sized c (int 0) k v r end.
Proof. exact @forced_gives. Qed.
Print Assumptions own_sizes_forced.

(** of_size<std::int64_t>(7, len{70000}): the first size is an int64_t, the second a short. *)
Theorem forced_type_of_own_size_refuted : exists (X : Type) (c : custom X) x p,
  xof_size_as c true I64 [Std (EInt (int 7)); Own x] = Ok p /\ to_values p = Ok [CI I64 7; CI I16 4464].
Proof. exists Z, len, 70000. eexists. split; reflexivity. Qed.
Print Assumptions forced_type_of_own_size_refuted.
