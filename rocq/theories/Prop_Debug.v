(** Property C56: what happens to indexes out of range. *)
From Coq Require Import ZArith List Bool Lia.
From Verif Require Import Outcome CInt CIntFacts Spec SpecFacts ShapeSpec Shape ShapeFacts ShapeFacts2 Memory Container
  ContainerSpec ContainerFacts3 DebugFacts.
Import ListNotations.
Open Scope Z_scope.

(** With assertions on, linear_index stops exactly on the coordinates outside of the shape (non-negative,
    of types that hold the extents; C05 shows what happens to others). *)
Theorem linear_index_aborts_iff_outside : forall s is_, legal s -> s <> [] -> wfs is_ -> nonnegs (vals is_) ->
  fits s is_ -> (linear_index true s is_ = Abort <-> ~ in_box (vals s) (vals is_)).
Proof. exact linear_index_aborts_l. Qed.
Print Assumptions linear_index_aborts_iff_outside.

(** With assertions off it goes on and gives the row-major position, which may be another element's. *)
Theorem linear_index_unchecked : forall s is_, legal s -> s <> [] -> wfs is_ -> nonnegs (vals is_) ->
  length is_ = length s -> rank (vals s) (vals is_) <= 2147483647 ->
  exists c, linear_index false s is_ = Ok c /\ cval c = rank (vals s) (vals is_).
Proof. exact linear_index_unchecked_l. Qed.
Print Assumptions linear_index_unchecked.

(** With assertions on, coordinates stops exactly on the indexes beyond the last element. *)
Theorem coordinates_aborts_iff_beyond : forall s idx, legal s -> s <> [] -> wfc idx -> 0 <= cval idx ->
  (coordinates true idx s = Abort <-> prod (vals s) <= cval idx).
Proof. exact coordinates_aborts_l. Qed.
Print Assumptions coordinates_aborts_iff_beyond.

(** A negative index is never stopped: it gives coordinates outside of the shape. *)
Theorem coordinates_of_negative : forall dbg s idx, legal s -> s <> [] -> signeds s ->
  Forall (fun n => 1 <= n) (vals s) -> wfc idx -> is_signed (cty idx) = true -> cval idx < 0 ->
  exists cs, coordinates dbg idx s = Ok cs /\ rank (vals s) (vals cs) = cval idx /\
    Forall (fun z => z <= 0) (vals cs) /\ ~ in_box (vals s) (vals cs).
Proof. exact coordinates_negative_l. Qed.
Print Assumptions coordinates_of_negative.

(** Element access is never checked: a coordinate outside of the shape whose position is inside reads the
    element at that position; beyond the last element the access is undefined. *)
Theorem access_overruns_to_another_element : forall (T : Type) (m : mem T) c is_, default_layout c -> wfs is_ ->
  nonnegs (vals is_) -> length is_ = length (c_shape c) -> rank (dims c) (vals is_) < prod (dims c) ->
  exists js, in_box (dims c) js /\ rank (dims c) js = rank (dims c) (vals is_) /\
    address c is_ = Ok (elem c js) /\
    (forall v, peek m (elem c js) = Some v -> get m c is_ = Ok v).
Proof. exact @access_overrun_l. Qed.
Print Assumptions access_overruns_to_another_element.

Theorem access_beyond_the_block : forall (T : Type) (m : mem T) c is_, default_layout c -> wfs is_ ->
  nonnegs (vals is_) -> length is_ = length (c_shape c) ->
  prod (dims c) <= rank (dims c) (vals is_) <= 2147483647 ->
  (forall k, prod (dims c) <= k -> ~ valid m (padd (c_data c) k)) -> get m c is_ = UB.
Proof. exact @access_outside_l. Qed.
Print Assumptions access_beyond_the_block.

(** A 2x3 table of 1..6: coordinate (0,4) is outside. *)
Definition dm : mem Z := [Some (map Some [1; 2; 3; 4; 5; 6])].
Definition dt : container := Cn K2 [int 2; int 3] [] (Ptr 0 0).

Example debug_ex : legal [int 2; int 3] /\ wfs [int 0; int 4] /\ nonnegs (vals [int 0; int 4]) /\
  fits [int 2; int 3] [int 0; int 4] /\ ~ in_box [2; 3] [0; 4] /\ signeds [int 2; int 3] /\ default_layout dt /\
  linear_index true [int 2; int 3] [int 0; int 4] = Abort /\
  linear_index false [int 2; int 3] [int 0; int 4] = Ok (int 4) /\
  coordinates true (int 6) [int 2; int 3] = Abort /\
  coordinates true (int (-5)) [int 2; int 3] = Ok [int (-1); int (-2)] /\
  get dm dt [int 0; int 4] = get dm dt [int 1; int 1] /\ get dm dt [int 0; int 4] = Ok 5 /\
  get dm dt [int 1; int 3] = UB.
Proof.
  split; [by_check|]. split; [by_check|]. split; [by_check|].
  split; [repeat constructor; unfold in_ty; simpl; lia|].
  split; [intros B; inversion B as [|? ? ? ? _ B']; inversion B'; lia|].
  split; [repeat constructor|]. split; [by_default false|]. repeat split; reflexivity.
Qed.

Example debug_block : forall k, prod (dims dt) <= k -> ~ valid dm (padd (c_data dt) k).
Proof.
  intros k H V. change (prod (dims dt)) with 6 in H. apply V. unfold cell, dm, dt. cbn [c_data padd nth_error].
  destruct (Z.leb_spec 0 (0 + k)); [|reflexivity]. apply nth_error_None. simpl. lia.
Qed.
