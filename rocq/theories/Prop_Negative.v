(** Properties C05 and C56, continued: coordinates that may be negative. *)
From Coq Require Import ZArith List Bool Lia.
From Verif Require Import Outcome CInt CIntFacts Spec SpecFacts ShapeSpec Shape ShapeFacts ShapeFacts2 Memory Container
  ContainerSpec ContainerFacts3 NegativeFacts.
Import ListNotations.
Open Scope Z_scope.

(** contains has no lower bound: it only asks every coordinate to be below the extent. *)
Theorem contains_is_an_upper_bound : forall s is_, wfs s -> wfs is_ -> fits s is_ ->
  (contains s is_ = true <-> Forall2 (fun n i => cval i < cval n) s is_).
Proof. exact contains_below. Qed.
Print Assumptions contains_is_an_upper_bound.

(** So with assertions or without them linear_index of signed coordinates gives the row-major position, which may be negative, or
    that of another coordinate. *)
Theorem linear_index_of_negative : forall dbg s is_, legal s -> s <> [] -> signeds s -> wfs is_ -> signeds is_ -> fits s is_ ->
  rank (vals s) (map Z.abs (vals is_)) <= 2147483647 -> Forall2 (fun n i => cval i < cval n) s is_ ->
  exists c, linear_index dbg s is_ = Ok c /\ cval c = rank (vals s) (vals is_).
Proof. exact linear_signed_l. Qed.
Print Assumptions linear_index_of_negative.
Theorem linear_index_aborts_iff_not_below : forall s is_, legal s -> s <> [] -> signeds s -> wfs is_ -> signeds is_ -> fits s is_ ->
  rank (vals s) (map Z.abs (vals is_)) <= 2147483647 ->
  (linear_index true s is_ = Abort <-> ~ Forall2 (fun n i => cval i < cval n) s is_).
Proof. exact linear_signed_aborts_l. Qed.
Print Assumptions linear_index_aborts_iff_not_below.

(** The element at a coordinate some indexes of which are negative is the one at the row-major position, if there is one; otherwise
    reading and writing it is undefined. *)
Theorem access_at_negative : forall (T : Type) (m : mem T) c is_, default_layout c -> signeds (c_shape c) -> wfs is_ -> signeds is_ ->
  length is_ = length (c_shape c) -> rank (dims c) (map Z.abs (vals is_)) <= 2147483647 -> 0 <= rank (dims c) (vals is_) < prod (dims c) ->
  exists js, in_box (dims c) js /\ rank (dims c) js = rank (dims c) (vals is_) /\ address c is_ = Ok (elem c js) /\
    (forall v, peek m (elem c js) = Some v -> get m c is_ = Ok v).
Proof. exact (fun T => @negative_inside_l T). Qed.
Print Assumptions access_at_negative.
Theorem access_before_the_block : forall (T : Type) (m : mem T) c is_ v, default_layout c -> signeds (c_shape c) -> wfs is_ -> signeds is_ ->
  length is_ = length (c_shape c) -> rank (dims c) (map Z.abs (vals is_)) <= 2147483647 ->
  ~ valid m (padd (c_data c) (rank (dims c) (vals is_))) -> get m c is_ = UB /\ put m c is_ v = UB.
Proof. exact (fun T => @negative_outside_l T). Qed.
Print Assumptions access_before_the_block.

Definition nm : mem Z := [Some (map Some [1; 2; 3; 4; 5; 6])].
Definition nt : container := Cn K2 [int 2; int 3] [] (Ptr 0 0).
Example negative_hold : legal [int 2; int 3] /\ signeds [int 2; int 3] /\ wfs [int 1; int (-1)] /\ signeds [int 1; int (-1)] /\
  fits [int 2; int 3] [int 1; int (-1)] /\ rank [2; 3] (map Z.abs [1; -1]) = 4 /\ Forall2 (fun n i => cval i < cval n) [int 2; int 3] [int 1; int (-1)] /\
  default_layout nt /\ rank (dims nt) [1; -1] = 2 /\ ~ valid nm (padd (c_data nt) (rank (dims nt) [0; -1])).
Proof.
  split; [by_check|]. split; [repeat constructor|]. split; [repeat constructor; unfold in_ty; cbn; lia|]. split; [repeat constructor|].
  split; [repeat constructor; unfold in_ty; cbn; lia|]. split; [reflexivity|]. split; [repeat constructor|]. split; [by_default false|].
  split; [reflexivity|]. intros V. apply V. reflexivity.
Qed.
(** In a table of 2x3 the element (1, -1) is the element (0, 2), with and without assertions; (0, -1) is none; (2, -1) is stopped by
    linear_index but is the element (1, 2) for an access. *)
Example negative_ex : linear_index true [int 2; int 3] [int 1; int (-1)] = Ok (int 2) /\ linear_index true [int 2; int 3] [int 0; int (-1)] = Ok (int (-1)) /\
  linear_index true [int 2; int 3] [int 2; int (-1)] = Abort /\ get nm nt [int 2; int (-1)] = Ok 6 /\
  get nm nt [int 1; int (-1)] = Ok 3 /\ get nm nt [int 0; int 2] = Ok 3 /\ get nm nt [int 0; int (-1)] = UB.
Proof. repeat split; vm_compute; reflexivity. Qed.

(** With unsigned extents the position of a negative coordinate that passes the assertion is a large number. *)
Theorem negative_unsigned_refuted : exists s is_ c, legal s /\ wfs is_ /\ Forall2 (fun n i => cval i < cval n) s is_ /\
  linear_index true s is_ = Ok c /\ rank (vals s) (vals is_) = -1 /\ cval c = 4294967295.
Proof.
  exists [CI U32 2; CI U32 3], [int 0; int (-1)]. eexists. split; [by_check|]. split; [repeat constructor; unfold in_ty; cbn; lia|].
  split; [repeat constructor|]. split; [vm_compute; reflexivity|]. split; reflexivity.
Qed.
Print Assumptions negative_unsigned_refuted.
