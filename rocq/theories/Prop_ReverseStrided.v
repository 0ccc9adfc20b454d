(** Property C42, continued: reversing containers with any strides. *)
From Coq Require Import ZArith List Bool Lia.
From Verif Require Import Outcome CInt CIntFacts Spec SpecFacts ShapeSpec Shape ShapeFacts ShapeFacts2 Memory MemFacts Container
  ContainerSpec ContainerFacts ContainerFacts2 ContainerFacts3 Algo AlgoSpec AlgoFacts4 ReverseStridedFacts Prop_Algo.
Import ListNotations.
Open Scope Z_scope.

(** The hypothesis on the strides (they are of signed types and their opposites are representable) holds for default layouts: *)
Theorem default_strides_are_signed : forall c, default_layout c -> signeds (c_shape c) ->
  exists st, get_stride c = Ok st /\ wfs st /\ signeds st /\ length st = length (c_shape c) /\
    Forall (fun s => Z.abs (cval s) <= 2147483647) st.
Proof. exact default_signed. Qed.
Print Assumptions default_strides_are_signed.

(** All elements of the reversed view are as far from the mirrored elements of the container: by the number of elements less one,
    less the offset of the last element. The reversal is right exactly when this is 0. *)
Theorem reverse_right_iff : forall ss c, legal (c_shape c) -> c_shape c <> [] ->
  (exists st, get_stride c = Ok st /\ wfs st /\ signeds st /\ length st = length (c_shape c) /\
     Forall (fun s => Z.abs (cval s) <= 2147483647) st) ->
  0 < prod (dims c) -> c_data c <> Null ->
  exists rc, reverse ss c = Ok rc /\ c_shape rc = c_shape c /\
    (forall is_, in_box (dims c) is_ ->
       elem rc is_ = padd (elem c (mirror_coord (dims c) is_)) (prod (dims c) - 1 - dot (strides_z c) (map Z.pred (dims c)))) /\
    ((forall is_, in_box (dims c) is_ -> elem rc is_ = elem c (mirror_coord (dims c) is_)) <->
     dot (strides_z c) (map Z.pred (dims c)) = prod (dims c) - 1).
Proof. exact reverse_right_l. Qed.
Print Assumptions reverse_right_iff.

(** Reversing twice moves every element twice the number of elements less one further. *)
Theorem reverse_twice_displaces : forall ss ss' c, legal (c_shape c) -> c_shape c <> [] ->
  (exists st, get_stride c = Ok st /\ wfs st /\ signeds st /\ length st = length (c_shape c) /\
     Forall (fun s => Z.abs (cval s) <= 2147483647) st) ->
  exists rc rrc, reverse ss c = Ok rc /\ reverse ss' rc = Ok rrc /\ c_shape rrc = c_shape c /\
    (reach_ok c -> forall tys, Forall (fun t => is_signed t = true) tys -> addressable rrc tys) /\
    forall is_, elem rrc is_ = padd (elem c is_) (2 * (prod (dims c) - 1)).
Proof. exact reverse_twice_l. Qed.
Print Assumptions reverse_twice_displaces.

(** So if nothing follows the elements in memory, and there is more than one, every access to a container reversed twice is
    undefined. *)
Theorem reverse_twice_outside : forall (T : Type) ss ss' c (m : mem T), default_layout c -> signeds (c_shape c) -> 1 < prod (dims c) ->
  (forall k, prod (dims c) <= k -> ~ valid m (padd (c_data c) k)) ->
  exists rc rrc, reverse ss c = Ok rc /\ reverse ss' rc = Ok rrc /\
    forall is_, coord_of c is_ -> signeds is_ -> get m rrc is_ = UB /\ forall v, put m rrc is_ v = UB.
Proof. exact @reverse_twice_outside_l. Qed.
Print Assumptions reverse_twice_outside.

(** Every second element of six: the last offset is 4, the reversal starts at the third element instead of the fifth. *)
Definition every2 : container := Cn K1S [int 3] [int 2] (Ptr 0 0).
Example every2_ex : exists rc, reverse false every2 = Ok rc /\ elem rc [0] = Ptr 0 2 /\ elem every2 (mirror_coord [3] [0]) = Ptr 0 4 /\
  dot (strides_z every2) (map Z.pred (dims every2)) = 4 /\ prod (dims every2) - 1 = 2.
Proof. eexists. split; [reflexivity|]. repeat split; reflexivity. Qed.
Example every2_strides : exists st, get_stride every2 = Ok st /\ wfs st /\ signeds st /\ length st = length (c_shape every2) /\
  Forall (fun s => Z.abs (cval s) <= 2147483647) st.
Proof.
  eexists. split; [reflexivity|]. split; [by_check|]. split; [repeat constructor|]. split; [reflexivity|]. repeat constructor; cbn; lia.
Qed.
(** The condition also holds for layouts other than the default one: a column-major 2x3 view. *)
Definition col_view : container := Cn K2S [int 2; int 3] [int 1; int 2] (Ptr 0 0).
Example col_view_right : dot (strides_z col_view) (map Z.pred (dims col_view)) = prod (dims col_view) - 1.
Proof. reflexivity. Qed.
Example col_view_ex : exists rc, reverse false col_view = Ok rc /\ get xm rc [int 0; int 0] = Ok 6 /\ get xm rc [int 1; int 0] = Ok 5.
Proof. eexists. split; [reflexivity|]. split; vm_compute; reflexivity. Qed.
(** A table that fills its block has nothing behind its elements. *)
Example xa_end : forall k, prod (dims xa) <= k -> ~ valid xm (padd (c_data xa) k).
Proof.
  intros k Hk. change (prod (dims xa)) with 6 in Hk. unfold valid. cbn [padd c_data xa cell nth_error xm map].
  destruct (Z.leb_spec 0 (0 + k)); [|congruence]. intros H1. apply H1. apply nth_error_None. cbn [length]. lia.
Qed.
