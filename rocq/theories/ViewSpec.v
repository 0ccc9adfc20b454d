(** Elements of a container selected by slicers. *)
From Coq Require Import ZArith List.
From Verif Require Import Outcome CInt Spec ShapeSpec Memory Container ContainerSpec SlicerSpec Slicer.
Import ListNotations.
Open Scope Z_scope.

(** The coordinate [is_] of [c], its outer axes merged to have one axis per slicer, is the one at position
    [js] of the selection. *)
Definition at_position (c : container) (sls : list slc) (os ss js is_ : list Z) : Prop :=
  in_box (dims c) is_ /\ merge_coord (length (c_shape c) - length sls + 1) (dims c) is_ = place os ss js.

(** [is_] is a coordinate of [c] that the slicers select. *)
Definition picked (c : container) (sls : list slc) (os ks ss is_ : list Z) : Prop :=
  exists js, in_box ks js /\ at_position c sls os ss js is_.

(** Elements that the slicers do not select are the same in [m] and [m']; so is all that is not in [c]. *)
Definition others_kept {T} (c : container) (sls : list slc) (os ks ss : list Z) (m m' : mem T) : Prop :=
  (forall is_, in_box (dims c) is_ -> ~ picked c sls os ks ss is_ -> cell m' (elem c is_) = cell m (elem c is_)) /\
  (forall p, (forall is_, in_box (dims c) is_ -> p <> elem c is_) -> cell m' p = cell m p) /\
  same_cells m m'.
