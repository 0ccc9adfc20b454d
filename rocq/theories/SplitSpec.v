(** Cutting a container into slices that cover it. *)
From Coq Require Import ZArith List.
From Verif Require Import Outcome CInt Spec ShapeSpec Memory Container ContainerSpec Slicer SlicerSpec Algo.
Import ListNotations.
Open Scope Z_scope.

(** A slice of a container with one slicer per axis: the slicers and, per axis, the first index, the number
    of indexes and the distance between them. *)
Record part := Part { cuts : list slc; starts : list Z; counts : list Z; steps : list Z }.

(** The slicers mean that on the axes of [c], and go forward; with assertions their bounds are not of a type
    smaller than int. *)
Definition is_part (dbg : bool) (c : container) (p : part) : Prop :=
  sliced (c_shape c) (cuts p) (starts p) (counts p) (steps p) /\ (dbg = true -> Forall wide (cuts p)) /\
  Forall (fun s => 0 < s) (steps p).

(** The coordinate is one of those selected. *)
Definition chosen (p : part) (is_ : list Z) : Prop :=
  exists js, in_box (counts p) js /\ is_ = place (starts p) (steps p) js.

(** Every coordinate of [c] is in exactly one of the parts. *)
Definition tiling (c : container) (ps : list part) : Prop :=
  (forall is_, in_box (dims c) is_ -> exists p, In p ps /\ chosen p is_) /\
  (forall i j p q is_, nth_error ps i = Some p -> nth_error ps j = Some q -> chosen p is_ -> chosen q is_ -> i = j).

(** What a program does with the slices: it makes them all, then calls an algorithm on one after the other. *)
Definition slices (dbg a b : bool) (c : container) (ps : list part) : outcome (list container) :=
  mapM (fun p => slice_container dbg a b c (cuts p)) ps.
Fixpoint reduce_each {T A} (vs : list container) (f : A -> T -> A) (acc : A) (m : mem T) : outcome (A * mem T) :=
  match vs with [] => Ok (acc, m) | v :: vs => r <- reduce v f acc m ;; reduce_each vs f (fst r) (snd r) end.
Fixpoint transform_each {T} (f : list T -> T) (vs : list container) (m : mem T) : outcome (mem T) :=
  match vs with [] => Ok m | v :: vs => m' <- transform f v v [] m ;; transform_each f vs m' end.
Fixpoint fill_each {T} (vs : list container) (x : T) (m : mem T) : outcome (mem T) :=
  match vs with [] => Ok m | v :: vs => m' <- fill v x m ;; fill_each vs x m' end.

(** The order in which the elements are combined does not matter. *)
Definition order_free {A T} (f : A -> T -> A) : Prop := forall a x y, f (f a x) y = f (f a y) x.

(** Consecutive blocks of whole rows: from index [o] on, each slicer of the outermost axis
    takes as many indexes as said, and together they reach the end. Integers alone are no slicers. *)
Fixpoint consecutive (n : cint) (rest : list cint) (o : Z) (l : list (slc * Z)) : Prop :=
  match l with
  | [] => o = cval n
  | (sl, k) :: l => takes n sl o k 1 /\ some_slicer (sl :: repeat SAll (length rest)) /\ 0 < k /\ consecutive n rest (o + k) l
  end.
Definition block (rest : list cint) (sl : slc) (o k : Z) : part :=
  Part (sl :: repeat SAll (length rest)) (o :: repeat 0 (length rest)) (k :: vals rest) (1 :: repeat 1 (length rest)).
Fixpoint blocks (rest : list cint) (o : Z) (l : list (slc * Z)) : list part :=
  match l with [] => [] | (sl, k) :: l => block rest sl o k :: blocks rest (o + k) l end.
