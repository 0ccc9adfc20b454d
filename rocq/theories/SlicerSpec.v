(** What slicers mean: the indexes they select on an axis, independently of how the library counts
    them. *)
From Coq Require Import ZArith List.
From Verif Require Import Outcome CInt CIntFacts Spec ShapeSpec ShapeFacts EndRatio Memory Container ContainerSpec Slicer.
Import ListNotations.
Open Scope Z_scope.

(** An axis: a non-negative extent of at most 31 bits. *)
Definition axis (n : cint) : Prop := wfc n /\ 0 <= cval n <= 2147483647.

(** [k] indexes starting at [o], [s] apart, are exactly the ones of [P]. *)
Definition selects (o k s : Z) (P : Z -> Prop) : Prop :=
  0 <= k /\ forall x, P x <-> exists i, 0 <= i < k /\ x = o + i * s.

(** Value of an optional bound on an axis ([end] expressions: see the properties of [end]). *)
Definition bound_is (n : cint) (b : option bound) (def z : Z) : Prop :=
  match b with
  | None => z = def
  | Some (BInt c) => wfc c /\ cval c = z
  | Some (BEnd e) => exists c, end_value e n = Ok c /\ cval c = z
  end.
Definition step_is (s : option cint) (z : Z) : Prop :=
  match s with None => z = 1 | Some c => wfc c /\ cval c = z end.

(** Meaning of a slicer on an axis of size [n]: it starts at [o] and selects [k] indexes [s] apart. *)
Inductive takes (n : cint) : slc -> Z -> Z -> Z -> Prop :=
| takes_all : takes n SAll 0 (cval n) 1
| takes_index i : wfc i -> takes n (SIdx i) (cval i) 1 1
| takes_end e z : bound_is n (Some (BEnd e)) 0 z -> takes n (SEnd e) z 1 1
| takes_range b s e bz ez sz :
    bound_is n b 0 bz -> bound_is n e (cval n) ez -> step_is s sz ->
    0 <= bz <= ez -> ez <= cval n -> 0 < sz ->
    takes n (SSlice b s e None) bz (ceil_div (ez - bz) sz) sz
| takes_backward b s bz sz :
    bound_is n b (cval n - 1) bz -> step_is s sz ->
    0 <= bz < cval n -> - 2147483647 <= sz < 0 ->
    takes n (SSlice b s None None) bz (ceil_div (bz + 1) (- sz)) sz
| takes_length b s l bz lz sz :
    bound_is n b 0 bz -> bound_is n (Some l) 0 lz -> step_is s sz ->
    0 <= bz -> 0 <= lz -> 0 < sz ->
    takes n (SSlice b s None (Some l)) bz lz sz
| takes_length_backward b s l bz lz sz :
    bound_is n b (cval n - 1) bz -> bound_is n (Some l) 0 lz -> step_is s sz ->
    0 <= bz < cval n -> 0 <= lz -> - 2147483647 <= sz < 0 ->
    takes n (SSlice b s None (Some l)) bz lz sz.

(** The selection lies inside the axis, and its step is not longer than the axis. *)
Definition inside (n : cint) (o k s : Z) : Prop :=
  0 <= o < cval n /\ (0 < k -> 0 <= o + (k - 1) * s < cval n) /\ Z.abs s <= cval n.

(** Slicers given on several axes: each selects inside its axis. *)
Inductive sliced_each : list cint -> list slc -> list Z -> list Z -> list Z -> Prop :=
| sliced_nil : sliced_each [] [] [] [] []
| sliced_cons n sl o k s ns sls os ks ss :
    takes n sl o k s -> inside n o k s -> sliced_each ns sls os ks ss ->
    sliced_each (n :: ns) (sl :: sls) (o :: os) (k :: ks) (s :: ss).
(** They are not all indexes: an index for every axis is the access to an element. *)
Definition some_slicer (sls : list slc) : Prop := exists sl, In sl sls /\ forall i, sl <> SIdx i.
Definition sliced (ns : list cint) (sls : list slc) (os ks ss : list Z) : Prop :=
  some_slicer sls /\ sliced_each ns sls os ks ss.

(** The index of the source at position [js] of the selection. *)
Fixpoint place (os ss js : list Z) : list Z :=
  match os, ss, js with
  | o :: os, s :: ss, j :: js => o + j * s :: place os ss js
  | _, _, _ => []
  end.

(** Products, axis by axis. *)
Fixpoint times (ss ds : list Z) : list Z :=
  match ss, ds with s :: ss, d :: ds => s * d :: times ss ds | _, _ => [] end.

(** Bounds given as integers of at least the size of int. *)
Definition wide_bound (b : bound) : Prop :=
  match b with BInt c => promote (cty c) = cty c | BEnd _ => True end.
Definition wide (sl : slc) : Prop :=
  match sl with
  | SIdx i => promote (cty i) = cty i
  | SSlice (Some b) _ _ _ => wide_bound b
  | _ => True
  end.

(** Slicers moving forward only; or everything of signed types, including the coordinates used. *)
Definition directed (c : container) (sls : list slc) (ss : list Z) (tys : list ity) : Prop :=
  Forall (fun s => 0 < s) ss \/
  (signeds (c_shape c) /\ Forall (fun t => is_signed t = true) tys /\
   Forall (fun sl => match sl with SSlice _ (Some s) _ _ => is_signed (cty s) = true | _ => True end) sls).
