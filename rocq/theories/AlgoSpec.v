(** Specification vocabulary for the algorithms. *)
From Coq Require Import ZArith List.
From Verif Require Import Outcome CInt Spec ShapeSpec Memory Container ContainerSpec.
Import ListNotations.
Open Scope Z_scope.

(** The types of the coordinates of a loop over a container: those of its extents. *)
Definition ctypes (c : container) : list ity := map cty (c_shape c).

(** The element of [c] at a coordinate has a value. *)
Definition value {T} (m : mem T) (c : container) (is_ : list Z) (v : T) : Prop :=
  peek m (elem c is_) = Some v.

(** Every coordinate of [a] is one of [b]. *)
Definition covers (b a : container) : Prop := forall is_, in_box (dims a) is_ -> in_box (dims b) is_.

(** Distinct coordinates of [c0] are distinct elements of [c]. *)
Definition distinct_on (c0 c : container) : Prop :=
  forall a b, in_box (dims c0) a -> in_box (dims c0) b -> elem c a = elem c b -> a = b.

(** The elements of [c] at the coordinates of [c0] exist. *)
Definition live {T} (m : mem T) (c0 c : container) : Prop :=
  addressable c (ctypes c0) /\ covers c c0 /\ forall is_, in_box (dims c0) is_ -> valid m (elem c is_).

(** A loop over the coordinates of [c0] can read (resp. write) the elements of [c]. *)
Definition can_read {T} (m : mem T) (c0 c : container) : Prop :=
  addressable c (ctypes c0) /\ covers c c0 /\
  forall is_, in_box (dims c0) is_ -> exists v, value m c is_ v.
Definition can_write {T} (m : mem T) (c0 c : container) : Prop :=
  addressable c (ctypes c0) /\ covers c c0 /\ distinct_on c0 c /\
  forall is_, in_box (dims c0) is_ -> valid m (elem c is_).

(** No element of [i] is an element of [o] at another coordinate of [c0] (the same container is
    allowed), or not even at the same one. *)
Definition no_cross_alias (c0 i o : container) : Prop :=
  forall a b, in_box (dims c0) a -> in_box (dims c0) b -> a <> b -> elem i a <> elem o b.
Definition no_alias (c0 i o : container) : Prop :=
  forall a b, in_box (dims c0) a -> in_box (dims c0) b -> elem i a <> elem o b.

(** Nothing but the elements of [c] at coordinates of [c0] differs. *)
Definition frame {T} (c0 c : container) (m m' : mem T) : Prop :=
  same_cells m m' /\
  forall p, (forall is_, in_box (dims c0) is_ -> p <> elem c is_) -> cell m' p = cell m p.

(** The values of the elements of [c] at the coordinates of [c0], in row-major order. *)
Definition values {T} (m : mem T) (c0 c : container) (vs : list T) : Prop :=
  Forall2 (fun is_ v => value m c is_ v) (box (dims c0)) vs.

(** The coordinate at the opposite end of every axis. *)
Fixpoint mirror_coord (ns is_ : list Z) : list Z :=
  match ns, is_ with
  | n :: ns', i :: is_' => (n - 1 - i) :: mirror_coord ns' is_'
  | _, _ => []
  end.

(** [r] is the lexicographically first (resp. last) coordinate of [c] whose element satisfies [P], as a
    position made of ints; [None] if there is none. *)
Definition first_at {T} (m : mem T) (c : container) (P : T -> Prop) (r : option (list cint)) : Prop :=
  match r with
  | Some pos => map cty pos = map (fun _ => I32) (c_shape c) /\ in_box (dims c) (vals pos) /\
      (exists v, value m c (vals pos) v /\ P v) /\
      (forall is_ v, in_box (dims c) is_ -> value m c is_ v -> P v -> is_ = vals pos \/ lex (vals pos) is_)
  | None => forall is_ v, in_box (dims c) is_ -> value m c is_ v -> ~ P v
  end.
Definition last_at {T} (m : mem T) (c : container) (P : T -> Prop) (r : option (list cint)) : Prop :=
  match r with
  | Some pos => map cty pos = map (fun _ => I32) (c_shape c) /\ in_box (dims c) (vals pos) /\
      (exists v, value m c (vals pos) v /\ P v) /\
      (forall is_ v, in_box (dims c) is_ -> value m c is_ v -> P v -> is_ = vals pos \/ lex is_ (vals pos))
  | None => forall is_ v, in_box (dims c) is_ -> value m c is_ v -> ~ P v
  end.
