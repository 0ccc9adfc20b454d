(** Calls whose output overlaps their inputs. *)
From Coq Require Import ZArith List.
From Verif Require Import Outcome CInt Spec ShapeSpec Memory Container ContainerSpec AlgoSpec.
Import ListNotations.
Open Scope Z_scope.

(** What a call writing [out] reads of [c] at coordinate [b]: if that element is also the one of [out] at an
    earlier coordinate, the value it has been given there; else its value before the call. [m], [m']: the
    memory before and after the call. *)
Definition sees {T} (m m' : mem T) (out c : container) (b : list Z) (v : T) : Prop :=
  (exists a, in_box (dims out) a /\ lex a b /\ elem c b = elem out a /\ value m' out a v) \/
  ((forall a, in_box (dims out) a -> lex a b -> elem c b <> elem out a) /\ value m c b v).

(** No element read is one written at an earlier coordinate. *)
Definition reads_ahead (out c : container) : Prop :=
  forall a b, in_box (dims out) a -> in_box (dims out) b -> lex a b -> elem c b <> elem out a.

(** Elements one after the other in row-major order, from offset [o] of block [b] on. *)
Definition in_a_row (c : container) (b : nat) (o : Z) : Prop :=
  forall is_, in_box (dims c) is_ -> elem c is_ = Ptr b (o + rank (dims c) is_).

(** f a0 v1, f (f a0 v1) v2, ... *)
Fixpoint running {T} (f : T -> T -> T) (a : T) (vs : list T) : list T :=
  match vs with [] => [] | v :: vs => f a v :: running f (f a v) vs end.

(** Not after, in row-major order. *)
Definition not_after (a b : list Z) : Prop := a = b \/ lex a b.
