(** Specification vocabulary for the bisection algorithms. *)
From Coq Require Import ZArith List Bool.
From Verif Require Import Outcome CInt Spec ShapeSpec Memory Container ContainerSpec AlgoSpec.
Import ListNotations.
Open Scope Z_scope.

(** A strict weak order, as a boolean comparison. *)
Definition strict_weak_order {T} (less : T -> T -> bool) : Prop :=
  (forall x, less x x = false) /\
  (forall x y z, less x y = true -> less y z = true -> less x z = true) /\
  (forall x y z, less x y = false -> less y z = false -> less x z = false).

(** No element of [c] is less than one before it in row-major order. *)
Definition sorted {T} (less : T -> T -> bool) (m : mem T) (c : container) : Prop :=
  forall a b x y, in_box (dims c) a -> in_box (dims c) b -> lex a b ->
    value m c a x -> value m c b y -> less y x = false.

(** A container of any layout whose elements can be read with int coordinates. *)
Definition searchable {T} (m : mem T) (c : container) : Prop :=
  legal (c_shape c) /\ c_shape c <> [] /\ addressable c (map (fun _ => I32) (c_shape c)) /\ readable m c.
