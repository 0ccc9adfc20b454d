(** Specification of termination and of the number of tests (C96). *)
From Coq Require Import ZArith List Bool.
From Verif Require Import Outcome CInt Spec ShapeSpec Container.
Import ListNotations.
Open Scope Z_scope.

(** A call ends: it returns, aborts or is undefined. *)
Definition ends {A} (o : outcome A) : Prop := o <> NoFuel.

(** The sizes of a container are values of their types, as all objects of C++ are; they may be negative, and their
    product may be anything. *)
Definition sizes_are_values (c : container) : Prop := wfs (c_shape c).

(** The tests of nested loops over [ns]: n+1 for the outer one, and n times those of the inner ones. *)
Fixpoint tests (ns : list Z) : Z :=
  match ns with
  | [] => 0
  | n :: r => (Z.max 0 n + 1) + Z.max 0 n * tests r
  end.
