(** The place of a search result in row-major order; nothing found is past the end. *)
From Coq Require Import ZArith List.
From Verif Require Import CInt Spec ShapeSpec Container ContainerSpec.
Open Scope Z_scope.

Definition place (c : container) (r : option (list cint)) : Z :=
  match r with Some pos => rank (dims c) (vals pos) | None => prod (dims c) end.
