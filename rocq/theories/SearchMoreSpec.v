(** What bisection finds in containers in no particular order. *)
From Coq Require Import ZArith List Bool.
From Verif Require Import Outcome CInt Spec ShapeSpec Memory Container ContainerSpec AlgoSpec.
Import ListNotations.
Open Scope Z_scope.

(** The element found does not satisfy the condition and the one before it does; if none is found, the last one does. *)
Definition boundary {T} (cond : T -> bool) (m : mem T) (c : container) (r : option (list cint)) : Prop :=
  match r with
  | Some pos => map cty pos = map (fun _ => I32) (c_shape c) /\ in_box (dims c) (vals pos) /\
      (exists v, value m c (vals pos) v /\ cond v = false) /\
      (forall is_ v, in_box (dims c) is_ -> rank (dims c) is_ = rank (dims c) (vals pos) - 1 -> value m c is_ v -> cond v = true)
  | None => forall is_ v, in_box (dims c) is_ -> rank (dims c) is_ = prod (dims c) - 1 -> value m c is_ v -> cond v = true
  end.
