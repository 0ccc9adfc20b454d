(** Words used by property C15, continued. They use none of the model's functions on shapes. *)
From Coq Require Import ZArith List.
From Verif Require Import CInt.
Import ListNotations.
Open Scope Z_scope.

(** [t] is the leftmost of the widest types of a list. *)
Definition first_widest (t : ity) (ts : list ity) : Prop :=
  exists l r, ts = l ++ t :: r /\ Forall (fun u => width u < width t) l /\ Forall (fun u => width u <= width t) r.
