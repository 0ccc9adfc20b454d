(** The objects of the caller after a call: all as before, or one changed and the others as before. *)
From Coq Require Import List.
From Verif Require Import Outcome.

Definition unaffected {Q : Type} (os os' : list Q) : Prop :=
  forall i q, nth_error os i = Some q -> nth_error os' i = Some q.

Definition only_changed {Q : Type} (i : nat) (q' : Q) (os os' : list Q) : Prop :=
  nth_error os' i = Some q' /\ forall j q, j <> i -> nth_error os j = Some q -> nth_error os' j = Some q.

(** An object that the caller did not have before. *)
Definition new_object {Q : Type} (os os' : list Q) (j : nat) (q : Q) : Prop :=
  length os <= j /\ nth_error os' j = Some q.

(** Two objects, each with a state of its own: the calls of one leave the other alone. *)
Definition with_first {Q A R : Type} (f : A -> Q -> outcome (R * Q)) (a : A) (s : Q * Q) : outcome (R * (Q * Q)) :=
  r <- f a (fst s) ;; Ok (fst r, (snd r, snd s)).
Definition with_second {Q A R : Type} (f : A -> Q -> outcome (R * Q)) (a : A) (s : Q * Q) : outcome (R * (Q * Q)) :=
  r <- f a (snd s) ;; Ok (fst r, (fst s, snd r)).
