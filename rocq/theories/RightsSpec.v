(** Specification vocabulary for write access. *)
From Coq Require Import List Bool.
From Verif Require Import Outcome Rights.
Import ListNotations.

(** The elements of the first container can be written through the chain. *)
Definition writes_through (l : list step) (e : expr) : Prop :=
  exists e', chain l e = Ok e' /\ e_shares e' = true /\ assignable e' = true.
(** They can be read but not written. *)
Definition reads_through (l : list step) (e : expr) : Prop :=
  exists e', chain l e = Ok e' /\ e_shares e' = true /\ assignable e' = false.

(** No table is made on the way. *)
Definition no_copy (l : list step) : Prop := ~ In TableOf l.

(** The first step that makes a view. *)
Fixpoint first_view (l : list step) : option step :=
  match l with
  | [] => None
  | Const :: l' => first_view l'
  | s :: _ => Some s
  end.
