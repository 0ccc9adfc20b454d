(** Specification vocabulary for the names of axes. *)
From Coq Require Import ZArith String List Bool.
From Verif Require Import Outcome CInt Prefilled.
Import ListNotations.
Open Scope Z_scope.

(** The last name among axes, if one has a name. *)
Fixpoint last_name (l : list axis_id) : option string :=
  match l with
  | [] => None
  | a :: l' => match last_name l' with
               | Some s => Some s
               | None => match a with AName s => Some s | AIdx _ => None end
               end
  end.

(** The smallest number among axes that have no names. *)
Definition smallest (l : list axis_id) (z : Z) : Prop :=
  In (AIdx z) l /\ forall y, In (AIdx y) l -> z <= y.
