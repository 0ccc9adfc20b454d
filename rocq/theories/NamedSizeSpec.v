(** Specification vocabulary for of_size and with_strides with named extents. *)
From Coq Require Import ZArith String List Bool.
From Verif Require Import Outcome CInt Prefilled NamedSize.
Import ListNotations.
Open Scope Z_scope.

(** The size an argument stands for: the number given, and 0 where none is. *)
Definition size_of (e : extent) : cint :=
  match e with EInt v | EConst v => v | EJoker => int 0 end.
(** Where none is given, a given default. *)
Definition value_or (def : cint) (e : extent) : cint :=
  match e with EInt v | EConst v => v | EJoker => def end.
Definition wf_extent (e : extent) : Prop :=
  match e with EInt v | EConst v => wfc v | EJoker => True end.

(** A number, or [axis = number], for an axis a user can write: its index is not negative. *)
Definition user_axis (a : axis_id) : Prop := match a with AIdx z => 0 <= z | AName _ => True end.
Inductive given_size : arg -> extent -> Prop :=
| given_pos e : wf_extent e -> given_size (APos e) e
| given_named a e : user_axis a -> wf_extent e -> given_size (ANamed a CJoker e) e.

(** The axes named by the arguments. *)
Fixpoint names (l : list arg) : list axis_id :=
  match l with
  | [] => []
  | APos _ :: l' => names l'
  | AAxis a _ :: l' | ANamed a _ _ :: l' => a :: names l'
  end.
