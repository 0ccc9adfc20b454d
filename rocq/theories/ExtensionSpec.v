(** Specification vocabulary for extents of user types. *)
From Coq Require Import ZArith String List Bool.
From Verif Require Import Outcome CInt Prefilled PrefilledSpec NamedSizeSpec Extension.
Import ListNotations.
Open Scope Z_scope.

Section Own.
Context {X : Type} (c : custom X).

(** The number a value stands for on a run-time axis; [def] where it leaves the choice. *)
Inductive stands (def : cint) : xextent X -> cint -> Prop :=
| stands_joker : stands def (Std EJoker) def
| stands_int v : stands def (Std (EInt v)) v
| stands_const v : stands def (Std (EConst v)) v
| stands_own x f : x_dim c = Some f -> stands def (Own x) (f x def).

(** What an axis holds after being given a value. *)
Definition holds (def : cint) (d : desc) (v : xextent X) (r : cint) : Prop :=
  match acont d with
  | CStatic s => r = s
  | _ => exists z, stands def v z /\ r = conv (axis_type d) z
  end.

(** A value that says it is not the number of a compile-time axis. *)
Definition denies (d : desc) (v : xextent X) : Prop :=
  match acont d, v with
  | CStatic s, Own x => exists q, x_eq c = Some q /\ q x s = false
  | _, Own _ => False
  | _, Std e => contradicts d e
  end.

(** The type has what an axis needs to be given a value of it. *)
Definition supports (dbg : bool) (d : desc) (v : xextent X) : Prop :=
  match v with
  | Std _ => True
  | Own _ => match acont d with
             | CStatic _ => dbg = true -> x_eq c <> None
             | _ => x_dim c <> None
             end
  end.

Definition wf_given (v : xextent X) : Prop := match v with Std e => wf_extent e | Own _ => True end.
Definition sane_given (v : xextent X) : Prop := match v with Std e => sane_ext e | Own _ => True end.

(** As many values as there are axes: 1 for the outer ones that are missing. *)
Definition padded (ds : list desc) (vs : list (xextent X)) : list (xextent X) :=
  repeat (Std (EInt (int 1))) (length ds - length vs) ++ vs.

(** Positional values that are accepted. *)
Definition accepted (dbg : bool) (ds : list desc) (vs : list (xextent X)) : Prop :=
  (length vs <= length ds)%nat /\
  (forall x, In (Own x) vs -> x_size c = true) /\
  (forall i d v, nth_error ds i = Some d -> nth_error (padded ds vs) i = Some v -> supports dbg d v).

(** The type behaves as the number [num x]: it stands for it, and says so. *)
Definition behaves_as (num : X -> cint) : Prop :=
  exists f q, x_dim c = Some f /\ x_eq c = Some q /\
    (forall x def, f x def = num x) /\ forall x s, q x s = ceqb (num x) s.
Definition as_numbers (num : X -> cint) (v : xextent X) : extent :=
  match v with Std e => e | Own x => EInt (num x) end.

(** The size a value makes of_size use when the descriptor of the type is [k]. *)
Definition sized (def : cint) (k : content) (v : xextent X) (r : cint) : Prop :=
  match v with
  | Std EJoker => r = conv I32 def
  | Std (EInt n) | Std (EConst n) => r = n
  | Own x => match k with
             | CStatic s => r = s
             | CType t => exists f, x_dim c = Some f /\ r = conv t (f x def)
             | CJoker => exists f, x_dim c = Some f /\ r = conv I32 (f x def)
             end
  end.
End Own.

(** Named values that are accepted: the types have what their axes need, unless all axes are compile-time ones. *)
Definition accepted_named {X : Type} (c : custom X) (dbg : bool) (ds : list desc) (os : list (axis_id * xextent X))
  : Prop :=
  (exists d, In d ds /\ runtime d) ->
  forall d v, In d ds -> In (aid d, v) os -> supports c dbg d v.
