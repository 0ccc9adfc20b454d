(** Specification vocabulary of C101. *)
From Coq Require Import ZArith String List Bool.
From Verif Require Import Outcome CInt Prefilled PrefilledSpec NamedSizeSpec Ctor.
Import ListNotations.
Open Scope Z_scope.

(** The type of a shape as it is written: for each place a name or none, and a size, a type or nothing. *)
Definition shape_type := list (option axis_id * content).
Fixpoint some_names {A} (l : list (option A)) : list A :=
  match l with [] => [] | Some a :: l' => a :: some_names l' | None :: l' => some_names l' end.
Definition name_of (g : karg) : option axis_id := match g with KPos _ => None | KNamed a _ => Some a end.
Definition names_given (l : list karg) : list axis_id := some_names (map name_of l).
Definition fixed_place (p : option axis_id * content) : Prop := exists c, snd p = CStatic c.
(** Names are distinct, and names a user can write. *)
Definition proper (ns : list axis_id) : Prop := NoDup ns /\ Forall user_axis ns.

(** Calls that compile. *)
Definition accepted (ty : shape_type) (l : list karg) : Prop :=
  l = [] \/
  (Forall (fun g => name_of g = None) l /\ (length l <= length ty)%nat) \/
  (Forall (fun g => name_of g <> None) l /\ (length l <= length ty)%nat /\
   (Forall fixed_place ty \/ incl (names_given l) (some_names (map fst ty)))) \/
  map name_of l = map fst ty.

(** What is given for a place: without any name, the values are those of the last places, and 1 for the others;
    otherwise the value with the name of the place, and for a place without name the one at the same position. *)
Fixpoint given_for (l : list karg) (a : axis_id) : option extent :=
  match l with
  | [] => None
  | KNamed b e :: l' => if axis_id_eqb a b then Some e else given_for l' a
  | KPos _ :: l' => given_for l' a
  end.
Definition extent_at (ty : shape_type) (l : list karg) (i : nat) : option extent :=
  match l with
  | [] => None
  | _ =>
      if forallb (fun g => match name_of g with None => true | _ => false end) l
      then (if (i + length l <? length ty)%nat then Some (EInt (int 1))
            else option_map kext (nth_error l (i + length l - length ty)))
      else match nth_error ty i with
           | Some (Some a, _) => given_for l a
           | _ => match nth_error l i with Some (KPos e) => Some e | _ => None end
           end
  end.

(** What a place holds then: its compile-time size; the value given, in the type of the place; [def] for a joker, 0 if
    nothing is given. *)
Definition held_at (def : cint) (c : content) (g : option extent) : cint :=
  match c with
  | CStatic v => v
  | _ =>
      let t := match c with CType t => t | _ => I32 end in
      match g with
      | None => CI t 0
      | Some EJoker => conv t def
      | Some (EInt v) | Some (EConst v) => conv t v
      end
  end.

(** A value given for a place that has another size already. *)
Definition mismatch (ty : shape_type) (l : list karg) : Prop :=
  exists i n c e, nth_error ty i = Some (n, CStatic c) /\ extent_at ty l i = Some e /\
    match e with EJoker => False | EInt v | EConst v => cval v <> cval c end.
Definition sane_place (p : option axis_id * content) : Prop := match snd p with CStatic c => sane c | _ => True end.
