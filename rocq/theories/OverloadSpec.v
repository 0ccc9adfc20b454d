(** Calls as the signatures of the algorithms suggest them, and the calls that go wrong. *)
From Coq Require Import List Bool Sorting.
From Verif Require Import Overload.
Import ListNotations.

(** The argument is what the parameter is for; an output is not a const temporary. *)
Definition plays (p : param) (a : arg) : Prop :=
  match p_role p, a_what a with
  | RContext, Context _ | RCallable, Callable | RIn, Container | RValue, Value | RShape, Shape => True
  | ROut, Container => a_lvalue a = false -> a_const a = false
  | _, _ => False
  end.
(** The arguments are those of the signature of [o]. *)
Definition spelled (o : overload) (args : list arg) : Prop :=
  exists fixed more, args = fixed ++ more /\ Forall2 plays (o_params o) fixed /\
    match o_pack o with Some p => Forall (plays p) more | None => more = [] end.

(** Arguments passed by T& (contexts and outputs) are lvalues; a const temporary is accepted as a context. *)
Definition in_place (o : overload) (args : list arg) : Prop :=
  forall i p a, nth_error (o_params o) i = Some p -> nth_error args i = Some a -> p_form p = LRef ->
    a_lvalue a = true \/ a_const a = true.

Definition const_lvalue (a : arg) : Prop := a_lvalue a = true /\ a_const a = true.
(** Calls without a context in which the overloads with a context are candidates too, and win or tie: for_each with a
    callable that is an lvalue and two containers or more; transform with such a callable and two inputs or more, if the
    first input is an lvalue and the others are const lvalues. *)
Definition confused (n : fn) (args : list arg) : Prop :=
  match n, args with
  | for_each, f :: _ :: _ :: _ => a_what f = Callable /\ a_lvalue f = true
  | transform, f :: _ :: c0 :: c1 :: cs =>
      a_what f = Callable /\ a_lvalue f = true /\ a_lvalue c0 = true /\ Forall const_lvalue (c1 :: cs)
  | _, _ => False
  end.

(** The context a call is to run on: the one given, or kwk::cpu. *)
Definition asked (args : list arg) : what :=
  match args with
  | a :: _ => match a_what a with Context b => Context b | _ => Context true end
  | [] => Context true
  end.
(** The objects of the user among the arguments of a step. *)
Definition given (s : step) : list nat := flat_map (fun x => match x with Some k => [k] | None => [] end) (snd s).
(** The step uses no other context than the one asked for; it receives the objects of the user in the order in which they
    were given, none of them twice; and all of them if it is another overload of the same function. *)
Definition right_step (n : fn) (args : list arg) (s : step) : Prop :=
  match snd (fst s) with Some w => w = asked args | None => True end /\
  StronglySorted lt (given s) /\ (fst (fst (fst s)) = n -> given s = seq 0 (length args)).
(** The call enters overload [i] of [n] first, and every step is right. *)
Definition reached (n : fn) (i : nat) (args : list arg) (tr : list step) : Prop :=
  (exists s tr', tr = s :: tr' /\ fst (fst s) = (n, i)) /\ Forall (right_step n args) tr.
Definition is_container (a : arg) : Prop := a_what a = Container.

(** The table that is written by a call: the first container, for the scans the second; the other algorithms write none
    (for_each only through its callable). *)
Definition target (n : fn) (args : list arg) : option arg :=
  let cs := filter (fun a => match a_what a with Container => true | _ => false end) args in
  match n with
  | transform | copy | copy_if | fill | generate | iota | replace_if | replace => nth_error cs 0
  | transform_exclusive_scan | exclusive_scan | transform_inclusive_scan | inclusive_scan => nth_error cs 1
  | _ => None
  end.
Definition temporary (a : arg) : Prop := a_lvalue a = false /\ a_const a = false.
