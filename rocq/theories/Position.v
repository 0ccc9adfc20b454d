(** Positions (the results of the searches) as values: comparison, use as coordinates, and the initialisation that
    decides whether a search compiles. *)
From Coq Require Import ZArith List Bool.
From Verif Require Import Outcome CInt Memory Container Algo.
Import ListNotations.
Open Scope Z_scope.

(** p[i], include/kwk/utility/position.hpp 22-30: an access to an array of Size ints, without any check. *)
Definition pos_at (p : list cint) (i : nat) : outcome cint :=
  match nth_error p i with Some x => Ok x | None => UB end.

(** The loop of operator==, position.hpp 32-40, from index [i] on with [n] indexes left. *)
Fixpoint pos_eq_from (n i : nat) (p q : list cint) : outcome bool :=
  match n with
  | O => Ok true
  | S n' => a <- pos_at p i ;; b <- pos_at q i ;; if negb (ceqb a b) then Ok false else pos_eq_from n' (S i) p q
  end.
(** p == q. Positions of different sizes cannot be compared (32: the argument has the same Size): [UB]. *)
Definition pos_eq (p q : list cint) : outcome bool :=
  if Nat.eqb (length p) (length q) then pos_eq_from (length p) 0 p q else UB.

(** [dcl.init.list]/7: list-initialisation of a [to] from an expression of type [from] that is not a constant is
    narrowing unless [to] has all the values of [from]. *)
Definition narrows (from to : ity) : bool := negb ((tmin to <=? tmin from) && (tmax from <=? tmax to)).

(** The searches under the rule above: unsigned long poss[] = {is...} (find.hpp 48) is ill-formed as soon as a loop
    variable is of a signed type. The variable of an axis has the type of its extent, int for an extent known at
    compile time (for_until.hpp 27, to_int_t). g++ only warns about it and compiles [find_if] of Algo.v; clang++
    and, with the flags of cmake/compiler.cmake (-Wall -Werror), g++ reject it. *)
Definition poss_ok (c : container) : bool := forallb (fun n => negb (narrows (cty n) U64)) (c_shape c).
Definition strict_find_if {T} (c : container) (f : T -> bool) (m : mem T) : outcome (option (list cint) * mem T) :=
  if poss_ok c then find_if c f m else UB.
(** find_last_if calls find_if on reverse(out), find.hpp 124, whose extents are those of out. *)
Definition strict_find_last_if {T} (st : bool) (c : container) (f : T -> bool) (m : mem T)
  : outcome (option (list cint) * mem T) :=
  rc <- reverse st c ;; if poss_ok rc then find_last_if st c f m else UB.
