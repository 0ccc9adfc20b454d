(** The n-dimensional loops: detail/algorithm/for_each.hpp and for_until.hpp.

    A callback is a function of the typed coordinates and of a state; it may itself be undefined or
    abort. The value returned by the callback (for_each) is ignored by the library. *)
From Coq Require Import ZArith List Bool.
From Verif Require Import Outcome CInt.
Import ListNotations.
Open Scope Z_scope.

(** kumi::fold_left with functions as accumulators: the last element is combined first. *)
Definition pile {A B : Type} (f : B -> A -> B) (ds : list A) (init : B) : B :=
  fold_right (fun m acc => f acc m) init ds.

(** for(to_int_t<decltype(m)> i = 0; i<m; ++i) body(i);  include/kwk/detail/algorithm/for_each.hpp
    31-32. [i] has the type of [m] (fixed.hpp 30-45). The fuel is one more than the value of [m]. *)
Fixpoint loop {S : Type} (fuel : nat) (m i : cint) (body : cint -> S -> outcome S) (s : S)
  : outcome S :=
  match fuel with
  | O => NoFuel
  | Datatypes.S fuel' =>
      if clt i m then
        s' <- body i s ;; i' <- cincr i ;; loop fuel' m i' body s'
      else Ok s
  end.

Definition fuel_of (m : cint) : nat := Datatypes.S (Z.to_nat (cval m)).

(** __::for_each(f, ds), include/kwk/detail/algorithm/for_each.hpp 24-40. *)
Definition for_each {S : Type} (ds : list cint) (f : list cint -> S -> outcome S) (s : S)
  : outcome S :=
  pile (fun acc m => fun is_ s => loop (fuel_of m) m (CI (cty m) 0) (fun i => acc (is_ ++ [i])) s)
       ds f [] s.

(** for(to_int_t<decltype(m)> i = 0; !found && i<m; ++i) body(i);  for_until.hpp 27-28. The state
    carries [found]. *)
Fixpoint loop_until {S : Type} (fuel : nat) (m i : cint)
    (body : cint -> bool * S -> outcome (bool * S)) (s : bool * S) : outcome (bool * S) :=
  match fuel with
  | O => NoFuel
  | Datatypes.S fuel' =>
      if negb (fst s) && clt i m then
        s' <- body i s ;; i' <- cincr i ;; loop_until fuel' m i' body s'
      else Ok s
  end.

(** __::for_until(f, ds), include/kwk/detail/algorithm/for_until.hpp 19-36. *)
Definition for_until {S : Type} (ds : list cint) (f : list cint -> S -> outcome (bool * S)) (s : S)
  : outcome (bool * S) :=
  pile (fun acc m => fun is_ s =>
          loop_until (fuel_of m) m (CI (cty m) 0) (fun i => acc (is_ ++ [i])) s)
       ds (fun is_ fs => f is_ (snd fs)) [] (false, s).
