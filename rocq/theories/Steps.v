(** How often the loops of the library test their conditions: the loops of ForEach.v and Search.v with a counter
    besides the state. What they compute is shown to be what the loops without counter compute. *)
From Coq Require Import ZArith List Bool.
From Verif Require Import Outcome CInt Shape Memory Container ForEach Search.
Import ListNotations.
Open Scope Z_scope.

(** for(to_int_t<decltype(m)> i = 0; i<m; ++i), include/kwk/detail/algorithm/for_each.hpp 31-32, as [loop]: one
    more for every evaluation of i<m, the last one, which fails, included. *)
Fixpoint loop_counted {S : Type} (fuel : nat) (m i : cint) (body : cint -> S * Z -> outcome (S * Z)) (s : S * Z)
  : outcome (S * Z) :=
  match fuel with
  | O => NoFuel
  | Datatypes.S fuel' =>
      let s1 := (fst s, snd s + 1) in
      if clt i m then
        s' <- body i s1 ;; i' <- cincr i ;; loop_counted fuel' m i' body s'
      else Ok s1
  end.

(** __::for_each(f, ds), for_each.hpp 24-40. *)
Definition for_each_counted {S : Type} (ds : list cint) (f : list cint -> S -> outcome S) (s : S)
  : outcome (S * Z) :=
  pile (fun acc m => fun is_ s => loop_counted (fuel_of m) m (CI (cty m) 0) (fun i => acc (is_ ++ [i])) s)
       ds (fun is_ s => s' <- f is_ (fst s) ;; Ok (s', snd s)) [] (s, 0).

(** for(...; !found && i<m; ++i), include/kwk/detail/algorithm/for_until.hpp 27-28, as [loop_until]. *)
Fixpoint loop_until_counted {S : Type} (fuel : nat) (m i : cint)
    (body : cint -> (bool * S) * Z -> outcome ((bool * S) * Z)) (s : (bool * S) * Z) : outcome ((bool * S) * Z) :=
  match fuel with
  | O => NoFuel
  | Datatypes.S fuel' =>
      let s1 := (fst s, snd s + 1) in
      if negb (fst (fst s)) && clt i m then
        s' <- body i s1 ;; i' <- cincr i ;; loop_until_counted fuel' m i' body s'
      else Ok s1
  end.

(** __::for_until(f, ds), for_until.hpp 19-36. *)
Definition for_until_counted {S : Type} (ds : list cint) (f : list cint -> S -> outcome (bool * S)) (s : S)
  : outcome ((bool * S) * Z) :=
  pile (fun acc m => fun is_ s => loop_until_counted (fuel_of m) m (CI (cty m) 0) (fun i => acc (is_ ++ [i])) s)
       ds (fun is_ s => s' <- f is_ (snd (fst s)) ;; Ok (s', snd s)) [] ((false, s), 0).

(** while(count > 0), include/kwk/algorithm/algos/binary_search.hpp 40-55 and 85-100, as [bisect]: one more for
    every turn of the loop. *)
Fixpoint bisect_counted {T} (dbg : bool) (cond : T -> bool) (c : container) (m : mem T) (fuel : nat)
    (count first it : cint) : outcome ((cint * cint) * Z) :=
  if clt (int 0) count then
    match fuel with
    | O => NoFuel
    | S fuel' =>
        step <- cdiv count (int 2) ;;
        it' <- cadd first step ;;
        pos <- coordinates dbg it' (c_shape c) ;;
        e <- get m c pos ;;
        r <- (if cond e then
                it'' <- cincr it' ;;
                s1 <- cadd step (int 1) ;; count' <- csub count s1 ;;
                bisect_counted dbg cond c m fuel' count' it'' it''
              else bisect_counted dbg cond c m fuel' step first it') ;;
        Ok (fst r, snd r + 1)
    end
  else Ok ((first, it), 0).
