(** Bisection algorithms, include/kwk/algorithm/algos/binary_search.hpp. *)
From Coq Require Import ZArith List Bool.
From Verif Require Import Outcome CInt Shape Memory Container.
Import ListNotations.
Open Scope Z_scope.

(** The while loop of lower_bound (40-55) and upper_bound (85-100): count, first, it and step are ints;
    [cond] is the test on the element out(pos). The result is the pair (first, it). *)
Fixpoint bisect {T} (dbg : bool) (cond : T -> bool) (c : container) (m : mem T) (fuel : nat)
    (count first it : cint) : outcome (cint * cint) :=
  if clt (int 0) count then
    match fuel with
    | O => NoFuel
    | S fuel' =>
        step <- cdiv count (int 2) ;;
        it' <- cadd first step ;;
        pos <- coordinates dbg it' (c_shape c) ;;
        e <- get m c pos ;;
        if cond e then
          it'' <- cincr it' ;;
          s1 <- cadd step (int 1) ;; count' <- csub count s1 ;;
          bisect dbg cond c m fuel' count' it'' it''
        else bisect dbg cond c m fuel' step first it'
    end
  else Ok (first, it).

(** The end of both functions, 56-57 and 101-102. *)
Definition bound_result (dbg : bool) (c : container) (n : cint) (r : cint * cint)
  : outcome (option (list cint)) :=
  if clt (fst r) n then pos <- coordinates dbg (snd r) (c_shape c) ;; Ok (Some pos) else Ok None.

(** Fuel of the loop: the number of elements. That it is enough is part of the theorems. *)
Definition bisect_fuel (n : cint) : nat := Z.to_nat (cval n).

(** lower_bound(ctx, out, value, func), 29-58. The other overloads (59-74) forward to it, with
    func = [](e,i){ return e<i; } by default. *)
Definition lower_bound {T} (dbg : bool) (func : T -> T -> bool) (c : container) (value : T) (m : mem T)
  : outcome (option (list cint)) :=
  n <- c_numel c ;;
  if ceqb n (int 0) then Ok None
  else
    r <- bisect dbg (fun e => func e value) c m (bisect_fuel n) n (int 0) (int 0) ;;
    bound_result dbg c n r.

(** upper_bound(ctx, out, value, func), 77-103; overloads 104-120. *)
Definition upper_bound {T} (dbg : bool) (func : T -> T -> bool) (c : container) (value : T) (m : mem T)
  : outcome (option (list cint)) :=
  n <- c_numel c ;;
  r <- bisect dbg (fun e => negb (func value e)) c m (bisect_fuel n) n (int 0) (int 0) ;;
  bound_result dbg c n r.

(** binary_search(ctx, out, value, func), 123-139; overloads 140-155. *)
Definition binary_search {T} (dbg : bool) (func : T -> T -> bool) (c : container) (value : T) (m : mem T)
  : outcome bool :=
  first <- lower_bound dbg func c value m ;;
  match first with
  | None => Ok false
  | Some pos => e <- get m c pos ;; Ok (negb (func value e))
  end.
