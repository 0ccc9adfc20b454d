(** The remaining algorithms with callables that use containers themselves (see Uses.v for what a callable is and what is
    simplified). When several callables are given to an algorithm they share the memory. *)
From Coq Require Import ZArith List Bool.
From Verif Require Import Outcome CInt Shape Memory Container ForEach Algo Search Uses.
Import ListNotations.
Open Scope Z_scope.

Section Uses2.
Context {T : Type}.

(** all_of, any_of, none_of, include/kwk/algorithm/algos/predicates.hpp 27-61: a && f(e) and a || f(e), where the right
    operand is evaluated only if it is needed. *)
Definition all_of_use (in_ : container) (f : T -> mem T -> outcome (bool * mem T)) (m : mem T) : outcome (bool * mem T) :=
  reduce_use in_ (fun (a : bool) e m => if a then f e m else Ok (false, m)) true m.
Definition any_of_use (in_ : container) (f : T -> mem T -> outcome (bool * mem T)) (m : mem T) : outcome (bool * mem T) :=
  reduce_use in_ (fun (a : bool) e m => if a then Ok (true, m) else f e m) false m.
Definition none_of_use (in_ : container) (f : T -> mem T -> outcome (bool * mem T)) (m : mem T) : outcome (bool * mem T) :=
  r <- any_of_use in_ f m ;; Ok (negb (fst r), snd r).

(** count_if, predicates.hpp 75-85: a + (f(e) ? 1 : 0). *)
Definition count_if_use (in_ : container) (f : T -> mem T -> outcome (bool * mem T)) (m : mem T) : outcome (Z * mem T) :=
  reduce_use in_ (fun (a : Z) e m => r <- f e m ;; Ok (size_add a (fst r), snd r)) 0 m.

(** transform_reduce and inner_product, include/kwk/algorithm/algos/numeric.hpp 28-39 and 91-107:
    init = R(init, F(i1, i2)); inner_product first asserts that the shapes are equal. *)
Definition transform_reduce_use {A B} (in1 in2 : container) (init : A) (R : A -> B -> mem T -> outcome (A * mem T))
    (F : T -> T -> mem T -> outcome (B * mem T)) (m : mem T) : outcome (A * mem T) :=
  map_containers
    (fun ps am => match ps with
                  | [i1; i2] => v1 <- load (snd am) i1 ;; v2 <- load (snd am) i2 ;;
                                d <- F v1 v2 (snd am) ;; R (fst am) (fst d) (snd d)
                  | _ => UB
                  end) in1 [in2] (init, m).
Definition inner_product_use {A B} (dbg : bool) (in1 in2 : container) (init : A) (R : A -> B -> mem T -> outcome (A * mem T))
    (F : T -> T -> mem T -> outcome (B * mem T)) (m : mem T) : outcome (A * mem T) :=
  _ <- kassert dbg (shape_eq (c_shape in1) (c_shape in2)) ;;
  transform_reduce_use in1 in2 init R F m.

(** transform_exclusive_scan, numeric.hpp 142-153: o = sum; sum = f1(sum, f2(i)). The element is read after o is written. *)
Definition exclusive_scan_use {B} (in_ out : container) (init : T) (f1 : T -> B -> mem T -> outcome (T * mem T))
    (f2 : T -> mem T -> outcome (B * mem T)) (m : mem T) : outcome (T * mem T) :=
  map_containers
    (fun ps sm => match ps with
                  | [i; o] => m' <- store (snd sm) o (fst sm) ;; v <- load m' i ;;
                              d <- f2 v m' ;; f1 (fst sm) (fst d) (snd d)
                  | _ => UB
                  end) in_ [out] (init, m).

(** transform_inclusive_scan, numeric.hpp 180-192: sum = f1(sum, f2(i)); o = sum. *)
Definition inclusive_scan_use {B} (in_ out : container) (init : T) (f1 : T -> B -> mem T -> outcome (T * mem T))
    (f2 : T -> mem T -> outcome (B * mem T)) (m : mem T) : outcome (T * mem T) :=
  map_containers
    (fun ps sm => match ps with
                  | [i; o] => v <- load (snd sm) i ;; d <- f2 v (snd sm) ;; r <- f1 (fst sm) (fst d) (snd d) ;;
                              m' <- store (snd r) o (fst r) ;; Ok (fst r, m')
                  | _ => UB
                  end) in_ [out] (init, m).

(** find_if_not, include/kwk/algorithm/algos/find.hpp 86-98; find_last_if 121-171; find_last_if_not 187-199. *)
Definition find_if_not_use (c : container) (f : T -> mem T -> outcome (bool * mem T)) (m : mem T)
  : outcome (option (list cint) * mem T) :=
  find_if_use c (fun x m => r <- f x m ;; Ok (negb (fst r), snd r)) m.
Definition find_last_if_use (st : bool) (c : container) (f : T -> mem T -> outcome (bool * mem T)) (m : mem T)
  : outcome (option (list cint) * mem T) :=
  rc <- reverse st c ;;
  ' (r, m') <- find_if_use rc f m ;;
  match r with
  | None => Ok (None, m')
  | Some pos =>
      ps <- mapM (fun np => a <- csub (fst np) (int 1) ;; b <- csub a (snd np) ;; Ok (conv I32 b)) (combine (c_shape c) pos) ;;
      Ok (Some ps, m')
  end.
Definition find_last_if_not_use (st : bool) (c : container) (f : T -> mem T -> outcome (bool * mem T)) (m : mem T)
  : outcome (option (list cint) * mem T) :=
  find_last_if_use st c (fun x m => r <- f x m ;; Ok (negb (fst r), snd r)) m.

(** The loop of lower_bound and upper_bound, include/kwk/algorithm/algos/binary_search.hpp 40-55 and 85-100. *)
Fixpoint bisect_use (dbg : bool) (cond : T -> mem T -> outcome (bool * mem T)) (c : container)
    (fuel : nat) (count first it : cint) (m : mem T) : outcome ((cint * cint) * mem T) :=
  if clt (int 0) count then
    match fuel with
    | O => NoFuel
    | S fuel' =>
        step <- cdiv count (int 2) ;;
        it' <- cadd first step ;;
        pos <- coordinates dbg it' (c_shape c) ;;
        e <- get m c pos ;;
        r <- cond e m ;;
        if fst r then
          it'' <- cincr it' ;;
          s1 <- cadd step (int 1) ;; count' <- csub count s1 ;;
          bisect_use dbg cond c fuel' count' it'' it'' (snd r)
        else bisect_use dbg cond c fuel' step first it' (snd r)
    end
  else Ok ((first, it), m).

(** lower_bound 29-58, upper_bound 77-103, binary_search 123-139. *)
Definition lower_bound_use (dbg : bool) (func : T -> T -> mem T -> outcome (bool * mem T)) (c : container) (value : T)
    (m : mem T) : outcome (option (list cint) * mem T) :=
  n <- c_numel c ;;
  if ceqb n (int 0) then Ok (None, m)
  else
    r <- bisect_use dbg (fun e => func e value) c (bisect_fuel n) n (int 0) (int 0) m ;;
    p <- bound_result dbg c n (fst r) ;; Ok (p, snd r).
Definition upper_bound_use (dbg : bool) (func : T -> T -> mem T -> outcome (bool * mem T)) (c : container) (value : T)
    (m : mem T) : outcome (option (list cint) * mem T) :=
  n <- c_numel c ;;
  r <- bisect_use dbg (fun e m => b <- func value e m ;; Ok (negb (fst b), snd b)) c (bisect_fuel n) n (int 0) (int 0) m ;;
  p <- bound_result dbg c n (fst r) ;; Ok (p, snd r).
Definition binary_search_use (dbg : bool) (func : T -> T -> mem T -> outcome (bool * mem T)) (c : container) (value : T)
    (m : mem T) : outcome (bool * mem T) :=
  first <- lower_bound_use dbg func c value m ;;
  match fst first with
  | None => Ok (false, snd first)
  | Some pos => e <- get (snd first) c pos ;; b <- func value e (snd first) ;; Ok (negb (fst b), snd b)
  end.
End Uses2.
