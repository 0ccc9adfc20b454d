(** The algorithms with callables that have effects: a callable reads and changes a state [Q] of its
    own (what it captures by reference, a generator, a log, a counter...), and a call may abort or be
    undefined. The library only calls it. Simplified: [Q] is apart from the containers, i.e. a callable
    does not touch the elements of the containers given to the algorithm; the callables taken by value
    are copied (copies of a lambda that captures by reference share their state). When several callables
    are given to an algorithm they share [Q]. *)
From Coq Require Import ZArith List Bool.
From Verif Require Import Outcome CInt Shape Memory Container ForEach Algo Search.
Import ListNotations.
Open Scope Z_scope.

Section Calls.
Context {T Q : Type}.

(** [o = v], keeping the state of the callable. *)
Definition put {S} (o : ptr) (v : T) (s : S) (m : mem T) : outcome (S * mem T) :=
  m' <- store m o v ;; Ok (s, m').

(** transform, include/kwk/algorithm/algos/transform.hpp 16-32: o = f(i0, in...). *)
Definition transform_call (f : list T -> Q -> outcome (T * Q)) (out c0 : container) (cs : list container)
    (q : Q) (m : mem T) : outcome (Q * mem T) :=
  map_containers
    (fun ps qm => match ps with
                  | o :: ins => vs <- mapM (load (snd qm)) ins ;; r <- f vs (fst qm) ;;
                                put o (fst r) (snd r) (snd qm)
                  | [] => UB
                  end) out (c0 :: cs) (q, m).

(** copy_if, include/kwk/algorithm/algos/copy.hpp 34-45: if(f(i)) o = i. *)
Definition copy_if_call (f : T -> Q -> outcome (bool * Q)) (out in_ : container) (q : Q) (m : mem T)
  : outcome (Q * mem T) :=
  map_containers
    (fun ps qm => match ps with
                  | [o; i] => v <- load (snd qm) i ;; r <- f v (fst qm) ;;
                              if fst r then v' <- load (snd qm) i ;; put o v' (snd r) (snd qm)
                              else Ok (snd r, snd qm)
                  | _ => UB
                  end) out [in_] (q, m).

(** generate, include/kwk/algorithm/algos/generator.hpp 32-43: o = f(is...). *)
Definition generate_call (f : list cint -> Q -> outcome (T * Q)) (out : container) (q : Q) (m : mem T)
  : outcome (Q * mem T) :=
  map_index (fun o is_ qm => r <- f is_ (fst qm) ;; put o (fst r) (snd r) (snd qm)) out (q, m).

(** replace_if, include/kwk/algorithm/algos/replace.hpp 16-26: if(f(o)) o = new_value. *)
Definition replace_if_call (out : container) (f : T -> Q -> outcome (bool * Q)) (new_value : T)
    (q : Q) (m : mem T) : outcome (Q * mem T) :=
  map_containers
    (fun ps qm => match ps with
                  | [o] => v <- load (snd qm) o ;; r <- f v (fst qm) ;;
                           if fst r then put o new_value (snd r) (snd qm) else Ok (snd r, snd qm)
                  | _ => UB
                  end) out [] (q, m).

(** reduce, include/kwk/algorithm/algos/reduce.hpp 29-42: init = f(init, i). The result is the
    accumulator, with the state of the callable and the memory. *)
Definition reduce_call {A} (in_ : container) (f : A -> T -> Q -> outcome (A * Q)) (init : A)
    (q : Q) (m : mem T) : outcome ((A * Q) * mem T) :=
  map_containers
    (fun ps am => match ps with
                  | [i] => v <- load (snd am) i ;; r <- f (fst (fst am)) v (snd (fst am)) ;;
                           Ok (r, snd am)
                  | _ => UB
                  end) in_ [] ((init, q), m).

(** all_of, any_of, none_of, include/kwk/algorithm/algos/predicates.hpp 27-61: a && f(e) and a || f(e),
    where the right operand is evaluated only if it is needed. *)
Definition all_of_call (in_ : container) (f : T -> Q -> outcome (bool * Q)) (q : Q) (m : mem T)
  : outcome ((bool * Q) * mem T) :=
  reduce_call in_ (fun (a : bool) (e : T) (q : Q) => if a then f e q else Ok (false, q)) true q m.
Definition any_of_call (in_ : container) (f : T -> Q -> outcome (bool * Q)) (q : Q) (m : mem T)
  : outcome ((bool * Q) * mem T) :=
  reduce_call in_ (fun (a : bool) (e : T) (q : Q) => if a then Ok (true, q) else f e q) false q m.
Definition none_of_call (in_ : container) (f : T -> Q -> outcome (bool * Q)) (q : Q) (m : mem T)
  : outcome ((bool * Q) * mem T) :=
  r <- any_of_call in_ f q m ;; Ok ((negb (fst (fst r)), snd (fst r)), snd r).

(** count_if, predicates.hpp 75-85: a + (f(e) ? 1 : 0). *)
Definition count_if_call (in_ : container) (f : T -> Q -> outcome (bool * Q)) (q : Q) (m : mem T)
  : outcome ((Z * Q) * mem T) :=
  reduce_call in_ (fun (a : Z) (e : T) (q : Q) => r <- f e q ;; Ok (size_add a (fst r), snd r)) 0 q m.

(** transform_reduce and inner_product, include/kwk/algorithm/algos/numeric.hpp 28-39 and 91-107:
    init = R(init, F(i1, i2)); inner_product first asserts that the shapes are equal. *)
Definition transform_reduce_call {A B} (in1 in2 : container) (init : A)
    (R : A -> B -> Q -> outcome (A * Q)) (F : T -> T -> Q -> outcome (B * Q))
    (q : Q) (m : mem T) : outcome ((A * Q) * mem T) :=
  map_containers
    (fun ps am => match ps with
                  | [i1; i2] => v1 <- load (snd am) i1 ;; v2 <- load (snd am) i2 ;;
                                d <- F v1 v2 (snd (fst am)) ;; r <- R (fst (fst am)) (fst d) (snd d) ;;
                                Ok (r, snd am)
                  | _ => UB
                  end) in1 [in2] ((init, q), m).
Definition inner_product_call {A B} (dbg : bool) (in1 in2 : container) (init : A)
    (R : A -> B -> Q -> outcome (A * Q)) (F : T -> T -> Q -> outcome (B * Q))
    (q : Q) (m : mem T) : outcome ((A * Q) * mem T) :=
  _ <- kassert dbg (shape_eq (c_shape in1) (c_shape in2)) ;;
  transform_reduce_call in1 in2 init R F q m.

(** transform_exclusive_scan, numeric.hpp 142-153: o = sum; sum = f1(sum, f2(i)). *)
Definition exclusive_scan_call {B} (in_ out : container) (init : T)
    (f1 : T -> B -> Q -> outcome (T * Q)) (f2 : T -> Q -> outcome (B * Q))
    (q : Q) (m : mem T) : outcome ((T * Q) * mem T) :=
  map_containers
    (fun ps sm => match ps with
                  | [i; o] => m' <- store (snd sm) o (fst (fst sm)) ;; v <- load m' i ;;
                              d <- f2 v (snd (fst sm)) ;; r <- f1 (fst (fst sm)) (fst d) (snd d) ;;
                              Ok (r, m')
                  | _ => UB
                  end) in_ [out] ((init, q), m).

(** transform_inclusive_scan, numeric.hpp 180-192: sum = f1(sum, f2(i)); o = sum. *)
Definition inclusive_scan_call {B} (in_ out : container) (init : T)
    (f1 : T -> B -> Q -> outcome (T * Q)) (f2 : T -> Q -> outcome (B * Q))
    (q : Q) (m : mem T) : outcome ((T * Q) * mem T) :=
  map_containers
    (fun ps sm => match ps with
                  | [i; o] => v <- load (snd sm) i ;;
                              d <- f2 v (snd (fst sm)) ;; r <- f1 (fst (fst sm)) (fst d) (snd d) ;;
                              put o (fst r) r (snd sm)
                  | _ => UB
                  end) in_ [out] ((init, q), m).

(** find_if, include/kwk/algorithm/algos/find.hpp 35-70; find_if_not 86-98. *)
Definition find_if_call (c : container) (f : T -> Q -> outcome (bool * Q)) (q : Q) (m : mem T)
  : outcome (option (list cint) * Q) :=
  r <- for_until (c_shape c)
    (fun is_ pq =>
       p <- ref m c is_ ;; v <- load m p ;; r <- f v (snd pq) ;;
       if fst r then Ok (true, (map (fun i => conv I32 (conv U64 i)) is_, snd r))
       else Ok (false, (fst pq, snd r)))
    ([], q) ;;
  Ok (if fst r then Some (fst (snd r)) else None, snd (snd r)).
Definition find_if_not_call (c : container) (f : T -> Q -> outcome (bool * Q)) (q : Q) (m : mem T)
  : outcome (option (list cint) * Q) :=
  find_if_call c (fun x q => r <- f x q ;; Ok (negb (fst r), snd r)) q m.

(** find_last_if, find.hpp 121-171; find_last_if_not 187-199. *)
Definition find_last_if_call (st : bool) (c : container) (f : T -> Q -> outcome (bool * Q)) (q : Q) (m : mem T)
  : outcome (option (list cint) * Q) :=
  rc <- reverse st c ;;
  ' (r, q') <- find_if_call rc f q m ;;
  match r with
  | None => Ok (None, q')
  | Some pos =>
      ps <- mapM (fun np => a <- csub (fst np) (int 1) ;; b <- csub a (snd np) ;; Ok (conv I32 b))
                 (combine (c_shape c) pos) ;;
      Ok (Some ps, q')
  end.
Definition find_last_if_not_call (st : bool) (c : container) (f : T -> Q -> outcome (bool * Q)) (q : Q) (m : mem T)
  : outcome (option (list cint) * Q) :=
  find_last_if_call st c (fun x q => r <- f x q ;; Ok (negb (fst r), snd r)) q m.

(** The loop of lower_bound and upper_bound, include/kwk/algorithm/algos/binary_search.hpp 40-55 and
    85-100, as in [bisect]. *)
Fixpoint bisect_call (dbg : bool) (cond : T -> Q -> outcome (bool * Q)) (c : container) (m : mem T)
    (fuel : nat) (count first it : cint) (q : Q) : outcome ((cint * cint) * Q) :=
  if clt (int 0) count then
    match fuel with
    | O => NoFuel
    | S fuel' =>
        step <- cdiv count (int 2) ;;
        it' <- cadd first step ;;
        pos <- coordinates dbg it' (c_shape c) ;;
        e <- get m c pos ;;
        r <- cond e q ;;
        if fst r then
          it'' <- cincr it' ;;
          s1 <- cadd step (int 1) ;; count' <- csub count s1 ;;
          bisect_call dbg cond c m fuel' count' it'' it'' (snd r)
        else bisect_call dbg cond c m fuel' step first it' (snd r)
    end
  else Ok ((first, it), q).

(** lower_bound 29-58, upper_bound 77-103, binary_search 123-139. *)
Definition lower_bound_call (dbg : bool) (func : T -> T -> Q -> outcome (bool * Q)) (c : container) (value : T)
    (q : Q) (m : mem T) : outcome (option (list cint) * Q) :=
  n <- c_numel c ;;
  if ceqb n (int 0) then Ok (None, q)
  else
    r <- bisect_call dbg (fun e => func e value) c m (bisect_fuel n) n (int 0) (int 0) q ;;
    p <- bound_result dbg c n (fst r) ;; Ok (p, snd r).
Definition upper_bound_call (dbg : bool) (func : T -> T -> Q -> outcome (bool * Q)) (c : container) (value : T)
    (q : Q) (m : mem T) : outcome (option (list cint) * Q) :=
  n <- c_numel c ;;
  r <- bisect_call dbg (fun e q => b <- func value e q ;; Ok (negb (fst b), snd b)) c m (bisect_fuel n) n
         (int 0) (int 0) q ;;
  p <- bound_result dbg c n (fst r) ;; Ok (p, snd r).
Definition binary_search_call (dbg : bool) (func : T -> T -> Q -> outcome (bool * Q)) (c : container) (value : T)
    (q : Q) (m : mem T) : outcome (bool * Q) :=
  first <- lower_bound_call dbg func c value q m ;;
  match fst first with
  | None => Ok (false, snd first)
  | Some pos => e <- get m c pos ;; b <- func value e (snd first) ;; Ok (negb (fst b), snd b)
  end.
End Calls.
