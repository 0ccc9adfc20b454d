(** Algorithms over containers, as programs on memory. Elements of all containers have one abstract type
    [T]; the callables given to the algorithms are total functions on values unless said otherwise. *)
From Coq Require Import ZArith List Bool.
From Verif Require Import Outcome CInt Shape Memory Container ForEach.
Import ListNotations.
Open Scope Z_scope.

(** cpu_context::map on containers, include/kwk/context/cpu/context.hpp 24-29: for every coordinate of the
    first container, f(c0(is...), cs(is...)...). The state [S] stands for what the callable captures by
    reference. *)
Definition map_containers {T S} (f : list ptr -> S * mem T -> outcome (S * mem T))
    (c0 : container) (cs : list container) (sm : S * mem T) : outcome (S * mem T) :=
  for_each (c_shape c0)
    (fun is_ sm => ps <- mapM (fun c => ref (snd sm) c is_) (c0 :: cs) ;; f ps sm) sm.

(** cpu_context::map_index, context.hpp 31-36: f(c(is...), is...). *)
Definition map_index {T S} (f : ptr -> list cint -> S * mem T -> outcome (S * mem T))
    (c : container) (sm : S * mem T) : outcome (S * mem T) :=
  for_each (c_shape c) (fun is_ sm => p <- ref (snd sm) c is_ ;; f p is_ sm) sm.

(** for_each(f, c0, cs...), include/kwk/algorithm/algos/for_each.hpp 55-85. *)
Definition for_each_containers {T S} (f : list ptr -> S * mem T -> outcome (S * mem T))
    (c0 : container) (cs : list container) (sm : S * mem T) : outcome (S * mem T) :=
  for_each (c_shape c0)
    (fun is_ sm => ps <- mapM (fun c => ref (snd sm) c is_) (c0 :: cs) ;; f ps sm) sm.

(** for_each_index(f, c), for_each.hpp 104-118. *)
Definition for_each_index {T S} (f : ptr -> list cint -> S * mem T -> outcome (S * mem T))
    (c : container) (sm : S * mem T) : outcome (S * mem T) :=
  for_each (c_shape c) (fun is_ sm => p <- ref (snd sm) c is_ ;; f p is_ sm) sm.

(** [o = v] for a callable without captured state. *)
Definition assign {T} (o : ptr) (v : T) (sm : unit * mem T) : outcome (unit * mem T) :=
  m <- store (snd sm) o v ;; Ok (tt, m).

(** Memory after an algorithm without result. *)
Definition run_map {T} (r : outcome (unit * mem T)) : outcome (mem T) :=
  sm <- r ;; Ok (snd sm).

(** transform(f, out, c0, cs...), include/kwk/algorithm/algos/transform.hpp 16-32: o = f(i0, in...). *)
Definition transform {T} (f : list T -> T) (out c0 : container) (cs : list container) (m : mem T)
  : outcome (mem T) :=
  run_map (map_containers
    (fun ps sm => match ps with
                  | o :: ins => vs <- mapM (load (snd sm)) ins ;; assign o (f vs) sm
                  | [] => UB
                  end) out (c0 :: cs) (tt, m)).

(** copy(out, in), include/kwk/algorithm/algos/copy.hpp 21-31. *)
Definition copy {T} (out in_ : container) (m : mem T) : outcome (mem T) :=
  run_map (map_containers
    (fun ps sm => match ps with
                  | [o; i] => v <- load (snd sm) i ;; assign o v sm
                  | _ => UB
                  end) out [in_] (tt, m)).

(** copy_if(f, out, in), copy.hpp 34-45: if(f(i)) o = i. *)
Definition copy_if {T} (f : T -> bool) (out in_ : container) (m : mem T) : outcome (mem T) :=
  run_map (map_containers
    (fun ps sm => match ps with
                  | [o; i] => v <- load (snd sm) i ;; if f v then assign o v sm else Ok sm
                  | _ => UB
                  end) out [in_] (tt, m)).

(** fill(out, value), include/kwk/algorithm/algos/generator.hpp 19-29. *)
Definition fill {T} (out : container) (v : T) (m : mem T) : outcome (mem T) :=
  run_map (map_containers
    (fun ps sm => match ps with [o] => assign o v sm | _ => UB end) out [] (tt, m)).

(** generate(f, out), generator.hpp 32-43: o = f(is...). *)
Definition generate {T} (f : list cint -> T) (out : container) (m : mem T) : outcome (mem T) :=
  run_map (map_index (fun o is_ sm => assign o (f is_) sm) out (tt, m)).

(** iota, generator.hpp 46-87, on integers: [et] is the element type of the container, the type of the
    running value is the one of the argument. Without step: o = value++ (46-56); the default value is a
    zero of the element type (59-70); with a step: o = value; value += step (73-87). *)
Definition iota {et : ity} (out : container) (value : cint) (m : mem cint) : outcome (mem cint) :=
  r <- map_containers
    (fun ps sm => match ps with
                  | [o] => m' <- store (snd sm) o (conv et (fst sm)) ;;
                           v' <- cincr (fst sm) ;; Ok (v', m')
                  | _ => UB
                  end) out [] (value, m) ;;
  Ok (snd r).
Definition iota_default {et : ity} (out : container) (m : mem cint) : outcome (mem cint) :=
  @iota et out (CI et 0) m.
Definition iota_step {et : ity} (out : container) (value step : cint) (m : mem cint)
  : outcome (mem cint) :=
  r <- map_containers
    (fun ps sm => match ps with
                  | [o] => m' <- store (snd sm) o (conv et (fst sm)) ;;
                           s <- cadd (fst sm) step ;; Ok (conv (cty (fst sm)) s, m')
                  | _ => UB
                  end) out [] (value, m) ;;
  Ok (snd r).

(** replace_if(out, f, new_value) and replace(out, old_value, new_value),
    include/kwk/algorithm/algos/replace.hpp 16-38; [eqb] is operator== on the elements. *)
Definition replace_if {T} (out : container) (f : T -> bool) (new_value : T) (m : mem T)
  : outcome (mem T) :=
  run_map (map_containers
    (fun ps sm => match ps with
                  | [o] => v <- load (snd sm) o ;; if f v then assign o new_value sm else Ok sm
                  | _ => UB
                  end) out [] (tt, m)).
Definition replace {T} (eqb : T -> T -> bool) (out : container) (old_value new_value : T) (m : mem T)
  : outcome (mem T) :=
  replace_if out (fun x => eqb x old_value) new_value m.

(** reduce(in, f, init), include/kwk/algorithm/algos/reduce.hpp 29-66: init = f(init, i). This and the
    following algorithms give their result together with the memory after the loop. *)
Definition reduce {T A} (in_ : container) (f : A -> T -> A) (init : A) (m : mem T) : outcome (A * mem T) :=
  map_containers
    (fun ps sm => match ps with
                  | [i] => v <- load (snd sm) i ;; Ok (f (fst sm) v, snd sm)
                  | _ => UB
                  end) in_ [] (init, m).

(** all_of, any_of, none_of, include/kwk/algorithm/algos/predicates.hpp 27-61. *)
Definition all_of {T} (in_ : container) (f : T -> bool) (m : mem T) : outcome (bool * mem T) :=
  reduce in_ (fun a e => a && f e) true m.
Definition any_of {T} (in_ : container) (f : T -> bool) (m : mem T) : outcome (bool * mem T) :=
  reduce in_ (fun a e => a || f e) false m.
Definition none_of {T} (in_ : container) (f : T -> bool) (m : mem T) : outcome (bool * mem T) :=
  bm <- any_of in_ f m ;; Ok (negb (fst bm), snd bm).

(** std::size_t + int: unsigned arithmetic modulo 2^64. *)
Definition size_add (a : Z) (b : bool) : Z := (a + (if b then 1 else 0)) mod (2 ^ 64).

(** count, count_if, predicates.hpp 63-85: a + (f(e) ? 1 : 0) from std::size_t{}. *)
Definition count_if {T} (in_ : container) (f : T -> bool) (m : mem T) : outcome (Z * mem T) :=
  reduce in_ (fun a e => size_add a (f e)) 0 m.
Definition count {T} (eqb : T -> T -> bool) (in_ : container) (value : T) (m : mem T)
  : outcome (Z * mem T) :=
  reduce in_ (fun a e => size_add a (eqb e value)) 0 m.

(** transform_reduce(in1, in2, init, R, T), include/kwk/algorithm/algos/numeric.hpp 28-39:
    init = R(init, T(i1,i2)) over the coordinates of in1; no check of the shapes. *)
Definition transform_reduce {T A B} (in1 in2 : container) (init : A) (R : A -> B -> A) (f : T -> T -> B)
    (m : mem T) : outcome (A * mem T) :=
  map_containers
    (fun ps sm => match ps with
                  | [i1; i2] => v1 <- load (snd sm) i1 ;; v2 <- load (snd sm) i2 ;;
                                Ok (R (fst sm) (f v1 v2), snd sm)
                  | _ => UB
                  end) in1 [in2] (init, m).

(** inner_product(in1, in2, init, f1, f2), numeric.hpp 91-107: the same after asserting that the shapes
    are equal. *)
Definition inner_product {T A B} (dbg : bool) (in1 in2 : container) (init : A)
    (f1 : A -> B -> A) (f2 : T -> T -> B) (m : mem T) : outcome (A * mem T) :=
  _ <- kassert dbg (shape_eq (c_shape in1) (c_shape in2)) ;;
  map_containers
    (fun ps sm => match ps with
                  | [i1; i2] => v1 <- load (snd sm) i1 ;; v2 <- load (snd sm) i2 ;;
                                Ok (f1 (fst sm) (f2 v1 v2), snd sm)
                  | _ => UB
                  end) in1 [in2] (init, m).

(** transform_exclusive_scan, numeric.hpp 142-153: o = sum; sum = f1(sum, f2(i)), where i and o are
    references: i is read after o is written. exclusive_scan (155-177) is the case f2 = identity. *)
Definition transform_exclusive_scan {T B} (in_ out : container) (init : T)
    (f1 : T -> B -> T) (f2 : T -> B) (m : mem T) : outcome (mem T) :=
  r <- map_containers
    (fun ps sm => match ps with
                  | [i; o] => m' <- store (snd sm) o (fst sm) ;; v <- load m' i ;;
                              Ok (f1 (fst sm) (f2 v), m')
                  | _ => UB
                  end) in_ [out] (init, m) ;;
  Ok (snd r).
Definition exclusive_scan {T} (in_ out : container) (init : T) (f : T -> T -> T) (m : mem T) :=
  transform_exclusive_scan in_ out init f (fun e => e) m.

(** transform_inclusive_scan, numeric.hpp 180-192: sum = f1(sum, f2(i)); o = sum. inclusive_scan
    (194-216) is the case f2 = identity. *)
Definition transform_inclusive_scan {T B} (in_ out : container) (init : T)
    (f1 : T -> B -> T) (f2 : T -> B) (m : mem T) : outcome (mem T) :=
  r <- map_containers
    (fun ps sm => match ps with
                  | [i; o] => v <- load (snd sm) i ;; let sum := f1 (fst sm) (f2 v) in
                              m' <- store (snd sm) o sum ;; Ok (sum, m')
                  | _ => UB
                  end) in_ [out] (init, m) ;;
  Ok (snd r).
Definition inclusive_scan {T} (in_ out : container) (init : T) (f : T -> T -> T) (m : mem T) :=
  transform_inclusive_scan in_ out init f (fun e => e) m.

(** find_if(c, f), include/kwk/algorithm/algos/find.hpp 35-70: for_until; the coordinates go through
    unsigned long to int (51-56, position.hpp 19). The result is std::nullopt ([None]) if no call
    answered true. *)
Definition find_if {T} (c : container) (f : T -> bool) (m : mem T)
  : outcome (option (list cint) * mem T) :=
  r <- for_until (c_shape c)
    (fun is_ pm =>
       p <- ref (snd pm) c is_ ;; v <- load (snd pm) p ;;
       if f v then Ok (true, (map (fun i => conv I32 (conv U64 i)) is_, snd pm)) else Ok (false, pm))
    ([], m) ;;
  Ok (if fst r then Some (fst (snd r)) else None, snd (snd r)).

(** find 72-84, find_if_not 86-98. *)
Definition find {T} (eqb : T -> T -> bool) (c : container) (value : T) (m : mem T) :=
  find_if c (fun e => eqb e value) m.
Definition find_if_not {T} (c : container) (f : T -> bool) (m : mem T) :=
  find_if c (fun x => negb (f x)) m.

(** find_first_of(out, in), find.hpp 100-117: the predicate runs any_of over the container of values. *)
Definition find_first_of {T} (eqb : T -> T -> bool) (c values : container) (m : mem T)
  : outcome (option (list cint) * mem T) :=
  r <- for_until (c_shape c)
    (fun is_ pm =>
       p <- ref (snd pm) c is_ ;; e <- load (snd pm) p ;;
       bm <- any_of values (fun x => eqb x e) (snd pm) ;;
       if fst bm then Ok (true, (map (fun i => conv I32 (conv U64 i)) is_, snd bm))
       else Ok (false, (fst pm, snd bm)))
    ([], m) ;;
  Ok (if fst r then Some (fst (snd r)) else None, snd (snd r)).

(** reverse(c), include/kwk/algorithm/views/reverse.hpp 13-21: strides -m, data + numel() - 1. [st]: the
    shape (hence also the strides of a default layout) is fully static. *)
Definition reverse (st : bool) (c : container) : outcome container :=
  s <- get_stride c ;; ns <- mapM cneg s ;;
  n <- numel (c_shape c) ;;
  make_view st st (c_shape c) (Some ns) (padd (padd (c_data c) (cval n)) (-1)).

(** find_last_if(out, f), find.hpp 121-171: find_if on the reversed view, then pos_i = extent_i - 1 - pos_i
    (converted to int). find_last 173-185, find_last_if_not 187-199. *)
Definition find_last_if {T} (st : bool) (c : container) (f : T -> bool) (m : mem T)
  : outcome (option (list cint) * mem T) :=
  rc <- reverse st c ;;
  ' (r, m') <- find_if rc f m ;;
  match r with
  | None => Ok (None, m')
  | Some pos =>
      ps <- mapM (fun np => a <- csub (fst np) (int 1) ;; b <- csub a (snd np) ;; Ok (conv I32 b))
                 (combine (c_shape c) pos) ;;
      Ok (Some ps, m')
  end.
Definition find_last {T} (eqb : T -> T -> bool) (st : bool) (c : container) (value : T) (m : mem T) :=
  find_last_if st c (fun e => eqb e value) m.
Definition find_last_if_not {T} (st : bool) (c : container) (f : T -> bool) (m : mem T) :=
  find_last_if st c (fun x => negb (f x)) m.
