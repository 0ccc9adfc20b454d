(** Sums, products and scans of integers, with the types of the elements and of the accumulator. *)
From Coq Require Import ZArith List Bool.
From Verif Require Import Outcome CInt Shape Memory Container ForEach Algo.
Import ListNotations.
Open Scope Z_scope.

(** init = f(init, e) with f = [](auto a, auto e) { return a+e; }, include/kwk/algorithm/algos/reduce.hpp
    33 and 58: the sum has the common type, the assignment converts it to the type of init. *)
Definition add_to (init e : cint) : outcome cint := s <- cadd init e ;; Ok (conv (cty init) s).

(** reduce(in, f, init), reduce.hpp 29-42, for a callable that may be undefined; with the sum of 55-66. *)
Definition reduce_by {T A} (in_ : container) (f : A -> T -> outcome A) (init : A) (m : mem T)
  : outcome (A * mem T) :=
  map_containers
    (fun ps sm => match ps with
                  | [i] => v <- load (snd sm) i ;; a <- f (fst sm) v ;; Ok (a, snd sm)
                  | _ => UB
                  end) in_ [] (init, m).
Definition sum_from (in_ : container) (init : cint) (m : mem cint) : outcome (cint * mem cint) :=
  reduce_by in_ add_to init m.
(** reduce(in), 44-66: init is a zero of the element type [et]. *)
Definition sum (et : ity) (in_ : container) (m : mem cint) : outcome (cint * mem cint) :=
  sum_from in_ (CI et 0) m.

(** transform_reduce(in1, in2, init), include/kwk/algorithm/algos/numeric.hpp 28-66:
    init = init + (i1 * i2). *)
Definition dot_from (in1 in2 : container) (init : cint) (m : mem cint) : outcome (cint * mem cint) :=
  map_containers
    (fun ps sm => match ps with
                  | [i1; i2] => v1 <- load (snd sm) i1 ;; v2 <- load (snd sm) i2 ;;
                                p <- cmul v1 v2 ;; a <- add_to (fst sm) p ;; Ok (a, snd sm)
                  | _ => UB
                  end) in1 [in2] (init, m).
(** transform_reduce(in1, in2), 68-88: init is a zero of type decltype(t1{} + t1{} * t2{}). *)
Definition dot_type (t1 t2 : ity) : ity := common t1 (common t1 t2).
Definition dot (t1 t2 : ity) (in1 in2 : container) (m : mem cint) : outcome (cint * mem cint) :=
  dot_from in1 in2 (CI (dot_type t1 t2) 0) m.
(** inner_product, 90-139: the same after the assertion on the shapes. *)
Definition inner_from (dbg : bool) (in1 in2 : container) (init : cint) (m : mem cint)
  : outcome (cint * mem cint) :=
  _ <- kassert dbg (shape_eq (c_shape in1) (c_shape in2)) ;; dot_from in1 in2 init m.
Definition inner (dbg : bool) (t1 t2 : ity) (in1 in2 : container) (m : mem cint)
  : outcome (cint * mem cint) :=
  inner_from dbg in1 in2 (CI (dot_type t1 t2) 0) m.

(** exclusive_scan(in, out, init), numeric.hpp 141-177: o = sum; sum = sum + i, with elements of type [ot]
    in out. *)
Definition exclusive_sums (ot : ity) (in_ out : container) (init : cint) (m : mem cint) : outcome (mem cint) :=
  r <- map_containers
    (fun ps sm => match ps with
                  | [i; o] => m' <- store (snd sm) o (conv ot (fst sm)) ;; v <- load m' i ;;
                              a <- add_to (fst sm) v ;; Ok (a, m')
                  | _ => UB
                  end) in_ [out] (init, m) ;;
  Ok (snd r).
(** inclusive_scan(in, out, init), numeric.hpp 179-216: sum = sum + i; o = sum. *)
Definition inclusive_sums (ot : ity) (in_ out : container) (init : cint) (m : mem cint) : outcome (mem cint) :=
  r <- map_containers
    (fun ps sm => match ps with
                  | [i; o] => v <- load (snd sm) i ;; a <- add_to (fst sm) v ;;
                              m' <- store (snd sm) o (conv ot a) ;; Ok (a, m')
                  | _ => UB
                  end) in_ [out] (init, m) ;;
  Ok (snd r).

(** replace(out, old_value, new_value), include/kwk/algorithm/algos/replace.hpp 16-38, on elements of type [et]:
    the assignment converts. *)
Definition replace_int (et : ity) (out : container) (old_value new_value : cint) (m : mem cint)
  : outcome (mem cint) :=
  replace ceqb out old_value (conv et new_value) m.
(** copy(out, in), copy.hpp 21-31, to elements of type [et]. *)
Definition copy_int (et : ity) (out in_ : container) (m : mem cint) : outcome (mem cint) :=
  transform (fun vs => match vs with v :: _ => conv et v | [] => CI et 0 end) out in_ [] m.
