(** Elements and values of type bool: CInt.v and Convert.v have the other arithmetic types. *)
From Coq Require Import ZArith List Bool.
From Coq Require Import Floats.SpecFloat.
From Verif Require Import Outcome CInt Shape Memory Container Source ForEach Algo Sums Interp Mixed Convert FloatSums FloatCompare.
Import ListNotations.
Open Scope Z_scope.

(** Types and values with their type. *)
Inductive stype := TBool | TArith (t : atype).
Inductive scalar := SBool (b : bool) | SNum (t : atype) (n : number).
Definition type_of (v : scalar) : stype := match v with SBool _ => TBool | SNum t _ => TArith t end.
Definition szero (t : stype) : scalar :=
  match t with
  | TBool => SBool false
  | TArith (AInt i) => SNum (AInt i) (NInt 0)
  | TArith (AFloat f) => SNum (AFloat f) (NFloat (S754_zero false))
  end.
Definition SI (c : cint) : scalar := SNum (AInt (cty c)) (NInt (cval c)).

(** bool takes part in computations as an int 0 or 1 ([conv.prom]). *)
Definition number_of (v : scalar) : number := match v with SBool b => NInt (Z.b2z b) | SNum _ n => n end.
Definition atype_of (v : scalar) : atype := match v with SBool _ => AInt I32 | SNum t _ => t end.
(** Simplified: the sums below are those of bool and integers; floating-point numbers (C84) next to bool are UB here. *)
Definition promoted (v : scalar) : outcome cint :=
  match v with
  | SBool b => Ok (int (Z.b2z b))
  | SNum (AInt t) (NInt z) => Ok (CI t z)
  | SNum _ _ => UB
  end.

(** Conversion to bool ([conv.bool]): zeros of all types are false, everything else (NaN too) is true. Conversion from bool
    as from the int. *)
Definition truth (v : scalar) : bool :=
  match number_of v with
  | NInt z => negb (z =? 0)
  | NFloat (S754_zero _) => false
  | NFloat _ => true
  end.
Definition sconvert (t : stype) (v : scalar) : outcome scalar :=
  match t with
  | TBool => Ok (SBool (truth v))
  | TArith a => w <- convert a (number_of v) ;; Ok (SNum a w)
  end.

(** a == b, as in FloatCompare.v after the promotion. *)
Definition sequal (a b : scalar) : bool := equal_number (atype_of a) (atype_of b) (number_of a) (number_of b).

(** init = init + e, include/kwk/algorithm/algos/reduce.hpp 33 and 58. *)
Definition sadd_to (init e : scalar) : outcome scalar :=
  x <- promoted init ;; y <- promoted e ;; s <- cadd x y ;; sconvert (type_of init) (SI s).

(** reduce(in, +, init) and reduce(in), reduce.hpp 29-66: without init a zero of the type [et] of the elements. *)
Definition ssum_from (in_ : container) (init : scalar) (m : mem scalar) : outcome (scalar * mem scalar) :=
  reduce_by in_ sadd_to init m.
Definition ssum (et : stype) (in_ : container) (m : mem scalar) : outcome (scalar * mem scalar) :=
  ssum_from in_ (szero et) m.

(** transform_reduce(in1, in2, init), numeric.hpp 28-66: init = init + (i1 * i2). *)
Definition sdot_from (in1 in2 : container) (init : scalar) (m : mem scalar) : outcome (scalar * mem scalar) :=
  map_containers
    (fun ps sm => match ps with
                  | [i1; i2] => v1 <- load (snd sm) i1 ;; v2 <- load (snd sm) i2 ;;
                                x <- promoted v1 ;; y <- promoted v2 ;; p <- cmul x y ;;
                                a <- sadd_to (fst sm) (SI p) ;; Ok (a, snd sm)
                  | _ => UB
                  end) in1 [in2] (init, m).
(** transform_reduce(in1, in2), 68-88, with elements of type bool on both sides: decltype(t1{} + t1{} * t2{}) is int. *)
Definition bool_dot (in1 in2 : container) (m : mem scalar) : outcome (scalar * mem scalar) :=
  sdot_from in1 in2 (szero (TArith (AInt I32))) m.
(** inner_product, 90-139: the same after the assertion on the shapes. *)
Definition sinner_from (dbg : bool) (in1 in2 : container) (init : scalar) (m : mem scalar) : outcome (scalar * mem scalar) :=
  _ <- kassert dbg (shape_eq (c_shape in1) (c_shape in2)) ;; sdot_from in1 in2 init m.
Definition bool_inner (dbg : bool) (in1 in2 : container) (m : mem scalar) : outcome (scalar * mem scalar) :=
  sinner_from dbg in1 in2 (szero (TArith (AInt I32))) m.

(** o = v with an element of type [et]. *)
Definition sput (et : stype) (m : mem scalar) (o : ptr) (v : scalar) : outcome (mem scalar) :=
  w <- sconvert et v ;; store m o w.
(** exclusive_scan and inclusive_scan, numeric.hpp 141-216. *)
Definition sexclusive (ot : stype) (in_ out : container) (init : scalar) (m : mem scalar) : outcome (mem scalar) :=
  r <- map_containers
    (fun ps sm => match ps with
                  | [i; o] => m' <- sput ot (snd sm) o (fst sm) ;; v <- load m' i ;;
                              a <- sadd_to (fst sm) v ;; Ok (a, m')
                  | _ => UB
                  end) in_ [out] (init, m) ;;
  Ok (snd r).
Definition sinclusive (ot : stype) (in_ out : container) (init : scalar) (m : mem scalar) : outcome (mem scalar) :=
  r <- map_containers
    (fun ps sm => match ps with
                  | [i; o] => v <- load (snd sm) i ;; a <- sadd_to (fst sm) v ;;
                              m' <- sput ot (snd sm) o a ;; Ok (a, m')
                  | _ => UB
                  end) in_ [out] (init, m) ;;
  Ok (snd r).

(** value++, generator.hpp 51: of an integer ([cincr]); there is none of a bool (removed in C++17). Simplified: floating-point
    values (C92) are UB here. *)
Definition sincr (v : scalar) : outcome scalar :=
  match v with SNum (AInt t) (NInt z) => c <- cincr (CI t z) ;; Ok (SI c) | _ => UB end.
(** iota(out, value), generator.hpp 46-56: does not compile for a bool, on whatever container. iota(out), 59-70. *)
Definition siota (et : stype) (out : container) (value : scalar) (m : mem scalar) : outcome (mem scalar) :=
  match value with
  | SBool _ => UB
  | SNum _ _ =>
      r <- map_containers
        (fun ps sm => match ps with
                      | [o] => m' <- sput et (snd sm) o (fst sm) ;; v' <- sincr (fst sm) ;; Ok (v', m')
                      | _ => UB
                      end) out [] (value, m) ;;
      Ok (snd r)
  end.
Definition siota_default (et : stype) (out : container) (m : mem scalar) : outcome (mem scalar) := siota et out (szero et) m.
(** iota(out, value, step), 73-87: o = value; value += step. *)
Definition siota_step (et : stype) (out : container) (value step : scalar) (m : mem scalar) : outcome (mem scalar) :=
  r <- map_containers
    (fun ps sm => match ps with
                  | [o] => m' <- sput et (snd sm) o (fst sm) ;; v' <- sadd_to (fst sm) step ;; Ok (v', m')
                  | _ => UB
                  end) out [] (value, m) ;;
  Ok (snd r).

(** The assignments of Assign.v with elements of type [et]: transform (transform.hpp 16-32), copy and copy_if (copy.hpp
    21-45), fill and generate (generator.hpp 19-43), replace_if and replace (replace.hpp 16-38). *)
Definition sassign (et : stype) (o : ptr) (v : scalar) (sm : unit * mem scalar) : outcome (unit * mem scalar) :=
  w <- sconvert et v ;; assign o w sm.
Definition stransform (et : stype) (f : list scalar -> scalar) (out c0 : container) (cs : list container) (m : mem scalar)
  : outcome (mem scalar) :=
  run_map (map_containers
    (fun ps sm => match ps with
                  | o :: ins => vs <- mapM (load (snd sm)) ins ;; sassign et o (f vs) sm
                  | [] => UB
                  end) out (c0 :: cs) (tt, m)).
Definition scopy (et : stype) (out in_ : container) (m : mem scalar) : outcome (mem scalar) :=
  stransform et (fun vs => hd (SBool false) vs) out in_ [] m.
Definition scopy_if (et : stype) (f : scalar -> bool) (out in_ : container) (m : mem scalar) : outcome (mem scalar) :=
  run_map (map_containers
    (fun ps sm => match ps with
                  | [o; i] => v <- load (snd sm) i ;; if f v then sassign et o v sm else Ok sm
                  | _ => UB
                  end) out [in_] (tt, m)).
Definition sfill (et : stype) (out : container) (v : scalar) (m : mem scalar) : outcome (mem scalar) :=
  run_map (map_containers (fun ps sm => match ps with [o] => sassign et o v sm | _ => UB end) out [] (tt, m)).
Definition sgenerate (et : stype) (f : list cint -> scalar) (out : container) (m : mem scalar) : outcome (mem scalar) :=
  run_map (map_index (fun o is_ sm => sassign et o (f is_) sm) out (tt, m)).
Definition sreplace_if (et : stype) (out : container) (f : scalar -> bool) (new_value : scalar) (m : mem scalar)
  : outcome (mem scalar) :=
  run_map (map_containers
    (fun ps sm => match ps with
                  | [o] => v <- load (snd sm) o ;; if f v then sassign et o new_value sm else Ok sm
                  | _ => UB
                  end) out [] (tt, m)).
Definition sreplace (et : stype) (out : container) (old_value new_value : scalar) (m : mem scalar) : outcome (mem scalar) :=
  sreplace_if et out (fun e => sequal e old_value) new_value m.

(** count, predicates.hpp 63-73, and find, find.hpp 72-84: e == value. *)
Definition scount (in_ : container) (value : scalar) (m : mem scalar) := count sequal in_ value m.
Definition sfind (c : container) (value : scalar) (m : mem scalar) := find sequal c value m.

(** table{source = s, as<T>}, as [table_as] of Convert.v. *)
Fixpoint scopy_block (to : stype) (m : mem scalar) (src dst : ptr) (n : nat) : outcome (mem scalar) :=
  match n with
  | O => Ok m
  | S n' =>
      v <- load m src ;; m' <- sput to m dst v ;; scopy_block to m' (padd src 1) (padd dst 1) n'
  end.
Definition stable_as (to : stype) (m : mem scalar) (dbg : bool) (given : option (bool * shape)) (s : source)
  : outcome (mem scalar * container) :=
  ' (st, sh) <- pick_size dbg given s ;;
  n <- numel sh ;;
  let '(m1, data) := if cval n =? 0 then (m, Null) else alloc m (cval n) in
  m2 <- scopy_block to m1 (storage s) data (Z.to_nat (cval n)) ;;
  ' (k, sd) <- make_accessor st st sh None ;;
  Ok (m2, Cn k sh sd data).
