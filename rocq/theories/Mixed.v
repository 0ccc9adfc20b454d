(** Linear interpolation with several floating-point types, include/kwk/utility/container/interpolator.hpp:
    Interp.v has one type for coordinates, weights and result. *)
From Coq Require Import ZArith List Bool.
From Coq Require Import Floats.SpecFloat.
From Verif Require Import Outcome CInt Memory Container Interp.
Import ListNotations.
Open Scope Z_scope.

(** float, double, long double (the 80-bit format of x86-64), ordered by their conversion rank. *)
Inductive ftype := Float | Double | Extended.
Definition f_prec (f : ftype) : Z := match f with Float => 24 | Double => 53 | Extended => 64 end.
Definition f_emax (f : ftype) : Z := match f with Float => 128 | Double => 1024 | Extended => 16384 end.
Definition arith_of (f : ftype) : numbers := ieee (f_prec f) (f_emax f).

(** Usual arithmetic conversions: the type of higher rank; the conversion rounds to nearest even (to a type of
    higher rank it is exact). *)
Definition common (f g : ftype) : ftype := if f_prec f <? f_prec g then g else f.
Definition to_ftype (f : ftype) (x : spec_float) : spec_float :=
  match x with
  | S754_finite s m e => binary_normalize (f_prec f) (f_emax f) (if s then Zneg m else Zpos m) e s
  | _ => x
  end.

(** e*a in setup_linear_interpolation (lines 30-31), for e of type [fw] and a of type [fp]. *)
Definition mul_in (f : ftype) (x y : spec_float) : spec_float :=
  SFmul (f_prec f) (f_emax f) (to_ftype f x) (to_ftype f y).

(** A coordinate: a number of a floating-point type, or an int. *)
Inductive coordinate := Real (f : ftype) (x : spec_float) | Whole (z : Z).

(** mp = static_cast<int>(v), b = v-mp and a = 1-b (lines 21-25): b and a have the type of v; for an int v
    they are the ints 0 and 1. [f]: the type of the weights multiplied by them, the common type of [fw] and of
    v (an int is converted to [fw]). *)
Definition coordinate_parts (fw : ftype) (p : coordinate) : outcome (Z * (ftype * spec_float * spec_float)) :=
  match p with
  | Real fp x =>
      let R := arith_of fp in
      mp <- to_int R I32 x ;;
      let b := nsub R x (of_int R mp) in
      Ok (mp, (common fw fp, nsub R (of_int R 1) b, b))
  | Whole z => Ok (z, (fw, of_int (arith_of fw) 1, of_int (arith_of fw) 0))
  end.

(** One step of the fold of setup_linear_interpolation, lines 18-38. *)
Definition mixed_step (acc : list (list Z) * (ftype * list spec_float)) (p : coordinate)
  : outcome (list (list Z) * (ftype * list spec_float)) :=
  let '(coord, (fw, coeff)) := acc in
  ' (mp, (f, a, b)) <- coordinate_parts fw p ;;
  np <- cadd (int mp) (int 1) ;;
  Ok (map (fun e => e ++ [mp]) coord ++ map (fun e => e ++ [cval np]) coord,
      (f, map (fun e => mul_in f e a) coeff ++ map (fun e => mul_in f e b) coeff)).

(** setup_linear_interpolation, lines 14-42: the first weight is 1.f. *)
Definition setup_mixed (ps : list coordinate) : outcome (list (list Z) * (ftype * list spec_float)) :=
  kfold_right mixed_step ps ([[]], (Float, [of_int (arith_of Float) 1])).

(** Type of the elements: a floating-point type or an integer type. *)
Inductive etype := Floats (f : ftype) | Ints.
(** Type of an element times a weight of type [fw], and conversion of an element to it. *)
Definition result_type (e : etype) (fw : ftype) : ftype := match e with Floats f => common f fw | Ints => fw end.

(** The weighted sum, line 59. *)
Fixpoint inner_mixed (f : ftype) (init : spec_float) (a b : list spec_float) : spec_float :=
  match a, b with
  | x :: a, y :: b => inner_mixed f (SFadd (f_prec f) (f_emax f) init (mul_in f x y)) a b
  | _, _ => init
  end.

(** linear_::interpolate, lines 44-61. [cv]: the value of an element as a number of the given type: a
    conversion, [to_ftype] from a floating-point type, [of_int] from an integer. The result has the type
    [fst]. *)
Definition linear_mixed {T} (e : etype) (cv : ftype -> T -> spec_float) (m : mem T) (c : container)
    (ps : list coordinate) : outcome (ftype * spec_float) :=
  ' (coord, (fw, coeff)) <- setup_mixed ps ;;
  pos <- mapM (fun v => get m c (map int v)) coord ;;
  let f := result_type e fw in
  match map (cv f) pos, coeff with
  | x :: xs, w :: ws => Ok (f, inner_mixed f (mul_in f x w) xs ws)
  | _, _ => UB
  end.

(** Elements of a floating-point type, and of an integer type. *)
Definition linear_floats (fe : ftype) : mem spec_float -> container -> list coordinate -> outcome (ftype * spec_float) :=
  linear_mixed (Floats fe) to_ftype.
Definition linear_ints : mem Z -> container -> list coordinate -> outcome (ftype * spec_float) :=
  linear_mixed Ints (fun f => of_int (arith_of f)).
