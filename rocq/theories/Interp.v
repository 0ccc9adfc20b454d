(** Interpolators, include/kwk/utility/container/interpolator.hpp. *)
From Coq Require Import ZArith QArith List Bool.
From Coq Require Import Floats.SpecFloat.
From Verif Require Import Outcome CInt Memory Container.
Import ListNotations.
Open Scope Z_scope.

(** The arithmetic of the coordinates, weights and results: one type N for all of them (in C++ the
    weights have the common type of float and of the coordinates, the result that of the weights and of
    the elements). [trunc]: the integral part, what a conversion to an integer type yields; none for NaN and
    infinities. *)
Record numbers := Numbers {
  N : Type;
  of_int : Z -> N;
  trunc : N -> option Z;
  nadd : N -> N -> N;
  nsub : N -> N -> N;
  nmul : N -> N -> N
}.

(** static_cast to an integer type: undefined if the integral part is not representable. *)
Definition to_int (R : numbers) (t : ity) (v : N R) : outcome Z :=
  match trunc R v with
  | Some z => if in_tyb t z then Ok z else UB
  | None => UB
  end.

(** One step of the fold of setup_linear_interpolation, lines 18-38. [coord]: the discrete coordinates of
    the neighbours, [coeff]: their weights, in the same order. mp+1 is computed in int. *)
Definition setup_step (R : numbers) (acc : list (list Z) * list (N R)) (v : N R)
  : outcome (list (list Z) * list (N R)) :=
  mp <- to_int R I32 v ;;
  np <- cadd (int mp) (int 1) ;;
  let b := nsub R v (of_int R mp) in
  let a := nsub R (of_int R 1) b in
  let '(coord, coeff) := acc in
  let cf0 := map (fun e => nmul R e a) coeff in
  let cf1 := map (fun e => nmul R e b) coeff in
  let cmp := map (fun e => e ++ [mp]) coord in
  let cnp := map (fun e => e ++ [cval np]) coord in
  Ok (cmp ++ cnp, cf0 ++ cf1).

(** setup_linear_interpolation, lines 14-42. *)
Definition setup_linear (R : numbers) (ps : list (N R)) : outcome (list (list Z) * list (N R)) :=
  kfold_right (setup_step R) ps ([[]], [of_int R 1]).

(** kumi::inner_product(a, b, init): the products are added to init from the first to the last. *)
Fixpoint inner (R : numbers) (init : N R) (a b : list (N R)) : N R :=
  match a, b with
  | x :: a, y :: b => inner R (nadd R init (nmul R x y)) a b
  | _, _ => init
  end.

(** linear_::interpolate, lines 44-61. [cv]: conversion of the elements to the type of the result. *)
Definition linear_interpolate {T} (R : numbers) (cv : T -> N R) (m : mem T) (c : container) (ps : list (N R))
  : outcome (N R) :=
  ' (coord, coeff) <- setup_linear R ps ;;
  pos <- mapM (fun v => get m c (map int v)) coord ;;
  match map cv pos, coeff with
  | x :: xs, w :: ws => Ok (inner R (nmul R x w) xs ws)
  | _, _ => UB
  end.

(** floor_::interpolate, lines 63-70. *)
Definition floor_interpolate {T} (R : numbers) (m : mem T) (c : container) (ps : list (N R)) : outcome T :=
  is_ <- mapM (to_int R I64) ps ;; get m c (map (CI I64) is_).

(** Exact arithmetic: rational numbers. Rounding is not modelled. *)
Definition rationals : numbers :=
  Numbers Q inject_Z (fun q => Some (Z.quot (Qnum q) (Zpos (Qden q)))) Qplus Qminus Qmult.

(** IEEE 754 arithmetic, rounding to nearest even: the specification floats of the standard library. *)
Definition sf_trunc (x : spec_float) : option Z :=
  match x with
  | S754_zero _ => Some 0
  | S754_finite s m e =>
      let z := match e with Z0 => Zpos m | Zpos _ => Zpos m * 2 ^ e | Zneg _ => Zpos m / 2 ^ (- e) end in
      Some (if s then - z else z)
  | _ => None
  end.
Definition ieee (prec emax : Z) : numbers :=
  Numbers spec_float (fun z => binary_normalize prec emax z 0 false) sf_trunc
    (SFadd prec emax) (SFsub prec emax) (SFmul prec emax).
Definition binary32 : numbers := ieee 24 128.
Definition binary64 : numbers := ieee 53 1024.
