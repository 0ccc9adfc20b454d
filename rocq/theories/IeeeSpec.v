(** Vocabulary for floating-point interpolation. *)
From Coq Require Import ZArith QArith List Bool.
From Coq Require Import Floats.SpecFloat.
Import ListNotations.
Open Scope Z_scope.

(** A number of the format: not an infinity nor NaN. *)
Definition finite_number (prec emax : Z) (x : spec_float) : Prop :=
  valid_binary prec emax x = true /\
  match x with S754_zero _ | S754_finite _ _ _ => True | _ => False end.

(** The same number: equal, except perhaps for the sign of zero. *)
Definition same_number (x y : spec_float) : Prop :=
  match x, y with S754_zero _, S754_zero _ => True | _, _ => x = y end.

(** The elements around a grid point: each coordinate, or the next one. *)
Definition corner (is_ js : list Z) : Prop := Forall2 (fun i j => j = i \/ j = i + 1) is_ js.

(** The number a float stands for. *)
Definition float_value (x : spec_float) : option Q :=
  match x with
  | S754_zero _ => Some 0%Q
  | S754_finite s m e =>
      let z := if s then Zneg m else Zpos m in
      Some (match e with Zneg k => Qmake z (2 ^ k) | _ => inject_Z (z * 2 ^ e) end)
  | _ => None
  end.
