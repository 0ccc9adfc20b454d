(** Vocabulary for rounding errors. *)
From Coq Require Import ZArith QArith.
Open Scope Q_scope.

(** Rounding to nearest changes a number by at most one part in 2^prec, or by half the smallest positive
    number of the format. *)
Definition unit_roundoff (prec : Z) : Q := 2 ^ (- prec).
Definition half_smallest (prec emax : Z) : Q := 2 ^ (2 - emax - prec).

(** k roundings one after the other. *)
Definition growth (prec : Z) (k : Z) : Q := (1 + unit_roundoff prec) ^ k.

(** Interpolation on n axes of elements of absolute value at most v: a number of roundings (two per axis, one
    per neighbour), a relative error, and an absolute error due to underflow. *)
Definition roundings (n : nat) : Z := (2 * Z.of_nat n + 2 ^ Z.of_nat n)%Z.
Definition underflow (prec emax : Z) (n : nat) (v : Q) : Q :=
  inject_Z (2 ^ Z.of_nat n) * (inject_Z (Z.of_nat n) * v + 1) * half_smallest prec emax.
Definition largest (prec emax : Z) (n : nat) (v : Q) : Q :=
  growth prec (roundings n) * (v + underflow prec emax n v).
Definition linear_error (prec emax : Z) (n : nat) (v : Q) : Q :=
  (growth prec (roundings n) - 1) * v + growth prec (roundings n) * underflow prec emax n v.
