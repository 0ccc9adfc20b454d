(** Vocabulary for sums of numbers of any arithmetic type. *)
From Coq Require Import ZArith QArith Qabs List.
From Coq Require Import Floats.SpecFloat.
From Verif Require Import CInt IeeeSpec RoundSpec Mixed Convert ConvertSpec.
Import ListNotations.
Open Scope Q_scope.

(** Finite values of a type and the numbers they stand for. *)
Definition stand_for (t : atype) (vs : list number) (qs : list Q) : Prop :=
  Forall2 (fun v q => value_of_type t v /\ number_value v = Some q) vs qs.

Fixpoint sum_of (qs : list Q) : Q := match qs with [] => 0 | q :: qs' => q + sum_of qs' end.
(** The sum of the absolute values. *)
Definition size_of (qs : list Q) : Q := sum_of (map Qabs qs).
Definition products (xs ys : list Q) : list Q := map (fun p => fst p * snd p) (combine xs ys).

(** An accumulator of type [f] takes elements of type [te] as they are: floating-point types that are not more
    precise than [f]. *)
Definition takes_as_is (f : ftype) (te : atype) : bool :=
  match te with AFloat g => (f_prec g <=? f_prec f)%Z | AInt _ => false end.
(** A floating-point type more precise than [f]. *)
Definition wider_than (f : ftype) (te : atype) : bool :=
  match te with AFloat g => (f_prec f <? f_prec g)%Z | AInt _ => false end.

(** The growth of n additions: one rounding each, or two. *)
Definition sum_growth (f : ftype) (te : atype) (n : nat) : Q :=
  growth (f_prec f) (Z.of_nat (if takes_as_is f te then n else 2 * n)).
(** What n additions may lose at the small end of the numbers of type [f]. *)
Definition sum_loss (f : ftype) (te : atype) (n : nat) : Q :=
  if wider_than f te then inject_Z (Z.of_nat n) * half_smallest (f_prec f) (f_emax f) else 0.
(** The error of a sum of n elements, [s] being the sum of the absolute values, and a bound of its absolute
    value. *)
Definition sum_error (f : ftype) (te : atype) (n : nat) (s : Q) : Q :=
  (sum_growth f te n - 1) * s + sum_growth f te n * sum_loss f te n.
Definition sum_limit (f : ftype) (te : atype) (n : nat) (s : Q) : Q :=
  sum_growth f te n * (s + sum_loss f te n).

(** The same for an inner product: products in type [h], sums in type [f]. *)
Definition dot_growth (f h : ftype) (n : nat) : Q :=
  sum_growth f (AFloat h) n * (1 + unit_roundoff (f_prec h)).
Definition dot_loss (f h : ftype) (n : nat) : Q :=
  inject_Z (Z.of_nat n) * half_smallest (f_prec h) (f_emax h) + sum_loss f (AFloat h) n.
Definition dot_error (f h : ftype) (n : nat) (s : Q) : Q :=
  (dot_growth f h n - 1) * s + sum_growth f (AFloat h) n * dot_loss f h n.
Definition dot_limit (f h : ftype) (n : nat) (s : Q) : Q :=
  dot_growth f h n * s + sum_growth f (AFloat h) n * dot_loss f h n.

(** Within [e] of [q]. *)
Definition within (e q p : Q) : Prop := Qabs (p - q) <= e.

(** Whatever is within the error of a partial sum can be converted to type [ot]. *)
Definition sums_convertible (f : ftype) (te ot : atype) (qa : Q) (qs : list Q) : Prop :=
  forall k x p, (k <= length qs)%nat -> finite_number (f_prec f) (f_emax f) x -> float_value x = Some p ->
    within (sum_error f te k (Qabs qa + size_of (firstn k qs))) (qa + sum_of (firstn k qs)) p ->
    convertible ot (NFloat x).

(** Multiples of 2^e. *)
Definition multiples (e : Z) (qs : list Q) (zs : list Z) : Prop := Forall2 (fun q z => q == inject_Z z * 2 ^ e) qs zs.
(** Every partial sum of [z] and [zs] is below 2^p in absolute value, and every element of [zs]. *)
Definition sums_below (p z : Z) (zs : list Z) : Prop :=
  Forall (fun y => (Z.abs y < 2 ^ p)%Z) zs /\ forall k, (Z.abs (z + fold_right Z.add 0 (firstn k zs)) < 2 ^ p)%Z.
(** The numbers z*2^e with |z| < 2^precision are numbers of type [f]. *)
Definition exponent_of (f : ftype) (e : Z) : Prop := (3 - f_emax f - f_prec f <= e <= f_emax f - f_prec f)%Z.
