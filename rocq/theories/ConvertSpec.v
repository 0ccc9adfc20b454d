(** Numbers and the types that can represent them. *)
From Coq Require Import ZArith QArith Qabs List.
From Coq Require Import Floats.SpecFloat.
From Verif Require Import CInt IeeeSpec Mixed Convert.
Open Scope Z_scope.

Definition number_value (v : number) : option Q :=
  match v with NInt z => Some (inject_Z z) | NFloat x => float_value x end.

(** A finite value of a type. *)
Definition value_of_type (t : atype) (v : number) : Prop :=
  match t, v with
  | AInt i, NInt z => in_ty i z
  | AFloat f, NFloat x => finite_number (f_prec f) (f_emax f) x
  | _, _ => False
  end.

(** The number [q] is a value of the type. *)
Definition representable (t : atype) (q : Q) : Prop :=
  exists v p, value_of_type t v /\ number_value v = Some p /\ (p == q)%Q.

(** No value of the type is nearer to [q] than [p]. *)
Definition nearest (t : atype) (q p : Q) : Prop :=
  forall v r, value_of_type t v -> number_value v = Some r -> (Qabs (p - q) <= Qabs (r - q))%Q.

(** [q] is not beyond the largest value of the type. *)
Definition in_range (t : atype) (q : Q) : Prop :=
  exists v r, value_of_type t v /\ number_value v = Some r /\ (Qabs q <= Qabs r)%Q.

(** [z] is [q] without its fraction. *)
Definition toward_zero (q : Q) (z : Z) : Prop :=
  ((0 <= q)%Q -> (inject_Z z <= q)%Q /\ (q < inject_Z (z + 1))%Q) /\
  ((q <= 0)%Q -> (inject_Z (z - 1) < q)%Q /\ (q <= inject_Z z)%Q).

(** A value and what it may become in another type. *)
Definition converted (to : atype) (v w : number) : Prop :=
  match to, v, w with
  | AInt t, NInt z, NInt y => in_ty t y /\ exists k, y = z + k * 2 ^ width t
  | AInt t, NFloat x, NInt y => in_ty t y /\ exists q, float_value x = Some q /\ toward_zero q y
  | AFloat f, _, NFloat _ => value_of_type to w /\ exists q p, number_value v = Some q /\ number_value w = Some p /\ nearest to q p
  | _, _, _ => False
  end.
Definition convertible (to : atype) (v : number) : Prop :=
  match to, v with
  | AInt _, NInt _ => True
  | AInt t, NFloat x => exists q z, float_value x = Some q /\ toward_zero q z /\ in_ty t z
  | AFloat _, _ => exists q, number_value v = Some q /\ in_range to q
  end.

(** The numbers of a list in increasing order. *)
Definition increasing (vs : list number) : Prop :=
  forall i j v w p q, (i <= j)%nat -> nth_error vs i = Some v -> nth_error vs j = Some w ->
    number_value v = Some p -> number_value w = Some q -> (p <= q)%Q.
