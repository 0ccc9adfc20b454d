(** Numbers, infinities and NaN. *)
From Coq Require Import ZArith QArith List Bool.
From Coq Require Import Floats.SpecFloat.
From Verif Require Import CInt IeeeSpec Mixed Convert ConvertSpec.
Import ListNotations.
Open Scope Z_scope.

Inductive extended := Num (q : Q) | Infinite (negative : bool) | NotANumber.

(** What a value stands for. *)
Definition measure (v : number) : extended :=
  match v with
  | NInt z => Num (inject_Z z)
  | NFloat (S754_infinity s) => Infinite s
  | NFloat S754_nan => NotANumber
  | NFloat x => match float_value x with Some q => Num q | None => NotANumber end
  end.

(** Equal, and less, as numbers; nothing is equal to NaN or in order with it. *)
Definition same (a b : extended) : bool :=
  match a, b with
  | Num p, Num q => Qeq_bool p q
  | Infinite s, Infinite t => Bool.eqb s t
  | _, _ => false
  end.
Definition below (a b : extended) : bool :=
  match a, b with
  | Num p, Num q => negb (Qle_bool q p)
  | Infinite true, Num _ | Infinite true, Infinite false | Num _, Infinite false => true
  | _, _ => false
  end.

(** A value of a type, infinities and NaN included. *)
Definition of_type (t : atype) (v : number) : Prop :=
  match t, v with
  | AInt i, NInt z => in_ty i z
  | AFloat f, NFloat x => valid_binary (f_prec f) (f_emax f) x = true
  | _, _ => False
  end.

(** The floating-point type in which values of types [t] and [u] are compared, if there is one: the more precise
    one. *)
Definition arithmetic_of (t u : atype) : option ftype :=
  match t, u with
  | AFloat f, AFloat g => Some (if f_prec f <? f_prec g then g else f)
  | AFloat f, AInt _ | AInt _, AFloat f => Some f
  | AInt _, AInt _ => None
  end.

(** A value of type [t] that takes part in comparisons in [f] as it is: integers have to be numbers of type [f]. *)
Definition exact_in (f : ftype) (t : atype) (v : number) : Prop :=
  of_type t v /\ match v with NInt z => representable (AFloat f) (inject_Z z) | NFloat _ => True end.

(** What a value takes part as: an integer as a number of type [f] nearest to it. *)
Definition stands_as (f : ftype) (v : number) (e : extended) : Prop :=
  match v with
  | NInt z => exists w p, value_of_type (AFloat f) w /\ number_value w = Some p /\ nearest (AFloat f) (inject_Z z) p /\ e = Num p
  | NFloat _ => e = measure v
  end.

(** What is assigned to an element of type [t]: infinities and NaN stay what they are in floating-point types. *)
Definition assigned (t : atype) (v w : number) : Prop :=
  converted t v w \/ match t, v with AFloat _, NFloat x => float_value x = None /\ w = v | _, _ => False end.
Definition assignable (t : atype) (v : number) : Prop :=
  convertible t v \/ match t, v with AFloat _, NFloat x => float_value x = None | _, _ => False end.
