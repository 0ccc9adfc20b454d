(** What assigning a number of one arithmetic type to an element of another leaves. *)
From Coq Require Import ZArith QArith List Bool.
From Coq Require Import Floats.SpecFloat.
From Verif Require Import Outcome CInt Spec IeeeSpec Memory Container ContainerSpec AlgoSpec Mixed Convert ConvertSpec.
Import ListNotations.
Open Scope Z_scope.

(** An element of type [t] after [v] is assigned to it: within the range of the type as in C73; infinities and NaN
    stay what they are. (Numbers beyond the range of a floating-point type become something of the type, which is
    left open here.) *)
Definition becomes (t : atype) (v w : number) : Prop :=
  (convertible t v -> converted t v w) /\
  match t, v with AFloat _, NFloat x => float_value x = None -> w = v | _, _ => True end.

(** No value at all: a floating-point number without an integer part of the type. *)
Definition refused (t : atype) (v : number) : Prop :=
  match t, v with
  | AInt i, NFloat x => ~ exists q z, float_value x = Some q /\ toward_zero q z /\ in_ty i z
  | _, _ => False
  end.

(** The numbers of [c] never decrease in row-major order. *)
Definition in_order (m : mem number) (c : container) : Prop :=
  forall is_ js v w p q, in_box (dims c) is_ -> in_box (dims c) js -> rank (dims c) is_ <= rank (dims c) js ->
    value m c is_ v -> value m c js w -> number_value v = Some p -> number_value w = Some q -> (p <= q)%Q.
