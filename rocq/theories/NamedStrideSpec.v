(** Specification vocabulary for strides with their descriptors. *)
From Coq Require Import ZArith List.
From Verif Require Import CInt Prefilled.

(** An extent or stride known at compile time. *)
Definition known (d : desc) : Prop := exists v, acont d = CStatic v.

(** An axis nobody named: it has a negative number. *)
Definition anonymous (d : desc) : Prop := exists z, aid d = AIdx z /\ (z < 0)%Z.
