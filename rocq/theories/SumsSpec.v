(** Specification vocabulary for sums of integers. *)
From Coq Require Import ZArith List.
From Verif Require Import CInt.
Import ListNotations.
Open Scope Z_scope.

(** Elements of an integer type. *)
Definition typed (t : ity) (vs : list cint) : Prop := Forall (fun v => cty v = t /\ wfc v) vs.

(** The sum of integers, as a mathematical integer. *)
Fixpoint total (zs : list Z) : Z := match zs with [] => 0 | z :: zs' => z + total zs' end.

(** Every partial sum, from [z] and from first to last, is a value of type [t]. *)
Definition partial_sums_in (t : ity) (z : Z) (zs : list Z) : Prop :=
  forall k, (k <= length zs)%nat -> in_ty t (z + total (firstn k zs)).

(** Element by element products. *)
Definition products (xs ys : list Z) : list Z := map (fun p => fst p * snd p) (combine xs ys).

(** Comparing values of type [t] with values of type [u] compares integers: either the common type is signed,
    or no value is negative. *)
Definition comparable (t u : ity) (xs ys : list Z) : Prop :=
  is_signed (common t u) = true \/ Forall (fun x => 0 <= x) xs /\ Forall (fun y => 0 <= y) ys.
