(** Specification vocabulary on typed values: the mathematical values of a shape or coordinate, and
    the domain on which the properties are claimed. *)
From Coq Require Import ZArith List.
From Verif Require Import CInt Spec.
Import ListNotations.
Open Scope Z_scope.

(** Mathematical values. *)
Definition vals (l : list cint) : list Z := map cval l.

(** A typed value that is what its type can hold, everywhere. *)
Definition wfs (l : list cint) : Prop := Forall wfc l.

Definition nonnegs (l : list Z) : Prop := Forall (fun n => 0 <= n) l.

(** Legal shape: extents representable in their own type, non-negative, and the product of the
    non-zero extents at most 2^31 - 1 (std::int32_t, the type of numel). *)
Definition legal (s : list cint) : Prop :=
  wfs s /\ nonnegs (vals s) /\ posprod (vals s) <= 2147483647.

(** A typed coordinate inside a shape: any integer types, values inside the box. *)
Definition coord_in (s is_ : list cint) : Prop := wfs is_ /\ in_box (vals s) (vals is_).
