(** Contents of consecutive cells. *)
From Coq Require Import ZArith List.
From Verif Require Import Outcome CInt Memory Container ContainerSpec.
Import ListNotations.
Open Scope Z_scope.

(** The cells from [p] on hold the values [vs]. *)
Definition holds {T} (m : mem T) (p : ptr) (vs : list T) : Prop :=
  forall k v, nth_error vs k = Some v -> peek m (padd p (Z.of_nat k)) = Some v.

(** [p] does not point into memory that does not exist yet. *)
Definition known {T} (m : mem T) (p : ptr) : Prop :=
  match p with Null => True | Ptr b _ => (b < length m)%nat end.
