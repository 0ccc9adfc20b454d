(** Shapes and views of more than 2^31 elements (C99). *)
From Coq Require Import ZArith List.
From Verif Require Import Outcome CInt CIntFacts Spec ShapeSpec Shape Memory Container ContainerSpec.
Import ListNotations.
Open Scope Z_scope.

(** Extents whose product is computed in 64 bits: the last extent is of a 64-bit type (nothing is asked of shapes of
    order one); the product of the non-zero ones at most 2^63 - 1. *)
Definition last64 (s : shape) : Prop := length s = 1%nat \/ exists r n, s = r ++ [n] /\ is64 (cty n).
Definition large (s : shape) : Prop :=
  wfs s /\ nonnegs (vals s) /\ posprod (vals s) <= 9223372036854775807 /\ last64 s.

(** A container on such a shape, built without strides. *)
Definition large_layout (c : container) : Prop :=
  large (c_shape c) /\ c_shape c <> [] /\
  exists st_shape, make_accessor st_shape st_shape (c_shape c) None = Ok (c_kind c, c_stride c).
