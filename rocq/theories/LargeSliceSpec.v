(** Slices of views of more than 2^31 elements (C103): what is asked of the slicers. *)
From Coq Require Import ZArith List.
From Verif Require Import Outcome CInt CIntFacts Spec ShapeSpec Shape Memory Container ContainerSpec Slicer SlicerSpec.
Import ListNotations.
Open Scope Z_scope.

(** Something holds of the slicer of the last axis. *)
Definition on_last (P : slc -> Prop) (sls : list slc) : Prop := exists r sl, sls = r ++ [sl] /\ P sl.

(** Its step, if there is one, is 1 or of a 64-bit type. *)
Definition step64 (sl : slc) : Prop :=
  match sl with SSlice _ (Some s) _ _ => is64 (cty s) \/ cval s <= 1 | _ => True end.

(** It leaves an extent of a 64-bit type on an axis of a 64-bit type: the joker, a slice without end and length, or one
    whose end or length is of a 64-bit type. *)
Definition count64 (sl : slc) : Prop :=
  match sl with
  | SAll | SSlice _ _ None None => True
  | SSlice _ _ (Some (BInt e)) None => is64 (cty e)
  | SSlice _ _ _ (Some (BInt l)) => is64 (cty l)
  | _ => False
  end.

(** The extents of the slice can be multiplied: their product is small, or computed in 64 bits. *)
Definition countable (sls : list slc) (ks : list Z) : Prop :=
  length sls = 1%nat \/ posprod ks <= 2147483647 \/ on_last count64 sls.

(** What the assertions of debug builds ask: every extent fits [int], and indexes at least as wide as [int]. *)
Definition checkable (sh : shape) (sls : list slc) : Prop := Forall axis sh /\ Forall wide sls.

(** The bound a backward slice starts from can be incremented in its own type: it is below the greatest [int], or of a
    64-bit type and below the greatest [long]. *)
Definition room (b : option bound) (z : Z) : Prop :=
  match b with
  | None => True
  | Some (BInt c) => z < 2147483647 \/ is64 (cty c) /\ z < 9223372036854775807
  | Some (BEnd _) => z < 2147483647
  end.
