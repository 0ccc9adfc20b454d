(** Specification vocabulary for containers: the element addresses are the data pointer plus the sum of
    strides times coordinates; hypotheses under which the library computes them. *)
From Coq Require Import ZArith List.
From Verif Require Import Outcome CInt CIntFacts Spec ShapeSpec ShapeFacts Memory Shape Container.
Import ListNotations.
Open Scope Z_scope.

(** Extents and strides of a container, as numbers. *)
Definition dims (c : container) : list Z := vals (c_shape c).
Definition strides_z (c : container) : list Z :=
  match get_stride c with Ok st => vals st | _ => [] end.

(** Address of the element of a coordinate. *)
Definition elem (c : container) (is_ : list Z) : ptr := padd (c_data c) (dot (strides_z c) is_).

(** An accessor as the library builds them. *)
Definition wf_container (c : container) : Prop :=
  wfs (c_shape c) /\ nonnegs (dims c) /\
  (exists st, get_stride c = Ok st /\ wfs st /\ length st = length (c_shape c)) /\
  match c_kind c with
  | K1 | K1S => length (c_shape c) = 1%nat
  | K2 | K2S => length (c_shape c) = 2%nat
  | _ => True
  end.

(** Strides and coordinates are all non-negative, or all of signed types (tys: the types of the
    coordinates used to index the container). *)
Definition sign_ok (c : container) (tys : list ity) : Prop :=
  nonnegs (strides_z c) \/
  ((exists st, get_stride c = Ok st /\ signeds st) /\ Forall (fun t => is_signed t = true) tys).

(** The partial sums of strides times coordinates fit 31 bits. *)
Definition reach_ok (c : container) : Prop :=
  forall is_, in_box (dims c) is_ -> absdot (strides_z c) is_ <= 2147483647.

(** The products are computed in 64 bits: all strides are of 64-bit types, but for the last one when it is 0 or 1. *)
Definition is64 (t : ity) : Prop := t = I64 \/ t = U64.
Fixpoint wide_strides (st : list cint) : Prop :=
  match st with
  | [] => True
  | [d] => is64 (cty d) \/ cval d <= 1
  | d :: st => is64 (cty d) /\ wide_strides st
  end.

(** Strides of 64-bit types reach further, if not negative. *)
Definition far_ok (c : container) : Prop :=
  (exists st, get_stride c = Ok st /\ wide_strides st) /\ nonnegs (strides_z c) /\
  forall is_, in_box (dims c) is_ -> dot (strides_z c) is_ <= 9223372036854775807.

(** A container whose elements are addressed without overflow by coordinates of the given types. *)
Definition addressable (c : container) (tys : list ity) : Prop :=
  wf_container c /\ sign_ok c tys /\ (reach_ok c \/ far_ok c).

(** All coordinates of [c] designate live cells; initialised cells. *)
Definition valid {T} (m : mem T) (p : ptr) : Prop := cell m p <> None.
Definition writable {T} (m : mem T) (c : container) : Prop :=
  forall is_, in_box (dims c) is_ -> valid m (elem c is_).
Definition readable {T} (m : mem T) (c : container) : Prop :=
  forall is_, in_box (dims c) is_ -> exists v, peek m (elem c is_) = Some v.

(** A container built without strides on a legal shape of order at least 1. *)
Definition default_layout (c : container) : Prop :=
  legal (c_shape c) /\ c_shape c <> [] /\
  exists st_shape, make_accessor st_shape st_shape (c_shape c) None = Ok (c_kind c, c_stride c).

(** Two memories with the same live cells. *)
Definition same_cells {T} (m m' : mem T) : Prop := forall p, valid m p <-> valid m' p.

(** In-range typed coordinates of a container. *)
Definition coord_of (c : container) (is_ : list cint) : Prop := wfs is_ /\ in_box (dims c) (vals is_).

(** A sequence of writes through a container. *)
Fixpoint puts {T} (m : mem T) (c : container) (ws : list (list cint * T)) : outcome (mem T) :=
  match ws with
  | [] => Ok m
  | (is_, v) :: r => m' <- put m c is_ v ;; puts m' c r
  end.

(** Everything already in [m] is the same in [m']. *)
Definition extends {T} (m m' : mem T) : Prop := forall p, valid m p -> cell m' p = cell m p.

(** The pointer held by a table: null, or the start of a live block. *)
Definition owns {T} (m : mem T) (c : container) : Prop :=
  c_data c = Null \/ exists b cs, c_data c = Ptr b 0 /\ nth_error m b = Some (Some cs).
Definition same_block (p q : ptr) : Prop :=
  match p, q with Ptr b _, Ptr b' _ => b = b' | _, _ => False end.

(** Two containers of the same C++ type: same accessor, and what the type fixes is the same. *)
Definition same_type (a b : container) : Prop :=
  c_kind a = c_kind b /\ length (c_shape a) = length (c_shape b) /\
  (c_kind a = KStatic -> c_shape a = c_shape b /\ c_stride a = c_stride b).
