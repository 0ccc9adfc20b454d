(** Data sources of containers, the sizes they give by default, and default-constructed containers. *)
From Coq Require Import ZArith List Bool.
From Verif Require Import Outcome CInt Shape Prefilled Literals Memory Container.
Import ListNotations.
Open Scope Z_scope.

(** kwk::source = x, include/kwk/settings/source.hpp 26-45: a contiguous range is its data() and its
    size(), a static array its type and the address of its first scalar, a pointer just itself.
    (A const std::array does not match the specialisations of detail/range.hpp 29-35, since only the
    reference is removed from its type, source.hpp 29: not modelled.) *)
Inductive source :=
| SRange (p : ptr) (n : Z)
| SArray (p : ptr) (a : arr)
| SPtr (p : ptr).

(** storage(source): settings/source/range_source.hpp 29-33, array_source.hpp 33-34, ptr_source.hpp
    35-39. *)
Definition storage (s : source) : ptr :=
  match s with SRange p _ | SArray p _ | SPtr p => p end.

(** default_shape(source): range_source.hpp 35-39 (of_size of a std::size_t), array_source.hpp 36-37,
    ptr_source.hpp 41-42 (of_size(0)); read back as values. *)
Definition default_shape (dbg : bool) (s : source) : outcome shape :=
  match s with
  | SRange _ n => p <- of_size dbg [EInt (CI U64 n)] ;; to_values p
  | SArray _ a => p <- of_size dbg (map EConst (array_sizes a)) ;; to_values p
  | SPtr _ => p <- of_size dbg [EInt (int 0)] ;; to_values p
  end.

(** The shape is entirely static: the default shape of a static array only. *)
Definition default_static (s : source) : bool :=
  match s with SArray _ _ => true | _ => false end.

(** pick(size, options), include/kwk/container/settings/size.hpp 18-22: the size option or the default
    shape of the source. [given]: a size option and whether it is fully static. *)
Definition pick_size (dbg : bool) (given : option (bool * shape)) (s : source) : outcome (bool * shape) :=
  match given with
  | Some g => Ok g
  | None => sh <- default_shape dbg s ;; Ok (default_static s, sh)
  end.

(** view{source = s} and view{source = s, size = sh}, include/kwk/container/view.hpp 49-62. *)
Definition view_on (dbg : bool) (given : option (bool * shape)) (s : source) : outcome container :=
  ' (st, sh) <- pick_size dbg given s ;; make_view st st sh None (storage s).

(** table{source = s} and table{source = s, size = sh}, include/kwk/container/table.hpp 55-66. *)
Definition table_from {T} (m : mem T) (dbg : bool) (given : option (bool * shape)) (s : source)
  : outcome (mem T * container) :=
  ' (st, sh) <- pick_size dbg given s ;; make_table m st st sh None (Some (storage s)).

(** view() and table(), view.hpp 53 and table.hpp 53, with container.hpp 38-40: default-constructed block
    and accessor. The shape is the default-constructed one of the type (shape.hpp 108; run-time extents
    are 0, prefilled.hpp 77), the strides likewise (stride.hpp 94). [ds]: the descriptors of the shape
    type; a fully static one keeps its strides in the type. The block of a fully static table holds its
    elements (stack_block.hpp 25-27), uninitialised; other blocks hold a null pointer. *)
Definition default_accessor (ds : list desc) : outcome (kind * shape * stride) :=
  sh <- to_values (pdefault ds) ;;
  ' (k, st) <- make_accessor (is_fully_static ds) (is_fully_static ds) sh None ;;
  Ok (k, sh, match k with KGen => stride_default (length sh) | _ => st end).
Definition default_view (ds : list desc) : outcome container :=
  ' (k, sh, st) <- default_accessor ds ;; Ok (Cn k sh st Null).
Definition default_table {T} (m : mem T) (ds : list desc) : outcome (mem T * container) :=
  ' (k, sh, st) <- default_accessor ds ;;
  if is_fully_static ds then
    n <- numel sh ;; let '(m', p) := alloc m (cval n) in Ok (m', Cn k sh st p)
  else Ok (m, Cn k sh st Null).
