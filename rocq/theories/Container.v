(** Containers: accessors, tables and views. *)
From Coq Require Import ZArith List Bool.
From Verif Require Import Outcome CInt Shape Memory.
Import ListNotations.
Open Scope Z_scope.

(** The specialisations of the accessor, include/kwk/detail/container/accessor.hpp:
    [KGen] the general case (19-46), [KStatic] shape and stride entirely known at compile time (51-68),
    [K1] order 1, default strides (73-94), [K1S] order 1, given strides (99-126),
    [K2] order 2, default strides (131-154), [K2S] order 2, given strides (159-188). *)
Inductive kind := KGen | KStatic | K1 | K1S | K2 | K2S.

(** A container: its accessor (shape_, and stride_ where the accessor stores one) and the address of
    its first element. Labels: [Label.v]. *)
Record container := Cn {
  c_kind : kind;
  c_shape : shape;
  c_stride : stride;
  c_data : ptr
}.

(** Selection of the accessor by builder, include/kwk/detail/container/builder.hpp 28-35:
    accessor<shape, stride, contains(strides)>. [st_shape]: the shape is fully static; [st_stride]: so
    is the stride; [given]: the strides option, if any. Without it the strides are as_stride(shape)
    (include/kwk/container/settings/strides.hpp 19-23), static exactly when the shape is. These default
    strides are computed even when the option is there: they are an argument of opts[strides | ...]; except
    by the accessor of static shapes and strides, which does not look at the settings (accessor.hpp 64). *)
Definition make_accessor (st_shape st_stride : bool) (sh : shape) (given : option stride)
  : outcome (kind * stride) :=
  match given with
  | None =>
      if st_shape then st <- as_stride sh ;; Ok (KStatic, st)
      else match sh with
           | [_] => Ok (K1, [])
           | [_; _] => Ok (K2, [])
           | _ => st <- as_stride sh ;; Ok (KGen, st)
           end
  | Some st =>
      if st_shape && st_stride then Ok (KStatic, st)
      else
        _ <- as_stride sh ;;
        if st_shape then Ok (KGen, st)
        else match sh with
             | [_] => Ok (K1S, st)
             | [_; _] => Ok (K2S, st)
             | _ => Ok (KGen, st)
             end
  end.

(** accessor::stride(): lines 27 and 60 (stored), 88 (order 1: the default-constructed stride<1>, whose
    only, static, value is 1), 117, 147 ({get<1>(shape_), fixed<1>}) and 176. *)
Definition get_stride (c : container) : outcome stride :=
  match c_kind c with
  | K1 => Ok [int 1]
  | K2 => match c_shape c with _ :: n1 :: _ => Ok [n1; int 1] | _ => UB end
  | _ => Ok (c_stride c)
  end.

(** accessor::index(is...), lines 37, 67, 89, 118, 150 and 179. Other numbers of indexes are not
    accepted by container::operator() (container.hpp 128-138): modelled by [UB]. *)
Definition index (c : container) (is_ : list cint) : outcome cint :=
  match c_kind c with
  | K1 => match is_ with [i] => Ok i | _ => UB end
  | K1S => match is_, c_stride c with [i0], [s] => cmul i0 s | _, _ => UB end
  | K2 => match is_, c_shape c with
          | [i1; i0], [_; n1] => p <- cmul i1 n1 ;; cadd i0 p
          | _, _ => UB
          end
  | K2S | KGen | KStatic => linearize (c_stride c) is_
  end.

(** Address data()[index(is...)], include/kwk/container/container.hpp 128-138 (and 116-126, which
    forward a tuple of indexes). The index is converted to std::ptrdiff_t. *)
Definition address (c : container) (is_ : list cint) : outcome ptr :=
  i <- index c is_ ;; Ok (padd (c_data c) (cast I64 (cval i))).

(** The reference c(is...): forming it requires a live element. *)
Definition ref {T} (m : mem T) (c : container) (is_ : list cint) : outcome ptr :=
  p <- address c is_ ;; if validb m p then Ok p else UB.

(** Reading and writing c(is...). *)
Definition get {T} (m : mem T) (c : container) (is_ : list cint) : outcome T :=
  p <- ref m c is_ ;; load m p.
Definition put {T} (m : mem T) (c : container) (is_ : list cint) (v : T) : outcome (mem T) :=
  p <- ref m c is_ ;; store m p v.

(** container::numel, container.hpp 51. *)
Definition c_numel (c : container) : outcome cint := numel (c_shape c).

(** container::empty, container.hpp 52, with accessor::size() of lines 25, 58, 86, 115, 145, 174. *)
Definition c_size (c : container) : outcome cint :=
  match c_kind c, c_shape c with
  | K1, n :: _ | K1S, n :: _ => Ok n
  | _, s => numel s
  end.
Definition c_empty (c : container) : outcome bool :=
  n <- c_size c ;; Ok (ceqb n (int 0)).

(** Views: shallow_block, include/kwk/detail/memory/shallow_block.hpp 24-34, and the view constructors,
    include/kwk/container/view.hpp 55-70. *)
Definition make_view (st_shape st_stride : bool) (sh : shape) (given : option stride) (data : ptr)
  : outcome container :=
  ' (k, st) <- make_accessor st_shape st_stride sh given ;; Ok (Cn k sh st data).

(** Memory of a table: [n] = numel() elements, include/kwk/detail/memory/heap_block.hpp 39-52 (nothing is
    allocated for zero bytes, heap_allocator.hpp 31-34) and stack_block.hpp 25-35; when a source is
    given [n] elements are copied from it (assign, heap_block.hpp 60-63, stack_block.hpp 40-43).
    The selection between the two blocks (block.hpp 26-36) does not change the contents. A failing
    allocation is not modelled. *)
Definition new_block {T} (m : mem T) (n : Z) (source : option ptr) : outcome (mem T * ptr) :=
  let '(m1, data) := if n =? 0 then (m, Null) else alloc m n in
  match source with
  | None => Ok (m1, data)
  | Some src => m2 <- copy_elements m1 src data (Z.to_nat n) ;; Ok (m2, data)
  end.

(** Table constructors, include/kwk/container/table.hpp 55-66. *)
Definition make_table {T} (m : mem T) (st_shape st_stride : bool) (sh : shape)
    (given : option stride) (source : option ptr) : outcome (mem T * container) :=
  n <- numel sh ;;
  ' (m1, data) <- new_block m (cval n) source ;;
  ' (k, st) <- make_accessor st_shape st_stride sh given ;;
  Ok (m1, Cn k sh st data).

(** container::settings(), container.hpp 75-83: the data pointer and the shape, and nothing else. *)
Definition settings (c : container) : ptr * shape := (c_data c, c_shape c).

(** The accessor of an existing type initialised from settings holding a shape [sh]: the kind is part of
    the type, so are the shape and the strides of a fully static accessor; any other stored stride is
    as_stride(shape). [ty] is any container of that type. *)
Definition rebuild_accessor (ty : container) (sh : shape) : outcome (kind * shape * stride) :=
  match c_kind ty with
  | KStatic => Ok (KStatic, c_shape ty, c_stride ty)
  | K1 => Ok (K1, sh, [])
  | K2 => Ok (K2, sh, [])
  | k => st <- as_stride sh ;; Ok (k, sh, st)
  end.

(** A table of the type of [ty] constructed from the settings of another container, table.hpp 75-82:
    table(other.settings()). The allocator of the source is not part of the settings. *)
Definition table_like {T} (m : mem T) (ty c : container) : outcome (mem T * container) :=
  let '(src, sh) := settings c in
  n <- numel sh ;;
  ' (m1, data) <- new_block m (cval n) (Some src) ;;
  ' (k, sh', st) <- rebuild_accessor ty sh ;;
  Ok (m1, Cn k sh' st data).

(** Copy constructor of a table, table.hpp 75-77. *)
Definition copy_table {T} (m : mem T) (c : container) : outcome (mem T * container) := table_like m c c.

(** A table built from any other container, table.hpp 80-82 with the deduction guide 116-118: the type
    has the shape of the source and no strides option (container::archetype, container.hpp 65-73).
    [st_shape]: the shape of the source is fully static. *)
Definition table_of {T} (m : mem T) (st_shape : bool) (c : container) : outcome (mem T * container) :=
  let '(src, sh) := settings c in make_table m st_shape st_shape sh None (Some src).

(** A view built from a container of another type, view.hpp 68-70 with the deduction guide 104-106; also
    relabel, include/kwk/algorithm/views/relabel.hpp 18-22. Copying a view into a view of the same type
    uses the implicit copy constructor, which copies every member. *)
Definition view_of (st_shape : bool) (c : container) : outcome container :=
  let '(src, sh) := settings c in make_view st_shape st_shape sh None src.

(** reshape(c, size), include/kwk/algorithm/views/reshape.hpp 18-22: the given size replaces the one of
    the settings. *)
Definition reshape_view (st_shape : bool) (c : container) (sh : shape) : outcome container :=
  let '(src, _) := settings c in make_view st_shape st_shape sh None src.

(** accessor::swap, accessor.hpp 38-42, 65, 91, 118-122, 151, 180-184, on two accessors of the same type.
    Lines 91, 120-121 and 182-183 call a member swap that neither shape nor stride defines: for the
    kinds K1, K1S and K2S swap and assignment do not compile. They are modelled as the exchange the
    other kinds do. *)
Definition swap_accessors (a b : container) : (shape * stride) * (shape * stride) :=
  match c_kind a with
  | KStatic => ((c_shape a, c_stride a), (c_shape b, c_stride b))
  | K1 | K2 => ((c_shape b, c_stride a), (c_shape a, c_stride b))
  | KGen | K1S | K2S => ((c_shape b, c_stride b), (c_shape a, c_stride a))
  end.

(** container::swap, container.hpp 56-63, on two heap tables or views of the same type: the pointers are
    exchanged (heap_block.hpp 54, shallow_block.hpp 30), then the accessors. *)
Definition swap_containers (a b : container) : container * container :=
  let '((sa, ta), (sb, tb)) := swap_accessors a b in
  (Cn (c_kind a) sa ta (c_data b), Cn (c_kind b) sb tb (c_data a)).

(** Release of the memory of a heap table by its destructor: the block must be live and the pointer its
    start. *)
Definition release {T} (m : mem T) (p : ptr) : outcome (mem T) :=
  match p with
  | Null => Ok m
  | Ptr b o =>
      match nth_error m b with
      | Some (Some _) => if o =? 0 then Ok (set_nth m b None) else UB
      | _ => UB
      end
  end.

(** Copy assignment of a heap table, table.hpp 85-90 and 93-98: table local(other); swap(local); the
    memory of the old contents is released when local is destroyed. *)
Definition assign_table {T} (m : mem T) (dst src : container) : outcome (mem T * container) :=
  ' (m1, local) <- table_like m dst src ;;
  let '(dst', old) := swap_containers dst local in
  m2 <- release m1 (c_data old) ;; Ok (m2, dst').

(** stack_block::swap, stack_block.hpp 45-49: the elements are exchanged one by one (std::swap). *)
Fixpoint swap_cells {T} (m : mem T) (a b : ptr) (n : nat) : outcome (mem T) :=
  match n with
  | O => Ok m
  | S n' =>
      x <- load m a ;; y <- load m b ;;
      m1 <- store m a y ;; m2 <- store m1 b x ;;
      swap_cells m2 (padd a 1) (padd b 1) n'
  end.

(** container::swap on two stack tables: the elements, then the accessors, are exchanged; the addresses
    stay. *)
Definition swap_stack {T} (m : mem T) (a b : container) : outcome (mem T * container * container) :=
  n <- numel (c_shape a) ;;
  m1 <- swap_cells m (c_data a) (c_data b) (Z.to_nat (cval n)) ;;
  let '((sa, ta), (sb, tb)) := swap_accessors a b in
  Ok (m1, Cn (c_kind a) sa ta (c_data a), Cn (c_kind b) sb tb (c_data b)).

(** Copy assignment of a stack table, table.hpp 85-98; the storage of the copy goes away at the end. *)
Definition assign_stack_table {T} (m : mem T) (dst src : container) : outcome (mem T * container) :=
  ' (m1, local) <- table_like m dst src ;;
  ' (m2, dst', local') <- swap_stack m1 dst local ;;
  m3 <- release m2 (c_data local') ;; Ok (m3, dst').

(** Move construction of a heap table, table.hpp 69: memberwise; the unique_ptr of the source becomes
    null, its accessor is copied. The pair is (new table, moved-from table). *)
Definition move_table (c : container) : container * container :=
  (c, Cn (c_kind c) (c_shape c) (c_stride c) Null).
