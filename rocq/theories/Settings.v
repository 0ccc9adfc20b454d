(** Containers built from lists of options. *)
From Coq Require Import ZArith List Bool.
From Verif Require Import Outcome CInt Shape Memory Container Source Label Convert.
Import ListNotations.
Open Scope Z_scope.

(** Options: as<T> (settings/type.hpp 20-55), source = x with elements of a type (settings/source.hpp 24-45), size = s or a
    shape and whether it is fully static (settings/size.hpp 18-33), strides = s or a stride likewise (settings/strides.hpp
    18-24), label = l (settings/label.hpp 17-20), allocator = a (settings/allocator.hpp 18-25), unreachable
    (settings/reachable.hpp 14-19). Allocators are numbered, 0 is heap_allocator{}. *)
Inductive opt :=
| OType (t : atype)
| OSource (t : atype) (s : source)
| OSize (st : bool) (sh : shape)
| OStrides (st : bool) (sd : stride)
| OLabel (l : label)
| OAlloc (a : nat)
| OUnreachable.

(** The keyword of an option (keyword_type), by its position in the list above. *)
Definition keyword (o : opt) : nat :=
  match o with
  | OType _ => 0 | OSource _ _ => 1 | OSize _ _ => 2 | OStrides _ _ => 3 | OLabel _ => 4 | OAlloc _ => 5 | OUnreachable => 6
  end%nat.

(** rbr::settings(options...), options with different keywords, and what is found there under a keyword. *)
Definition options := list opt.
Definition at_key (k : nat) (o : options) : option opt := find (fun x => Nat.eqb (keyword x) k) o.
Definition type_of (o : options) : option atype := match at_key 0 o with Some (OType t) => Some t | _ => None end.
Definition source_of (o : options) : option (atype * source) := match at_key 1 o with Some (OSource t s) => Some (t, s) | _ => None end.
Definition size_of (o : options) : option (bool * shape) := match at_key 2 o with Some (OSize st sh) => Some (st, sh) | _ => None end.
Definition strides_of_ (o : options) : option (bool * stride) := match at_key 3 o with Some (OStrides st sd) => Some (st, sd) | _ => None end.
Definition label_of_ (o : options) : option label := match at_key 4 o with Some (OLabel l) => Some l | _ => None end.
Definition alloc_of (o : options) : option nat := match at_key 5 o with Some (OAlloc a) => Some a | _ => None end.
Definition unreachable_of (o : options) : bool := match at_key 6 o with Some _ => true | None => false end.

(** rbr::merge(a, b): the options of [a], and those of [b] whose keyword is not in [a]. *)
Definition merge (a b : options) : options :=
  a ++ filter (fun x => negb (existsb (fun y => Nat.eqb (keyword y) (keyword x)) a)) b.

(** pick(source, opts), container/settings/source.hpp 18-31: without a source, a null pointer. *)
Definition pick_source (o : options) : source := match source_of o with Some (_, s) => s | None => SPtr Null end.

(** pick(size, opts), container/settings/size.hpp 18-22. The default is an argument of opts[size | ...]: it is computed in any
    case. *)
Definition pick_size_of (dbg : bool) (o : options) : outcome (bool * shape) :=
  d <- default_shape dbg (pick_source o) ;;
  Ok (match size_of o with Some g => g | None => (default_static (pick_source o), d) end).

(** pick(value_type, opts), container/settings/type.hpp 20-34: a view needs a source or a type, not both; other calls do not
    compile. 36-42: a table prefers the type. Without either the type would be the one raberu has for absent options: not
    modelled. *)
Definition pick_type_view (o : options) : outcome atype :=
  match source_of o, type_of o with
  | Some (t, _), None => Ok t
  | None, Some t => Ok t
  | _, _ => UB
  end.
Definition pick_type_table (o : options) : outcome atype :=
  match type_of o, source_of o with
  | Some t, _ => Ok t
  | None, Some (t, _) => Ok t
  | None, None => UB
  end.

(** pick(allocator, opts), container/settings/allocator.hpp 18-22. *)
Definition pick_alloc (o : options) : nat := match alloc_of o with Some a => a | None => 0%nat end.

(** What is built: element type, label, whether slices preserve reachability (detail/container/builder.hpp 27), where the
    elements are (detail/memory/block.hpp 16-36), shape, strides and data. *)
Inductive block := Shallow | Stack | Heap (a : nat).
Record built := Built { b_type : atype; b_label : option label; b_reach : bool; b_block : block; b_cont : container }.

(** The accessor, builder.hpp 23-33: whether the strides are static follows from the option, or else from the shape. *)
Definition pick_accessor (st : bool) (sh : shape) (o : options) : outcome (kind * stride) :=
  make_accessor st (match strides_of_ o with Some (s, _) => s | None => st end) sh (option_map snd (strides_of_ o)).

(** view{options...}, container/view.hpp 49-66 and container.hpp 42-49: metadata, memory, accessor. *)
Definition build_view (dbg : bool) (o : options) : outcome built :=
  t <- pick_type_view o ;;
  ' (st, sh) <- pick_size_of dbg o ;;
  ' (k, sd) <- pick_accessor st sh o ;;
  Ok (Built t (label_of_ o) (negb (unreachable_of o)) Shallow (Cn k sh sd (storage (pick_source o)))).

(** table{options...}, container/table.hpp 55-66: heap_block.hpp 39-52, stack_block.hpp 29-34; the allocator is looked at by
    heap blocks only. *)
Definition build_table (m : mem number) (dbg : bool) (o : options) : outcome (mem number * built) :=
  t <- pick_type_table o ;;
  ' (st, sh) <- pick_size_of dbg o ;;
  n <- numel sh ;;
  ' (m1, data) <- (match source_of o, type_of o with
                   | Some (_, s), Some t => new_block_as t m (cval n) (storage s)
                   | Some (_, s), None => new_block m (cval n) (Some (storage s))
                   | None, _ => new_block m (cval n) None
                   end) ;;
  ' (k, sd) <- pick_accessor st sh o ;;
  Ok (m1, Built t (label_of_ o) (negb (unreachable_of o)) (if st then Stack else Heap (pick_alloc o)) (Cn k sh sd data)).

(** container::settings(), container.hpp 75-78, of a container of elements of type [t]; [st]: its shape is fully static. *)
Definition settings_of (t : atype) (st : bool) (c : container) : options := [OSource t (SPtr (c_data c)); OSize st (c_shape c)].
