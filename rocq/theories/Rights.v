(** Which expressions give write access to the elements of a container: the const qualifications of the
    element types and pointers, through the conversions between containers. These are compile-time
    computations; a call that does not compile is [UB]. *)
From Coq Require Import List Bool.
From Verif Require Import Outcome.
Import ListNotations.

Inductive category := Table | View.
Inductive block := Heap | Stack | Shallow.

(** The type of a container, as far as it matters here: its category, whether its shape is fully static, and
    whether its element type (base_type in the memory blocks) is const. *)
Record ctype := CT { t_cat : category; t_static : bool; t_const : bool }.

(** block_type, include/kwk/detail/memory/block.hpp 17-38. *)
Definition block_of (c : ctype) : block :=
  match t_cat c with View => Shallow | Table => if t_static c then Stack else Heap end.

(** Whether the pointer that get_data() returns is a pointer to const; [obj]: the container is a const lvalue.
    container.hpp 153-154 and data(), get_data() of the blocks:
    heap_block.hpp 57-58 (unique_ptr<value_type>, both overloads),
    stack_block.hpp 37-38 (a member array of value_type), shallow_block.hpp 34-35 (pointer: base_type pointer). *)
Definition data_const (c : ctype) (obj : bool) : bool :=
  match block_of c with
  | Heap => false
  | Stack => obj
  | Shallow => t_const c
  end.

(** The pointer in container::settings(), container.hpp 75-83: pointer(get_data()), a functional cast to the
    pointer to base_type, whatever get_data() returns. *)
Definition settings_const (c : ctype) : bool := t_const c.

(** An expression denoting a container: its type, whether it is a const lvalue, and whether its elements are
    those of the container the chain started from. *)
Record expr := Ex { e_type : ctype; e_const : bool; e_shares : bool }.

Inductive step :=
| Const                 (* binding to a reference to const *)
| Slice (st : bool)     (* c(slicers...); st: the new shape is fully static *)
| Reverse               (* kwk::reverse(c) *)
| Reshape (st : bool)   (* kwk::reshape(c, size) *)
| Relabel               (* kwk::relabel(c, label) *)
| ViewOf                (* kwk::view{c} *)
| TableOf.              (* kwk::table{c} *)

(** A view constructed from a list of options holding the source [p], container/settings/type.hpp 23-35: the
    element type is that of the pointer. *)
Definition view_on (st ptr_const shares : bool) : expr := Ex (CT View st ptr_const) false shares.

Definition apply_step (s : step) (e : expr) : outcome expr :=
  let c := e_type e in
  match s with
  | Const => Ok (Ex c true (e_shares e))
  (** container.hpp 138-151: the only overload is const. *)
  | Slice st => Ok (view_on st (data_const c true) (e_shares e))
  (** algorithm/views/reverse.hpp: the parameter is a reference to const. *)
  | Reverse => Ok (view_on (t_static c) (data_const c true) (e_shares e))
  (** algorithm/views/reshape.hpp, relabel.hpp: view{rbr::merge(..., c.settings())}. *)
  | Reshape st => Ok (view_on st (settings_const c) (e_shares e))
  | Relabel => Ok (view_on (t_static c) (settings_const c) (e_shares e))
  (** view.hpp 104-106 and 68-70: the type has non-const elements (archetype, container.hpp 65-73) and its
      pointer is initialised with that of settings(); a view of a view has the type of the view (copy
      deduction candidate) and is copied memberwise. *)
  | ViewOf => match t_cat c with
              | View => Ok (Ex c false (e_shares e))
              | Table => if settings_const c then UB else Ok (view_on (t_static c) false (e_shares e))
              end
  (** table.hpp 118-120 and 84-86: archetype again; a table of a table has its type. The elements are
      copied. *)
  | TableOf => match t_cat c with
               | Table => Ok (Ex c false false)
               | View => Ok (Ex (CT Table (t_static c) false) false false)
               end
  end.

Fixpoint chain (l : list step) (e : expr) : outcome expr :=
  match l with
  | [] => Ok e
  | s :: l' => e' <- apply_step s e ;; chain l' e'
  end.

(** c(is...) = v compiles: container.hpp 126-136, the overload is chosen by the constness of the expression. *)
Definition assignable (e : expr) : bool := negb (data_const (e_type e) (e_const e)).

(** A named table or view, constructed on a source whose elements are const or not (a table without source:
    not const), of a fully static shape or not, declared const or not. Type of the elements:
    container/settings/type.hpp 40-45 and settings/source/*.hpp (source_traits). *)
Definition table_named (st src_const obj : bool) : expr := Ex (CT Table st src_const) obj true.
Definition view_named (st src_const obj : bool) : expr := Ex (CT View st src_const) obj true.
