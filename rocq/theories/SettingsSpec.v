(** What options are given, and the size they give. *)
From Coq Require Import ZArith List.
From Verif Require Import Outcome CInt ShapeSpec Shape Literals Memory Container Source Settings.
Import ListNotations.
Open Scope Z_scope.

(** No keyword is given twice. *)
Definition distinct (o : options) : Prop := NoDup (map keyword o).

Definition no_type (o : options) : Prop := forall t, ~ In (OType t) o.
Definition no_source (o : options) : Prop := forall t s, ~ In (OSource t s) o.
Definition no_size (o : options) : Prop := forall st sh, ~ In (OSize st sh) o.
Definition no_strides (o : options) : Prop := forall st sd, ~ In (OStrides st sd) o.
Definition no_alloc (o : options) : Prop := forall a, ~ In (OAlloc a) o.

(** The length of a range is a std::size_t. *)
Definition real_source (s : source) : Prop := match s with SRange _ n => 0 <= n < 18446744073709551616 | _ => True end.

(** The size is the one given, or else the one of the source; none at all is of_size(0). *)
Inductive size_is (o : options) : bool -> shape -> Prop :=
| size_given st sh : In (OSize st sh) o -> size_is o st sh
| size_of_range t p n : no_size o -> In (OSource t (SRange p n)) o -> size_is o false [CI U64 n]
| size_of_array t p a : no_size o -> In (OSource t (SArray p a)) o -> size_is o true (array_sizes a)
| size_of_pointer t p : no_size o -> In (OSource t (SPtr p)) o -> size_is o false [int 0]
| size_none : no_size o -> no_source o -> size_is o false [int 0].

(** Labels, reachability and strides: those given, if any. *)
Definition described (o : options) (b : built) : Prop :=
  (forall l, b_label b = Some l <-> In (OLabel l) o) /\ (b_reach b = false <-> In OUnreachable o) /\
  (forall st sd, In (OStrides st sd) o -> get_stride (b_cont b) = Ok sd).

(** Options that do not say anything about the elements. *)
Definition about_elements (x : opt) : bool := match x with OLabel _ | OAlloc _ | OUnreachable => false | _ => true end.

(** Static tables hold their elements, the others get them from the allocator given, by default the heap. *)
Definition block_is (o : options) (st : bool) (b : block) : Prop :=
  if st then b = Stack else (no_alloc o -> b = Heap 0) /\ forall a, In (OAlloc a) o -> b = Heap a.
