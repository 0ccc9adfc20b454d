(** Threads that make and destroy tables: the accesses of [Threads], the allocation of blocks and their release. *)
From Coq Require Import ZArith List Bool.
From Verif Require Import Outcome CInt Shape Memory Container Threads.
Import ListNotations.
Open Scope Z_scope.

(** What a thread has still to do, as [Threads.act], with two more steps: getting a block of [n] elements (malloc
    in heap_allocator, include/kwk/utility/memory/heap_allocator.hpp 31-34, or the storage of a stack_block,
    include/kwk/detail/memory/stack_block.hpp 25) and giving it back (free, heap_allocator.hpp 45, or the end of the life
    of the stack_block). Both are one step: calls of malloc and free do not race with one another. Failing
    allocations, other allocators and the objects of any_allocator are not modelled here. *)
Inductive tact (T A : Type) :=
| End (o : outcome A)
| Form (p : ptr) (k : tact T A)
| Load (p : ptr) (k : T -> tact T A)
| Store (p : ptr) (v : T) (k : tact T A)
| New (n : Z) (k : ptr -> tact T A)
| Delete (p : ptr) (k : tact T A).
Arguments End {T A}. Arguments Form {T A}. Arguments Load {T A}. Arguments Store {T A}.
Arguments New {T A}. Arguments Delete {T A}.

Fixpoint tbind {T A B} (x : tact T A) (f : A -> tact T B) : tact T B :=
  match x with
  | End (Ok a) => f a
  | End Abort => End Abort
  | End UB => End UB
  | End NoFuel => End NoFuel
  | Form p k => Form p (tbind k f)
  | Load p k => Load p (fun v => tbind (k v) f)
  | Store p v k => Store p v (tbind k f)
  | New n k => New n (fun p => tbind (k p) f)
  | Delete p k => Delete p (tbind k f)
  end.
Notation "x <== e ;; f" := (tbind e (fun x => f)) (at level 61, e at next level, right associativity).

(** A call that only accesses elements. *)
Fixpoint lift {T A} (x : act T A) : tact T A :=
  match x with
  | Stop o => End o
  | Mk p k => Form p (lift k)
  | Ld p k => Load p (fun v => lift (k v))
  | St p v k => Store p v (lift k)
  end.

(** All of it without interruption. *)
Fixpoint talone {T A} (x : tact T A) (m : mem T) : outcome (A * mem T) :=
  match x with
  | End o => a <- o ;; Ok (a, m)
  | Form p k => if validb m p then talone k m else UB
  | Load p k => v <- load m p ;; talone (k v) m
  | Store p v k => m' <- store m p v ;; talone k m'
  | New n k => let '(m', p) := alloc m n in talone (k p) m'
  | Delete p k => m' <- release m p ;; talone k m'
  end.

(** std::copy of [Memory.copy_elements] (heap_block.hpp 60-63, stack_block.hpp 40-43). *)
Fixpoint acopy_elements {T} (src dst : ptr) (n : nat) : act T unit :=
  match n with
  | O => ret tt
  | S n' => Ld src (fun v => St dst v (acopy_elements (padd src 1) (padd dst 1) n'))
  end.
(** The memory of a table, [Container.new_block] (heap_block.hpp 39-52, stack_block.hpp 25-35). *)
Definition t_block {T} (n : Z) (source : option ptr) : tact T ptr :=
  data <== (if n =? 0 then End (Ok Null) else New n (fun p => End (Ok p))) ;;
  match source with
  | None => End (Ok data)
  | Some src => _ <== lift (acopy_elements src data (Z.to_nat n)) ;; End (Ok data)
  end.
(** Table constructors, [Container.make_table] (include/kwk/container/table.hpp 55-66), [Container.table_like] and
    [Container.copy_table] (75-82). *)
Definition t_make {T} (st_shape st_stride : bool) (sh : shape) (given : option stride) (source : option ptr)
  : tact T container :=
  n <== End (numel sh) ;;
  data <== t_block (cval n) source ;;
  kst <== End (make_accessor st_shape st_stride sh given) ;;
  End (Ok (Cn (fst kst) sh (snd kst) data)).
Definition t_like {T} (ty c : container) : tact T container :=
  n <== End (numel (c_shape c)) ;;
  data <== t_block (cval n) (Some (c_data c)) ;;
  ksst <== End (rebuild_accessor ty (c_shape c)) ;;
  End (Ok (Cn (fst (fst ksst)) (snd (fst ksst)) (snd ksst) data)).
Definition t_copy {T} (c : container) : tact T container := t_like c c.
(** The destructor, [Container.release] (heap_block.hpp 25-35: unique_ptr calls the deleter if the pointer is not null). *)
Definition t_drop {T} (c : container) : tact T unit :=
  match c_data c with Null => End (Ok tt) | p => Delete p (End (Ok tt)) end.
(** Copy assignment of a heap table, [Container.assign_table] (table.hpp 85-98). *)
Definition t_assign {T} (dst src : container) : tact T container :=
  local <== t_like dst src ;;
  _ <== t_drop (snd (swap_containers dst local)) ;;
  End (Ok (fst (swap_containers dst local))).

(** One step. *)
Definition tadvance {T A} (x : tact T A) (m : mem T) : option (outcome (tact T A * mem T)) :=
  match x with
  | End _ => None
  | Form p k => Some (if validb m p then Ok (k, m) else UB)
  | Load p k => Some (v <- load m p ;; Ok (k v, m))
  | Store p v k => Some (m' <- store m p v ;; Ok (k, m'))
  | New n k => Some (let '(m', p) := alloc m n in Ok (k p, m'))
  | Delete p k => Some (m' <- release m p ;; Ok (k, m'))
  end.
Definition tstate (T A : Type) := (list (tact T A) * mem T)%type.
Inductive tturn {T A} : tstate T A -> tstate T A -> Prop :=
| tturn_of i ths m x x' m' : nth_error ths i = Some x -> tadvance x m = Some (Ok (x', m')) ->
    tturn (ths, m) (set_nth ths i x', m').
Inductive tturns {T A} : nat -> tstate T A -> tstate T A -> Prop :=
| tturns_none s : tturns 0 s s
| tturns_more n s s' s'' : tturns n s s' -> tturn s' s'' -> tturns (S n) s s''.
