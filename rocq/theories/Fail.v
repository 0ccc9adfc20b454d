(** Heap tables when allocations or copies of elements fail: the operations of Alloc.v, each with the failure
    met by it. *)
From Coq Require Import ZArith List Bool.
From Verif Require Import Outcome Memory Alloc.
Import ListNotations.
Open Scope Z_scope.

(** What goes wrong during one operation. [NoMemory]: allocate has no memory. [NoDeleter]: the
    std::make_unique of any_allocator's constructor throws (any_allocator.hpp 76-79, from the constructor of
    deleter, heap_block.hpp 30). [BadCopy j]: the assignment of element [j] throws (std::copy,
    heap_block.hpp 62). *)
Inductive fate := Fine | NoMemory | NoDeleter | BadCopy (j : Z).

(** ptr_t{(value_type* )(allocate(a,sz)), deleter(a)}, heap_block.hpp 46: the two initializers are evaluated
    in this order, and no object owns the block between them. heap_allocator's allocate is noexcept and
    returns malloc's null pointer, which is not tested (heap_allocator.hpp 31-34); [throws]: the other
    allocators that throw when they have no memory instead of returning null. The result is [None] when an
    exception leaves the constructor. *)
Definition fnew (throws zero : nat -> bool) (f : fate) (s : hstate) (k : nat) (n : Z) : hstate * option hblock :=
  match f with
  | NoMemory => if negb (Nat.eqb k 0) && throws k then (s, None) else (s, Some (HB None (Some k)))
  | NoDeleter => (fst (hallocate zero s k n), None)
  | Fine | BadCopy _ => let '(s1, x) := hnew zero s k n in (s1, Some x)
  end.

(** heap_block(settings) with a source, heap_block.hpp 39-52 and 60-63, for table(other.settings()), as
    [hcopy]. When the copy of an element throws, data_ is already constructed: its destructor runs. Writing
    to a block that was not allocated is undefined. *)
Definition fcopy (throws zero : nat -> bool) (f : fate) (s : hstate) (t : htable) : outcome (hstate * option htable) :=
  let n := ht_size t in
  let '(s1, ox) := fnew throws zero f s 0 n in
  match ox with
  | None => Ok (s1, None)
  | Some x =>
      if n =? 0 then Ok (s1, Some (HT x n))
      else match hb_ptr (ht_blk t), hb_ptr x with
           | Some b, Some _ =>
               let read m := HS (h_trace s1 ++ [Read b m]) (h_next s1) (h_tabs s1) in
               match f with
               | BadCopy j =>
                   if (0 <=? j) && (j <? n) then s2 <- hdestroy (read (j + 1)) x ;; Ok (s2, None)
                   else Ok (read n, Some (HT x n))
               | _ => Ok (read n, Some (HT x n))
               end
           | _, _ => UB
           end
  end.

(** One operation; [true]: an exception leaves it. [Abort]: std::terminate ends the program, because an
    exception would leave a noexcept function. Moves, swaps and destructions allocate nothing and copy
    no element. *)
Definition fstep (throws zero : nat -> bool) (f : fate) (s : hstate) (o : hop) : outcome (hstate * bool) :=
  match o with
  | TDefault v =>
      (* table.hpp 53, heap_block.hpp 37: only the deleter is made; container(container_kind), container.hpp
         37-39, is noexcept *)
      match f with
      | NoDeleter => _ <- fresh (h_tabs s) v ;; Abort
      | _ => s1 <- hstep zero s o ;; Ok (s1, false)
      end
  | TNew v k n =>
      _ <- fresh (h_tabs s) v ;;
      if n <? 0 then UB
      else match fnew throws zero f s k n with
           | (s1, Some x) => Ok (with_tab s1 v (Some (HT x n)), false)
           | (s1, None) => Ok (s1, true)
           end
  | TCopy v w =>
      _ <- fresh (h_tabs s) v ;; t <- var (h_tabs s) w ;;
      ' (s1, r) <- fcopy throws zero f s t ;;
      match r with
      | Some t1 => Ok (with_tab s1 v (Some t1), false)
      | None => Ok (s1, true)
      end
  | TCopyAssign v w =>
      (* table local(other); swap(local); ~local; table.hpp 85-90 *)
      t <- var (h_tabs s) w ;; old <- var (h_tabs s) v ;;
      ' (s1, r) <- fcopy throws zero f s t ;;
      match r with
      | Some local => s2 <- hdestroy (with_tab s1 v (Some local)) (ht_blk old) ;; Ok (s2, false)
      | None => Ok (s1, true)
      end
  | TMove _ _ | TMoveAssign _ _ | TSwap _ _ | TDestroy _ => s1 <- hstep zero s o ;; Ok (s1, false)
  end.

(** A program that catches every exception and goes on; the list tells which operations threw. *)
Fixpoint fruns (throws zero : nat -> bool) (s : hstate) (os : list (hop * fate)) : outcome (hstate * list bool) :=
  match os with
  | [] => Ok (s, [])
  | (o, f) :: os' =>
      ' (s1, x) <- fstep throws zero f s o ;;
      ' (s2, xs) <- fruns throws zero s1 os' ;; Ok (s2, x :: xs)
  end.
