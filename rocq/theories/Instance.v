(** Heap tables with stateful allocators: the allocator objects made, and the calls they get. *)
From Coq Require Import ZArith List Bool.
From Verif Require Import Outcome Alloc.
Import ListNotations.
Open Scope Z_scope.

(** An allocator type (include/kwk/concepts/allocator.hpp 22-26) with states [A], in a world [W] which all
    its objects share: the heap, or what allocators that are handles refer to. What allocate returns is a
    pointer, [None] being null. Several types are covered by a sum; [h0] is the state of a heap_allocator
    (include/kwk/utility/memory/heap_allocator.hpp 20), the allocator of tables made without one
    (include/kwk/container/settings/allocator.hpp 18-22). *)
Record behaviour (A W : Type) := Behaviour {
  b_allocate : W -> A -> Z -> W * (A * option nat);
  b_deallocate : W -> A -> nat -> W * A
}.
Arguments b_allocate {A W}. Arguments b_deallocate {A W}.

Section Instances.
Context {A W : Type} (ac : behaviour A W) (h0 : A).

(** An allocator object: its identity and its state. A copy is another object in the same state. *)
Record inst := In_ { i_id : nat; i_state : A }.

(** A heap table: the pointer and the deleter of its unique_ptr (include/kwk/detail/memory/heap_block.hpp
    25-35), i.e. the object held by the any_allocator ([None]: none, after a move), and the number of
    bytes of its elements. The elements themselves are those of Container.v. *)
Record itable := IT { it_ptr : option nat; it_alloc : option inst; it_size : Z }.

(** What happens to allocator objects, oldest first: the calls, with the world and the state they find, and
    the end of the object. Reading [n] bytes at a pointer, for copies. The world changed by other parts of
    the program. *)
Inductive ievent :=
| EAllocate (id : nat) (w : W) (a : A) (n : Z)
| EDeallocate (id : nat) (w : W) (a : A) (p : nat)
| EGone (id : nat)
| ERead (p : nat) (n : Z)
| EWorld (w : W).

(** The world, the allocators of the program, the tables, the next identity, the events. *)
Record istate := IS { i_world : W; i_user : vars A; i_tabs : vars itable; i_next : nat; i_trace : list ievent }.

Definition log (s : istate) (l : list ievent) : istate :=
  IS (i_world s) (i_user s) (i_tabs s) (i_next s) (i_trace s ++ l).
Definition set_tab (s : istate) (v : nat) (t : option itable) : istate :=
  IS (i_world s) (i_user s) (bindv (i_tabs s) v t) (i_next s) (i_trace s).

(** heap_block(settings), heap_block.hpp 39-48: the local variable a is a copy of the allocator given; it
    allocates; deleter(a) (30) copies it into its parameter, from there into the object of its
    any_allocator (any_allocator.hpp 38-51, 76-79). The objects in between are made and destroyed without
    a call and are left out. The local variable ends with the lambda. *)
Definition make_block (s : istate) (a : A) (n : Z) : istate * (option nat * inst) :=
  let id := i_next s in
  let '(w1, (a1, r)) := b_allocate ac (i_world s) a n in
  let s1 := IS w1 (i_user s) (i_tabs s) (S (S id)) (i_trace s ++ [EAllocate id (i_world s) a n; EGone id]) in
  (s1, (r, In_ (S id) a1)).

(** The destruction of a unique_ptr: a non-null pointer is given to the deleter (heap_block.hpp 31,
    any_allocator.hpp 118-121), whose object must exist; then the object ends with the deleter. *)
Definition release (s : istate) (p : option nat) (a : option inst) : outcome istate :=
  match p, a with
  | None, _ => Ok s
  | Some q, Some i =>
      let w1 := fst (b_deallocate ac (i_world s) (i_state i) q) in
      Ok (IS w1 (i_user s) (i_tabs s) (i_next s) (i_trace s ++ [EDeallocate (i_id i) (i_world s) (i_state i) q]))
  | Some _, None => UB
  end.
Definition end_inst (s : istate) (a : option inst) : istate :=
  match a with Some i => log s [EGone (i_id i)] | None => s end.
Definition destroy (s : istate) (t : itable) : outcome istate :=
  s1 <- release s (it_ptr t) (it_alloc t) ;; Ok (end_inst s1 (it_alloc t)).

(** table(other.settings()), include/kwk/container/table.hpp 75-77: the settings do not hold the allocator
    (container.hpp 75-78), so a heap_allocator is used; then the elements are read from the source. *)
Definition copy_table (s : istate) (t : itable) : outcome (istate * itable) :=
  let '(s1, (r, i)) := make_block s h0 (it_size t) in
  let c := IT r (Some i) (it_size t) in
  if it_size t =? 0 then Ok (s1, c)
  else match it_ptr t with
       | None => UB
       | Some p => Ok (log s1 [ERead p (it_size t)], c)
       end.

Inductive iop :=
| NUser (u : nat) (a : A)      (* the program makes or changes its own allocator u *)
| NWorld (w : W)               (* other parts of the program change the world *)
| NDefault (v : nat)           (* table v; heap_block.hpp 37 *)
| NNew (v u : nat) (n : Z)     (* table v of n bytes with allocator = u; table.hpp 55-66 *)
| NCopy (v w : nat)            (* table v(w); 75-77 *)
| NMove (v w : nat)            (* table v(std::move(w)); 69 *)
| NCopyAssign (v w : nat)      (* v = w; 85-90 *)
| NMoveAssign (v w : nat)      (* v = std::move(w); 72 *)
| NSwap (v w : nat)            (* v.swap(w); container.hpp 56-63, heap_block.hpp 54 *)
| NDestroy (v : nat).          (* end of the life of v *)

Definition istep (s : istate) (o : iop) : outcome istate :=
  match o with
  | NUser u a => Ok (IS (i_world s) (bindv (i_user s) u (Some a)) (i_tabs s) (i_next s) (i_trace s))
  | NWorld w => Ok (log (IS w (i_user s) (i_tabs s) (i_next s) (i_trace s)) [EWorld w])
  | NDefault v =>
      _ <- fresh (i_tabs s) v ;;
      let i := In_ (i_next s) h0 in
      Ok (IS (i_world s) (i_user s) (bindv (i_tabs s) v (Some (IT None (Some i) 0))) (S (i_next s)) (i_trace s))
  | NNew v u n =>
      _ <- fresh (i_tabs s) v ;; a <- var (i_user s) u ;;
      if n <? 0 then UB (* not a shape *)
      else let '(s1, (r, i)) := make_block s a n in Ok (set_tab s1 v (Some (IT r (Some i) n)))
  | NCopy v w =>
      _ <- fresh (i_tabs s) v ;; t <- var (i_tabs s) w ;;
      ' (s1, c) <- copy_table s t ;; Ok (set_tab s1 v (Some c))
  | NMove v w =>
      _ <- fresh (i_tabs s) v ;; t <- var (i_tabs s) w ;;
      Ok (set_tab (set_tab s w (Some (IT None None (it_size t)))) v (Some t))
  | NCopyAssign v w =>
      (* table local(other); swap(local); ~local *)
      t <- var (i_tabs s) w ;; ' (s1, c) <- copy_table s t ;;
      old <- var (i_tabs s1) v ;; destroy (set_tab s1 v (Some c)) old
  | NMoveAssign v w =>
      (* unique_ptr: reset(u.release()); get_deleter() = std::move(u.get_deleter()); the accessors *)
      t <- var (i_tabs s) w ;;
      let s1 := set_tab s w (Some (IT None (it_alloc t) (it_size t))) in
      old <- var (i_tabs s1) v ;;
      let s2 := set_tab s1 v (Some (IT (it_ptr t) (it_alloc old) (it_size old))) in
      s3 <- release s2 (it_ptr old) (it_alloc old) ;;
      (* any_allocator's move assignment is reset(release()) again *)
      t3 <- var (i_tabs s3) w ;;
      let s4 := set_tab s3 w (Some (IT (it_ptr t3) None (it_size t3))) in
      t4 <- var (i_tabs s4) v ;;
      let s5 := set_tab s4 v (Some (IT (it_ptr t4) (it_alloc t3) (it_size t))) in
      Ok (end_inst s5 (it_alloc t4))
  | NSwap v w =>
      t <- var (i_tabs s) v ;; u <- var (i_tabs s) w ;;
      Ok (set_tab (set_tab s v (Some u)) w (Some t))
  | NDestroy v =>
      t <- var (i_tabs s) v ;; destroy (set_tab s v None) t
  end.

Fixpoint iruns (s : istate) (os : list iop) : outcome istate :=
  match os with
  | [] => Ok s
  | o :: os' => s1 <- istep s o ;; iruns s1 os'
  end.

Definition iinit (w : W) : istate := IS w (fun _ => None) (fun _ => None) 0 [].
End Instances.

Arguments inst : clear implicits. Arguments itable : clear implicits. Arguments ievent : clear implicits.
Arguments istate : clear implicits. Arguments iop : clear implicits.
