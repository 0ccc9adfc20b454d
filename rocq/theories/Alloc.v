(** Ownership of allocators and of memory: any_allocator and the life cycle of heap tables. *)
From Coq Require Import ZArith List Bool.
From Verif Require Import Outcome Memory.
Import ListNotations.
Open Scope Z_scope.

(** Program variables: [None] is a variable that is not constructed (yet, or any more). *)
Definition vars (X : Type) := nat -> option X.
Definition bindv {X} (e : vars X) (v : nat) (x : option X) : vars X :=
  fun w => if Nat.eqb w v then x else e w.
Definition var {X} (e : vars X) (v : nat) : outcome X :=
  match e v with Some x => Ok x | None => UB end.
(** Constructing a variable that already exists is not a program. *)
Definition fresh {X} (e : vars X) (v : nat) : outcome unit :=
  match e v with Some _ => UB | None => Ok tt end.

(** * any_allocator, include/kwk/utility/memory/any_allocator.hpp *)

(** An allocator type: the free functions allocate and deallocate on its instances, which have a state
    [A] (concepts/allocator.hpp 22-26). [R]: what allocate returns. Objects of several allocator types
    are covered by taking for [A] the sum of the types. *)
Record alloc_class (A R : Type) := AC {
  ac_allocate : A -> Z -> A * R;
  ac_deallocate : A -> R -> A
}.
Arguments ac_allocate {A R}. Arguments ac_deallocate {A R}.

(** The heap where the objects model_t<T> (38-51) live; a deleted object is [None]. An any_allocator is
    the pointer held by its unique_ptr<api_t> member (line 97): [None] is null. *)
Definition objects (A : Type) := list (option A).
Definition any := option nat.

(** std::make_unique<model_t<T>>(a). *)
Definition new_object {A} (h : objects A) (a : A) : objects A * any := (h ++ [Some a], Some (length h)).

(** Dereferencing object. *)
Definition object {A} (h : objects A) (p : any) : outcome A :=
  match p with
  | None => UB
  | Some n => match nth_error h n with Some (Some a) => Ok a | _ => UB end
  end.

(** Deleting what a unique_ptr holds. *)
Definition delete {A} (h : objects A) (p : any) : outcome (objects A) :=
  match p with
  | None => Ok h
  | Some n => match nth_error h n with Some (Some _) => Ok (set_nth h n None) | _ => UB end
  end.

(** Copy constructor, line 65, with clone, line 47. *)
Definition any_copy {A} (h : objects A) (p : any) : outcome (objects A * any) :=
  a <- object h p ;; Ok (new_object h a).

(** A program state: the object heap and the any_allocator variables. *)
Record astate (A : Type) := AS { a_heap : objects A; a_vars : vars any }.
Arguments AS {A}. Arguments a_heap {A}. Arguments a_vars {A}.

Inductive aop (A R : Type) :=
| ADefault (v : nat)                 (* any_allocator v;                 line 56 *)
| AFrom (v : nat) (a : A)            (* any_allocator v(a);              lines 76-79 *)
| ACopy (v w : nat)                  (* any_allocator v(std::as_const(w)); line 65 *)
| AMove (v w : nat)                  (* any_allocator v(std::move(w));   line 59 *)
| ACopyAssign (v w : nat)            (* v = std::as_const(w);            lines 68-73 *)
| AMoveAssign (v w : nat)            (* v = std::move(w);                line 62 *)
| AAssign (v : nat) (a : A)          (* v = a;                           lines 82-87 *)
| ASwap (v w : nat)                  (* v.swap(w);                       lines 90-91 *)
| AAllocate (v : nat) (n : Z)        (* allocate(v,n);                   lines 107-110 *)
| ADeallocate (v : nat) (r : R)      (* deallocate(v,r);                 lines 118-121 *)
| ADestroy (v : nat).                (* end of the life of v *)
Arguments ADefault {A R}. Arguments AFrom {A R}. Arguments ACopy {A R}. Arguments AMove {A R}.
Arguments ACopyAssign {A R}. Arguments AMoveAssign {A R}. Arguments AAssign {A R}. Arguments ASwap {A R}.
Arguments AAllocate {A R}. Arguments ADeallocate {A R}. Arguments ADestroy {A R}.

(** swap(that) and the destruction of that, at the end of both assignments (70-72, 84-86). *)
Definition swap_in {A} (h : objects A) (e : vars any) (v : nat) (that : any) : outcome (astate A) :=
  old <- var e v ;;
  let e1 := bindv e v (Some that) in
  h1 <- delete h old ;; Ok (AS h1 e1).

(** One operation; the list holds the pointers returned by allocate. *)
Definition astep {A R} (ac : alloc_class A R) (s : astate A) (o : aop A R) : outcome (astate A * list R) :=
  let h := a_heap s in let e := a_vars s in
  match o with
  | ADefault v => _ <- fresh e v ;; Ok (AS h (bindv e v (Some None)), [])
  | AFrom v a =>
      _ <- fresh e v ;;
      let '(h1, p) := new_object h a in Ok (AS h1 (bindv e v (Some p)), [])
  | ACopy v w =>
      _ <- fresh e v ;; src <- var e w ;;
      ' (h1, p) <- any_copy h src ;; Ok (AS h1 (bindv e v (Some p)), [])
  | AMove v w =>
      _ <- fresh e v ;; p <- var e w ;;
      Ok (AS h (bindv (bindv e w (Some None)) v (Some p)), [])
  | ACopyAssign v w =>
      src <- var e w ;; ' (h1, that) <- any_copy h src ;;
      s' <- swap_in h1 e v that ;; Ok (s', [])
  | AMoveAssign v w =>
      (* unique_ptr: reset(other.release()) *)
      p <- var e w ;; let e1 := bindv e w (Some None) in
      old <- var e1 v ;; let e2 := bindv e1 v (Some p) in
      h1 <- delete h old ;; Ok (AS h1 e2, [])
  | AAssign v a =>
      let '(h1, that) := new_object h a in s' <- swap_in h1 e v that ;; Ok (s', [])
  | ASwap v w =>
      p <- var e v ;; q <- var e w ;;
      Ok (AS h (bindv (bindv e v (Some q)) w (Some p)), [])
  | AAllocate v n =>
      p <- var e v ;; a <- object h p ;;
      let '(a', r) := ac_allocate ac a n in
      match p with Some i => Ok (AS (set_nth h i (Some a')) e, [r]) | None => UB end
  | ADeallocate v r =>
      p <- var e v ;; a <- object h p ;;
      match p with Some i => Ok (AS (set_nth h i (Some (ac_deallocate ac a r))) e, []) | None => UB end
  | ADestroy v =>
      p <- var e v ;; h1 <- delete h p ;; Ok (AS h1 (bindv e v None), [])
  end.

Fixpoint aruns {A R} (ac : alloc_class A R) (s : astate A) (os : list (aop A R)) : outcome (astate A * list R) :=
  match os with
  | [] => Ok (s, [])
  | o :: os' => ' (s1, r1) <- astep ac s o ;; ' (s2, r2) <- aruns ac s1 os' ;; Ok (s2, r1 ++ r2)
  end.

Definition ainit {A} : astate A := AS [] (fun _ => None).

(** Copying from a non-const lvalue of type any_allocator: overload resolution prefers the forwarding
    constructor 76-79 with T = any_allocator& to the copy constructor (which needs a const). It runs
    make_unique<model_t<any_allocator>>(other), and the parameter t of model_t(base_type t), line 43, of
    type any_allocator, is initialised from that same non-const lvalue, by this constructor again.
    [wrap t] is the state of a model_t<any_allocator> holding [t]. The fuel stands for the depth of the
    call stack. *)
Fixpoint any_copy_lvalue {A} (wrap : any -> A) (fuel : nat) (h : objects A) (p : any)
  : outcome (objects A * any) :=
  match fuel with
  | O => NoFuel
  | S fuel' => ' (h1, t) <- any_copy_lvalue wrap fuel' h p ;; Ok (new_object h1 (wrap t))
  end.
(** v = w for two non-const variables, lines 82-87 with T = any_allocator&. *)
Definition any_assign_lvalue {A} (wrap : any -> A) (fuel : nat) (s : astate A) (v w : nat) : outcome (astate A) :=
  src <- var (a_vars s) w ;;
  ' (h1, that) <- any_copy_lvalue wrap fuel (a_heap s) src ;;
  swap_in h1 (a_vars s) v that.

(** * Heap tables, include/kwk/detail/memory/heap_block.hpp *)

(** A heap_block: the unique_ptr data_ (34-35), that is the pointer to the elements ([None] is null) and
    the any_allocator of the deleter (25-32). By the value semantics of any_allocator (theorem
    any_allocators_are_values) the latter is represented by the allocator it holds: a number, 0 being
    heap_allocator; [None] is an any_allocator without object. *)
Record hblock := HB { hb_ptr : option nat; hb_alloc : option nat }.
(** A heap table: its block and the number of elements of its shape. The contents are those of
    Container.v, not repeated here. *)
Record htable := HT { ht_blk : hblock; ht_size : Z }.

(** What happens to memory: allocation of block [b] of [n] elements by allocator [k], its release, the
    reading of its first [n] elements. *)
Inductive event := Alloc (k b : nat) (n : Z) | Free (k b : nat) | Read (b : nat) (n : Z).

(** The events so far, oldest first; the number of blocks allocated so far; the tables. *)
Record hstate := HS { h_trace : list event; h_next : nat; h_tabs : vars htable }.

(** allocate(a,sz), heap_block.hpp 46. heap_allocator returns nullptr for zero bytes
    (heap_allocator.hpp 31-34); [zero]: which other allocators return a block then. Failing
    allocations: [Fail.v]. *)
Definition hallocate (zero : nat -> bool) (s : hstate) (k : nat) (n : Z) : hstate * option nat :=
  if (n =? 0) && (Nat.eqb k 0 || negb (zero k)) then (s, None)
  else (HS (h_trace s ++ [Alloc k (h_next s) n]) (S (h_next s)) (h_tabs s), Some (h_next s)).

(** The deleter applied to a non-null pointer, heap_block.hpp 31 and any_allocator.hpp 118-121. *)
Definition hdelete (s : hstate) (a : option nat) (b : nat) : outcome hstate :=
  match a with
  | None => UB
  | Some k => Ok (HS (h_trace s ++ [Free k b]) (h_next s) (h_tabs s))
  end.

(** ~unique_ptr and the deletion of the old pointer by unique_ptr::reset: nothing for a null pointer. *)
Definition hdestroy (s : hstate) (x : hblock) : outcome hstate :=
  match hb_ptr x with None => Ok s | Some b => hdelete s (hb_alloc x) b end.

(** heap_block(settings), heap_block.hpp 39-48, without source. *)
Definition hnew (zero : nat -> bool) (s : hstate) (k : nat) (n : Z) : hstate * hblock :=
  let '(s1, p) := hallocate zero s k n in (s1, HB p (Some k)).

(** table(other.settings()), table.hpp 75-77: the settings (container.hpp 75-78) hold the data pointer and
    the shape, not the allocator, so heap_allocator is used (container/settings/allocator.hpp 18-22);
    then assign (heap_block.hpp 50-51, 60-63) reads numel() elements from the source. *)
Definition hcopy (zero : nat -> bool) (s : hstate) (t : htable) : outcome (hstate * htable) :=
  let '(s1, x) := hnew zero s 0 (ht_size t) in
  if ht_size t =? 0 then Ok (s1, HT x (ht_size t))
  else match hb_ptr (ht_blk t) with
       | None => UB
       | Some b => Ok (HS (h_trace s1 ++ [Read b (ht_size t)]) (h_next s1) (h_tabs s1), HT x (ht_size t))
       end.

Definition with_tab (s : hstate) (v : nat) (t : option htable) : hstate :=
  HS (h_trace s) (h_next s) (bindv (h_tabs s) v t).

Inductive hop :=
| TDefault (v : nat)              (* table v; table.hpp 53, heap_block.hpp 37: all extents are 0 *)
| TNew (v k : nat) (n : Z)        (* a table of n elements from allocator k; table.hpp 55-66 *)
| TCopy (v w : nat)               (* table v(w); 75-77 *)
| TMove (v w : nat)               (* table v(std::move(w)); 69 *)
| TCopyAssign (v w : nat)         (* v = w; 85-90 *)
| TMoveAssign (v w : nat)         (* v = std::move(w); 72 *)
| TSwap (v w : nat)               (* v.swap(w); container.hpp 56-63, heap_block.hpp 54 *)
| TDestroy (v : nat).             (* end of the life of v *)

Definition moved_from : hblock := HB None None.

Definition hstep (zero : nat -> bool) (s : hstate) (o : hop) : outcome hstate :=
  match o with
  | TDefault v => _ <- fresh (h_tabs s) v ;; Ok (with_tab s v (Some (HT (HB None (Some 0%nat)) 0)))
  | TNew v k n =>
      _ <- fresh (h_tabs s) v ;;
      if n <? 0 then UB (* not a shape *)
      else let '(s1, x) := hnew zero s k n in Ok (with_tab s1 v (Some (HT x n)))
  | TCopy v w =>
      _ <- fresh (h_tabs s) v ;; t <- var (h_tabs s) w ;;
      ' (s1, t1) <- hcopy zero s t ;; Ok (with_tab s1 v (Some t1))
  | TMove v w =>
      (* unique_ptr(unique_ptr&&): the pointer is taken, the deleter is moved; the accessor is copied *)
      _ <- fresh (h_tabs s) v ;; t <- var (h_tabs s) w ;;
      Ok (with_tab (with_tab s w (Some (HT moved_from (ht_size t)))) v (Some t))
  | TCopyAssign v w =>
      (* table local(other); swap(local); ~local *)
      t <- var (h_tabs s) w ;; ' (s1, local) <- hcopy zero s t ;;
      old <- var (h_tabs s1) v ;;
      hdestroy (with_tab s1 v (Some local)) (ht_blk old)
  | TMoveAssign v w =>
      (* unique_ptr: reset(u.release()); get_deleter() = std::move(u.get_deleter()) *)
      t <- var (h_tabs s) w ;;
      let p := hb_ptr (ht_blk t) in
      let s1 := with_tab s w (Some (HT (HB None (hb_alloc (ht_blk t))) (ht_size t))) in
      old <- var (h_tabs s1) v ;;
      let s2 := with_tab s1 v (Some (HT (HB p (hb_alloc (ht_blk old))) (ht_size old))) in
      s3 <- hdestroy s2 (ht_blk old) ;;
      (* the deleters; any_allocator's move assignment is again reset(release()) *)
      t3 <- var (h_tabs s3) w ;;
      let a := hb_alloc (ht_blk t3) in
      let s4 := with_tab s3 w (Some (HT (HB (hb_ptr (ht_blk t3)) None) (ht_size t3))) in
      t4 <- var (h_tabs s4) v ;;
      (* the accessors *)
      Ok (with_tab s4 v (Some (HT (HB (hb_ptr (ht_blk t4)) a) (ht_size t))))
  | TSwap v w =>
      t <- var (h_tabs s) v ;; u <- var (h_tabs s) w ;;
      Ok (with_tab (with_tab s v (Some u)) w (Some t))
  | TDestroy v =>
      t <- var (h_tabs s) v ;; hdestroy (with_tab s v None) (ht_blk t)
  end.

Fixpoint hruns (zero : nat -> bool) (s : hstate) (os : list hop) : outcome hstate :=
  match os with
  | [] => Ok s
  | o :: os' => s1 <- hstep zero s o ;; hruns zero s1 os'
  end.

Definition hinit : hstate := HS [] 0 (fun _ => None).
