(** Tables whose elements are objects of a class type: construction, assignment and destruction of the
    elements. Exceptions: Throw.v. *)
From Coq Require Import ZArith List Bool.
From Verif Require Import Outcome Memory ForEachSpec Alloc.
Import ListNotations.

(** A class: the value its default constructor gives, the value a move leaves in its source, and the value
    left by moving an object to itself. *)
Record eclass (T : Type) := EC { e_default : T; e_moved : T -> T; e_self : T -> T }.
Arguments EC {T}. Arguments e_default {T}. Arguments e_moved {T}. Arguments e_self {T}.

(** Storage for elements, by blocks. [None]: no object lives there (not yet constructed, or destroyed). *)
Definition slots (T : Type) := list (list (option T)).

Definition slot {T} (h : slots T) (b i : nat) : option (option T) :=
  match nth_error h b with Some cs => nth_error cs i | None => None end.
Definition put_slot {T} (h : slots T) (b i : nat) (x : option T) : slots T :=
  match nth_error h b with Some cs => set_nth h b (set_nth cs i x) | None => h end.

(** Reading, constructing, assigning and destroying an object. Using an object outside of its lifetime,
    and constructing one over a living one, is undefined. *)
Definition look {T} (h : slots T) (b i : nat) : outcome T :=
  match slot h b i with Some (Some x) => Ok x | _ => UB end.
Definition e_construct {T} (h : slots T) (b i : nat) (x : T) : outcome (slots T) :=
  match slot h b i with Some None => Ok (put_slot h b i (Some x)) | _ => UB end.
Definition e_assign {T} (h : slots T) (b i : nat) (x : T) : outcome (slots T) :=
  _ <- look h b i ;; Ok (put_slot h b i (Some x)).
Definition e_destroy {T} (h : slots T) (b i : nat) : outcome (slots T) :=
  _ <- look h b i ;; Ok (put_slot h b i None).

(** The value that moving from an object gives, and the source afterwards. *)
Definition e_move_out {T} (ec : eclass T) (h : slots T) (b i : nat) : outcome (T * slots T) :=
  x <- look h b i ;; Ok (x, put_slot h b i (Some (e_moved ec x))).
(** (b,i) = std::move of (c,j). *)
Definition e_move_assign {T} (ec : eclass T) (h : slots T) (b i c j : nat) : outcome (slots T) :=
  if Nat.eqb b c && Nat.eqb i j then x <- look h b i ;; Ok (put_slot h b i (Some (e_self ec x)))
  else ' (x, h1) <- e_move_out ec h c j ;; e_assign h1 b i x.

(** Storage of [n] elements without objects. *)
Definition new_slots {T} (h : slots T) (n : nat) : slots T * nat := (h ++ [repeat None n], length h).

(** * stack_block<T,Size>, include/kwk/detail/memory/stack_block.hpp *)

(** Default initialisation of the member data_ (25), by both constructors (27 and 30). *)
Definition stack_default {T} (ec : eclass T) (n : nat) (h : slots T) : outcome (slots T * nat) :=
  let '(h1, b) := new_slots h n in
  h2 <- run (fun i h => e_construct h b i (e_default ec)) (seq 0 n) h1 ;; Ok (h2, b).

(** assign(src, _), 39-42: std::copy(src, src + Size, get_data()). *)
Definition stack_assign {T} (n : nat) (src : slots T -> nat -> outcome T) (b : nat) (h : slots T)
  : outcome (slots T) :=
  run (fun i h => x <- src h i ;; e_assign h b i x) (seq 0 n) h.

(** stack_block(settings) with a source, 29-34: the elements are default-initialised, then assigned. *)
Definition stack_from {T} (ec : eclass T) (n : nat) (src : slots T -> nat -> outcome T) (h : slots T)
  : outcome (slots T * nat) :=
  ' (h1, b) <- stack_default ec n h ;; h2 <- stack_assign n src b h1 ;; Ok (h2, b).

(** The implicit move constructor and move assignment: element by element. *)
Definition stack_move {T} (ec : eclass T) (n : nat) (c : nat) (h : slots T) : outcome (slots T * nat) :=
  let '(h1, b) := new_slots h n in
  h2 <- run (fun i h => ' (x, h1) <- e_move_out ec h c i ;; e_construct h1 b i x) (seq 0 n) h1 ;; Ok (h2, b).
Definition stack_move_assign {T} (ec : eclass T) (n : nat) (b c : nat) (h : slots T) : outcome (slots T) :=
  run (fun i h => e_move_assign ec h b i c i) (seq 0 n) h.

(** swap, 44-48: std::swap of each element (a temporary moved from the first, two move assignments; the
    temporary is not in [slots]). *)
Definition stack_swap {T} (ec : eclass T) (n : nat) (b c : nat) (h : slots T) : outcome (slots T) :=
  run (fun i h => ' (t, h1) <- e_move_out ec h b i ;; h2 <- e_move_assign ec h1 b i c i ;; e_assign h2 c i t)
      (seq 0 n) h.

(** The implicit destructor: the elements from last to first. *)
Definition stack_destroy {T} (n : nat) (b : nat) (h : slots T) : outcome (slots T) :=
  run (fun i h => e_destroy h b i) (rev (seq 0 n)) h.

(** Histories of the tables of one type, with [n] elements each. *)
Inductive sop (T : Type) :=
| SDefault (v : nat)              (* table v;                 container/table.hpp 53 *)
| SFrom (v : nat) (xs : list T)   (* table v from a source;   55-66 *)
| SCopy (v w : nat)               (* table v(w);              75-77: from w.settings(), whose source is w's data *)
| SMove (v w : nat)               (* table v(std::move(w));   69 *)
| SCopyAssign (v w : nat)         (* v = w;                   85-90: local copy, swap, end of local *)
| SMoveAssign (v w : nat)         (* v = std::move(w);        72 *)
| SSwap (v w : nat)               (* v.swap(w);               container.hpp 56-61 *)
| SWrite (v i : nat) (x : T)      (* the i-th element of v = x *)
| SDestroy (v : nat).             (* end of the life of v *)
Arguments SDefault {T}. Arguments SFrom {T}. Arguments SCopy {T}. Arguments SMove {T}.
Arguments SCopyAssign {T}. Arguments SMoveAssign {T}. Arguments SSwap {T}. Arguments SWrite {T}.
Arguments SDestroy {T}.

(** The storage, and the block of each table. *)
Record sstate (T : Type) := SS { s_slots : slots T; s_vars : vars nat }.
Arguments SS {T}. Arguments s_slots {T}. Arguments s_vars {T}.

(** The i-th element behind the pointer to a source of objects outside of the tables. *)
Definition from_list {T} (xs : list T) (_ : slots T) (i : nat) : outcome T :=
  match nth_error xs i with Some x => Ok x | None => UB end.

Definition sstep {T} (ec : eclass T) (n : nat) (s : sstate T) (o : sop T) : outcome (sstate T) :=
  let h := s_slots s in let e := s_vars s in
  match o with
  | SDefault v => _ <- fresh e v ;; ' (h1, b) <- stack_default ec n h ;; Ok (SS h1 (bindv e v (Some b)))
  | SFrom v xs =>
      _ <- fresh e v ;; ' (h1, b) <- stack_from ec n (from_list xs) h ;; Ok (SS h1 (bindv e v (Some b)))
  | SCopy v w =>
      _ <- fresh e v ;; c <- var e w ;;
      ' (h1, b) <- stack_from ec n (fun h i => look h c i) h ;; Ok (SS h1 (bindv e v (Some b)))
  | SMove v w =>
      _ <- fresh e v ;; c <- var e w ;;
      ' (h1, b) <- stack_move ec n c h ;; Ok (SS h1 (bindv e v (Some b)))
  | SCopyAssign v w =>
      b <- var e v ;; c <- var e w ;;
      ' (h1, l) <- stack_from ec n (fun h i => look h c i) h ;;
      h2 <- stack_swap ec n b l h1 ;; h3 <- stack_destroy n l h2 ;; Ok (SS h3 e)
  | SMoveAssign v w =>
      b <- var e v ;; c <- var e w ;; h1 <- stack_move_assign ec n b c h ;; Ok (SS h1 e)
  | SSwap v w =>
      b <- var e v ;; c <- var e w ;; h1 <- stack_swap ec n b c h ;; Ok (SS h1 e)
  | SWrite v i x => b <- var e v ;; h1 <- e_assign h b i x ;; Ok (SS h1 e)
  | SDestroy v => b <- var e v ;; h1 <- stack_destroy n b h ;; Ok (SS h1 (bindv e v None))
  end.

Fixpoint sruns {T} (ec : eclass T) (n : nat) (s : sstate T) (os : list (sop T)) : outcome (sstate T) :=
  match os with
  | [] => Ok s
  | o :: os' => s1 <- sstep ec n s o ;; sruns ec n s1 os'
  end.

Definition sinit {T} : sstate T := SS [] (fun _ => None).

(** * heap_block<T>, include/kwk/detail/memory/heap_block.hpp, with elements of a class type. *)

(** The constructor, 39-52: allocate gives storage without objects (46), and assign (60-63) is
    std::copy(src, src + sz, get_data()). *)
Definition heap_new {T} (n : nat) (h : slots T) : slots T * nat := new_slots h n.
Definition heap_from {T} (n : nat) (src : slots T -> nat -> outcome T) (h : slots T) : outcome (slots T * nat) :=
  let '(h1, b) := heap_new n h in
  h2 <- run (fun i h => x <- src h i ;; e_assign h b i x) (seq 0 n) h1 ;; Ok (h2, b).
(** The deleter, 31, only calls deallocate: no destructor of an element runs. *)
Definition heap_destroy {T} (b : nat) (h : slots T) : slots T := h.
