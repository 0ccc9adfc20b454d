(** Tables of static size whose elements are objects of a class type, when the operations of the elements may
    throw: the operations of Lifetime.v, with an exception possible at each construction and assignment of an
    element. Destructors do not throw. *)
From Coq Require Import ZArith List Bool.
From Verif Require Import Outcome Memory ForEachSpec Alloc Lifetime.
Import ListNotations.

(** The operations of elements that may throw: default construction, copy assignment, and moves (construction
    or assignment). *)
Inductive ekind := KDefault | KCopy | KMove.

(** A class: as in Lifetime.v, and what an operation that throws leaves: the target of an assignment, from its
    value and the value assigned; the source of a move; an object moved to itself. *)
Record tclass (T : Type) := TC {
  t_class : eclass T; t_broken : T -> T -> T; t_left : T -> T; t_self : T -> T }.
Arguments TC {T}. Arguments t_class {T}. Arguments t_broken {T}. Arguments t_left {T}. Arguments t_self {T}.

(** The storage, and how many operations of elements there have been. *)
Definition tstate (T : Type) := (slots T * nat)%type.
(** A result with [true]: left by an exception, in this state. [Abort]: std::terminate. *)
Definition tresult (T : Type) := outcome (tstate T * bool).

Section Throwing.
  Context {T : Type} (fails : ekind -> nat -> bool) (tc : tclass T).
  Implicit Types (s : tstate T) (h : slots T).

  (** The operations of Lifetime.v; [fails k t] tells whether the operation number [t], of kind [k], throws. *)
  Definition t_construct (b i : nat) s : tresult T :=
    let '(h, t) := s in
    match slot h b i with
    | Some None =>
        if fails KDefault t then Ok (h, S t, true)
        else Ok (put_slot h b i (Some (e_default (t_class tc))), S t, false)
    | _ => UB
    end.
  Definition t_assign (b i : nat) (x : T) s : tresult T :=
    let '(h, t) := s in
    y <- look h b i ;;
    if fails KCopy t then Ok (put_slot h b i (Some (t_broken tc y x)), S t, true)
    else Ok (put_slot h b i (Some x), S t, false).
  Definition t_move_construct (b i c j : nat) s : tresult T :=
    let '(h, t) := s in
    x <- look h c j ;;
    match slot h b i with
    | Some None =>
        if fails KMove t then Ok (put_slot h c j (Some (t_left tc x)), S t, true)
        else Ok (put_slot (put_slot h c j (Some (e_moved (t_class tc) x))) b i (Some x), S t, false)
    | _ => UB
    end.
  Definition t_move_assign (b i c j : nat) s : tresult T :=
    let '(h, t) := s in
    if Nat.eqb b c && Nat.eqb i j then
      x <- look h b i ;;
      Ok (put_slot h b i (Some (if fails KMove t then t_self tc x else e_self (t_class tc) x)), S t, fails KMove t)
    else
      x <- look h c j ;; y <- look h b i ;;
      if fails KMove t
      then Ok (put_slot (put_slot h c j (Some (t_left tc x))) b i (Some (t_broken tc y x)), S t, true)
      else Ok (put_slot (put_slot h c j (Some (e_moved (t_class tc) x))) b i (Some x), S t, false).

  (** A sequence of operations ends with the first one that throws. *)
  Definition t_then (r : tresult T) (f : tstate T -> tresult T) : tresult T :=
    ' (s, x) <- r ;; if x then Ok (s, true) else f s.
  Fixpoint t_run (f : nat -> tstate T -> tresult T) (l : list nat) s : tresult T :=
    match l with [] => Ok (s, false) | i :: l' => t_then (f i s) (t_run f l') end.

  (** std::swap of two elements: a temporary is moved from the first, then two move assignments. The temporary
      is not in [slots]; nothing is said of the state when one of them throws, as the exception does not get
      out of the noexcept swap of the block. *)
  Definition t_swap1 (b i c j : nat) s : tresult T :=
    let '(h, t) := s in
    x <- look h b i ;;
    if fails KMove t then Ok (h, S t, true)
    else t_then (t_move_assign b i c j (put_slot h b i (Some (e_moved (t_class tc) x)), S t)) (fun s1 =>
      let '(h1, t1) := s1 in
      _ <- look h1 c j ;;
      if fails KMove t1 then Ok (h1, S t1, true) else Ok (put_slot h1 c j (Some x), S t1, false)).

  (** Construction of the elements of an array one after the other: when one throws, those constructed before
      are destroyed, the last one first. [done]: the elements constructed, last one first. *)
  Fixpoint t_build (f : nat -> tstate T -> tresult T) (b : nat) (done l : list nat) s : tresult T :=
    match l with
    | [] => Ok (s, false)
    | i :: l' =>
        ' (s1, x) <- f i s ;;
        if x then h <- run (fun i h => e_destroy h b i) done (fst s1) ;; Ok (h, snd s1, true)
        else t_build f b (i :: done) l' s1
    end.

  (** An exception that would leave a noexcept function ends the program. *)
  Definition t_noexcept (r : tresult T) : tresult T := ' (s, x) <- r ;; if x then Abort else Ok (s, false).

  (** * stack_block<T,Size>, include/kwk/detail/memory/stack_block.hpp *)

  (** Default initialisation of data_, 25, in the storage [b]. *)
  Definition t_default (n b : nat) s : tresult T := t_build (t_construct b) b [] (seq 0 n) s.

  (** stack_block(settings) with a source, 29-34 and 39-42: an exception of std::copy leaves the body of the
      constructor, the elements are destroyed. *)
  Definition t_from (n : nat) (src : slots T -> nat -> outcome T) (b : nat) s : tresult T :=
    t_then (t_default n b s) (fun s1 =>
      ' (s2, x) <- t_run (fun i s => v <- src (fst s) i ;; t_assign b i v s) (seq 0 n) s1 ;;
      if x then h <- stack_destroy n b (fst s2) ;; Ok (h, snd s2, true) else Ok (s2, false)).

  (** The implicit move constructor and move assignment of data_. *)
  Definition t_move (n b c : nat) s : tresult T := t_build (fun i => t_move_construct b i c i) b [] (seq 0 n) s.
  Definition t_massign (n b c : nat) s : tresult T := t_run (fun i => t_move_assign b i c i) (seq 0 n) s.

  (** swap, 44-48, is noexcept. *)
  Definition t_swap (n b c : nat) s : tresult T := t_noexcept (t_run (fun i => t_swap1 b i c i) (seq 0 n) s).
End Throwing.

(** The operations on tables of Lifetime.v, and the construction from settings without a source
    (container/table.hpp 55-66, stack_block.hpp 29-34). *)
Inductive xop (T : Type) := XNew (v : nat) | XOp (o : sop T).
Arguments XNew {T}. Arguments XOp {T}.

(** One operation; [true]: an exception leaves it. *)
Definition xstep {T} (fails : ekind -> nat -> bool) (tc : tclass T) (n : nat) (s : sstate T) (t : nat) (o : xop T)
  : outcome (sstate T * nat * bool) :=
  let h := s_slots s in let e := s_vars s in
  let '(h0, b0) := new_slots h n in
  let made v r := ' (h1, t1, x) <- r ;; Ok (SS h1 (if x : bool then e else bindv e v (Some b0)), t1, x) in
  match o with
  | XNew v => _ <- fresh e v ;; made v (t_default fails tc n b0 (h0, t))
  | XOp (SDefault v) =>
      (* table.hpp 53, by container(container_kind), container.hpp 37-39, which is noexcept *)
      _ <- fresh e v ;; made v (t_noexcept (t_default fails tc n b0 (h0, t)))
  | XOp (SFrom v xs) => _ <- fresh e v ;; made v (t_from fails tc n (from_list xs) b0 (h0, t))
  | XOp (SCopy v w) =>
      _ <- fresh e v ;; c <- var e w ;; made v (t_from fails tc n (fun h i => look h c i) b0 (h0, t))
  | XOp (SMove v w) => _ <- fresh e v ;; c <- var e w ;; made v (t_move fails tc n b0 c (h0, t))
  | XOp (SCopyAssign v w) =>
      (* table.hpp 85-90: table local(other); swap(local), which is noexcept (container.hpp 56); ~local *)
      b <- var e v ;; c <- var e w ;;
      ' (h1, t1, x) <- t_from fails tc n (fun h i => look h c i) b0 (h0, t) ;;
      if x then Ok (SS h1 e, t1, true)
      else ' (h2, t2, _) <- t_swap fails tc n b b0 (h1, t1) ;; h3 <- stack_destroy n b0 h2 ;; Ok (SS h3 e, t2, false)
  | XOp (SMoveAssign v w) =>
      b <- var e v ;; c <- var e w ;; ' (h1, t1, x) <- t_massign fails tc n b c (h, t) ;; Ok (SS h1 e, t1, x)
  | XOp (SSwap v w) =>
      b <- var e v ;; c <- var e w ;; ' (h1, t1, x) <- t_swap fails tc n b c (h, t) ;; Ok (SS h1 e, t1, x)
  | XOp (SWrite v i x) => b <- var e v ;; ' (h1, t1, y) <- t_assign fails tc b i x (h, t) ;; Ok (SS h1 e, t1, y)
  | XOp (SDestroy v) => b <- var e v ;; h1 <- stack_destroy n b h ;; Ok (SS h1 (bindv e v None), t, false)
  end.

(** A program that catches every exception and goes on; the list tells which operations threw. *)
Fixpoint xruns {T} (fails : ekind -> nat -> bool) (tc : tclass T) (n : nat) (s : sstate T) (t : nat) (os : list (xop T))
  : outcome (sstate T * nat * list bool) :=
  match os with
  | [] => Ok (s, t, [])
  | o :: os' =>
      ' (s1, t1, x) <- xstep fails tc n s t o ;;
      ' (s2, t2, xs) <- xruns fails tc n s1 t1 os' ;; Ok (s2, t2, x :: xs)
  end.
