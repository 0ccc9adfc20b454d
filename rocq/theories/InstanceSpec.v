(** What stateful allocators see of the tables that use them. *)
From Coq Require Import ZArith List Bool Permutation.
From Verif Require Import Outcome Alloc Instance.
Import ListNotations.
Open Scope Z_scope.

Section Spec.
Context {A W : Type} (ac : behaviour A W).

(** The state a program gave last to its allocator [u]. *)
Fixpoint given (os : list (iop A W)) (u : nat) (d : option A) : option A :=
  match os with
  | [] => d
  | NUser w a :: os => given os u (if Nat.eqb u w then Some a else d)
  | _ :: os => given os u d
  end.

(** The blocks allocated: for each call to allocate which gave a pointer, the state the call left its
    allocator in, and the pointer. *)
Definition allocations (tr : list (ievent A W)) : list (A * nat) :=
  flat_map (fun e => match e with
    | EAllocate _ w a n => match b_allocate ac w a n with (_, (a1, Some p)) => [(a1, p)] | _ => [] end
    | _ => [] end) tr.

(** The blocks released: the state of the allocator just before the call to deallocate, and the pointer. *)
Definition releases (tr : list (ievent A W)) : list (A * nat) :=
  flat_map (fun e => match e with EDeallocate _ _ a p => [(a, p)] | _ => [] end) tr.

(** The ends of allocator objects. *)
Definition ends (tr : list (ievent A W)) : list nat :=
  flat_map (fun e => match e with EGone id => [id] | _ => [] end) tr.

(** The calls to allocate, with the state of the allocator and the number of bytes asked for. *)
Definition requests (tr : list (ievent A W)) : list (A * Z) :=
  flat_map (fun e => match e with EAllocate _ _ a n => [(a, n)] | _ => [] end) tr.

(** What a program asks for: its own allocator in the state it has at that time for tables made with it,
    the heap for copies. [user]: the allocators of the program, [size]: the sizes of its tables. *)
Fixpoint asked (h0 : A) (os : list (iop A W)) (user : nat -> option A) (size : nat -> Z) : list (A * Z) :=
  let upd {X} (e : nat -> X) v x := fun w => if Nat.eqb w v then x else e w in
  match os with
  | [] => []
  | o :: os =>
      match o with
      | NUser u a => asked h0 os (upd user u (Some a)) size
      | NDefault v => asked h0 os user (upd size v 0)
      | NNew v u n =>
          match user u with Some a => [(a, n)] | None => [] end ++ asked h0 os user (upd size v n)
      | NCopy v w => (h0, size w) :: asked h0 os user (upd size v (size w))
      | NCopyAssign v w => (h0, size w) :: asked h0 os user (upd size v (size w))
      | NMove v w | NMoveAssign v w => asked h0 os user (upd size v (size w))
      | NSwap v w => asked h0 os user (upd (upd size v (size w)) w (size v))
      | NDestroy _ | NWorld _ => asked h0 os user size
      end
  end.

(** The objects which get a call to allocate, and those which get a call to deallocate. *)
Definition allocating (id : nat) (tr : list (ievent A W)) : Prop := exists w a n, In (EAllocate id w a n) tr.
Definition deallocating (id : nat) (tr : list (ievent A W)) : Prop := exists w a p, In (EDeallocate id w a p) tr.

(** The world goes from call to call: [through w tr w'] when the calls in [tr], the first of which finds
    [w], leave [w']. *)
Fixpoint through (w : W) (tr : list (ievent A W)) (w' : W) : Prop :=
  match tr with
  | [] => w = w'
  | EAllocate _ x a n :: tr => x = w /\ through (fst (b_allocate ac w a n)) tr w'
  | EDeallocate _ x a p :: tr => x = w /\ through (fst (b_deallocate ac w a p)) tr w'
  | EWorld x :: tr => through x tr w'
  | _ :: tr => through w tr w'
  end.

(** Allocators which give memory for everything but empty requests. *)
Definition provides : Prop := forall w a n, 0 < n -> snd (snd (b_allocate ac w a n)) <> None.
End Spec.

(** Histories without misuse, from the program alone. A table is known by its size and whether it has its
    elements (it has not after a move). Names are declared once and used while they live, allocators are
    made before they are used, and tables without their elements are not copied unless they are empty. *)
Definition names (X : Type) := nat -> option X.
Definition name_is {X} (e : names X) v x : names X := fun w => if Nat.eqb w v then x else e w.

Definition use {A W} (o : iop A W) (users : nat -> bool) (tabs : names (Z * bool)) :
  option ((nat -> bool) * names (Z * bool)) :=
  match o with
  | NUser u _ => Some (fun w => Nat.eqb w u || users w, tabs)
  | NWorld _ => Some (users, tabs)
  | NDefault v => match tabs v with None => Some (users, name_is tabs v (Some (0, false))) | Some _ => None end
  | NNew v u n =>
      match tabs v with
      | None => if users u && (0 <=? n) then Some (users, name_is tabs v (Some (n, true))) else None
      | Some _ => None
      end
  | NCopy v w =>
      match tabs v, tabs w with
      | None, Some (n, full) => if full || (n =? 0) then Some (users, name_is tabs v (Some (n, true))) else None
      | _, _ => None
      end
  | NMove v w =>
      match tabs v, tabs w with
      | None, Some (n, full) => Some (users, name_is (name_is tabs w (Some (n, false))) v (Some (n, full)))
      | _, _ => None
      end
  | NCopyAssign v w =>
      match tabs v, tabs w with
      | Some _, Some (n, full) => if full || (n =? 0) then Some (users, name_is tabs v (Some (n, true))) else None
      | _, _ => None
      end
  | NMoveAssign v w =>
      match tabs v, tabs w with
      | Some _, Some (n, full) => Some (users, name_is (name_is tabs w (Some (n, false))) v (Some (n, full)))
      | _, _ => None
      end
  | NSwap v w =>
      match tabs v, tabs w with
      | Some t, Some u => Some (users, name_is (name_is tabs v (Some u)) w (Some t))
      | _, _ => None
      end
  | NDestroy v => match tabs v with Some _ => Some (users, name_is tabs v None) | None => None end
  end.

Fixpoint usable {A W} (os : list (iop A W)) (users : nat -> bool) (tabs : names (Z * bool)) : bool :=
  match os with
  | [] => true
  | o :: os => match use o users tabs with Some (users', tabs') => usable os users' tabs' | None => false end
  end.
