(** Specification vocabulary for failing operations on tables. *)
From Coq Require Import ZArith List Bool.
From Verif Require Import Outcome Memory Alloc AllocSpec Fail.
Import ListNotations.
Open Scope Z_scope.

(** A block that was never released and that no table owns. *)
Definition leaked (s : hstate) (b : nat) : Prop :=
  (exists k n, In (Alloc k b n) (h_trace s)) /\ (forall k, ~ In (Free k b) (h_trace s)) /\
  forall v t, h_tabs s v = Some t -> hb_ptr (ht_blk t) <> Some b.

(** Every variable, its memory and the contents of it are as before: what happened concerns new blocks only. *)
Definition untouched (s s' : hstate) : Prop :=
  (forall v, h_tabs s' v = h_tabs s v) /\
  exists tr, h_trace s' = h_trace s ++ tr /\
    forall e, In e tr -> match e with Free _ b => forall k n, ~ In (Alloc k b n) (h_trace s) | _ => True end.

(** Allocators that have no memory say so by an exception; heap_allocator (0) does not. *)
Definition reports (throws : nat -> bool) (k : nat) : bool := negb (Nat.eqb k 0) && throws k.

(** Which operations throw: given what the tables report before it. *)
Definition must_throw (throws : nat -> bool) (e : nat -> option (Z * bool)) (o : hop) (f : fate) : bool :=
  let copying w j := match e w with Some (n, _) => (0 <=? j) && (j <? n) | None => false end in
  match o, f with
  | TNew _ k _, NoMemory => reports throws k
  | (TDefault _ | TNew _ _ _ | TCopy _ _ | TCopyAssign _ _), NoDeleter => true
  | (TCopy _ w | TCopyAssign _ w), BadCopy j => copying w j
  | _, _ => false
  end.

(** Which of them end the program instead: default construction lets no exception out. *)
Definition must_end (o : hop) (f : fate) : bool :=
  match o, f with TDefault _, NoDeleter => true | _, _ => false end.

(** What becomes of a program. *)
Inductive verdict (X : Type) := Goes (x : X) | Ends | Undefined.
Arguments Goes {X}. Arguments Ends {X}. Arguments Undefined {X}.

(** The tables with all their elements in place. *)
Definition filled (e : nat -> option (Z * bool)) : nat -> option (Z * bool) :=
  fun v => match e v with Some (n, _) => Some (n, false) | None => None end.

(** What a program sees of its tables when failures are possible: an operation that throws changes nothing, a
    table constructed without memory reports elements that do not exist, and a copy for which there is no
    memory is undefined unless it has no elements. A deleter that cannot be made is noticed before the source
    of a copy is looked at. *)
Definition fsize_step (throws : nat -> bool) (e : nat -> option (Z * bool)) (o : hop) (f : fate)
  : option ((nat -> option (Z * bool)) * bool) :=
  if must_throw throws e o f then
    match size_step (match f with NoDeleter => filled e | _ => e end) o with Some _ => Some (e, true) | None => None end
  else match size_step e o with
       | None => None
       | Some e1 =>
           match o, f with
           | TNew v _ n, NoMemory => Some (set e v (Some (n, negb (n =? 0))), false)
           | (TCopy _ w | TCopyAssign _ w), NoMemory =>
               match e w with Some (n, _) => if n =? 0 then Some (e1, false) else None | None => None end
           | _, _ => Some (e1, false)
           end
       end.
Fixpoint fsize_runs (throws : nat -> bool) (e : nat -> option (Z * bool)) (os : list (hop * fate))
  : verdict ((nat -> option (Z * bool)) * list bool) :=
  match os with
  | [] => Goes (e, [])
  | (o, f) :: os' =>
      match fsize_step throws e o f with
      | None => Undefined
      | Some (e1, x) =>
          if must_end o f then Ends
          else match fsize_runs throws e1 os' with Goes (e2, xs) => Goes (e2, x :: xs) | r => r end
      end
  end.

(** How many operations failed after allocating memory and before handing it to an owner. *)
Definition lost_in (o : hop) (f : fate) : nat :=
  match o, f with
  | (TNew _ _ _ | TCopy _ _ | TCopyAssign _ _), NoDeleter => 1
  | _, _ => 0
  end.
