(** Outcomes of running a piece of the library.

    [Abort] is a failed KIWAKU_ASSERT (include/kwk/detail/assert.hpp), [UB] is undefined behaviour,
    [NoFuel] is a loop that did not finish within the fuel given to its model. *)
From Coq Require Import List Bool.
Import ListNotations.

Inductive outcome (A : Type) : Type :=
| Ok (a : A)
| Abort
| UB
| NoFuel.
Arguments Ok {A} a.
Arguments Abort {A}.
Arguments UB {A}.
Arguments NoFuel {A}.

Definition bind {A B : Type} (x : outcome A) (f : A -> outcome B) : outcome B :=
  match x with
  | Ok a => f a
  | Abort => Abort
  | UB => UB
  | NoFuel => NoFuel
  end.

Notation "x <- e ;; f" := (bind e (fun x => f))
  (at level 61, e at next level, right associativity).
Notation "' p <- e ;; f" := (bind e (fun p => f))
  (at level 61, p pattern, e at next level, right associativity).

(** include/kwk/detail/assert.hpp: KIWAKU_ASSERT evaluates its condition and aborts if it is false
    when assertions are enabled ([dbg = true]); it expands to nothing otherwise. *)
Definition kassert (dbg : bool) (c : outcome bool) : outcome unit :=
  if dbg then (b <- c ;; if b then Ok tt else Abort) else Ok tt.

(** Map a computation over a list, first element first. *)
Fixpoint mapM {A B : Type} (f : A -> outcome B) (l : list A) : outcome (list B) :=
  match l with
  | [] => Ok []
  | x :: xs => y <- f x ;; ys <- mapM f xs ;; Ok (y :: ys)
  end.

(** kumi::fold_left(f,t,init): the last element of the tuple is combined first. External library:
    semantics inferred from its use in the repository, see DESIGN.md. *)
Fixpoint kfold_left {A B : Type} (f : B -> A -> outcome B) (l : list A) (init : B) : outcome B :=
  match l with
  | [] => Ok init
  | x :: xs => acc <- kfold_left f xs init ;; f acc x
  end.

(** kumi::fold_right(f,t,init): the first element of the tuple is combined first. *)
Fixpoint kfold_right {A B : Type} (f : B -> A -> outcome B) (l : list A) (init : B) : outcome B :=
  match l with
  | [] => Ok init
  | x :: xs => acc <- f init x ;; kfold_right f xs acc
  end.

Lemma bind_ok A B (a : A) (f : A -> outcome B) : bind (Ok a) f = f a.
Proof. reflexivity. Qed.

Lemma bind_inv A B (x : outcome A) (f : A -> outcome B) b :
  bind x f = Ok b -> exists a, x = Ok a /\ f a = Ok b.
Proof. destruct x; simpl; intros H; try discriminate; eauto. Qed.

Lemma bind_assoc A B C (x : outcome A) (f : A -> outcome B) (g : B -> outcome C) :
  bind (bind x f) g = bind x (fun a => bind (f a) g).
Proof. destruct x; reflexivity. Qed.

Lemma kassert_ok dbg : kassert dbg (Ok true) = Ok tt.
Proof. destruct dbg; reflexivity. Qed.
