(** Calculations with several ratios. *)
From Coq Require Import ZArith QArith List.
From Verif Require Import Outcome CInt EndRatio EndRatioSpec.
Import ListNotations.
Open Scope Z_scope.

Inductive rop := Plus | Minus | Times.

(** The calculation ((a o b) o b') o ..., left to right, as C++ does, and in exact arithmetic. *)
Definition step (r : ratio) (o : rop * ratio) : outcome ratio :=
  match fst o with Plus => radd r (snd o) | Minus => rsub r (snd o) | Times => rmul r (snd o) end.
Fixpoint calculate (r : ratio) (l : list (rop * ratio)) : outcome ratio :=
  match l with [] => Ok r | o :: l => x <- step r o ;; calculate x l end.
Definition exact_step (x : Q) (o : rop * ratio) : Q :=
  match fst o with Plus => (x + rvalue (snd o))%Q | Minus => (x - rvalue (snd o))%Q | Times => (x * rvalue (snd o))%Q end.
Definition exact (r : ratio) (l : list (rop * ratio)) : Q := fold_left exact_step l (rvalue r).

(** The product of all denominators. *)
Fixpoint denominators (r : ratio) (l : list (rop * ratio)) : Z :=
  match l with [] => cval (denum r) | o :: l => cval (denum r) * denominators (snd o) l end.

Definition not_whole (r : ratio) : Prop := 2 <= Z.abs (cval (denum r)).
Definition int_ratio (r : ratio) : Prop := cty (num r) = I32 /\ cty (denum r) = I32.
Definition unsigned_ratio (r : ratio) : Prop := wfc (num r) /\ wfc (denum r) /\ cty (num r) = U32 /\ cty (denum r) = U32.
