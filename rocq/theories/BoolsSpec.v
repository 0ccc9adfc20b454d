(** Specification vocabulary of C102. *)
From Coq Require Import ZArith QArith List Bool.
From Verif Require Import CInt Memory Container AlgoSpec Convert ConvertSpec Bools.
Import ListNotations.
Open Scope Z_scope.

(** The elements of a container of bools, in row-major order. *)
Definition bools (m : mem scalar) (c : container) (bs : list bool) : Prop := values m c c (map SBool bs).
Definition trues (bs : list bool) : Z := Z.of_nat (count_occ bool_dec bs true).

(** A value that is not the number zero; infinities and NaN are not. *)
Definition nonzero (v : scalar) : Prop :=
  match v with
  | SBool b => b = true
  | SNum _ n => forall q, number_value n = Some q -> ~ (q == 0)%Q
  end.
(** The bool such a value becomes. *)
Definition bool_for (v w : scalar) : Prop := exists b, w = SBool b /\ (b = true <-> nonzero v).
(** 0 or 1 in an arithmetic type. *)
Definition stands_for (t : atype) (b : bool) (w : scalar) : Prop :=
  exists n q, w = SNum t n /\ value_of_type t n /\ number_value n = Some q /\ (q == if b then 1 else 0)%Q.

(** An integer of an integer type or of type bool. *)
Definition is_int (v : scalar) (z : Z) : Prop :=
  (exists b, v = SBool b /\ z = Z.b2z b) \/ (exists t, v = SNum (AInt t) (NInt z) /\ in_ty t z).
Definition is_bool (v : scalar) : Prop := exists b, v = SBool b.
(** The number of positions where two lists are both true. *)
Definition both_true (bs cs : list bool) : Z := Z.of_nat (length (filter (fun p => fst p && snd p) (combine bs cs))).
(** The bool at position k of bool b, b + s, b + s + s, …, each sum converted to bool. *)
Definition bool_after (b : bool) (s : Z) (k : nat) : bool :=
  if (k =? 0)%nat then b else if s =? 0 then b else if s =? -1 then xorb b (Nat.odd k) else true.
