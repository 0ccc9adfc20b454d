(** Meaning of ratios and [end] expressions as rational numbers. *)
From Coq Require Import ZArith QArith List.
From Verif Require Import CInt EndRatio.
Open Scope Z_scope.

Definition q (z : Z) : Q := inject_Z z.

(** The rational denoted by a ratio. *)
Definition rvalue (r : ratio) : Q := (q (cval (num r)) / q (cval (denum r)))%Q.

(** The rational denoted by an [end] expression on an axis of size [n]. *)
Fixpoint evalue (e : eexpr) (n : Z) : Q :=
  match e with
  | EEnd => q n
  | EAdd e o => (evalue e n + q (cval o))%Q
  | EAddL o e => (q (cval o) + evalue e n)%Q
  | ESub e o => (evalue e n - q (cval o))%Q
  | ESubL o e => (q (cval o) - evalue e n)%Q
  | EMul e o => (evalue e n * q (cval o))%Q
  | EMulL o e => (q (cval o) * evalue e n)%Q
  | EDiv e o => (evalue e n / q (cval o))%Q
  end.

(** Truncation toward zero, as a relation: the integer of largest magnitude between 0 and x. *)
Definition truncates (x : Q) (z : Z) : Prop :=
  ((0 <= x)%Q /\ (q z <= x)%Q /\ (x < q (z + 1))%Q) \/
  ((x <= 0)%Q /\ (x <= q z)%Q /\ (q (z - 1) < x)%Q).

(** Integers of types that are signed after promotion (all but 32- and 64-bit unsigned). *)
Definition sgn_ty (c : cint) : Prop := wfc c /\ is_signed (promote (cty c)) = true.

Definition sgn_ratio (r : ratio) : Prop := sgn_ty (num r) /\ sgn_ty (denum r) /\ cval (denum r) <> 0.

(** Constants of an expression: usable types, and no division by the constant zero. *)
Fixpoint sgn_expr (e : eexpr) : Prop :=
  match e with
  | EEnd => True
  | EAdd e o | EAddL o e | ESub e o | ESubL o e | EMul e o | EMulL o e => sgn_ty o /\ sgn_expr e
  | EDiv e o => sgn_ty o /\ cval o <> 0 /\ sgn_expr e
  end.

(** Product of (1 + |c|) over the constants of an expression. *)
Fixpoint weight (e : eexpr) : Z :=
  match e with
  | EEnd => 1
  | EAdd e o | EAddL o e | ESub e o | ESubL o e | EMul e o | EMulL o e | EDiv e o =>
      (1 + Z.abs (cval o)) * weight e
  end.
