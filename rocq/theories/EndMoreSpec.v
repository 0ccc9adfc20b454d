(** [end] expressions with unsigned constants, and chains of divisions: what they denote. *)
From Coq Require Import ZArith List.
From Verif Require Import CInt EndRatio.
Import ListNotations.
Open Scope Z_scope.

(** A value of type unsigned. *)
Definition u_const (o : cint) : Prop := cty o = U32 /\ 0 <= cval o < 4294967296.
(** Sums, differences and products of [end] and constants of type unsigned. *)
Fixpoint u_expr (e : eexpr) : Prop :=
  match e with
  | EEnd => True
  | EAdd e o | EAddL o e | ESub e o | ESubL o e | EMul e o | EMulL o e => u_const o /\ u_expr e
  | EDiv _ _ => False
  end.
(** Their value as integers (divisions have none here). *)
Fixpoint integer (e : eexpr) (n : Z) : Z :=
  match e with
  | EEnd => n
  | EAdd e o => integer e n + cval o
  | EAddL o e => cval o + integer e n
  | ESub e o => integer e n - cval o
  | ESubL o e => cval o - integer e n
  | EMul e o => integer e n * cval o
  | EMulL o e => cval o * integer e n
  | EDiv _ _ => 0
  end.
(** e / d1 / d2 / ..., by ints. *)
Definition divisions (e : eexpr) (ds : list Z) : eexpr := fold_left (fun e d => EDiv e (int d)) ds e.
