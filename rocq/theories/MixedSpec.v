(** Vocabulary for interpolation with several floating-point types. *)
From Coq Require Import ZArith QArith List.
From Coq Require Import Floats.SpecFloat.
From Verif Require Import IeeeSpec Mixed.
Import ListNotations.
Open Scope Z_scope.

(** The least and the most precise of some types. *)
Definition lowest (l : list ftype) (f : ftype) : Prop := In f l /\ forall g, In g l -> f_prec f <= f_prec g.
Definition highest (l : list ftype) (f : ftype) : Prop := In f l /\ forall g, In g l -> f_prec g <= f_prec f.

Definition finite_of (f : ftype) (x : spec_float) : Prop := finite_number (f_prec f) (f_emax f) x.

(** The floating-point types of some coordinates. *)
Definition real_types (ps : list coordinate) : list ftype :=
  flat_map (fun p => match p with Real f _ => [f] | Whole _ => [] end) ps.
(** The least precise of them, float if there is none. *)
Definition coarsest (ps : list coordinate) (f : ftype) : Prop :=
  lowest (real_types ps) f \/ real_types ps = [] /\ f = Float.

(** A coordinate and the number it stands for. *)
Definition stands_for (p : coordinate) (q : Q) : Prop :=
  match p with
  | Real f x => finite_of f x /\ float_value x = Some q
  | Whole z => 0 <= z < 2147483647 /\ q = inject_Z z
  end.
