(** Property C09, continued: when the equality of shapes is transitive. *)
From Coq Require Import ZArith List Bool Lia.
From Verif Require Import Outcome CInt CIntFacts Spec SpecFacts ShapeSpec Shape ShapeFacts ShapeFacts2 EqMoreFacts.
Import ListNotations.
Open Scope Z_scope.

(** Transitive through a shape that does not have fewer axes than both others. *)
Theorem shape_eq_transitive : forall a b c, legal a -> legal b -> legal c -> a <> [] -> b <> [] -> c <> [] ->
  (Nat.min (length a) (length c) <= length b)%nat -> shape_eq a b = Ok true -> shape_eq b c = Ok true -> shape_eq a c = Ok true.
Proof. exact eq_trans_l. Qed.
Print Assumptions shape_eq_transitive.

(** A one-dimensional shape equals every shape with as many elements. *)
Theorem shape_eq_flat : forall a n, legal a -> a <> [] -> wfc n -> cval n = prod (vals a) ->
  shape_eq a [n] = Ok true /\ shape_eq [n] a = Ok true.
Proof. exact eq_flat_l. Qed.
Print Assumptions shape_eq_flat.

(** Not transitive for any two different shapes of the same order with as many elements. *)
Theorem shape_eq_not_transitive : forall a c n, legal a -> legal c -> a <> [] -> length a = length c -> vals a <> vals c ->
  prod (vals a) = prod (vals c) -> wfc n -> cval n = prod (vals a) ->
  shape_eq a [n] = Ok true /\ shape_eq [n] c = Ok true /\ shape_eq a c = Ok false.
Proof. exact eq_not_trans_l. Qed.
Print Assumptions shape_eq_not_transitive.

Example eq_more_ex : legal [int 2; int 3; int 4] /\ legal [int 6; int 4] /\ legal [CI U8 3; int 2; int 4] /\
  shape_eq [int 2; int 3; int 4] [int 6; int 4] = Ok true /\ shape_eq [int 6; int 4] [int 24] = Ok true /\
  shape_eq [int 2; int 3; int 4] [int 24] = Ok true /\ shape_eq [int 24] [CI U8 3; int 2; int 4] = Ok true /\
  shape_eq [int 2; int 3; int 4] [CI U8 3; int 2; int 4] = Ok false.
Proof. split; [by_check|]. split; [by_check|]. split; [by_check|]. repeat split; vm_compute; reflexivity. Qed.
