(** Sequential execution over an explicit list of coordinates. *)
From Coq Require Import ZArith List Sorted.
From Verif Require Import Outcome CInt Spec ShapeSpec.
Import ListNotations.

(** Run [f] on every element of a list, in order. *)
Fixpoint run {A S : Type} (f : A -> S -> outcome S) (l : list A) (s : S) : outcome S :=
  match l with
  | [] => Ok s
  | c :: l' => s' <- f c s ;; run f l' s'
  end.

(** Run [f] on the elements of a list in order until it answers true. *)
Fixpoint run_until {A S : Type} (f : A -> S -> outcome (bool * S)) (l : list A) (s : S)
  : outcome (bool * S) :=
  match l with
  | [] => Ok (false, s)
  | c :: l' => r <- f c s ;; if fst r then Ok r else run_until f l' (snd r)
  end.

(** A list of typed coordinates that visits every coordinate of a shape: exactly the coordinates of
    the box, each once, in lexicographic order, as many as there are elements, and with the types of
    the extents. *)
Definition visits_all (ds : list cint) (trace : list (list cint)) : Prop :=
  (forall c, In c (map vals trace) <-> in_box (vals ds) c) /\
  NoDup (map vals trace) /\ StronglySorted lex (map vals trace) /\
  Z.of_nat (length trace) = prod (vals ds) /\
  Forall (fun c => map cty c = map cty ds) trace.
