(** Specification vocabulary for contexts. *)
From Coq Require Import ZArith List.
From Verif Require Import Outcome CInt Spec ShapeSpec ForEachSpec Context.
Import ListNotations.

(** A list of typed coordinates holding every coordinate of a shape exactly once, in any order, with the
    types of the extents. *)
Definition each_once (ds : list cint) (trace : list (list cint)) : Prop :=
  (forall c, In c (map vals trace) <-> in_box (vals ds) c) /\ NoDup (map vals trace) /\
  Forall (fun c => map cty c = map cty ds) trace.

(** A context whose map calls the callable once per coordinate. The order is free; it may depend on the
    shape, on the callable and on the state. *)
Definition fair (cx : context) : Prop :=
  forall (S : Type) ds (f : list cint -> S -> outcome S) s, wfs ds -> nonnegs (vals ds) ->
  exists trace, each_once ds trace /\ visit cx S ds f s = run f trace s.

(** The order in which a reduction takes two values does not matter. *)
Definition order_free {A B} (f : A -> B -> A) : Prop := forall a x y, f (f a x) y = f (f a y) x.
