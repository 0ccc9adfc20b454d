(** Specification vocabulary for loops whose callables use containers (C106). *)
From Coq Require Import ZArith List Sorted.
From Verif Require Import Outcome CInt CIntFacts Spec ShapeSpec Shape ShapeFacts Memory Container ContainerSpec Algo AlgoSpec Slicer UsesSpec.
Import ListNotations.
Open Scope Z_scope.

(** The coordinates of a loop over a shape, with their types. *)
Definition shape_coord (s : shape) (is_ : list cint) : Prop :=
  wfs is_ /\ map cty is_ = map cty s /\ in_box (vals s) (vals is_).

(** h(at(is...)...) = k(is...) *)
Definition stores {T} (h : container) (at_ : list cint -> list cint) (k : list cint -> mem T -> outcome (T * mem T))
    (is_ : list cint) (m : mem T) : outcome (mem T) :=
  r <- k is_ m ;; Container.put (snd r) h (at_ is_) (fst r).
(** h(at(is...)...) = g(h(at(is...)...), k(is...)) *)
Definition combines {T A} (h : container) (at_ : list cint -> list cint) (g : T -> A -> T)
    (k : list cint -> mem T -> outcome (A * mem T)) (is_ : list cint) (m : mem T) : outcome (mem T) :=
  r <- k is_ m ;; x <- Container.get (snd r) h (at_ is_) ;; Container.put (snd r) h (at_ is_) (g x (fst r)).

(** [at_] chooses for every coordinate of the loop the element of [h] at [az] of it, by indexes that [h] can be accessed with;
    [k] changes nothing and gives [w] of it in every memory that differs from [m] only in elements of [h]. *)
Definition chooses (s : shape) (h : container) (at_ : list cint -> list cint) (az : list Z -> list Z) : Prop :=
  forall is_, shape_coord s is_ -> coord_of h (at_ is_) /\ vals (at_ is_) = az (vals is_) /\ addressable h (map cty (at_ is_)).
Definition computes {T A} (s : shape) (h : container) (k : list cint -> mem T -> outcome (A * mem T)) (w : list Z -> A) (m : mem T) : Prop :=
  forall is_ m1, shape_coord s is_ -> (forall p, outside h p -> cell m1 p = cell m p) -> k is_ m1 = Ok (w (vals is_), m1).

(** The coordinates of the shape with a property, in row-major order. *)
Definition in_order (s : shape) (P : list Z -> Prop) (cs : list (list Z)) : Prop :=
  StronglySorted lex cs /\ forall c, In c cs <-> in_box (vals s) c /\ P c.

(** Reading an element as a callable that changes nothing. *)
Definition reading {T} (c : container) (is_ : list cint) (m : mem T) : outcome (T * mem T) :=
  v <- Container.get m c is_ ;; Ok (v, m).
(** a(i, k) * b(k, j) for the coordinates (i, j, k) of a loop, with any product. *)
Definition products {T} (mul : T -> T -> T) (a b : container) (is_ : list cint) (m : mem T) : outcome (T * mem T) :=
  match is_ with
  | [i; j; k] => x <- Container.get m a [i; k] ;; y <- Container.get m b [k; j] ;; Ok (mul x y, m)
  | _ => UB
  end.
(** reduce(init, a(sl(is...)...), f): an algorithm on a slice of a container that the coordinates of the loop choose. *)
Definition reducing {T} (dbg : bool) (a : container) (sl : list cint -> list slc) (f : T -> T -> T) (init : T) (is_ : list cint) (m : mem T)
  : outcome (T * mem T) :=
  v <- slice_container dbg false false a (sl is_) ;; reduce v f init m.
Definition row (is_ : list cint) : list slc := match is_ with i :: _ => [SIdx i; SAll] | [] => [] end.
Definition column (is_ : list cint) : list slc := match is_ with j :: _ => [SAll; SIdx j] | [] => [] end.

(** The first two coordinates; the coordinates exchanged; the first one. *)
Definition first2 {A} (is_ : list A) : list A := firstn 2 is_.
Definition crossed {A} (is_ : list A) : list A := rev is_.
Definition first1 {A} (is_ : list A) : list A := firstn 1 is_.

(** [f] called for a coordinate works on a region of the memory that belongs to this coordinate: whatever the other calls have
    done, it ends, changes nothing outside of its region and establishes [Q], which depends on the region only. *)
Definition independent {T} (s : shape) (R : list Z -> ptr -> Prop) (Q : list Z -> mem T -> Prop) (f : list cint -> mem T -> outcome (mem T))
    (m : mem T) : Prop :=
  (forall c c' p, in_box (vals s) c -> in_box (vals s) c' -> R c p -> R c' p -> c = c') /\
  (forall c m1 m2, (forall p, R c p -> cell m2 p = cell m1 p) -> Q c m1 -> Q c m2) /\
  (forall is_ m1, shape_coord s is_ -> same_cells m m1 ->
     (forall p, R (vals is_) p \/ (forall c, in_box (vals s) c -> ~ R c p) -> cell m1 p = cell m p) ->
     exists m2, f is_ m1 = Ok m2 /\ same_cells m1 m2 /\ (forall p, ~ R (vals is_) p -> cell m2 p = cell m1 p) /\ Q (vals is_) m2).

(** Calls of algorithms on the rows of a container: fill(a(i, _), w(i)), and inclusive_scan(a(i, _), a(i, _), init, g). *)
Definition filling {T} (dbg : bool) (a : container) (w : list Z -> T) (is_ : list cint) (m : mem T) : outcome (mem T) :=
  v <- slice_container dbg false false a (row is_) ;; fill v (w (vals is_)) m.
Definition scanning {T} (dbg : bool) (a : container) (g : T -> T -> T) (init : T) (is_ : list cint) (m : mem T) : outcome (mem T) :=
  v <- slice_container dbg false false a (row is_) ;; inclusive_scan v v init g m.
