(** Specification vocabulary for callables that use containers. *)
From Coq Require Import ZArith List.
From Verif Require Import Outcome CInt CIntFacts Spec ShapeSpec ShapeFacts Memory Container ContainerSpec AlgoSpec CallSpec.
Import ListNotations.
Open Scope Z_scope.

(** [k] changes nothing, and what it returns depends only on the cells of [R]. *)
Definition reads {T A} (R : ptr -> Prop) (k : mem T -> outcome (A * mem T)) : Prop :=
  forall m m' v m1, (forall p, R p -> cell m' p = cell m p) -> k m = Ok (v, m1) -> m1 = m /\ k m' = Ok (v, m').

(** The coordinates of a loop over [c], with their types. *)
Definition loop_coord (c : container) (is_ : list cint) : Prop :=
  wfs is_ /\ map cty is_ = map cty (c_shape c) /\ in_box (dims c) (vals is_).

(** [p] is no element of [c]; or only one at a coordinate before [is_]. *)
Definition outside (c : container) (p : ptr) : Prop := forall js, in_box (dims c) js -> p <> elem c js.
Definition outside_or_before (c : container) (is_ : list Z) (p : ptr) : Prop :=
  forall js, in_box (dims c) js -> p = elem c js -> lex js is_.

(** Two memories that differ at most in the cells of [W]. *)
Definition twins {T} (W : ptr -> Prop) (m m' : mem T) : Prop :=
  same_cells m m' /\ forall p, ~ W p -> cell m' p = cell m p.

(** [k] works on the cells of [W], where a state of type [Q] is kept ([St q m]: [m] holds the state [q]), as [f] works
    on the state alone. *)
Definition kept_in {T Q} (W : ptr -> Prop) (St : Q -> mem T -> Prop) : Prop :=
  forall q m m', (forall p, W p -> cell m' p = cell m p) -> St q m -> St q m'.
Definition works_as {T Q A} (W : ptr -> Prop) (St : Q -> mem T -> Prop)
    (f : Q -> outcome (A * Q)) (k : mem T -> outcome (A * mem T)) : Prop :=
  forall q m, St q m -> agrees (f q) (k m) (fun r r' => fst r' = fst r /\ St (snd r) (snd r') /\ twins W m (snd r')).
(** No cell of [W] is in the block of the container. *)
Definition not_in (W : ptr -> Prop) (c : container) : Prop := forall p, W p -> ~ same_block p (c_data c).

(** A callable of for_each that combines every value it is given with the element of [h] that [at_] chooses for it. *)
Definition tally {T} (h : container) (at_ : T -> list cint) (g : T -> T -> T) (vs : list T) (m : mem T) : outcome (mem T) :=
  match vs with
  | [v] => x <- get m h (at_ v) ;; put m h (at_ v) (g x v)
  | _ => UB
  end.
(** The values sent to the coordinate [b], in order. *)
Definition sent {T} (at_ : T -> list cint) (b : list Z) (vs : list T) : list T :=
  filter (fun v => if list_eq_dec Z.eq_dec (vals (at_ v)) b then true else false) vs.
