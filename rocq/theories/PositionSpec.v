(** Programs of a user of positions. *)
From Coq Require Import ZArith List Bool.
From Verif Require Import Outcome CInt ShapeSpec Memory Container Algo.
Import ListNotations.
Open Scope Z_scope.

(** while(auto p = find_if(c, f)) c( *p ) = x;   with at most [n] calls of find_if. *)
Fixpoint replace_found {T} (n : nat) (c : container) (f : T -> bool) (x : T) (m : mem T) : outcome (mem T) :=
  match n with
  | O => NoFuel
  | S n' =>
      r <- find_if c f m ;;
      match fst r with
      | None => Ok (snd r)
      | Some p => m' <- put (snd r) c p x ;; replace_found n' c f x m'
      end
  end.

(** The types whose negation in reverse() is harmless: all but unsigned int. *)
Definition no_u32 (c : container) : Prop := Forall (fun n => cty n <> U32) (c_shape c).

(** Values that positions hold: ints. *)
Definition ints (p : list cint) : Prop := wfs p /\ Forall (fun i => cty i = I32) p.
