(** iota on elements of any arithmetic type: Algo.v has integers only. *)
From Coq Require Import ZArith List Bool.
From Coq Require Import Floats.SpecFloat.
From Verif Require Import Outcome CInt Shape Memory Container ForEach Algo Interp Mixed Convert FloatSums.
Import ListNotations.
Open Scope Z_scope.

(** iota(out, value, step), include/kwk/algorithm/algos/generator.hpp 74-87: o = value; value += step. The
    parameters are deduced (auto), so the running value is of the type [tv] of the argument and the step of its
    own type [ts]; o = value converts to the element type [ot], and value += step adds in the type of the usual
    arithmetic conversions and converts back. *)
Definition niota_step (tv ts ot : atype) (out : container) (value step : number) (m : mem number)
  : outcome (mem number) :=
  r <- map_containers
    (fun ps sm => match ps with
                  | [o] => w <- convert ot (fst sm) ;; m' <- store (snd sm) o w ;;
                           v' <- accumulate tv ts (fst sm) step ;; Ok (v', m')
                  | _ => UB
                  end) out [] (value, m) ;;
  Ok (snd r).
(** iota(out, value), 46-58: o = value++, which adds 1 to the running value ([expr.post.incr]); the old value is
    assigned. Simplified: the increment is done after the assignment (an assignment that does not return never
    leaves a trace of it, since the running value is local to the call). *)
Definition niota (tv ot : atype) (out : container) (value : number) (m : mem number) : outcome (mem number) :=
  niota_step tv (AInt I32) ot out value (NInt 1) m.
(** iota(out), 60-72: the value is a zero of the element type. *)
Definition niota_default (ot : atype) (out : container) (m : mem number) : outcome (mem number) :=
  niota ot ot out (zero ot) m.
