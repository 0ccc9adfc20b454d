(** Properties C21, C22: the n-dimensional loops. *)
From Coq Require Import ZArith List Bool Lia.
From Verif Require Import Outcome CInt Spec ShapeSpec ShapeFacts2 ForEach ForEachSpec ForEachFacts.
Import ListNotations.
Open Scope Z_scope.

(** C21 *)
Theorem for_each_visits_every_coordinate_once : forall ds, wfs ds -> nonnegs (vals ds) ->
  exists trace, visits_all ds trace /\
    forall (S : Type) (f : list cint -> S -> outcome S) (s : S), for_each ds f s = run f trace s.
Proof. exact for_each_visits_l. Qed.
Print Assumptions for_each_visits_every_coordinate_once.

Theorem for_each_empty_shape : forall ds, wfs ds -> nonnegs (vals ds) -> In 0 (vals ds) ->
  forall (S : Type) (f : list cint -> S -> outcome S) (s : S), for_each ds f s = Ok s.
Proof. exact for_each_zero_l. Qed.
Print Assumptions for_each_empty_shape.

Definition ex_dims : list cint := [CI U8 2; int 3; CI I64 2].
Example ex_dims_ok : wfs ex_dims /\ nonnegs (vals ex_dims).
Proof. split; [apply wfsb_ok|apply nonnegsb_ok]; reflexivity. Qed.
Example for_each_ex :
  for_each ex_dims (fun c s => Ok (s ++ [vals c])) [] =
  Ok [[0;0;0];[0;0;1];[0;1;0];[0;1;1];[0;2;0];[0;2;1];[1;0;0];[1;0;1];[1;1;0];[1;1;1];[1;2;0];[1;2;1]].
Proof. vm_compute. reflexivity. Qed.
(** The largest value of a narrow type is a valid extent: the counter does not wrap. *)
Example for_each_ex_255 : for_each [CI U8 255] (fun c s => Ok (s + 1)) 0 = Ok 255.
Proof. vm_compute. reflexivity. Qed.

(** C22 *)
Theorem for_until_stops_at_first_hit : forall ds, wfs ds -> nonnegs (vals ds) ->
  exists trace, visits_all ds trace /\
    forall (S : Type) (f : list cint -> S -> outcome (bool * S)) (s : S),
      for_until ds f s = run_until f trace s.
Proof. exact for_until_visits_l. Qed.
Print Assumptions for_until_stops_at_first_hit.

Theorem for_until_calls : forall ds (p : list cint -> bool), wfs ds -> nonnegs (vals ds) ->
  exists trace, visits_all ds trace /\
  exists found calls,
    for_until ds (fun c s => Ok (p c, s ++ [c])) [] = Ok (found, calls) /\
    (found = false -> calls = trace /\ forall c, In c trace -> p c = false) /\
    (found = true -> exists before hit rest,
        calls = before ++ [hit] /\ trace = before ++ hit :: rest /\ p hit = true /\
        forall c, In c before -> p c = false).
Proof. exact for_until_first_l. Qed.
Print Assumptions for_until_calls.

Example for_until_ex :
  for_until ex_dims (fun c s => Ok (Z.eqb (nth 1 (vals c) 0) 1, s ++ [vals c])) [] =
  Ok (true, [[0;0;0];[0;0;1];[0;1;0]]).
Proof. vm_compute. reflexivity. Qed.
