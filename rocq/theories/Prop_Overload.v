(** Property C89: the overload a call of an algorithm reaches. *)
From Coq Require Import List Bool PeanoNat.
From Verif Require Import Outcome Overload OverloadSpec OverloadFacts.
Import ListNotations.

(** C89. The arguments of the user, by their numbers: *)
Definition given_ (ks : list nat) : list (option nat) := map Some ks.
(** Objects by name, temporaries and const objects: *)
Definition lv (w : what) : arg := A w true false.
Definition clv (w : what) : arg := A w true true.
Definition rv (w : what) : arg := A w false false.

Theorem documented_calls_reach : forall n i o args, nth_error (overloads n) i = Some o -> spelled o args ->
  in_place o args -> ~ confused n args ->
  exists tr, reached n i args tr /\ forall fuel, 6 <= fuel -> run fuel n args = Ok tr.
Proof. exact calls_reach. Qed.
Print Assumptions documented_calls_reach.
(** all_of(c, f): all_of with kwk::cpu, then reduce with kwk::cpu. *)
Example documented_calls_reach_ex :
  spelled (O [inp; func] None false [(all_of, [Cpu; Named 0; Named 1])]) [lv Container; lv Callable] /\
  run 6 all_of [lv Container; lv Callable] =
    Ok [(all_of, 1, None, [Some 0; Some 1]); (all_of, 0, None, [None; Some 0; Some 1]);
        (reduce, 0, Some (Context true), [None; Some 0; None; None])].
Proof.
  split; [|reflexivity]. exists [lv Container; lv Callable], []. repeat split. repeat constructor.
Qed.

Theorem calls_with_a_context_reach : forall n i o x args, nth_error (overloads n) i = Some o -> spelled o (x :: args) ->
  (exists b, a_what x = Context b) -> in_place o (x :: args) ->
  exists tr, reached n i (x :: args) tr /\ forall fuel, 6 <= fuel -> run fuel n (x :: args) = Ok tr.
Proof. exact with_context. Qed.
Print Assumptions calls_with_a_context_reach.
(** for_each(kwk::cpu, f, a, b) and find_last(ctx, c, v). *)
Example calls_with_a_context_reach_ex :
  run 6 for_each [cpu; lv Callable; lv Container; lv Container] =
    Ok [(for_each, 2, Some (Context true), [Some 0; Some 1; Some 2; Some 3])] /\
  run 6 find_last [lv (Context false); lv Container; rv Value] =
    Ok [(find_last, 0, None, [Some 0; Some 1; Some 2]); (find_last_if, 0, None, [Some 0; Some 1; None]);
        (find_if, 0, None, [Some 0; None; None])] /\
  run 6 inner_product [lv (Context false); clv Container; lv Container] =
    Ok [(inner_product, 4, None, [Some 0; Some 1; Some 2]); (inner_product, 2, None, [Some 0; Some 1; Some 2; None]);
        (inner_product, 0, Some (Context false), [Some 0; Some 1; Some 2; None; None; None])].
Proof. repeat split. Qed.

Theorem other_calls_rejected : forall n i o args fuel, nth_error (overloads n) i = Some o -> spelled o args ->
  ~ in_place o args \/ confused n args -> 6 <= fuel -> run fuel n args = UB.
Proof. exact calls_rejected. Qed.
Print Assumptions other_calls_rejected.
(** fill(reverse(c), 0): the output is a temporary. *)
Example other_calls_rejected_ex :
  spelled (O [out; val] None false [(fill, [Cpu; Named 0; Named 1])]) [rv Container; rv Value] /\
  ~ in_place (O [out; val] None false [(fill, [Cpu; Named 0; Named 1])]) [rv Container; rv Value] /\
  run 6 fill [rv Container; rv Value] = UB /\
  run 6 fill [lv Container; rv Value] =
    Ok [(fill, 1, None, [Some 0; Some 1]); (fill, 0, Some (Context true), [None; Some 0; Some 1])].
Proof.
  split; [exists [rv Container; rv Value], []; repeat split; repeat constructor|]. split; [|split; reflexivity].
  intros H. destruct (H 0 out (rv Container) eq_refl eq_refl eq_refl); discriminate.
Qed.

Theorem temporary_outputs_rejected : forall n i o args a fuel, nth_error (overloads n) i = Some o -> spelled o args ->
  target n args = Some a -> temporary a -> 6 <= fuel -> run fuel n args = UB.
Proof. exact target_rejected. Qed.
Print Assumptions temporary_outputs_rejected.
(** exclusive_scan(in, view{source = a}, 0). *)
Example temporary_outputs_rejected_ex :
  spelled (O [inp; out; val] None false [(exclusive_scan, [Cpu; Named 0; Named 1; Named 2])]) [lv Container; rv Container; rv Value] /\
  target exclusive_scan [lv Container; rv Container; rv Value] = Some (rv Container) /\ temporary (rv Container).
Proof.
  split; [exists [lv Container; rv Container; rv Value], []; repeat split; repeat constructor|]. repeat split.
Qed.

Theorem only_for_each_and_transform : forall n args, confused n args -> n = for_each \/ n = transform.
Proof. exact no_calls_confused. Qed.
Print Assumptions only_for_each_and_transform.
(** transform(f, out, a, b) with named objects compiles, transform(f, out, a, b) with const b is ambiguous. *)
Example only_for_each_and_transform_ex :
  confused transform [lv Callable; lv Container; lv Container; clv Container] /\
  run 6 transform [lv Callable; lv Container; lv Container; clv Container] = UB /\
  run 6 transform [lv Callable; lv Container; lv Container; lv Container] =
    Ok [(transform, 1, None, given_ [0; 1; 2; 3]); (transform, 0, Some (Context true), None :: given_ [0; 1; 2; 3])] /\
  run 6 transform [rv Callable; lv Container; lv Container; clv Container] =
    Ok [(transform, 1, None, given_ [0; 1; 2; 3]); (transform, 0, Some (Context true), None :: given_ [0; 1; 2; 3])].
Proof. repeat split. repeat constructor. Qed.

Theorem for_each_named_callable_rejected : forall f c0 c1 cs fuel, a_what f = Callable -> a_lvalue f = true ->
  Forall is_container (c0 :: c1 :: cs) -> 6 <= fuel -> run fuel for_each (f :: c0 :: c1 :: cs) = UB.
Proof. exact for_each_named. Qed.
Print Assumptions for_each_named_callable_rejected.
Example for_each_named_callable_ex : run 6 for_each [lv Callable; lv Container; lv Container] = UB.
Proof. reflexivity. Qed.

Theorem for_each_temporary_callable : forall f c0 cs, a_what f = Callable -> a_lvalue f = false \/ cs = [] ->
  Forall is_container (c0 :: cs) ->
  exists tr, reached for_each 3 (f :: c0 :: cs) tr /\ forall fuel, 6 <= fuel -> run fuel for_each (f :: c0 :: cs) = Ok tr.
Proof. exact for_each_temporary. Qed.
Print Assumptions for_each_temporary_callable.
Example for_each_temporary_callable_ex :
  run 6 for_each [rv Callable; lv Container; clv Container] =
    Ok [(for_each, 3, None, given_ [0; 1; 2]); (for_each, 2, Some (Context true), None :: given_ [0; 1; 2])] /\
  run 6 for_each [lv Callable; lv Container] =
    Ok [(for_each, 3, None, given_ [0; 1]); (for_each, 2, Some (Context true), None :: given_ [0; 1])].
Proof. split; reflexivity. Qed.
