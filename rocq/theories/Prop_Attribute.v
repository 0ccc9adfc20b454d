(** Property C90: function attributes. *)
From Coq Require Import ZArith List Bool.
From Verif Require Import Outcome CInt Shape Slicer Attribute AttributeSpec AttributeFacts.
Import ListNotations.
Open Scope Z_scope.

(** Shapes which are not assigned after they were compared, compressed, sliced or reduced: the attributes
    change no result. *)
Theorem settled_programs_exact : forall st p tr,
  settled [] p -> all_used p -> allowed st p tr -> tr = plain st p.
Proof. exact (fun st p tr S A H => settled_used_l st p tr H S A). Qed.
Print Assumptions settled_programs_exact.

(** With unused results: some of these calls are left out, and nothing else changes. *)
Theorem settled_calls_left_out : forall st p tr,
  settled [] p -> allowed st p tr -> exists q, thinned p q /\ tr = plain st q.
Proof. exact (fun st p tr S H => settled_thinned_l st p tr H S). Qed.
Print Assumptions settled_calls_left_out.

(** If no call fails, this cannot be seen. *)
Theorem settled_successes_exact : forall st p tr,
  settled [] p -> Forall (fun r => exists v, r = Ok v) (plain st p) -> allowed st p tr -> tr = plain st p.
Proof. exact (fun st p tr S F H => settled_ok_l st p tr H S F). Qed.
Print Assumptions settled_successes_exact.

(** numel, nbdims, contains, as_stride, linear_index and coordinates are exact, whatever is assigned. *)
Theorem other_functions_exact : forall st p tr,
  (forall f xs, In (Call f xs) p -> compresses f = false) ->
  all_used p -> allowed st p tr -> tr = plain st p.
Proof. exact (fun st p tr C A H => others_exact_l st p tr H C A). Qed.
Print Assumptions other_functions_exact.

(** The execution without attributes is always allowed. *)
Theorem plain_execution_allowed : forall st p, allowed st p (plain st p).
Proof. exact plain_allowed_l. Qed.
Print Assumptions plain_execution_allowed.

(** compress is declared const and takes a reference: after a first result, it and the functions which
    call it may give this result for ever, whatever is assigned to the shape. *)
Theorem compressing_calls_may_be_stale : forall st f xs x l v,
  compresses f = true -> Forall (fun s => length s = length (st x)) l ->
  meaning f (map st xs) = Ok v ->
  allowed st (Call f xs :: watch f xs x l) (repeat (Ok v) (S (length l))).
Proof. exact watch_stale_l. Qed.
Print Assumptions compressing_calls_may_be_stale.

(** A comparison after an assignment may give the answer it gave before. *)
Theorem comparison_may_be_stale_refuted : forall st x y s b,
  x <> y -> length s = length (st x) ->
  shape_eq (st x) (st y) = Ok b -> shape_eq s (st y) = Ok (negb b) ->
  let p := [Call FEqual [x; y]; Set_ x s; Call FEqual [x; y]] in
  plain st p = [Ok (VBool b); Ok (VBool (negb b))] /\ allowed st p [Ok (VBool b); Ok (VBool b)].
Proof. exact comparison_stale_l. Qed.
Print Assumptions comparison_may_be_stale_refuted.

(** The bounds check of a call to linear_index whose result is not used may vanish. *)
Theorem unused_check_may_vanish_refuted : forall st x p q,
  contains (st x) p = false ->
  plain st (Drop (FLinear true p) [x] :: q) = [Abort] /\
  allowed st (Drop (FLinear true p) [x] :: q) (plain st q).
Proof. exact check_vanishes_l. Qed.
Print Assumptions unused_check_may_vanish_refuted.

(** Examples. Variable 0 holds 2x3, variable 1 holds 6, the others 4x3. *)
Definition at_st : store := fun x => match x with
  | O => [int 2; int 3] | S O => [int 6] | _ => [int 4; int 3] end.
Definition at_prog : list command :=
  [Call FNumel [O]; Set_ O [int 4; int 3]; Call FNumel [O]; Call (FLinear true [int 3; int 2]) [O];
   Call FEqual [O; 2%nat]; Call (FCoordinates true (int 7)) [O]; Call FEqual [O; 2%nat]].
Example at_settled : settled [] at_prog /\ all_used at_prog.
Proof.
  split; [cbn; tauto|]. intros f xs H. cbn in H.
  repeat (destruct H as [H|H]; [discriminate H|]). exact H.
Qed.
Example at_plain : plain at_st at_prog =
  [Ok (VInt (int 6)); Ok (VInt (int 12)); Ok (VInt (int 11)); Ok (VBool true);
   Ok (VList [int 2; int 1]); Ok (VBool true)].
Proof. vm_compute. reflexivity. Qed.
Example at_exact : forall tr, allowed at_st at_prog tr ->
  tr = [Ok (VInt (int 6)); Ok (VInt (int 12)); Ok (VInt (int 11)); Ok (VBool true);
        Ok (VList [int 2; int 1]); Ok (VBool true)].
Proof.
  intros tr H. rewrite (settled_programs_exact _ _ _ (proj1 at_settled) (proj2 at_settled) H). exact at_plain.
Qed.
Example at_unused : settled [] (Drop (FContains [int 1; int 1]) [O] :: at_prog) /\
  Forall (fun r => exists v, r = Ok v) (plain at_st (Drop (FContains [int 1; int 1]) [O] :: at_prog)).
Proof. split; [cbn; tauto|]. vm_compute. repeat (constructor; [eexists; reflexivity|]). constructor. Qed.
(** 2x3 == 6; after the assignment of 4x3 the comparison with 6 may still hold. *)
Example at_stale :
  plain at_st [Call FEqual [O; 1%nat]; Set_ O [int 4; int 3]; Call FEqual [O; 1%nat]] =
    [Ok (VBool true); Ok (VBool false)] /\
  allowed at_st [Call FEqual [O; 1%nat]; Set_ O [int 4; int 3]; Call FEqual [O; 1%nat]]
    [Ok (VBool true); Ok (VBool true)].
Proof. apply (comparison_may_be_stale_refuted at_st O 1%nat [int 4; int 3] true); [discriminate|reflexivity..]. Qed.
(** while(!(a == b)) ++a[0]; need not end. *)
Example at_loop :
  plain at_st (Call FEqual [O; 2%nat] :: watch FEqual [O; 2%nat] O [[int 3; int 3]; [int 4; int 3]]) =
    [Ok (VBool false); Ok (VBool false); Ok (VBool true)] /\
  allowed at_st (Call FEqual [O; 2%nat] :: watch FEqual [O; 2%nat] O [[int 3; int 3]; [int 4; int 3]])
    [Ok (VBool false); Ok (VBool false); Ok (VBool false)].
Proof.
  split; [reflexivity|].
  apply (compressing_calls_may_be_stale at_st FEqual [O; 2%nat] O [[int 3; int 3]; [int 4; int 3]] (VBool false));
    [reflexivity|repeat constructor|reflexivity].
Qed.
(** The shape of a slice of an array which was resized may be that of the old one. *)
Example at_slice :
  plain at_st (Call (FSlice [SAll; SAll]) [O] :: watch (FSlice [SAll; SAll]) [O] O [[int 4; int 3]]) =
    [Ok (VList [int 2; int 3]); Ok (VList [int 4; int 3])] /\
  allowed at_st (Call (FSlice [SAll; SAll]) [O] :: watch (FSlice [SAll; SAll]) [O] O [[int 4; int 3]])
    [Ok (VList [int 2; int 3]); Ok (VList [int 2; int 3])].
Proof.
  split; [reflexivity|].
  apply (compressing_calls_may_be_stale at_st (FSlice [SAll; SAll]) [O] O [[int 4; int 3]]
           (VList [int 2; int 3])); [reflexivity|repeat constructor|reflexivity].
Qed.
Example at_unchecked :
  plain at_st [Drop (FLinear true [int 5; int 0]) [O]; Call FNumel [O]] = [Abort] /\
  allowed at_st [Drop (FLinear true [int 5; int 0]) [O]; Call FNumel [O]] [Ok (VInt (int 6))].
Proof. apply (unused_check_may_vanish_refuted at_st O [int 5; int 0] [Call FNumel [O]]). reflexivity. Qed.
