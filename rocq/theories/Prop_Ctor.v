(** Property C101: shapes and strides of a given type, constructed from extents with and without names. *)
From Coq Require Import ZArith String List Bool Lia Permutation.
From Verif Require Import Outcome CInt Prefilled PrefilledSpec NamedSizeSpec Ctor CtorSpec CtorFacts.
Import ListNotations.
Open Scope Z_scope.

(** Which calls compile; those that do give an object, or stop with assertions on. *)
Theorem ctor_accepts : forall ty l, proper (some_names (map fst ty)) -> proper (names_given l) -> forall dbg def,
  (accepted ty l -> (exists p, construct_shape dbg (normalize ty) def l = Ok p /\ pdesc p = normalize ty /\ wfp p) \/
                    (dbg = true /\ construct_shape dbg (normalize ty) def l = Abort)) /\
  (~ accepted ty l -> construct_shape dbg (normalize ty) def l = UB).
Proof. exact ctor_accepts_l. Qed.
Print Assumptions ctor_accepts.

(** The values. *)
Theorem ctor_values : forall ty l, proper (some_names (map fst ty)) -> proper (names_given l) -> forall dbg def p,
  construct_shape dbg (normalize ty) def l = Ok p ->
  exists vs, to_values p = Ok vs /\ length vs = length ty /\
    forall i o c, nth_error ty i = Some (o, c) -> nth_error vs i = Some (held_at def c (extent_at ty l i)).
Proof. exact ctor_values_l. Qed.
Print Assumptions ctor_values.

(** With assertions on, a value different from a compile-time extent stops the construction, unless all extents are
    compile-time ones and the values have names. *)
Theorem ctor_checks : forall ty l, proper (some_names (map fst ty)) -> proper (names_given l) -> forall def,
  accepted ty l -> Forall sane_place ty -> Forall (fun g => sane_ext (kext g)) l ->
  (construct_shape true (normalize ty) def l = Abort <->
   mismatch ty l /\ (names_given l = [] \/ ~ Forall fixed_place ty)).
Proof. exact ctor_checks_l. Qed.
Print Assumptions ctor_checks.

(** Named values may be given in any order. *)
Theorem ctor_any_order : forall ty l l' dbg def, proper (some_names (map fst ty)) -> proper (names_given l) -> accepted ty l ->
  Forall (fun g => name_of g <> None) l -> Permutation l l' ->
  construct_shape dbg (normalize ty) def l = construct_shape dbg (normalize ty) def l'.
Proof. exact ctor_any_order_l. Qed.
Print Assumptions ctor_any_order.

(** shape<_, axis<"phase">, _>: s3(11, phase = 10, 15) and s4(11, 15, phase = 10) of test/doc/shape/named_axis.cpp 17-20. *)
Definition phase := AName "phase".
Definition phase_type : shape_type := [(None, CJoker); (Some phase, CType U8); (None, CStatic (int 15))].
Example ctor_mixed_ex :
  proper (some_names (map fst phase_type)) /\
  accepted phase_type [KPos (EInt (int 11)); KNamed phase (EInt (int 300)); KPos EJoker] /\
  (exists p, construct_shape true (normalize phase_type) (int 0) [KPos (EInt (int 11)); KNamed phase (EInt (int 300)); KPos EJoker] = Ok p /\
             to_values p = Ok [int 11; CI U8 44; int 15]) /\
  construct_shape true (normalize phase_type) (int 0) [KPos (EInt (int 11)); KPos (EInt (int 15)); KNamed phase (EInt (int 10))] = UB /\
  construct_shape true (normalize phase_type) (int 0) [KPos (EInt (int 11)); KNamed phase (EInt (int 10)); KPos (EInt (int 7))] = Abort /\
  construct_shape true (normalize phase_type) (int 0) [KNamed phase (EInt (int 10)); KPos (EInt (int 15))] = UB /\
  (exists p, construct_shape true (normalize phase_type) (int 0) [KPos (EInt (int 10)); KPos (EInt (int 15))] = Ok p /\
             to_values p = Ok [int 1; CI U8 10; int 15]) /\
  (exists p, construct_shape true (normalize phase_type) (int 0) [KNamed phase (EInt (int 10))] = Ok p /\
             to_values p = Ok [int 0; CI U8 10; int 15]).
Proof.
  split; [split; repeat constructor; intros []|]. split; [right; right; right; reflexivity|].
  split; [eexists; split; reflexivity|]. split; [reflexivity|]. split; [reflexivity|]. split; [reflexivity|].
  split; eexists; split; reflexivity.
Qed.
(** shape<width, height>: (height = 8, width = 10), (10, 8), and a value next to a name. *)
Example ctor_named_ex :
  let ty := [(Some (AName "width"), CJoker); (Some (AName "height"), CJoker)] in
  let h := KNamed (AName "height") (EInt (int 8)) in let w := KNamed (AName "width") (EInt (int 10)) in
  proper (some_names (map fst ty)) /\ proper (names_given [h; w]) /\ accepted ty [h; w] /\
  (forall l, In l [[h; w]; [w; h]; [KPos (EInt (int 10)); KPos (EInt (int 8))]] ->
     exists p, construct_shape true (normalize ty) (int 0) l = Ok p /\ to_values p = Ok [int 10; int 8]) /\
  construct_shape true (normalize ty) (int 0) [KPos (EInt (int 10)); h] = UB.
Proof.
  cbn zeta. split; [split; repeat constructor; cbn; intuition discriminate|]. split; [split; repeat constructor; cbn; intuition discriminate|].
  split; [right; right; left; split; [repeat constructor; discriminate|split; [cbn; lia|right; intros x; cbn; intuition]]|].
  split; [|reflexivity]. intros l [<-|[<-|[<-|[]]]]; eexists; split; reflexivity.
Qed.
(** A value different from a compile-time extent, with names (stopped, since not all extents are compile-time ones) and by
    position; and the right value, which is not stopped. *)
Example ctor_checks_ex :
  let bad := [KPos (EInt (int 11)); KNamed phase (EInt (int 10)); KPos (EInt (int 7))] in
  let good := [KPos (EInt (int 11)); KNamed phase (EInt (int 10)); KPos (EInt (CI U8 15))] in
  proper (names_given bad) /\ accepted phase_type bad /\ accepted phase_type good /\ Forall sane_place phase_type /\
  Forall (fun g => sane_ext (kext g)) bad /\ Forall (fun g => sane_ext (kext g)) good /\
  (mismatch phase_type bad /\ (names_given bad = [] \/ ~ Forall fixed_place phase_type)) /\
  ~ (mismatch phase_type good /\ (names_given good = [] \/ ~ Forall fixed_place phase_type)).
Proof.
  cbn zeta.
  assert (P : proper (some_names (map fst phase_type))) by (split; repeat constructor; intros []).
  assert (Pb : forall v, proper (names_given [KPos (EInt (int 11)); KNamed phase (EInt (int 10)); KPos v])) by (intros v; split; repeat constructor; intros []).
  assert (Ac : forall v, accepted phase_type [KPos (EInt (int 11)); KNamed phase (EInt (int 10)); KPos (EInt v)]) by (intros v; right; right; right; reflexivity).
  assert (Sp : Forall sane_place phase_type) by (repeat constructor; cbv; discriminate).
  assert (S1 : Forall (fun g => sane_ext (kext g)) [KPos (EInt (int 11)); KNamed phase (EInt (int 10)); KPos (EInt (int 7))]) by (repeat constructor; cbv; discriminate).
  assert (S2 : Forall (fun g => sane_ext (kext g)) [KPos (EInt (int 11)); KNamed phase (EInt (int 10)); KPos (EInt (CI U8 15))]) by (repeat constructor; cbv; discriminate).
  split; [apply Pb|]. split; [apply Ac|]. split; [apply Ac|]. split; [exact Sp|]. split; [exact S1|]. split; [exact S2|]. split.
  - apply (ctor_checks phase_type _ P (Pb _) (int 0) (Ac _) Sp S1). reflexivity.
  - rewrite <- (ctor_checks phase_type _ P (Pb _) (int 0) (Ac _) Sp S2). discriminate.
Qed.
Example ctor_order_ex :
  let h := KNamed (AName "height") (EInt (int 8)) in let w := KNamed (AName "width") (EInt (int 10)) in
  Forall (fun g => name_of g <> None) [h; w] /\ Permutation [h; w] [w; h].
Proof. cbn zeta. split; [repeat constructor; discriminate|apply perm_swap]. Qed.

(** "all outermost missing extent are set to 1" (shape.hpp 117-118): not those of a construction with names. *)
Theorem missing_named_extent_refuted : exists ty l p v, proper (some_names (map fst ty)) /\ proper (names_given l) /\ accepted ty l /\
  construct_shape true (normalize ty) (int 0) l = Ok p /\ to_values p = Ok [v; int 8] /\ cval v <> 1.
Proof.
  exists [(Some (AName "width"), CJoker); (Some (AName "height"), CJoker)], [KNamed (AName "height") (EInt (int 8))]. do 2 eexists.
  split; [split; repeat constructor; cbn; intuition discriminate|]. split; [split; repeat constructor; cbn; intuition discriminate|].
  split; [right; right; left; split; [repeat constructor; discriminate|split; [cbn; lia|right; intros x; cbn; intuition]]|].
  split; [reflexivity|]. split; [reflexivity|]. cbv. discriminate.
Qed.
Print Assumptions missing_named_extent_refuted.

(** A fully static shape accepts, with assertions on, names it does not have and sizes it does not have. *)
Theorem static_shape_ignores_names_refuted : exists ty l p, proper (some_names (map fst ty)) /\ proper (names_given l) /\
  accepted ty l /\ construct_shape true (normalize ty) (int 0) l = Ok p /\ to_values p = Ok [int 3; int 55] /\
  l = [KNamed (AName "depth") (EInt (int 7)); KNamed (AName "width") (EInt (int 54))] /\
  ty = [(None, CStatic (int 3)); (Some (AName "width"), CStatic (int 55))].
Proof.
  exists [(None, CStatic (int 3)); (Some (AName "width"), CStatic (int 55))],
    [KNamed (AName "depth") (EInt (int 7)); KNamed (AName "width") (EInt (int 54))]. eexists.
  split; [split; repeat constructor; cbn; intuition discriminate|]. split; [split; repeat constructor; cbn; intuition discriminate|].
  split; [right; right; left; split; [repeat constructor; discriminate|split; [cbn; lia|left; repeat constructor; eexists; reflexivity]]|].
  split; [reflexivity|]. split; [reflexivity|]. split; reflexivity.
Qed.
Print Assumptions static_shape_ignores_names_refuted.
