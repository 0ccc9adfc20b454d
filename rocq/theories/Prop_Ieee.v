(** Property C59: interpolation in floating-point arithmetic. *)
From Coq Require Import ZArith QArith Qround List Bool Lia.
From Coq Require Import Floats.SpecFloat.
From Verif Require Import Outcome CInt CIntFacts Spec SpecFacts ShapeSpec ShapeFacts ShapeFacts2 Memory MemFacts Container ContainerSpec
  ContainerFacts ContainerFacts2 ContainerFacts3 AlgoSpec Interp InterpSpec InterpFacts IeeeSpec IeeeFacts.
Import ListNotations.
Open Scope Z_scope.

(** C59 *)
Theorem linear_at_element_ieee : forall prec emax, 1 < prec -> prec < emax ->
  forall (T : Type) (cv : T -> spec_float) (m : mem T) c is_ (f : list Z -> T),
  addressable c (map (fun _ => I32) (dims c)) -> Forall (fun n => n <= 2147483648) (dims c) ->
  (forall js, in_box (dims c) js -> value m c js (f js)) ->
  Forall2 (fun n i => 0 <= i < n - 1) (dims c) is_ -> Forall (fun i => i < 2 ^ prec) is_ ->
  (forall js, corner is_ js -> finite_number prec emax (cv (f js))) ->
  exists r, linear_interpolate (ieee prec emax) cv m c (map (of_int (ieee prec emax)) is_) = Ok r /\
    same_number r (cv (f is_)).
Proof. exact @linear_ieee_l. Qed.
Print Assumptions linear_at_element_ieee.

Theorem floor_reads_ieee : forall (T : Type) prec emax (m : mem T) c ps qs (f : list Z -> T),
  addressable c (map (fun _ => I64) (dims c)) -> Forall (fun n => 1 <= n <= 2 ^ 63) (dims c) ->
  (forall is_, in_box (dims c) is_ -> value m c is_ (f is_)) ->
  Forall2 (fun p q => float_value p = Some q) ps qs ->
  Forall2 (fun n q => (-1 < q)%Q /\ (q < inject_Z n)%Q) (dims c) qs ->
  floor_interpolate (ieee prec emax) m c ps = Ok (f (map (fun q => Z.max 0 (Qfloor q)) qs)).
Proof. exact @floor_ieee_l. Qed.
Print Assumptions floor_reads_ieee.

(** Between two equal elements, in binary32: at 0.005 the result is above both, at 0.007 below both. *)
Definition threes : mem Z := [Some (map Some [3; 3])].
Definition pair : container := Cn K1 [int 2] [] (Ptr 0 0).
Definition p005 : spec_float := S754_finite false 10737418 (-31).
Definition p007 : spec_float := S754_finite false 15032386 (-31).

Theorem linear_constant_field_refuted :
  (forall i, in_box (dims pair) [i] -> value threes pair [i] 3) /\
  (exists r, linear_interpolate binary32 (of_int binary32) threes pair [p005] = Ok r /\
     SFltb (of_int binary32 3) r = true) /\
  (exists r, linear_interpolate binary32 (of_int binary32) threes pair [p007] = Ok r /\
     SFltb r (of_int binary32 3) = true).
Proof.
  split; [|split; eexists; (split; [vm_compute; reflexivity|reflexivity])].
  intros i B. apply box_In in B. vm_compute in B. repeat (destruct B as [B|B]; [inversion B; reflexivity|]). contradiction.
Qed.
Print Assumptions linear_constant_field_refuted.

(** Beyond 2^24 a float coordinate cannot name every element: the coordinate converted from 2^24+1 is
    that of 2^24. *)
Theorem coordinate_beyond_precision_refuted :
  of_int binary32 16777217 = of_int binary32 16777216 /\
  trunc binary32 (of_int binary32 16777217) = Some 16777216.
Proof. vm_compute. auto. Qed.
Print Assumptions coordinate_beyond_precision_refuted.

(** A 3x3 table of -0.4, -0.3, ... 0.4 as binary32 holds them. *)
Definition tenths : list spec_float :=
  map (fun z => SFdiv 24 128 (of_int binary32 z) (of_int binary32 10)) [-4; -3; -2; -1; 0; 1; 2; 3; 4].
Definition tm : mem spec_float := [Some (map Some tenths)].
Definition tt3 : container := Cn K2 [int 3; int 3] [] (Ptr 0 0).
Definition tf (is_ : list Z) : spec_float :=
  match is_ with [i; j] => nth (Z.to_nat (3 * i + j)) tenths S754_nan | _ => S754_nan end.

Example tt_default : default_layout tt3. Proof. by_default false. Qed.
Example tt_linear : exists r, linear_interpolate binary32 (fun x => x) tm tt3 (map (of_int binary32) [0; 1]) = Ok r /\
  same_number r (SFdiv 24 128 (of_int binary32 (-3)) (of_int binary32 10)).
Proof.
  apply (linear_at_element_ieee 24 128 ltac:(lia) ltac:(lia) spec_float (fun x => x) tm tt3 [0; 1] tf).
  - exact (default_addressable tt3 _ tt_default).
  - change (dims tt3) with [3; 3]. repeat constructor; lia.
  - intros js B. apply box_In in B. vm_compute in B.
    repeat (destruct B as [<-|B]; [vm_compute; reflexivity|]); contradiction.
  - repeat constructor; lia.
  - repeat constructor; lia.
  - intros js C. inversion C as [|? j ? js1 H C1]; subst. inversion C1 as [|? k ? js2 K C2]; subst. inversion C2; subst.
    destruct H as [-> | ->], K as [-> | ->]; split; vm_compute; auto.
Qed.
Example tt_floor : floor_interpolate binary32 tm tt3 [S754_finite false 15099494 (-23); p005] = Ok (tf [1; 0]).
Proof.
  apply (floor_reads_ieee spec_float 24 128 tm tt3 [S754_finite false 15099494 (-23); p005]
    [(15099494 # 2 ^ 23)%Q; (10737418 # 2 ^ 31)%Q] tf).
  - exact (default_addressable tt3 _ tt_default).
  - change (dims tt3) with [3; 3]. repeat constructor; lia.
  - intros js B. apply box_In in B. vm_compute in B.
    repeat (destruct B as [<-|B]; [vm_compute; reflexivity|]); contradiction.
  - repeat constructor.
  - repeat constructor; vm_compute; discriminate.
Qed.
