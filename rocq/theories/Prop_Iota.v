(** Property C35, continued: iota when the running value leaves its type. *)
From Coq Require Import ZArith List Bool Lia.
From Verif Require Import Outcome CInt CIntFacts Spec SpecFacts ShapeSpec Shape ShapeFacts ShapeFacts2
  Memory MemFacts Container ContainerSpec ContainerFacts3 Algo AlgoSpec AlgoFacts AlgoFacts2 AlgoFacts3 AlgoFacts4
  IotaFacts Prop_Algo.
Import ListNotations.
Open Scope Z_scope.

(** A running value of type int or long overflows exactly when the value after the last element is not representable, although
    nothing would be stored there. *)
Theorem iota_overflows_iff : forall et out v (m : mem cint), can_write m out out -> wfc v -> cty v = I32 \/ cty v = I64 ->
  (@iota et out v m = UB <-> 0 < prod (dims out) /\ ~ in_ty (cty v) (cval v + prod (dims out))).
Proof. exact iota_overflows_l. Qed.
Print Assumptions iota_overflows_iff.

(** Of any other type it wraps around: unsigned types by their arithmetic, narrow types by the conversion from int. *)
Theorem iota_wraps : forall et out v (m : mem cint), can_write m out out -> wfc v -> cty v <> I32 -> cty v <> I64 ->
  exists m', @iota et out v m = Ok m' /\
    (forall is_, in_box (dims out) is_ -> value m' out is_ (CI et (cast et (cast (cty v) (cval v + rank (dims out) is_))))) /\
    frame out out m m'.
Proof. exact iota_wraps_l. Qed.
Print Assumptions iota_wraps.

(** With a step: overflow if the type of the sum is the type of the running value and signed, *)
Theorem iota_step_overflows_iff : forall et out v step (m : mem cint), can_write m out out -> wfc v -> wfc step ->
  CInt.common (cty v) (cty step) = cty v -> is_signed (cty v) = true ->
  (@iota_step et out v step m = UB <->
   exists k, 0 < k <= prod (dims out) /\ ~ in_ty (cty v) (cval v + k * cval step)).
Proof. exact iota_step_overflows_l. Qed.
Print Assumptions iota_step_overflows_iff.

(** and a running value that wraps around if the type of the sum is unsigned or has room for every sum. *)
Theorem iota_step_wraps : forall et out v step (m : mem cint), can_write m out out -> wfc v -> wfc step ->
  is_signed (CInt.common (cty v) (cty step)) = false \/
  (forall w, in_ty (cty v) w -> in_ty (CInt.common (cty v) (cty step)) (w + cval step)) ->
  exists m', @iota_step et out v step m = Ok m' /\
    (forall is_, in_box (dims out) is_ ->
       value m' out is_ (CI et (cast et (cast (cty v) (cval v + rank (dims out) is_ * cval step))))) /\
    frame out out m m'.
Proof. exact iota_step_wraps_l. Qed.
Print Assumptions iota_step_wraps.

(** iota without a step is iota with the step 1. *)
Theorem iota_is_iota_step : forall et out v (m : mem cint), @iota et out v m = @iota_step et out v (int 1) m.
Proof. exact iota_is_step. Qed.
Print Assumptions iota_is_iota_step.

(** The 2x3 table [xa] of Prop_Algo. *)
Example overflow_ex : @iota I64 xa (int 2147483642) im = UB /\ 0 < prod (dims xa) /\ ~ in_ty I32 (2147483642 + prod (dims xa)).
Proof. split; [vm_compute; reflexivity|]. split; [reflexivity|]. unfold in_ty. vm_compute. intros [_ H]. apply H. reflexivity. Qed.
Example no_overflow_ex : exists m', @iota I64 xa (int 2147483641) im = Ok m' /\ value m' xa [1; 2] (CI I64 2147483646).
Proof. eexists. split; [vm_compute; reflexivity|]. vm_compute. reflexivity. Qed.
Example wraps_ex : @iota I32 xa (CI I8 125) im =
  Ok [Some (map (fun z => Some (int z)) [125; 126; 127; -128; -127; -126]); Some (repeat (Some (int 9)) 6)].
Proof. vm_compute. reflexivity. Qed.
Example unsigned_wraps_ex : @iota I64 xa (CI U32 4294967294) im =
  Ok [Some (map (fun z => Some (CI I64 z)) [4294967294; 4294967295; 0; 1; 2; 3]); Some (repeat (Some (int 9)) 6)].
Proof. vm_compute. reflexivity. Qed.
(** Downwards: with the step -1 of type int an unsigned int goes round, an unsigned char as well. *)
Example down_ex : @iota_step I64 xa (CI U8 2) (int (-1)) im =
  Ok [Some (map (fun z => Some (CI I64 z)) [2; 1; 0; 255; 254; 253]); Some (repeat (Some (int 9)) 6)].
Proof. vm_compute. reflexivity. Qed.
Example down_hyp : forall w, in_ty (cty (CI U8 2)) w -> in_ty (CInt.common (cty (CI U8 2)) (cty (int (-1)))) (w + cval (int (-1))).
Proof. intros w. unfold in_ty. cbn. lia. Qed.
Example step_overflow_ex : @iota_step I64 xa (int 0) (int (-400000000)) im = UB /\
  ~ in_ty I32 (0 + 6 * -400000000) /\ in_ty I32 (0 + 5 * -400000000).
Proof. split; [vm_compute; reflexivity|]. unfold in_ty. cbn. lia. Qed.
