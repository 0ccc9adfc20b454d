(** C92: iota on floating-point elements and with floating-point values and steps. *)
From Coq Require Import ZArith QArith Qabs List Bool Lia Lqa.
From Coq Require Import Floats.SpecFloat.
From Verif Require Import Outcome CInt CIntFacts Spec SpecFacts ShapeSpec Shape ShapeFacts ShapeFacts2
  ForEach ForEachSpec ForEachFacts Memory MemFacts Container ContainerSpec ContainerFacts ContainerFacts2
  ContainerFacts3 Algo AlgoSpec AlgoFacts AlgoFacts2 AlgoFacts3 AlgoFacts4 Interp IeeeSpec RoundSpec Mixed MixedSpec Convert ConvertSpec ConvertFacts
  FloatSums FloatSumsSpec FloatIota FloatIotaFacts.
Import ListNotations.
Open Scope Z_scope.

(** iota(out, value, step) with a value of a floating-point type, elements not less precise and a step of any
    arithmetic type: the element of rank k is value + k*step up to the error of k additions, elements never
    decrease when the step is not negative, and never increase when it is not positive. The hypothesis speaks of all n additions: the value advances once
    more after the last element. *)
Theorem float_iota_error : forall f ts out a qa s qs, finite_of f a -> float_value a = Some qa ->
  value_of_type ts s -> number_value s = Some qs ->
  (sum_limit f ts (Z.to_nat (prod (dims out)))
     (Qabs qa + inject_Z (Z.of_nat (Z.to_nat (prod (dims out)))) * Qabs qs) < 2 ^ f_emax f)%Q ->
  forall o m, can_write m out out -> f_prec f <= f_prec o ->
  exists m', niota_step (AFloat f) ts (AFloat o) out (NFloat a) s m = Ok m' /\
    (forall is_ k, in_box (dims out) is_ -> k = Z.to_nat (rank (dims out) is_) ->
       exists y p, value m' out is_ (NFloat y) /\ finite_of o y /\ float_value y = Some p /\
         within (sum_error f ts k (Qabs qa + inject_Z (Z.of_nat k) * Qabs qs)) (qa + inject_Z (Z.of_nat k) * qs) p) /\
    ((0 <= qs)%Q -> forall is_ js y z p p', in_box (dims out) is_ -> in_box (dims out) js ->
       rank (dims out) is_ <= rank (dims out) js -> value m' out is_ (NFloat y) -> value m' out js (NFloat z) ->
       float_value y = Some p -> float_value z = Some p' -> (p <= p')%Q) /\
    ((qs <= 0)%Q -> forall is_ js y z p p', in_box (dims out) is_ -> in_box (dims out) js ->
       rank (dims out) is_ <= rank (dims out) js -> value m' out is_ (NFloat y) -> value m' out js (NFloat z) ->
       float_value y = Some p -> float_value z = Some p' -> (p' <= p)%Q) /\
    frame out out m m'.
Proof. exact niota_error_l. Qed.
Print Assumptions float_iota_error.

(** Elements of any other type (integers, or less precise): the running values are converted one by one. *)
Theorem float_iota_as : forall f ts out a qa s qs, finite_of f a -> float_value a = Some qa ->
  value_of_type ts s -> number_value s = Some qs ->
  (sum_limit f ts (Z.to_nat (prod (dims out)))
     (Qabs qa + inject_Z (Z.of_nat (Z.to_nat (prod (dims out)))) * Qabs qs) < 2 ^ f_emax f)%Q ->
  forall ot m, can_write m out out ->
  (forall k x p, (k < Z.to_nat (prod (dims out)))%nat -> finite_of f x -> float_value x = Some p ->
     within (sum_error f ts k (Qabs qa + inject_Z (Z.of_nat k) * Qabs qs)) (qa + inject_Z (Z.of_nat k) * qs) p ->
     convertible ot (NFloat x)) ->
  exists m', niota_step (AFloat f) ts ot out (NFloat a) s m = Ok m' /\
    (forall is_ k, in_box (dims out) is_ -> k = Z.to_nat (rank (dims out) is_) ->
       exists x p w, finite_of f x /\ float_value x = Some p /\
         within (sum_error f ts k (Qabs qa + inject_Z (Z.of_nat k) * Qabs qs)) (qa + inject_Z (Z.of_nat k) * qs) p /\
         value m' out is_ w /\ converted ot (NFloat x) w) /\
    frame out out m m'.
Proof. exact niota_as_l. Qed.
Print Assumptions float_iota_as.

(** When value and step are multiples of a power of two and all running values fit the precision, every element
    is exactly value + k*step. *)
Theorem float_iota_exact : forall f ts o e out m a qa s qs z0 z, can_write m out out -> f_prec f <= f_prec o ->
  finite_of f a -> float_value a = Some qa -> value_of_type ts s -> number_value s = Some qs ->
  (qa == inject_Z z0 * 2 ^ e)%Q -> (qs == inject_Z z * 2 ^ e)%Q -> exponent_of f e ->
  Z.abs z0 < 2 ^ f_prec f -> Z.abs z < 2 ^ f_prec f ->
  Z.abs (z0 + Z.of_nat (Z.to_nat (prod (dims out))) * z) < 2 ^ f_prec f ->
  exists m', niota_step (AFloat f) ts (AFloat o) out (NFloat a) s m = Ok m' /\
    (forall is_ k, in_box (dims out) is_ -> k = Z.to_nat (rank (dims out) is_) ->
       exists y p, value m' out is_ (NFloat y) /\ float_value y = Some p /\ (p == qa + inject_Z (Z.of_nat k) * qs)%Q) /\
    frame out out m m'.
Proof. exact niota_exact_l. Qed.
Print Assumptions float_iota_exact.

(** iota(out) on floating-point elements counts up to 2^precision, and all further elements are equal to it. *)
Theorem float_iota_stops : forall f out m, can_write m out out ->
  exists m', niota_default (AFloat f) out m = Ok m' /\
    (forall is_, in_box (dims out) is_ -> exists y p, value m' out is_ (NFloat y) /\ float_value y = Some p /\
       (p == inject_Z (Z.min (rank (dims out) is_) (2 ^ f_prec f)))%Q) /\
    frame out out m m'.
Proof. exact niota_stops_l. Qed.
Print Assumptions float_iota_stops.

(** iota(out, v) with an integer v counts in the type of v and converts each value: floating-point elements
    are the nearest numbers to v + k, also beyond 2^precision. *)
Theorem integer_iota_converts : forall t ot out m v, can_write m out out -> in_ty t v ->
  in_ty t (v + Z.of_nat (Z.to_nat (prod (dims out)))) ->
  (forall k, 0 <= k < Z.of_nat (Z.to_nat (prod (dims out))) -> convertible ot (NInt (v + k))) ->
  exists m', niota (AInt t) ot out (NInt v) m = Ok m' /\
    (forall is_, in_box (dims out) is_ ->
       exists w, value m' out is_ w /\ converted ot (NInt (v + rank (dims out) is_)) w) /\
    frame out out m m'.
Proof. exact niota_int_l. Qed.
Print Assumptions integer_iota_converts.

(** iota(out, 0, step) with a step between -1 and 1: the running value is an integer, every element is 0. *)
Theorem integer_iota_stuck : forall t g ot out m s q, can_write m out out ->
  value_of_type (AFloat g) s -> number_value s = Some q -> (Qabs q < 1)%Q ->
  exists m', niota_step (AInt t) (AFloat g) ot out (NInt 0) s m = Ok m' /\
    (forall is_, in_box (dims out) is_ -> exists w, value m' out is_ w /\ number_value w = Some 0%Q) /\ frame out out m m'.
Proof. exact niota_zeros_l. Qed.
Print Assumptions integer_iota_stuck.

(** ** A table of 2x6 elements *)
Definition it : container := Cn K2 [int 2; int 6] [] (Ptr 0 0).
Definition itm (xs : list number) : mem number := [Some (map Some xs)].
Definition im : mem number := itm (repeat (NInt 7) 12).
Definition fl (m : positive) (e : Z) : number := NFloat (S754_finite false m e).
Definition num (v : number) : Q := match number_value v with Some q => q | None => 0 end.
(** 0.1f, 0.5f and -0.5f. *)
Definition tenth : number := fl 13421773 (-27).
Definition half : number := fl 8388608 (-24).
Definition less_half : number := NFloat (S754_finite true 8388608 (-24)).
Definition zf : spec_float := S754_zero false.
Example it_default : default_layout it. Proof. by_default false. Qed.
Example it_write : can_write im it it.
Proof. apply default_can_write; [exact it_default|reflexivity|]. apply readable_writable. by_box. Qed.
Example tenth_steps : finite_of Float zf /\ float_value zf = Some 0%Q /\ value_of_type (AFloat Float) tenth /\
  number_value tenth = Some (num tenth) /\
  (sum_limit Float (AFloat Float) (Z.to_nat (prod (dims it)))
     (Qabs 0 + inject_Z (Z.of_nat (Z.to_nat (prod (dims it)))) * Qabs (num tenth)) < 2 ^ f_emax Float)%Q /\
  niota_step (AFloat Float) (AFloat Float) (AFloat Float) it (NFloat zf) tenth im
    = Ok (itm [NFloat zf; tenth; fl 13421773 (-26); fl 10066330 (-25); fl 13421773 (-25); fl 8388608 (-24);
               fl 10066330 (-24); fl 11744052 (-24); fl 13421774 (-24); fl 15099496 (-24); fl 8388609 (-23); fl 9227470 (-23)]).
Proof. split; [split; [reflexivity|exact I]|]. split; [reflexivity|]. split; [split; [reflexivity|exact I]|]. repeat split; vm_compute; reflexivity. Qed.
(** 3.5, 3.0, ..., -2.0. *)
Example half_steps : (num (fl 14680064 (-22)) == inject_Z 7 * 2 ^ (-1))%Q /\ (num less_half == inject_Z (-1) * 2 ^ (-1))%Q /\
  exponent_of Float (-1) /\ Z.abs (7 + Z.of_nat (Z.to_nat (prod (dims it))) * (-1)) < 2 ^ f_prec Float /\
  niota_step (AFloat Float) (AFloat Float) (AInt I32) it (fl 14680064 (-22)) less_half im
    = Ok (itm (map NInt [3; 3; 2; 2; 1; 1; 0; 0; 0; -1; -1; -2])).
Proof.
  split; [vm_compute; reflexivity|]. split; [vm_compute; reflexivity|]. split; [split; vm_compute; discriminate|].
  split; vm_compute; reflexivity.
Qed.
Example half_steps_limit : finite_of Float (S754_finite false 14680064 (-22)) /\ value_of_type (AFloat Float) less_half /\
  (sum_limit Float (AFloat Float) (Z.to_nat (prod (dims it)))
     (Qabs (num (fl 14680064 (-22))) + inject_Z (Z.of_nat (Z.to_nat (prod (dims it)))) * Qabs (num less_half)) < 2 ^ f_emax Float)%Q.
Proof. split; [split; [reflexivity|exact I]|]. split; [split; [reflexivity|exact I]|]. vm_compute. reflexivity. Qed.
Example half_steps_convertible : forall k x p, (k < Z.to_nat (prod (dims it)))%nat -> finite_of Float x -> float_value x = Some p ->
  within (sum_error Float (AFloat Float) k (Qabs (num (fl 14680064 (-22))) + inject_Z (Z.of_nat k) * Qabs (num less_half)))
         (num (fl 14680064 (-22)) + inject_Z (Z.of_nat k) * num less_half) p ->
  convertible (AInt I32) (NFloat x).
Proof.
  intros k x p Lk _ Vp W. exists p, (Z.quot (Qnum p) (Zpos (Qden p))). pose proof (quot_toward_zero p) as T. split; [exact Vp|]. split; [exact T|].
  set (z := Z.quot _ _) in *. unfold within in W. apply Qabs_Qle_condition in W. destruct W as [W1 W2].
  assert (K : (-(10) <= p)%Q /\ (p <= 10)%Q).
  { set (e := sum_error _ _ _ _) in *. set (q := (num (fl 14680064 (-22)) + inject_Z (Z.of_nat k) * num less_half)%Q) in *.
    assert (H1 : (-(10) <= q - e)%Q /\ (q + e <= 10)%Q).
    { unfold q, e. change (Z.to_nat (prod (dims it))) with 12%nat in Lk. clear - Lk.
      do 12 (destruct k as [|k]; [split; vm_compute; discriminate|]). lia. }
    destruct H1 as [H1 H2]. split; lra. }
  destruct K as [K1 K2], T as [T1 T2]. assert (B : -11 < z < 11).
  { destruct (Qlt_le_dec p 0) as [N|P].
    - destruct (T2 (Qlt_le_weak _ _ N)) as [A1 A2]. split.
      + assert (H : (inject_Z (-11) < inject_Z z)%Q) by (eapply Qlt_le_trans; [|exact A2]; change (inject_Z (-11)) with (-(11))%Q; lra). rewrite <- Zlt_Qlt in H. exact H.
      + assert (H : (inject_Z (z - 1) < inject_Z 10)%Q) by (change (inject_Z 10) with 10%Q; lra). rewrite <- Zlt_Qlt in H. lia.
    - destruct (T1 P) as [A1 A2]. split.
      + assert (H : (inject_Z (-10) < inject_Z (z + 1))%Q) by (change (inject_Z (-10)) with (-(10))%Q; lra). rewrite <- Zlt_Qlt in H. lia.
      + assert (H : (inject_Z z < inject_Z 11)%Q) by (change (inject_Z 11) with 11%Q; lra). rewrite <- Zlt_Qlt in H. exact H. }
  split; cbn; lia.
Qed.
Example default_iota : niota_default (AFloat Float) it im
  = Ok (itm [NFloat zf; fl 8388608 (-23); fl 8388608 (-22); fl 12582912 (-22); fl 8388608 (-21); fl 10485760 (-21);
             fl 12582912 (-21); fl 14680064 (-21); fl 8388608 (-20); fl 9437184 (-20); fl 10485760 (-20); fl 11534336 (-20)]).
Proof. vm_compute. reflexivity. Qed.
(** From 2^24 - 2 the values of type float stop at 2^24; counted in int they go on, rounded to even numbers. *)
Example beyond_precision :
  niota (AFloat Float) (AFloat Float) it (fl 16777214 0) im
    = Ok (itm ([fl 16777214 0; fl 16777215 0] ++ repeat (fl 8388608 1) 10)) /\
  niota (AInt I32) (AFloat Float) it (NInt 16777214) im
    = Ok (itm [fl 16777214 0; fl 16777215 0; fl 8388608 1; fl 8388608 1; fl 8388609 1; fl 8388610 1; fl 8388610 1;
               fl 8388610 1; fl 8388611 1; fl 8388612 1; fl 8388612 1; fl 8388612 1]) /\
  in_ty I32 (16777214 + Z.of_nat (Z.to_nat (prod (dims it)))) /\
  (forall k, 0 <= k < Z.of_nat (Z.to_nat (prod (dims it))) -> convertible (AFloat Float) (NInt (16777214 + k))).
Proof.
  split; [vm_compute; reflexivity|]. split; [vm_compute; reflexivity|]. split; [split; vm_compute; discriminate|].
  intros k K. exists (inject_Z (16777214 + k)). split; [reflexivity|]. exists (fl 8388613 1), 16777226%Q.
  split; [split; [reflexivity|exact I]|]. split; [reflexivity|]. change (Z.of_nat (Z.to_nat (prod (dims it)))) with 12 in K.
  change 16777226%Q with (inject_Z 16777226). unfold Qle. cbn [Qabs inject_Z Qnum Qden]. rewrite !Z.abs_eq by lia. lia.
Qed.
Example stuck_ex : (Qabs (num half) < 1)%Q /\
  niota_step (AInt I32) (AFloat Float) (AFloat Float) it (NInt 0) half im = Ok (itm (repeat (NFloat zf) 12)).
Proof. split; vm_compute; reflexivity. Qed.

(** ** What goes wrong *)

(** iota(out, 0.0f, 0.1f): the element of rank 10 is not the number of its type nearest to 10 times 0.1f, which is
    1, but the next one. *)
Theorem float_iota_drift_refuted : exists out m m' s is_ y p v, can_write m out out /\
  niota_step (AFloat Float) (AFloat Float) (AFloat Float) out (NFloat (S754_zero false)) s m = Ok m' /\
  in_box (dims out) is_ /\ rank (dims out) is_ = 10 /\ value m' out is_ (NFloat y) /\ float_value y = Some p /\
  value_of_type (AFloat Float) v /\ (num v == 1)%Q /\ (1 < p)%Q /\
  (Qabs (num v - 10 * num s) < Qabs (p - 10 * num s))%Q.
Proof.
  exists it, im, (itm [NFloat zf; tenth; fl 13421773 (-26); fl 10066330 (-25); fl 13421773 (-25); fl 8388608 (-24);
               fl 10066330 (-24); fl 11744052 (-24); fl 13421774 (-24); fl 15099496 (-24); fl 8388609 (-23); fl 9227470 (-23)]),
    tenth, [1; 4], (S754_finite false 8388609 (-23)), (num (fl 8388609 (-23))), (fl 8388608 (-23)).
  split; [exact it_write|]. split; [vm_compute; reflexivity|]. split; [repeat constructor; vm_compute; congruence|].
  split; [reflexivity|]. split; [vm_compute; reflexivity|]. split; [reflexivity|]. split; [split; [reflexivity|exact I]|].
  repeat split; vm_compute; reflexivity.
Qed.
Print Assumptions float_iota_drift_refuted.

(** A running value beyond the element type is undefined behaviour, although the same call on elements of the
    type of the value is fine. *)
Theorem float_iota_range_refuted : exists out m m' v, can_write m out out /\
  niota (AFloat Double) (AFloat Double) out v m = Ok m' /\ niota (AFloat Double) (AInt I32) out v m = UB.
Proof.
  exists it, im. eexists. exists (fl 9007199221186560 (-22)). split; [exact it_write|]. split; vm_compute; reflexivity.
Qed.
Print Assumptions float_iota_range_refuted.

(** iota(out, v) with an int v advances once more than there are elements: undefined behaviour although every
    element is a value of both types. *)
Theorem integer_iota_last_step_refuted : exists out m v, can_write m out out /\
  (forall is_, in_box (dims out) is_ -> in_ty I32 (v + rank (dims out) is_) /\ representable (AFloat Double) (inject_Z (v + rank (dims out) is_))) /\
  niota (AInt I32) (AFloat Double) out (NInt v) m = UB.
Proof.
  exists (Cn K1 [int 1] [] (Ptr 0 0)), (itm [NInt 7]), 2147483647.
  split; [apply default_can_write; [by_default false|reflexivity|apply readable_writable; by_box]|].
  split; [|vm_compute; reflexivity]. intros is_ B. apply box_In in B. vm_compute in B. destruct B as [<-|[]].
  change (rank (dims (Cn K1 [int 1] [] (Ptr 0 0))) [0]) with 0. split; [split; vm_compute; discriminate|].
  exists (fl 9007199250546688 (-22)), (num (fl 9007199250546688 (-22))). split; [split; [reflexivity|exact I]|]. split; vm_compute; reflexivity.
Qed.
Print Assumptions integer_iota_last_step_refuted.
