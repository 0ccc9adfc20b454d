(** C94: algorithms that assign to elements of another arithmetic type. *)
From Coq Require Import ZArith QArith Qabs List Bool Lia.
From Coq Require Import Floats.SpecFloat.
From Verif Require Import Outcome CInt CIntFacts Spec SpecFacts ShapeSpec Shape ShapeFacts ShapeFacts2
  ForEach ForEachSpec ForEachFacts Memory MemFacts Container ContainerSpec ContainerFacts ContainerFacts2
  ContainerFacts3 Algo AlgoSpec AlgoFacts AlgoFacts2 AlgoFacts3 AlgoFacts4 Interp IeeeSpec Mixed Convert ConvertSpec ConvertFacts
  FloatCompare Assign AssignSpec AssignFacts.
Import ListNotations.
Open Scope Z_scope.

(** transform: each element of the output is what the function gives there, converted to the element type. *)
Theorem transform_converts : forall t out m, can_write m out out -> forall f c0 cs,
  Forall (can_read m out) (c0 :: cs) -> Forall (fun i => no_cross_alias out i out) (c0 :: cs) ->
  (forall is_ vs, in_box (dims out) is_ -> Forall2 (fun c v => value m c is_ v) (c0 :: cs) vs -> ~ refused t (f vs)) ->
  exists m', ntransform t f out c0 cs m = Ok m' /\
    (forall is_ vs, in_box (dims out) is_ -> Forall2 (fun c v => value m c is_ v) (c0 :: cs) vs ->
       exists w, value m' out is_ w /\ becomes t (f vs) w) /\ frame out out m m'.
Proof. exact ntransform_l. Qed.
Print Assumptions transform_converts.

(** One result that has no value of the type makes the call undefined. *)
Theorem transform_refused : forall t out m, can_write m out out -> forall f c0 cs,
  Forall (can_read m out) (c0 :: cs) -> Forall (fun i => no_cross_alias out i out) (c0 :: cs) ->
  forall is_ vs, in_box (dims out) is_ -> Forall2 (fun c v => value m c is_ v) (c0 :: cs) vs -> refused t (f vs) ->
  ntransform t f out c0 cs m = UB.
Proof. exact ntransform_refused_l. Qed.
Print Assumptions transform_refused.

Theorem copy_converts : forall t out m, can_write m out out -> forall in_, can_read m out in_ -> no_cross_alias out in_ out ->
  (forall is_ v, in_box (dims out) is_ -> value m in_ is_ v -> ~ refused t v) ->
  exists m', ncopy t out in_ m = Ok m' /\
    (forall is_ v, in_box (dims out) is_ -> value m in_ is_ v -> exists w, value m' out is_ w /\ becomes t v w) /\
    frame out out m m'.
Proof. exact ncopy_l. Qed.
Print Assumptions copy_converts.

Theorem copy_refused : forall t out m, can_write m out out -> forall in_, can_read m out in_ -> no_cross_alias out in_ out ->
  forall is_ v, in_box (dims out) is_ -> value m in_ is_ v -> refused t v -> ncopy t out in_ m = UB.
Proof. exact ncopy_refused_l. Qed.
Print Assumptions copy_refused.

(** copy_if: the elements that are not selected are never converted. *)
Theorem copy_if_converts : forall t out m, can_write m out out -> forall in_, can_read m out in_ -> no_cross_alias out in_ out ->
  forall f, (forall is_ v, in_box (dims out) is_ -> value m in_ is_ v -> f v = true -> ~ refused t v) ->
  exists m', ncopy_if t f out in_ m = Ok m' /\
    (forall is_ v, in_box (dims out) is_ -> value m in_ is_ v ->
       if f v then exists w, value m' out is_ w /\ becomes t v w else cell m' (elem out is_) = cell m (elem out is_)) /\
    frame out out m m'.
Proof. exact ncopy_if_l. Qed.
Print Assumptions copy_if_converts.

Theorem copy_if_refused : forall t out m, can_write m out out -> forall in_, can_read m out in_ -> no_cross_alias out in_ out ->
  forall f is_ v, in_box (dims out) is_ -> value m in_ is_ v -> f v = true -> refused t v -> ncopy_if t f out in_ m = UB.
Proof. exact ncopy_if_refused_l. Qed.
Print Assumptions copy_if_refused.

(** fill: any value will do if the table is empty. *)
Theorem fill_converts : forall t out m, can_write m out out -> forall v, (forall is_, in_box (dims out) is_ -> ~ refused t v) ->
  exists m', nfill t out v m = Ok m' /\
    (forall is_, in_box (dims out) is_ -> exists w, value m' out is_ w /\ becomes t v w) /\ frame out out m m'.
Proof. exact nfill_l. Qed.
Print Assumptions fill_converts.

(** On a table that is not empty. *)
Theorem fill_refused : forall t out m, can_write m out out -> forall v is_, in_box (dims out) is_ -> refused t v ->
  nfill t out v m = UB.
Proof. exact nfill_refused_l. Qed.
Print Assumptions fill_refused.

Theorem replace_if_converts : forall t out m, can_write m out out -> forall f new, can_read m out out ->
  (forall is_ v, in_box (dims out) is_ -> value m out is_ v -> f v = true -> ~ refused t new) ->
  exists m', nreplace_if t out f new m = Ok m' /\
    (forall is_ v, in_box (dims out) is_ -> value m out is_ v ->
       if f v then exists w, value m' out is_ w /\ becomes t new w else value m' out is_ v) /\ frame out out m m'.
Proof. exact nreplace_if_l. Qed.
Print Assumptions replace_if_converts.

Theorem replace_if_refused : forall t out m, can_write m out out -> forall f new, can_read m out out ->
  forall is_ v, in_box (dims out) is_ -> value m out is_ v -> f v = true -> refused t new -> nreplace_if t out f new m = UB.
Proof. exact nreplace_if_refused_l. Qed.
Print Assumptions replace_if_refused.

Theorem generate_converts : forall t out m, can_write m out out -> forall f,
  (forall tis, wfs tis -> map cty tis = ctypes out -> in_box (dims out) (vals tis) -> ~ refused t (f tis)) ->
  exists m', ngenerate t f out m = Ok m' /\
    (forall tis, wfs tis -> map cty tis = ctypes out -> in_box (dims out) (vals tis) ->
       exists w, value m' out (vals tis) w /\ becomes t (f tis) w) /\ frame out out m m'.
Proof. exact ngenerate_l. Qed.
Print Assumptions generate_converts.

Theorem generate_refused : forall t out m, can_write m out out -> forall f tis, wfs tis -> map cty tis = ctypes out ->
  in_box (dims out) (vals tis) -> refused t (f tis) -> ngenerate t f out m = UB.
Proof. exact ngenerate_refused_l. Qed.
Print Assumptions generate_refused.

(** Numbers that the element type has are copied exactly. *)
Theorem copy_keeps_numbers : forall t out in_ m, can_write m out out -> can_read m out in_ -> no_cross_alias out in_ out ->
  (forall is_ v, in_box (dims out) is_ -> value m in_ is_ v -> exists q, number_value v = Some q /\ representable t q) ->
  exists m', ncopy t out in_ m = Ok m' /\
    (forall is_ v q, in_box (dims out) is_ -> value m in_ is_ v -> number_value v = Some q ->
       exists w p, value m' out is_ w /\ value_of_type t w /\ number_value w = Some p /\ (p == q)%Q) /\ frame out out m m'.
Proof. exact ncopy_exact_l. Qed.
Print Assumptions copy_keeps_numbers.

(** There and back: copy(b, a); copy(a, b) leaves the numbers of [a] if the type of [b] has them all. *)
Theorem copy_round_trip : forall t u a b m, can_write m a a -> can_write m b b -> can_read m b a ->
  dims a = dims b -> ctypes a = ctypes b -> no_alias a a b ->
  (forall is_ v, in_box (dims a) is_ -> value m a is_ v -> value_of_type u v /\ exists q, number_value v = Some q /\ representable t q) ->
  exists m1 m2, ncopy t b a m = Ok m1 /\ ncopy u a b m1 = Ok m2 /\
    (forall is_ v q, in_box (dims a) is_ -> value m a is_ v -> number_value v = Some q ->
       exists w p, value m2 a is_ w /\ value_of_type u w /\ number_value w = Some p /\ (p == q)%Q).
Proof. exact round_trip_l. Qed.
Print Assumptions copy_round_trip.

(** Rounding and dropping fractions keep the order of the elements. *)
Theorem copy_keeps_order : forall t out in_ m, can_write m out out -> can_read m out in_ -> no_cross_alias out in_ out ->
  dims in_ = dims out ->
  (forall is_ v, in_box (dims out) is_ -> value m in_ is_ v ->
     convertible t v /\ match t, v with AInt _, NInt _ => False | _, _ => True end) ->
  in_order m in_ -> exists m', ncopy t out in_ m = Ok m' /\ in_order m' out.
Proof. exact ncopy_order_l. Qed.
Print Assumptions copy_keeps_order.

(** ** Concrete tables *)

(** A 2x2 table of doubles (-1.5, 0.25, 2, 3e9) in allocation 0 and one of another type in allocation 1. *)
Definition ta : container := Cn K2 [int 2; int 2] [] (Ptr 0 0).
Definition tb : container := Cn K2 [int 2; int 2] [] (Ptr 1 0).
Definition fl (s : bool) (m : positive) (e : Z) : number := NFloat (S754_finite s m e).
Definition xs : list number :=
  [fl true 6755399441055744 (-52); fl false 4503599627370496 (-54); fl false 4503599627370496 (-51); fl false 6291456000000000 (-21)].
Definition ab (a b : list number) : mem number := [Some (map Some a); Some (map Some b)].
Definition bs : list number := repeat (NInt 7) 4.
Definition small (v : number) : bool := match v with NFloat x => match SFcompare x (S754_finite false 4503599627370496 (-42)) with Some Lt => true | _ => false end | NInt _ => true end.
Example ta_default : default_layout ta. Proof. by_default false. Qed.
Example tb_default : default_layout tb. Proof. by_default false. Qed.
Example tb_write : can_write (ab xs bs) tb tb.
Proof. apply default_can_write; [exact tb_default|reflexivity|]. apply readable_writable. by_box. Qed.
Example ta_write : can_write (ab xs bs) ta ta.
Proof. apply default_can_write; [exact ta_default|reflexivity|]. apply readable_writable. by_box. Qed.
Example ta_read : can_read (ab xs bs) tb ta.
Proof. apply (default_can_read (ab xs bs) ta); [exact ta_default|reflexivity|by_box]. Qed.
Example tb_apart : no_cross_alias tb ta tb /\ no_alias ta ta tb /\ dims ta = dims tb /\ ctypes ta = ctypes tb.
Proof.
  split; [intros a b _ _ _ E; discriminate E|]. split; [intros a b _ _ E; discriminate E|]. split; reflexivity.
Qed.
Lemma at_each (P : number -> Prop) is_ v : P (nth 0 xs (NInt 0)) -> P (nth 1 xs (NInt 0)) -> P (nth 2 xs (NInt 0)) -> P (nth 3 xs (NInt 0)) ->
  in_box (dims tb) is_ -> value (ab xs bs) ta is_ v -> P v.
Proof.
  intros P0 P1 P2 P3 B Hv. apply box_In in B. vm_compute in B.
  destruct B as [<-|[<-|[<-|[<-|[]]]]]; vm_compute in Hv; injection Hv as <-; assumption.
Qed.
(** To int64_t: all fit, fractions are dropped; to int32_t 3e9 does not fit. *)
Example to_long : (forall is_ v, in_box (dims tb) is_ -> value (ab xs bs) ta is_ v -> ~ refused (AInt I64) v) /\
  ncopy (AInt I64) tb ta (ab xs bs) = Ok (ab xs [NInt (-1); NInt 0; NInt 2; NInt 3000000000]).
Proof.
  split; [|vm_compute; reflexivity].
  intros is_ v. apply (at_each (fun v => ~ refused (AInt I64) v)); intros N; apply refused_ub in N; vm_compute in N; discriminate.
Qed.
Example to_int : in_box (dims tb) [1; 1] /\ value (ab xs bs) ta [1; 1] (fl false 6291456000000000 (-21)) /\
  refused (AInt I32) (fl false 6291456000000000 (-21)) /\ ncopy (AInt I32) tb ta (ab xs bs) = UB.
Proof.
  split; [repeat constructor; lia|]. split; [reflexivity|]. split; [|vm_compute; reflexivity].
  destruct (refused_dec (AInt I32) (fl false 6291456000000000 (-21))) as [H|H]; [exact H|].
  destruct (accepted_ok _ _ H) as (w & E & _). vm_compute in E. discriminate.
Qed.
(** copy_if leaves it alone. *)
Example to_int_if : (forall is_ v, in_box (dims tb) is_ -> value (ab xs bs) ta is_ v -> small v = true -> ~ refused (AInt I32) v) /\
  ncopy_if (AInt I32) small tb ta (ab xs bs) = Ok (ab xs [NInt (-1); NInt 0; NInt 2; NInt 7]).
Proof.
  split; [|vm_compute; reflexivity].
  intros is_ v. apply (at_each (fun v => small v = true -> ~ refused (AInt I32) v)); intros Sm N; try discriminate Sm; apply refused_ub in N; vm_compute in N; discriminate.
Qed.
(** transform with a function that doubles, as double, into floats; fill and generate. *)
Definition twice (vs : list number) : number :=
  match vs with [NFloat (S754_finite s m e)] => NFloat (S754_finite s m (e + 1)) | _ => NInt 0 end.
Example transform_ex : (forall is_ vs, in_box (dims tb) is_ -> Forall2 (fun c v => value (ab xs bs) c is_ v) [ta] vs -> ~ refused (AFloat Float) (twice vs)) /\
  ntransform (AFloat Float) twice tb ta [] (ab xs bs)
    = Ok (ab xs [fl true 12582912 (-22); fl false 8388608 (-24); fl false 8388608 (-21); fl false 11718750 9]).
Proof. split; [intros is_ vs _ _ N; exact N|vm_compute; reflexivity]. Qed.
Example fill_ex : (forall is_, in_box (dims tb) is_ -> ~ refused (AInt U32) (fl false 6291456000000000 (-21))) /\
  nfill (AInt U32) tb (fl false 6291456000000000 (-21)) (ab xs bs) = Ok (ab xs (repeat (NInt 3000000000) 4)) /\
  nfill (AInt I32) tb (fl false 6291456000000000 (-21)) (ab xs bs) = UB.
Proof. split; [intros is_ _ N; apply refused_ub in N; vm_compute in N; discriminate|]. split; vm_compute; reflexivity. Qed.
Definition te : container := Cn K2 [int 0; int 2] [] (Ptr 1 0).
Example fill_empty_ex : can_write (ab xs bs) te te /\ (forall is_, in_box (dims te) is_ -> ~ refused (AInt I32) (NFloat S754_nan)) /\
  refused (AInt I32) (NFloat S754_nan) /\ nfill (AInt I32) te (NFloat S754_nan) (ab xs bs) = Ok (ab xs bs).
Proof.
  split; [apply default_can_write; [by_default false|reflexivity|]; apply readable_writable; by_box|].
  split; [intros is_ B; apply box_In in B; destruct B|]. split; [|vm_compute; reflexivity]. intros (q & z & V & _). discriminate V.
Qed.
(** 0.25 in the first row, 300 and 301 (int) in the second, in a table of unsigned char. *)
Definition rows (is_ : list cint) : number :=
  match is_ with [i; j] => if cval i =? 0 then fl false 4503599627370496 (-54) else NInt (300 + cval j) | _ => NInt 0 end.
Example generate_ex : (forall tis, wfs tis -> map cty tis = ctypes tb -> in_box (dims tb) (vals tis) -> ~ refused (AInt U8) (rows tis)) /\
  ngenerate (AInt U8) rows tb (ab xs bs) = Ok (ab xs [NInt 0; NInt 0; NInt 44; NInt 45]).
Proof.
  split; [|vm_compute; reflexivity]. intros [|i [|j [|k l]]] _ _ _; try (intros N; exact N). cbn [rows].
  destruct (cval i =? 0); [|intros N; exact N]. intros N. apply refused_ub in N. vm_compute in N. discriminate.
Qed.
(** An infinity replaces the elements that are not small; in a table of integers it would be undefined. *)
Definition big (v : number) : bool := negb (small v).
Definition inf : number := NFloat (S754_infinity false).
Example replace_ex : can_read (ab xs bs) ta ta /\
  (forall is_ v, in_box (dims ta) is_ -> value (ab xs bs) ta is_ v -> big v = true -> ~ refused (AFloat Double) inf) /\
  nreplace_if (AFloat Double) ta big inf (ab xs bs) = Ok (ab [nth 0 xs inf; nth 1 xs inf; nth 2 xs inf; inf] bs) /\
  refused (AInt I32) inf /\ nreplace_if (AInt I32) tb (fun _ => true) inf (ab xs bs) = UB.
Proof.
  split; [apply default_can_read; [exact ta_default|reflexivity|by_box]|]. split; [intros is_ v _ _ _ N; exact N|].
  split; [vm_compute; reflexivity|]. split; [|vm_compute; reflexivity]. intros (q & z & V & _). discriminate V.
Qed.
(** In double and back: integers of 32 bits. *)
Definition zs : list number := [NInt (-2147483648); NInt 0; NInt 7; NInt 2147483647].
Example round_trip_ex : can_write (ab zs bs) ta ta /\ can_write (ab zs bs) tb tb /\ can_read (ab zs bs) tb ta /\
  (forall is_ v, in_box (dims ta) is_ -> value (ab zs bs) ta is_ v ->
     value_of_type (AInt I32) v /\ exists q, number_value v = Some q /\ representable (AFloat Double) q) /\
  (m1 <- ncopy (AFloat Double) tb ta (ab zs bs) ;; ncopy (AInt I32) ta tb m1)
    = Ok (ab zs [fl true 4503599627370496 (-21); NFloat (S754_zero false); fl false 7881299347898368 (-50); fl false 9007199250546688 (-22)]).
Proof.
  split; [apply default_can_write; [exact ta_default|reflexivity|]; apply readable_writable; by_box|].
  split; [apply default_can_write; [exact tb_default|reflexivity|]; apply readable_writable; by_box|].
  split; [apply (default_can_read (ab zs bs) ta); [exact ta_default|reflexivity|by_box]|]. split; [|vm_compute; reflexivity].
  intros is_ v B Hv. apply box_In in B. vm_compute in B.
  destruct B as [<-|[<-|[<-|[<-|[]]]]]; vm_compute in Hv; injection Hv as <-;
    (split; [split; vm_compute; congruence|]; eexists; split; [reflexivity|]).
  - exists (fl true 4503599627370496 (-21)); eexists. split; [split; [reflexivity|exact I]|]. split; [reflexivity|vm_compute; reflexivity].
  - exists (NFloat (S754_zero false)); eexists. split; [split; [reflexivity|exact I]|]. split; [reflexivity|vm_compute; reflexivity].
  - exists (fl false 7881299347898368 (-50)); eexists. split; [split; [reflexivity|exact I]|]. split; [reflexivity|vm_compute; reflexivity].
  - exists (fl false 9007199250546688 (-22)); eexists. split; [split; [reflexivity|exact I]|]. split; [reflexivity|vm_compute; reflexivity].
Qed.
(** The doubles of [ta] are in order and convertible to int64_t; so are their integer parts. *)
Example order_ex : in_order (ab xs bs) ta /\
  (forall is_ v, in_box (dims tb) is_ -> value (ab xs bs) ta is_ v ->
     convertible (AInt I64) v /\ match AInt I64, v with AInt _, NInt _ => False | _, _ => True end).
Proof.
  split.
  - intros is_ js v w p q A B L Hv Hw Vp Vq. apply box_In in A. apply box_In in B. vm_compute in A, B.
    destruct A as [<-|[<-|[<-|[<-|[]]]]]; destruct B as [<-|[<-|[<-|[<-|[]]]]]; vm_compute in L; try (exfalso; apply L; reflexivity);
      vm_compute in Hv; vm_compute in Hw; injection Hv as <-; injection Hw as <-; vm_compute in Vp; vm_compute in Vq;
      injection Vp as <-; injection Vq as <-; vm_compute; discriminate.
  - intros is_ v. apply (at_each (fun v => convertible (AInt I64) v /\ match AInt I64, v with AInt _, NInt _ => False | _, _ => True end));
      (split; [|exact I]); eexists; eexists; (split; [reflexivity|]); (split; [apply quot_toward_zero|split; vm_compute; congruence]).
Qed.

(** ** What goes wrong *)

(** Integers in order, copied to a narrower type, are not in order any more. *)
Theorem copy_wraps_refuted : exists m out in_, can_write m out out /\ can_read m out in_ /\ no_cross_alias out in_ out /\
  value m in_ [0] (NInt 200) /\ value m in_ [1] (NInt 300) /\
  exists m', ncopy (AInt U8) out in_ m = Ok m' /\ value m' out [0] (NInt 200) /\ value m' out [1] (NInt 44).
Proof.
  exists (ab [NInt 200; NInt 300] [NInt 0; NInt 0]), (Cn K1 [int 2] [] (Ptr 1 0)), (Cn K1 [int 2] [] (Ptr 0 0)).
  split; [apply default_can_write; [by_default false|reflexivity|]; apply readable_writable; by_box|].
  split; [apply (default_can_read _ (Cn K1 [int 2] [] (Ptr 0 0))); [by_default false|reflexivity|by_box]|].
  split; [intros a b _ _ _ E; discriminate E|]. split; [reflexivity|]. split; [reflexivity|].
  eexists. split; [vm_compute; reflexivity|]. split; reflexivity.
Qed.
Print Assumptions copy_wraps_refuted.

(** The long 2^53+1 does not come back from a table of doubles. *)
Theorem round_trip_refuted : exists m a b m1 m2, can_write m a a /\ can_write m b b /\ can_read m b a /\ no_alias a a b /\
  value m a [0] (NInt 9007199254740993) /\ ncopy (AFloat Double) b a m = Ok m1 /\ ncopy (AInt I64) a b m1 = Ok m2 /\
  value m2 a [0] (NInt 9007199254740992).
Proof.
  exists (ab [NInt 9007199254740993] [NInt 0]), (Cn K1 [int 1] [] (Ptr 0 0)), (Cn K1 [int 1] [] (Ptr 1 0)). do 2 eexists.
  split; [apply default_can_write; [by_default false|reflexivity|]; apply readable_writable; by_box|].
  split; [apply default_can_write; [by_default false|reflexivity|]; apply readable_writable; by_box|].
  split; [apply (default_can_read _ (Cn K1 [int 1] [] (Ptr 0 0))); [by_default false|reflexivity|by_box]|].
  split; [intros x y _ _ E; discriminate E|]. split; [reflexivity|]. split; [vm_compute; reflexivity|]. split; [vm_compute; reflexivity|reflexivity].
Qed.
Print Assumptions round_trip_refuted.

(** fill(t, 0.1); count(t, 0.1) on a table of four floats gives 0. *)
Theorem fill_then_count_refuted : exists m out x m', can_write m out out /\ prod (dims out) = 4 /\
  nfill (AFloat Float) out x m = Ok m' /\ ncount (AFloat Float) (AFloat Double) out x m' = Ok (0, m').
Proof.
  exists (ab bs bs), tb, (fl false 7205759403792794 (-56)). eexists.
  split; [apply default_can_write; [exact tb_default|reflexivity|]; apply readable_writable; by_box|].
  split; [reflexivity|]. split; [vm_compute; reflexivity|]. vm_compute. reflexivity.
Qed.
Print Assumptions fill_then_count_refuted.
