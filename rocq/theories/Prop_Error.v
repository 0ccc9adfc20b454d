(** Property C65: rounding errors of linear interpolation. *)
From Coq Require Import ZArith QArith Qround Qabs List Bool Lia.
From Coq Require Import Floats.SpecFloat.
From Verif Require Import Outcome CInt CIntFacts Spec SpecFacts ShapeSpec ShapeFacts ShapeFacts2 Memory MemFacts Container ContainerSpec
  ContainerFacts ContainerFacts2 ContainerFacts3 AlgoSpec Interp InterpSpec InterpFacts IeeeSpec RoundSpec ErrorFacts.
Import ListNotations.
Open Scope Z_scope.

(** C65 *)
Theorem linear_error_ieee : forall prec emax, 1 < prec -> prec < emax ->
  forall (T : Type) (cv : T -> spec_float) (m : mem T) c ps qs (f : list Z -> T) (g : list Z -> Q) V,
  addressable c (map (fun _ => I32) (dims c)) -> Forall (fun n => n <= 2147483648) (dims c) ->
  (forall is_, in_box (dims c) is_ -> value m c is_ (f is_)) ->
  Forall2 (fun p q => finite_number prec emax p /\ float_value p = Some q) ps qs -> interior (dims c) qs ->
  (forall is_, In is_ (neighbours qs) ->
     finite_number prec emax (cv (f is_)) /\ float_value (cv (f is_)) = Some (g is_) /\ (Qabs (g is_) <= V)%Q) ->
  (largest prec emax (length ps) V < 2 ^ emax)%Q ->
  exists r rq, linear_interpolate (ieee prec emax) cv m c ps = Ok r /\ finite_number prec emax r /\
    float_value r = Some rq /\ (Qabs (rq - multilinear qs g) <= linear_error prec emax (length ps) V)%Q.
Proof. exact linear_error_l. Qed.
Print Assumptions linear_error_ieee.

Theorem linear_within_ieee : forall prec emax, 1 < prec -> prec < emax ->
  forall (T : Type) (cv : T -> spec_float) (m : mem T) c ps qs (f : list Z -> T) (g : list Z -> Q) V lo hi,
  addressable c (map (fun _ => I32) (dims c)) -> Forall (fun n => n <= 2147483648) (dims c) ->
  (forall is_, in_box (dims c) is_ -> value m c is_ (f is_)) ->
  Forall2 (fun p q => finite_number prec emax p /\ float_value p = Some q) ps qs -> interior (dims c) qs ->
  (forall is_, In is_ (neighbours qs) ->
     finite_number prec emax (cv (f is_)) /\ float_value (cv (f is_)) = Some (g is_) /\ (Qabs (g is_) <= V)%Q) ->
  (largest prec emax (length ps) V < 2 ^ emax)%Q ->
  (forall is_, In is_ (neighbours qs) -> (lo <= g is_ <= hi)%Q) ->
  exists r rq, linear_interpolate (ieee prec emax) cv m c ps = Ok r /\ finite_number prec emax r /\
    float_value r = Some rq /\
    (lo - linear_error prec emax (length ps) V <= rq <= hi + linear_error prec emax (length ps) V)%Q.
Proof. exact linear_within_l. Qed.
Print Assumptions linear_within_ieee.

(** Tables of float and of double of at most four axes. *)
Theorem linear_error_float :
  forall (T : Type) (cv : T -> spec_float) (m : mem T) c ps qs (f : list Z -> T) (g : list Z -> Q) V,
  addressable c (map (fun _ => I32) (dims c)) -> Forall (fun n => n <= 2147483648) (dims c) ->
  (forall is_, in_box (dims c) is_ -> value m c is_ (f is_)) ->
  Forall2 (fun p q => finite_number 24 128 p /\ float_value p = Some q) ps qs -> interior (dims c) qs ->
  (forall is_, In is_ (neighbours qs) ->
     finite_number 24 128 (cv (f is_)) /\ float_value (cv (f is_)) = Some (g is_) /\ (Qabs (g is_) <= V)%Q) ->
  (length ps <= 4)%nat -> (V <= 2 ^ 127)%Q ->
  exists r rq, linear_interpolate binary32 cv m c ps = Ok r /\ finite_number 24 128 r /\
    float_value r = Some rq /\ (Qabs (rq - multilinear qs g) <= V * 2 ^ (-19) + 2 ^ (-145))%Q.
Proof. exact linear_float_l. Qed.
Print Assumptions linear_error_float.

Theorem linear_error_double :
  forall (T : Type) (cv : T -> spec_float) (m : mem T) c ps qs (f : list Z -> T) (g : list Z -> Q) V,
  addressable c (map (fun _ => I32) (dims c)) -> Forall (fun n => n <= 2147483648) (dims c) ->
  (forall is_, in_box (dims c) is_ -> value m c is_ (f is_)) ->
  Forall2 (fun p q => finite_number 53 1024 p /\ float_value p = Some q) ps qs -> interior (dims c) qs ->
  (forall is_, In is_ (neighbours qs) ->
     finite_number 53 1024 (cv (f is_)) /\ float_value (cv (f is_)) = Some (g is_) /\ (Qabs (g is_) <= V)%Q) ->
  (length ps <= 4)%nat -> (V <= 2 ^ 1023)%Q ->
  exists r rq, linear_interpolate binary64 cv m c ps = Ok r /\ finite_number 53 1024 r /\
    float_value r = Some rq /\ (Qabs (rq - multilinear qs g) <= V * 2 ^ (-48) + 2 ^ (-1070))%Q.
Proof. exact linear_double_l. Qed.
Print Assumptions linear_error_double.

(** Four elements equal to the largest float: between them, infinity. *)
Definition max_float : spec_float := S754_finite false 16777215 104.
Definition sq : container := Cn K2 [int 2; int 2] [] (Ptr 0 0).
Theorem linear_overflow_refuted :
  linear_interpolate binary32 (fun x => x) [Some (repeat (Some max_float) 4)] sq
    [S754_finite false 13244543 (-32); S754_finite false 12509036 (-28)] = Ok (S754_infinity false).
Proof. vm_compute. reflexivity. Qed.
Print Assumptions linear_overflow_refuted.

(** Two elements equal to the smallest positive float: half way, zero. *)
Definition min_float : spec_float := S754_finite false 1 (-149).
Definition two : container := Cn K1 [int 2] [] (Ptr 0 0).
Theorem linear_underflow_refuted :
  linear_interpolate binary32 (fun x => x) [Some (repeat (Some min_float) 2)] two
    [S754_finite false 8388608 (-24)] = Ok (S754_zero false).
Proof. vm_compute. reflexivity. Qed.
Print Assumptions linear_underflow_refuted.

(** A 3x3 table of -0.4, -0.3, ... 0.4 as binary32 holds them, between the elements. *)
Definition tenths : list spec_float :=
  map (fun z => SFdiv 24 128 (of_int binary32 z) (of_int binary32 10)) [-4; -3; -2; -1; 0; 1; 2; 3; 4].
Definition tm : mem spec_float := [Some (map Some tenths)].
Definition tt3 : container := Cn K2 [int 3; int 3] [] (Ptr 0 0).
Definition tf (is_ : list Z) : spec_float :=
  match is_ with [i; j] => nth (Z.to_nat (3 * i + j)) tenths S754_nan | _ => S754_nan end.
Definition tg (is_ : list Z) : Q := match float_value (tf is_) with Some q => q | None => 0%Q end.
Definition tp : list spec_float := [S754_finite false 10737418 (-31); S754_finite false 15099494 (-23)].
Definition tq : list Q := [10737418 # 2 ^ 31; 15099494 # 2 ^ 23]%Q.

Example tt_default : default_layout tt3. Proof. by_default false. Qed.
Example tt_error : exists r rq, linear_interpolate binary32 (fun x => x) tm tt3 tp = Ok r /\ finite_number 24 128 r /\
  float_value r = Some rq /\ (Qabs (rq - multilinear tq tg) <= (1 # 2) * 2 ^ (-19) + 2 ^ (-145))%Q.
Proof.
  apply (linear_error_float spec_float (fun x => x) tm tt3 tp tq tf tg (1 # 2)).
  - exact (default_addressable tt3 _ tt_default).
  - change (dims tt3) with [3; 3]. repeat constructor; lia.
  - intros js B. apply box_In in B. vm_compute in B.
    repeat (destruct B as [<-|B]; [vm_compute; reflexivity|]); contradiction.
  - repeat constructor.
  - repeat constructor; vm_compute; discriminate.
  - intros js B. vm_compute in B.
    repeat (destruct B as [<-|B]; [split; [|split]; [split; [vm_compute; reflexivity|exact I]|vm_compute; reflexivity|vm_compute; discriminate]|]);
      contradiction.
  - cbn. lia.
  - vm_compute. discriminate.
Qed.
