(** Property C72: linear interpolation with several floating-point types. *)
From Coq Require Import ZArith QArith Qround Qabs List Bool Lia.
From Coq Require Import Floats.SpecFloat.
From Verif Require Import Outcome CInt CIntFacts Spec SpecFacts ShapeSpec ShapeFacts ShapeFacts2 Memory MemFacts Container ContainerSpec
  ContainerFacts ContainerFacts2 ContainerFacts3 AlgoSpec Interp InterpSpec InterpFacts IeeeSpec RoundSpec Mixed MixedSpec MixedFacts.
Import ListNotations.
Open Scope Z_scope.

(** C72 *)
Theorem mixed_error : forall fe (m : mem spec_float) c ps qs (f : list Z -> spec_float) (g : list Z -> Q) V fc fr,
  addressable c (map (fun _ => I32) (dims c)) -> Forall (fun n => n <= 2147483648) (dims c) ->
  (forall is_, in_box (dims c) is_ -> value m c is_ (f is_)) ->
  Forall2 stands_for ps qs -> interior (dims c) qs -> coarsest ps fc -> highest (Float :: fe :: real_types ps) fr ->
  (forall is_, In is_ (neighbours qs) -> finite_of fe (f is_) /\ float_value (f is_) = Some (g is_) /\ (Qabs (g is_) <= V)%Q) ->
  (largest (f_prec fc) (f_emax fc) (length ps) V < 2 ^ f_emax fr)%Q ->
  exists r rq, linear_floats fe m c ps = Ok (fr, r) /\ finite_of fr r /\ float_value r = Some rq /\
    (Qabs (rq - multilinear qs g) <= linear_error (f_prec fc) (f_emax fc) (length ps) V)%Q.
Proof. exact floats_ok. Qed.
Print Assumptions mixed_error.

Theorem mixed_error_integers : forall (m : mem Z) c ps qs (f : list Z -> Z) V fc fr,
  addressable c (map (fun _ => I32) (dims c)) -> Forall (fun n => n <= 2147483648) (dims c) ->
  (forall is_, in_box (dims c) is_ -> value m c is_ (f is_)) ->
  Forall2 stands_for ps qs -> interior (dims c) qs -> coarsest ps fc -> highest (Float :: real_types ps) fr ->
  (forall is_, In is_ (neighbours qs) -> Z.abs (f is_) < 2 ^ f_prec fr /\ Z.abs (f is_) <= V) ->
  (largest (f_prec fc) (f_emax fc) (length ps) (inject_Z V) < 2 ^ f_emax fr)%Q ->
  exists r rq, linear_ints m c ps = Ok (fr, r) /\ finite_of fr r /\ float_value r = Some rq /\
    (Qabs (rq - multilinear qs (fun is_ => inject_Z (f is_))) <=
      linear_error (f_prec fc) (f_emax fc) (length ps) (inject_Z V))%Q.
Proof. exact ints_ok. Qed.
Print Assumptions mixed_error_integers.

(** At most four axes, some coordinate being a float, none being a float. *)
Theorem mixed_error_float : forall fe (m : mem spec_float) c ps qs (f : list Z -> spec_float) (g : list Z -> Q) V fr,
  addressable c (map (fun _ => I32) (dims c)) -> Forall (fun n => n <= 2147483648) (dims c) ->
  (forall is_, in_box (dims c) is_ -> value m c is_ (f is_)) ->
  Forall2 stands_for ps qs -> interior (dims c) qs -> coarsest ps Float -> highest (Float :: fe :: real_types ps) fr ->
  (forall is_, In is_ (neighbours qs) -> finite_of fe (f is_) /\ float_value (f is_) = Some (g is_) /\ (Qabs (g is_) <= V)%Q) ->
  (length ps <= 4)%nat -> (V <= 2 ^ 127)%Q ->
  exists r rq, linear_floats fe m c ps = Ok (fr, r) /\ finite_of fr r /\
    float_value r = Some rq /\ (Qabs (rq - multilinear qs g) <= V * 2 ^ (-19) + 2 ^ (-145))%Q.
Proof. exact floats_float_l. Qed.
Print Assumptions mixed_error_float.

Theorem mixed_error_double : forall fe (m : mem spec_float) c ps qs (f : list Z -> spec_float) (g : list Z -> Q) V fr,
  addressable c (map (fun _ => I32) (dims c)) -> Forall (fun n => n <= 2147483648) (dims c) ->
  (forall is_, in_box (dims c) is_ -> value m c is_ (f is_)) ->
  Forall2 stands_for ps qs -> interior (dims c) qs -> coarsest ps Double -> highest (Float :: fe :: real_types ps) fr ->
  (forall is_, In is_ (neighbours qs) -> finite_of fe (f is_) /\ float_value (f is_) = Some (g is_) /\ (Qabs (g is_) <= V)%Q) ->
  (length ps <= 4)%nat -> (V <= 2 ^ 1023)%Q ->
  exists r rq, linear_floats fe m c ps = Ok (fr, r) /\ finite_of fr r /\
    float_value r = Some rq /\ (Qabs (rq - multilinear qs g) <= V * 2 ^ (-48) + 2 ^ (-1070))%Q.
Proof. exact floats_double_l. Qed.
Print Assumptions mixed_error_double.

Theorem mixed_error_extended : forall fe (m : mem spec_float) c ps qs (f : list Z -> spec_float) (g : list Z -> Q) V fr,
  addressable c (map (fun _ => I32) (dims c)) -> Forall (fun n => n <= 2147483648) (dims c) ->
  (forall is_, in_box (dims c) is_ -> value m c is_ (f is_)) ->
  Forall2 stands_for ps qs -> interior (dims c) qs -> coarsest ps Extended -> highest (Float :: fe :: real_types ps) fr ->
  (forall is_, In is_ (neighbours qs) -> finite_of fe (f is_) /\ float_value (f is_) = Some (g is_) /\ (Qabs (g is_) <= V)%Q) ->
  (length ps <= 4)%nat -> (V <= 2 ^ 16383)%Q ->
  exists r rq, linear_floats fe m c ps = Ok (fr, r) /\ finite_of fr r /\
    float_value r = Some rq /\ (Qabs (rq - multilinear qs g) <= V * 2 ^ (-59) + 2 ^ (-16441))%Q.
Proof. exact floats_extended_l. Qed.
Print Assumptions mixed_error_extended.

Theorem mixed_error_integers_float : forall (m : mem Z) c ps qs (f : list Z -> Z) V fr,
  addressable c (map (fun _ => I32) (dims c)) -> Forall (fun n => n <= 2147483648) (dims c) ->
  (forall is_, in_box (dims c) is_ -> value m c is_ (f is_)) ->
  Forall2 stands_for ps qs -> interior (dims c) qs -> coarsest ps Float -> highest (Float :: real_types ps) fr ->
  (forall is_, In is_ (neighbours qs) -> Z.abs (f is_) < 2 ^ f_prec fr /\ Z.abs (f is_) <= V) ->
  (length ps <= 4)%nat -> V <= 2 ^ 127 ->
  exists r rq, linear_ints m c ps = Ok (fr, r) /\ finite_of fr r /\ float_value r = Some rq /\
    (Qabs (rq - multilinear qs (fun is_ => inject_Z (f is_))) <= inject_Z V * 2 ^ (-19) + 2 ^ (-145))%Q.
Proof. exact ints_float_l. Qed.
Print Assumptions mixed_error_integers_float.

(** Integer coordinates: the element itself, of the type of the elements; a float for integer elements. *)
Theorem whole_coordinates_exact : forall fe (m : mem spec_float) c zs (f : list Z -> spec_float) q,
  addressable c (map (fun _ => I32) (dims c)) -> Forall (fun n => n <= 2147483648) (dims c) ->
  (forall is_, in_box (dims c) is_ -> value m c is_ (f is_)) -> Forall2 (fun n z => 0 <= z < n - 1) (dims c) zs ->
  (forall is_, In is_ (neighbours (map inject_Z zs)) -> finite_of fe (f is_)) -> float_value (f zs) = Some q ->
  exists x qx, linear_floats fe m c (map Whole zs) = Ok (fe, x) /\ finite_of fe x /\ float_value x = Some qx /\ (qx == q)%Q.
Proof. exact whole_floats_l. Qed.
Print Assumptions whole_coordinates_exact.

Theorem whole_coordinates_integers : forall (m : mem Z) c zs (f : list Z -> Z),
  addressable c (map (fun _ => I32) (dims c)) -> Forall (fun n => n <= 2147483648) (dims c) ->
  (forall is_, in_box (dims c) is_ -> value m c is_ (f is_)) -> Forall2 (fun n z => 0 <= z < n - 1) (dims c) zs ->
  (forall is_, In is_ (neighbours (map inject_Z zs)) -> Z.abs (f is_) < 2 ^ 24) ->
  exists x qx, linear_ints m c (map Whole zs) = Ok (Float, x) /\ finite_of Float x /\ float_value x = Some qx /\
    (qx == inject_Z (f zs))%Q.
Proof. exact whole_ints_l. Qed.
Print Assumptions whole_coordinates_integers.

(** Two doubles equal to 1, the coordinate 0.1f: a double that is not 1, wrong after 8 digits; the coordinate
    0.1: 1. *)
Definition two : container := Cn K1 [int 2] [] (Ptr 0 0).
Definition one_d : spec_float := of_int (arith_of Double) 1.
Definition ones : mem spec_float := [Some [Some one_d; Some one_d]].
Definition tenth (f : ftype) : spec_float := SFdiv (f_prec f) (f_emax f) (of_int (arith_of f) 1) (of_int (arith_of f) 10).
Theorem double_accuracy_refuted : exists r rq,
  linear_floats Double ones two [Real Float (tenth Float)] = Ok (Double, r) /\ float_value r = Some rq /\
  ~ (Qabs (rq - 1) <= 2 ^ (-30))%Q.
Proof.
  eexists _, _. split; [vm_compute; reflexivity|]. split; [vm_compute; reflexivity|].
  apply Qlt_not_le. vm_compute. reflexivity.
Qed.
Print Assumptions double_accuracy_refuted.
Example double_coordinate : linear_floats Double ones two [Real Double (tenth Double)] = Ok (Double, one_d).
Proof. vm_compute. reflexivity. Qed.

(** Integers: the element 16777217 is read as 16777216 with coordinates of type float or int. *)
Definition ints2 : mem Z := [Some [Some 16777217; Some 0]].
Theorem integer_element_refuted : exists r,
  linear_ints ints2 two [Real Float (of_int (arith_of Float) 0)] = Ok (Float, r) /\
  linear_ints ints2 two [Whole 0] = Ok (Float, r) /\ float_value r = Some (inject_Z 16777216).
Proof. eexists. split; [vm_compute; reflexivity|]. split; vm_compute; reflexivity. Qed.
Print Assumptions integer_element_refuted.

(** The last index of an axis, given as an int: the element after it is read. *)
Theorem whole_last_refuted : linear_ints ints2 two [Whole 1] = UB.
Proof. vm_compute. reflexivity. Qed.
Print Assumptions whole_last_refuted.

(** A 3x3 table of doubles -0.4, -0.3, ... 0.4, a float coordinate and a double one; then an int and a double. *)
Definition tenths : list spec_float :=
  map (fun z => SFdiv 53 1024 (of_int (arith_of Double) z) (of_int (arith_of Double) 10)) [-4; -3; -2; -1; 0; 1; 2; 3; 4].
Definition tm : mem spec_float := [Some (map Some tenths)].
Definition tt3 : container := Cn K2 [int 3; int 3] [] (Ptr 0 0).
Definition tf (is_ : list Z) : spec_float :=
  match is_ with [i; j] => nth (Z.to_nat (3 * i + j)) tenths S754_nan | _ => S754_nan end.
Definition tg (is_ : list Z) : Q := match float_value (tf is_) with Some q => q | None => 0%Q end.
Definition tp : list coordinate := [Real Float (S754_finite false 10737418 (-31)); Real Double (tenth Double)].
Definition tq : list Q := [10737418 # 2 ^ 31; 7205759403792794 # 2 ^ 56]%Q.

Example tt_default : default_layout tt3. Proof. by_default false. Qed.
Example tt_holds : forall is_, in_box (dims tt3) is_ -> value tm tt3 is_ (tf is_).
Proof.
  intros js B. apply box_In in B. vm_compute in B.
  repeat (destruct B as [<-|B]; [vm_compute; reflexivity|]); contradiction.
Qed.
Example tt_mixed : exists r rq, linear_floats Double tm tt3 tp = Ok (Double, r) /\ finite_of Double r /\
  float_value r = Some rq /\ (Qabs (rq - multilinear tq tg) <= (1 # 2) * 2 ^ (-19) + 2 ^ (-145))%Q.
Proof.
  apply (mixed_error_float Double tm tt3 tp tq tf tg (1 # 2)).
  - exact (default_addressable tt3 _ tt_default).
  - change (dims tt3) with [3; 3]. repeat constructor; lia.
  - exact tt_holds.
  - repeat constructor.
  - repeat constructor; vm_compute; discriminate.
  - left. split; [left; reflexivity|]. intros g [<-|[<-|[]]]; vm_compute; discriminate.
  - split; [right; left; reflexivity|]. intros g [<-|[<-|[<-|[<-|[]]]]]; vm_compute; discriminate.
  - intros js B. vm_compute in B.
    repeat (destruct B as [<-|B]; [split; [|split]; [split; [vm_compute; reflexivity|exact I]|vm_compute; reflexivity|vm_compute; discriminate]|]);
      contradiction.
  - cbn. lia.
  - vm_compute. discriminate.
Qed.

Definition tp' : list coordinate := [Whole 1; Real Double (tenth Double)].
Definition tq' : list Q := [inject_Z 1; 7205759403792794 # 2 ^ 56]%Q.
Example tt_int_double : exists r rq, linear_floats Double tm tt3 tp' = Ok (Double, r) /\ finite_of Double r /\
  float_value r = Some rq /\ (Qabs (rq - multilinear tq' tg) <= (1 # 2) * 2 ^ (-48) + 2 ^ (-1070))%Q.
Proof.
  apply (mixed_error_double Double tm tt3 tp' tq' tf tg (1 # 2)).
  - exact (default_addressable tt3 _ tt_default).
  - change (dims tt3) with [3; 3]. repeat constructor; lia.
  - exact tt_holds.
  - repeat constructor; lia.
  - repeat constructor; vm_compute; discriminate.
  - left. split; [left; reflexivity|]. intros g [<-|[]]; vm_compute; discriminate.
  - split; [right; left; reflexivity|]. intros g [<-|[<-|[<-|[]]]]; vm_compute; discriminate.
  - intros js B. vm_compute in B.
    repeat (destruct B as [<-|B]; [split; [|split]; [split; [vm_compute; reflexivity|exact I]|vm_compute; reflexivity|vm_compute; discriminate]|]);
      contradiction.
  - cbn. lia.
  - vm_compute. discriminate.
Qed.

Definition tpx : list coordinate := [Whole 1; Real Extended (tenth Extended)].
Definition tqx : list Q := [inject_Z 1; 14757395258967641293 # 2 ^ 67]%Q.
Example tt_int_extended : exists r rq, linear_floats Double tm tt3 tpx = Ok (Extended, r) /\ finite_of Extended r /\
  float_value r = Some rq /\ (Qabs (rq - multilinear tqx tg) <= (1 # 2) * 2 ^ (-59) + 2 ^ (-16441))%Q.
Proof.
  apply (mixed_error_extended Double tm tt3 tpx tqx tf tg (1 # 2)).
  - exact (default_addressable tt3 _ tt_default).
  - change (dims tt3) with [3; 3]. repeat constructor; lia.
  - exact tt_holds.
  - repeat constructor; lia.
  - repeat constructor; vm_compute; discriminate.
  - left. split; [left; reflexivity|]. intros g [<-|[]]; vm_compute; discriminate.
  - split; [right; right; left; reflexivity|]. intros g [<-|[<-|[<-|[]]]]; vm_compute; discriminate.
  - intros js B. vm_compute in B.
    repeat (destruct B as [<-|B]; [split; [|split]; [split; [vm_compute; reflexivity|exact I]|vm_compute; reflexivity|vm_compute; discriminate]|]);
      contradiction.
  - cbn. lia.
  - vm_compute. discriminate.
Qed.
Example tt_whole : exists x qx, linear_floats Double tm tt3 (map Whole [1; 0]) = Ok (Double, x) /\ finite_of Double x /\
  float_value x = Some qx /\ (qx == tg [1; 0]%Z)%Q.
Proof.
  apply (whole_coordinates_exact Double tm tt3 [1; 0] tf).
  - exact (default_addressable tt3 _ tt_default).
  - change (dims tt3) with [3; 3]. repeat constructor; lia.
  - exact tt_holds.
  - change (dims tt3) with [3; 3]. repeat constructor; lia.
  - intros js B. vm_compute in B. repeat (destruct B as [<-|B]; [split; [vm_compute; reflexivity|exact I]|]); contradiction.
  - vm_compute. reflexivity.
Qed.

(** Integers 1 ... 9, a float coordinate and an int. *)
Definition im : mem Z := [Some (map Some [1; 2; 3; 4; 5; 6; 7; 8; 9])].
Definition jf (is_ : list Z) : Z := match is_ with [i; j] => 3 * i + j + 1 | _ => 0 end.
Example tt_ints : exists r rq, linear_ints im tt3 [Real Float (S754_finite false 10737418 (-31)); Whole 1] = Ok (Float, r) /\
  finite_of Float r /\ float_value r = Some rq /\
  (Qabs (rq - multilinear [10737418 # 2 ^ 31; inject_Z 1] (fun is_ => inject_Z (jf is_))) <= inject_Z 9 * 2 ^ (-19) + 2 ^ (-145))%Q.
Proof.
  apply (mixed_error_integers_float im tt3 _ _ jf 9).
  - exact (default_addressable tt3 _ tt_default).
  - change (dims tt3) with [3; 3]. repeat constructor; lia.
  - intros js B. apply box_In in B. vm_compute in B.
    repeat (destruct B as [<-|B]; [vm_compute; reflexivity|]); contradiction.
  - repeat constructor; lia.
  - repeat constructor; vm_compute; discriminate.
  - left. split; [left; reflexivity|]. intros g [<-|[]]; vm_compute; discriminate.
  - split; [left; reflexivity|]. intros g [<-|[<-|[]]]; vm_compute; discriminate.
  - intros js B. vm_compute in B.
    repeat (destruct B as [<-|B]; [split; [vm_compute; reflexivity|vm_compute; discriminate]|]); contradiction.
  - cbn. lia.
  - vm_compute. discriminate.
Qed.
