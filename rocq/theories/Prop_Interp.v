(** Properties C48 and C49: interpolation. *)
From Coq Require Import ZArith QArith Qround List Bool Lia.
From Coq Require Import Floats.SpecFloat.
From Verif Require Import Outcome CInt CIntFacts Spec SpecFacts ShapeSpec ShapeFacts ShapeFacts2 Memory MemFacts Container ContainerSpec
  ContainerFacts ContainerFacts2 ContainerFacts3 AlgoSpec Interp InterpSpec InterpFacts.
Import ListNotations.
Open Scope Z_scope.

(** C48 *)
Theorem linear_multilinear : forall (T : Type) (cv : T -> Q) (m : mem T) c ps (f : list Z -> T),
  addressable c (map (fun _ => I32) (dims c)) -> Forall (fun n => n <= 2147483648) (dims c) ->
  (forall is_, in_box (dims c) is_ -> value m c is_ (f is_)) -> interior (dims c) ps ->
  exists r, linear_interpolate rationals cv m c ps = Ok r /\ (r == multilinear ps (fun is_ => cv (f is_)))%Q.
Proof. exact @linear_l. Qed.
Print Assumptions linear_multilinear.

Theorem linear_at_element : forall (T : Type) (cv : T -> Q) (m : mem T) c is_ (f : list Z -> T),
  addressable c (map (fun _ => I32) (dims c)) -> Forall (fun n => n <= 2147483648) (dims c) ->
  (forall js, in_box (dims c) js -> value m c js (f js)) ->
  Forall2 (fun n i => 0 <= i < n - 1) (dims c) is_ ->
  exists r, linear_interpolate rationals cv m c (map inject_Z is_) = Ok r /\ (r == cv (f is_))%Q.
Proof. exact @linear_at_element_l. Qed.
Print Assumptions linear_at_element.

Theorem linear_between : forall (T : Type) (cv : T -> Q) (m : mem T) c ps (f : list Z -> T) lo hi,
  addressable c (map (fun _ => I32) (dims c)) -> Forall (fun n => n <= 2147483648) (dims c) ->
  (forall is_, in_box (dims c) is_ -> value m c is_ (f is_)) -> interior (dims c) ps ->
  (forall is_, In is_ (neighbours ps) -> (lo <= cv (f is_) <= hi)%Q) ->
  exists r, linear_interpolate rationals cv m c ps = Ok r /\ (lo <= r <= hi)%Q.
Proof. exact @linear_between_l. Qed.
Print Assumptions linear_between.

Theorem linear_reproduces : forall (T : Type) (cv : T -> Q) (m : mem T) c ps (f : list Z -> T) g,
  addressable c (map (fun _ => I32) (dims c)) -> Forall (fun n => n <= 2147483648) (dims c) ->
  (forall is_, in_box (dims c) is_ -> value m c is_ (f is_) /\ (cv (f is_) == g (map inject_Z is_))%Q) ->
  affine_in_each g -> interior (dims c) ps ->
  exists r, linear_interpolate rationals cv m c ps = Ok r /\ (r == g ps)%Q.
Proof. exact @linear_reproduces_l. Qed.
Print Assumptions linear_reproduces.

(** On the last grid line of the outermost axis: a read past the end of the block of the table. *)
Theorem linear_last_line_overruns : forall (T : Type) (cv : T -> Q) (m : mem T) c n0 ns b cs p0 ps,
  default_layout c -> dims c = n0 :: ns -> (n0 + 1) * prod ns <= 2147483647 ->
  c_data c = Ptr b 0 -> nth_error m b = Some (Some cs) -> Z.of_nat (length cs) = prod (dims c) ->
  (inject_Z (n0 - 1) <= p0)%Q -> (0 <= p0)%Q -> (p0 < inject_Z n0)%Q -> interior ns ps ->
  linear_interpolate rationals cv m c (p0 :: ps) = UB.
Proof. exact @overrun_l. Qed.
Print Assumptions linear_last_line_overruns.

(** A 3x4 table whose element (i,j) is 10 i + j, and a view on its columns 1 and 3 from the last row up. *)
Definition xm : mem Z := [Some (map Some [0; 1; 2; 3; 10; 11; 12; 13; 20; 21; 22; 23])].
Definition xt : container := Cn K2 [int 3; int 4] [] (Ptr 0 0).
Definition xv : container := Cn K2S [int 3; int 2] [CI I32 (-4); int 2] (Ptr 0 9).
Definition xf (is_ : list Z) : Z := match is_ with [i; j] => 10 * i + j | _ => 0 end.
Definition xg (ps : list Q) : Q := match ps with [x; y] => (0 + 10 * x + 1 * y + 0 * x * y)%Q | _ => 0%Q end.
Definition xh (is_ : list Z) : Z := match is_ with [i; j] => 21 - 10 * i + 2 * j | _ => 0 end.

Example xt_default : default_layout xt. Proof. by_default false. Qed.
Example xt_addressable : addressable xt (map (fun _ => I32) (dims xt)).
Proof. exact (default_addressable xt _ xt_default). Qed.
Example xt_small : Forall (fun n => n <= 2147483648) (dims xt).
Proof. change (dims xt) with [3; 4]. repeat constructor; lia. Qed.
Example xt_values : forall is_, in_box (dims xt) is_ -> value xm xt is_ (xf is_).
Proof.
  intros is_ B. apply box_In in B. vm_compute in B.
  repeat (destruct B as [<-|B]; [reflexivity|]); contradiction.
Qed.
Example xt_agrees : forall is_, in_box (dims xt) is_ ->
  value xm xt is_ (xf is_) /\ (inject_Z (xf is_) == xg (map inject_Z is_))%Q.
Proof.
  intros is_ B. apply box_In in B. vm_compute in B.
  repeat (destruct B as [<-|B]; [split; reflexivity|]); contradiction.
Qed.
Example xg_affine : affine_in_each xg.
Proof. exact (bilinear_affine 0 10 1 0). Qed.
Example xt_interior : interior (dims xt) [(5 # 4)%Q; (1 # 3)%Q].
Proof. repeat constructor; vm_compute; discriminate. Qed.
Example xt_linear : exists r, linear_interpolate rationals inject_Z xm xt [(5 # 4)%Q; (1 # 3)%Q] = Ok r /\ (r == 77 # 6)%Q.
Proof.
  destruct (linear_reproduces Z inject_Z xm xt _ xf xg xt_addressable xt_small xt_agrees xg_affine xt_interior) as (r & E & R).
  exists r. split; [exact E|]. rewrite R. reflexivity.
Qed.
Example xt_linear_element :
  exists r, linear_interpolate rationals inject_Z xm xt (map inject_Z [1; 2]) = Ok r /\ (r == 12)%Q.
Proof.
  apply (linear_at_element Z inject_Z xm xt [1; 2] xf xt_addressable xt_small xt_values).
  repeat constructor; lia.
Qed.
Example xt_linear_between :
  exists r, linear_interpolate rationals inject_Z xm xt [(5 # 4)%Q; (1 # 3)%Q] = Ok r /\ (10 <= r <= 21)%Q.
Proof.
  apply (linear_between Z inject_Z xm xt _ xf _ _ xt_addressable xt_small xt_values xt_interior).
  intros is_ I. vm_compute in I. repeat (destruct I as [<-|I]; [split; vm_compute; discriminate|]). contradiction.
Qed.
Example xv_addressable : addressable xv (map (fun _ => I32) (dims xv)).
Proof.
  split; [|split].
  - split; [by_check|]. split; [by_check|]. split; [|reflexivity].
    eexists. split; [reflexivity|]. split; [by_check|reflexivity].
  - right. split; [|repeat constructor]. eexists. split; [reflexivity|]. repeat constructor.
  - left. intros is_ B; apply box_In in B; vm_compute in B.
    repeat (destruct B as [<-|B]; [vm_compute; discriminate|]); contradiction.
Qed.
Example xv_values : forall is_, in_box (dims xv) is_ -> value xm xv is_ (xh is_).
Proof.
  intros is_ B. apply box_In in B. vm_compute in B.
  repeat (destruct B as [<-|B]; [reflexivity|]); contradiction.
Qed.
Example xv_linear : exists r, linear_interpolate rationals inject_Z xm xv [(3 # 2)%Q; (1 # 4)%Q] = Ok r /\
  (r == multilinear [(3 # 2)%Q; (1 # 4)%Q] (fun is_ => inject_Z (xh is_)))%Q.
Proof.
  apply (linear_multilinear Z inject_Z xm xv _ xh xv_addressable); [|exact xv_values|repeat constructor; vm_compute; discriminate].
  change (dims xv) with [3; 2]. repeat constructor; lia.
Qed.
Example xt_overrun : linear_interpolate rationals inject_Z xm xt [2%Q; (1 # 3)%Q] = UB.
Proof.
  apply (linear_last_line_overruns Z inject_Z xm xt 3 [4] 0%nat (map Some [0; 1; 2; 3; 10; 11; 12; 13; 20; 21; 22; 23])
    2%Q [(1 # 3)%Q]); try reflexivity; try (vm_compute; discriminate).
  - exact xt_default.
  - repeat constructor; vm_compute; discriminate.
Qed.

(** On the last grid line of another axis the element read past the row is the first of the next row:
    without weight for an integral coordinate, mixed in for the others. *)
Theorem linear_last_column_refuted :
  (exists r, linear_interpolate rationals inject_Z xm xt [0%Q; 3%Q] = Ok r /\ (r == 3)%Q) /\
  exists r, linear_interpolate rationals inject_Z xm xt [0%Q; (7 # 2)%Q] = Ok r /\ (r == 13 # 2)%Q.
Proof. split; eexists; (split; [vm_compute; reflexivity|vm_compute; reflexivity]). Qed.
Print Assumptions linear_last_column_refuted.

(** In binary64 an element without weight still matters when it is infinite: at the coordinate of the
    element 1 next to an infinity the result is NaN. *)
Theorem linear_infinite_neighbour_refuted :
  linear_interpolate binary64 (fun x => x)
    [Some (map Some [of_int binary64 1; S754_infinity false; of_int binary64 2])]
    (Cn K1 [int 3] [] (Ptr 0 0)) [of_int binary64 0] = Ok S754_nan.
Proof. vm_compute. reflexivity. Qed.
Print Assumptions linear_infinite_neighbour_refuted.

(** The 2x2 unit test (test/unit/utility/interpolator/linear.cpp 22-34) at (0.25, 0.75), in binary64. *)
Example linear_unit_test :
  linear_interpolate binary64 (of_int binary64)
    [Some (map Some [1; 2; 3; 4])] (Cn KStatic [int 2; int 2] [int 2; int 1] (Ptr 0 0))
    [binary_normalize 53 1024 1 (-2) false; binary_normalize 53 1024 3 (-2) false] =
  Ok (binary_normalize 53 1024 9 (-2) false).
Proof. vm_compute. reflexivity. Qed.

(** C49 *)
Theorem floor_reads : forall (T : Type) (m : mem T) c ps (f : list Z -> T),
  addressable c (map (fun _ => I64) (dims c)) -> Forall (fun n => 1 <= n <= 2 ^ 63) (dims c) ->
  (forall is_, in_box (dims c) is_ -> value m c is_ (f is_)) ->
  Forall2 (fun n p => (-1 < p)%Q /\ (p < inject_Z n)%Q) (dims c) ps ->
  floor_interpolate rationals m c ps = Ok (f (map (fun p => Z.max 0 (Qfloor p)) ps)).
Proof. exact @floor_l. Qed.
Print Assumptions floor_reads.

Theorem floor_inside : forall (T : Type) (m : mem T) c ps (f : list Z -> T),
  addressable c (map (fun _ => I64) (dims c)) -> Forall (fun n => 1 <= n <= 2 ^ 63) (dims c) ->
  (forall is_, in_box (dims c) is_ -> value m c is_ (f is_)) ->
  Forall2 (fun n p => (0 <= p)%Q /\ (p < inject_Z n)%Q) (dims c) ps ->
  floor_interpolate rationals m c ps = Ok (f (map Qfloor ps)).
Proof. exact @floor_inside_l. Qed.
Print Assumptions floor_inside.

Theorem floor_negative_refuted :
  floor_interpolate rationals xm xt [(-1 # 2)%Q; (-9 # 10)%Q] = Ok (xf [0; 0]) /\
  map Qfloor [(-1 # 2)%Q; (-9 # 10)%Q] = [-1; -1] /\
  floor_interpolate rationals xm xt [(-1 # 1)%Q; (1 # 2)%Q] = UB.
Proof. vm_compute. auto. Qed.
Print Assumptions floor_negative_refuted.

Example xt_floor : floor_interpolate rationals xm xt [(11 # 4)%Q; (19 # 5)%Q] = Ok 23.
Proof.
  apply (floor_inside Z xm xt [(11 # 4)%Q; (19 # 5)%Q] xf); [exact (default_addressable xt _ xt_default)| |exact xt_values|repeat constructor; vm_compute; discriminate].
  change (dims xt) with [3; 4]. repeat constructor; lia.
Qed.
