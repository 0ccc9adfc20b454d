(** Property C40, continued: exclusive scans in place, in general. *)
From Coq Require Import ZArith List Bool Lia.
From Verif Require Import Outcome CInt CIntFacts Spec SpecFacts ShapeSpec Shape ShapeFacts ShapeFacts2
  Memory MemFacts Container ContainerSpec ContainerFacts3 Algo AlgoSpec AlgoFacts AlgoFacts2 AlgoFacts3 AlgoFacts4
  ScanInPlaceFacts Prop_Algo.
Import ListNotations.
Open Scope Z_scope.

(** When the output elements are the input elements, the elements do not matter at all (they need not even be initialised): the
    element of rank k becomes the k-th iterate of [a => f1(a, f2(a))] from init. *)
Theorem exclusive_scan_same_elements : forall (T B : Type) in_ out (init : T) (f1 : T -> B -> T) f2 m,
  live m in_ in_ -> can_write m in_ out -> (forall is_, in_box (dims in_) is_ -> elem in_ is_ = elem out is_) ->
  exists m', transform_exclusive_scan in_ out init f1 f2 m = Ok m' /\
    (forall is_, in_box (dims in_) is_ ->
       value m' out is_ (Nat.iter (Z.to_nat (rank (dims in_) is_)) (fun a => f1 a (f2 a)) init)) /\
    frame in_ out m m'.
Proof. exact @exclusive_same_l. Qed.
Print Assumptions exclusive_scan_same_elements.

(** With a sum: the element of rank k is init times 2 to the k. *)
Theorem exclusive_sum_in_place : forall c (init : Z) m, can_write m c c ->
  exists m', exclusive_scan c c init Z.add m = Ok m' /\
    (forall is_, in_box (dims c) is_ -> value m' c is_ (init * 2 ^ rank (dims c) is_)) /\ frame c c m m'.
Proof. exact exclusive_sum_same_l. Qed.
Print Assumptions exclusive_sum_in_place.

(** So the result in place is the expected one exactly when all the folds of the elements are those iterates. *)
Theorem exclusive_scan_in_place_right_iff : forall (T B : Type) c (init : T) (f1 : T -> B -> T) f2 m vs,
  can_read m c c -> can_write m c c -> values m c c vs ->
  exists m', transform_exclusive_scan c c init f1 f2 m = Ok m' /\
    ((forall is_, in_box (dims c) is_ ->
        value m' c is_ (fold_left (fun a v => f1 a (f2 v)) (firstn (Z.to_nat (rank (dims c) is_)) vs) init)) <->
     (forall k, (k < length vs)%nat ->
        fold_left (fun a v => f1 a (f2 v)) (firstn k vs) init = Nat.iter k (fun a => f1 a (f2 a)) init)).
Proof. exact @exclusive_same_right_l. Qed.
Print Assumptions exclusive_scan_in_place_right_iff.

(** The 2x3 table of Prop_Algo, and the same table without a single value. *)
Example in_place_ex : exclusive_scan xa xa 5 Z.add xm =
  Ok [Some (map Some [5; 10; 20; 40; 80; 160]); Some (map Some [10; 20; 30; 40; 50; 60])].
Proof. vm_compute. reflexivity. Qed.
Definition xu : mem Z := [Some [None; None; None; None; None; None]].
Example xu_write : can_write xu xa xa.
Proof. apply (default_can_write xu xa xa xa_default eq_refl). by_box. Qed.
Example in_place_uninitialised_ex : exclusive_scan xa xa 1 Z.add xu = Ok [Some (map Some [1; 2; 4; 8; 16; 32])].
Proof. vm_compute. reflexivity. Qed.
(** A table, and a strided view of the same elements. *)
Definition xs : container := Cn K2S [int 2; int 3] [int 3; int 1] (Ptr 0 0).
Example xs_same : forall is_, in_box (dims xs) is_ -> elem xs is_ = elem xa is_.
Proof.
  intros is_ B; apply box_In in B; vm_compute in B.
  repeat (destruct B as [<-|B]; [vm_compute; reflexivity|]); contradiction.
Qed.
Example same_elements_ex : exclusive_scan xs xa 5 Z.add xm = exclusive_scan xa xa 5 Z.add xm.
Proof. vm_compute. reflexivity. Qed.
(** The condition can hold: init times 2 to the k are the sums of 5, 10, 20 from 5. *)
Definition xr : container := Cn K1 [int 4] [] (Ptr 0 0).
Example right_ex : exclusive_scan xr xr 5 Z.add [Some (map Some [5; 10; 20; 7])] = Ok [Some (map Some [5; 10; 20; 40])].
Proof. vm_compute. reflexivity. Qed.
Example right_ex_hyp : forall k, (k < 4)%nat ->
  fold_left Z.add (firstn k [5; 10; 20; 7]) 5 = Nat.iter k (fun a => a + a) 5.
Proof. intros k Hk. do 4 (destruct k as [|k]; [reflexivity|]). lia. Qed.
