(** Property C42, continued: find_last on containers with any strides. *)
From Coq Require Import ZArith List Bool Lia.
From Verif Require Import Outcome CInt CIntFacts Spec SpecFacts ShapeSpec Shape ShapeFacts ShapeFacts2 Memory MemFacts Container
  ContainerSpec ContainerFacts ContainerFacts2 ContainerFacts3 Algo AlgoSpec AlgoFacts4 FindLastStridedFacts Prop_Algo Prop_ReverseStrided.
Import ListNotations.
Open Scope Z_scope.

(** find_last_if finds the last element where the offset of the last element is the number of elements less one. *)
Theorem find_last_right : forall (T : Type) ss c (f : T -> bool) m,
  legal (c_shape c) -> c_shape c <> [] -> signeds (c_shape c) ->
  (exists st, get_stride c = Ok st /\ wfs st /\ signeds st /\ length st = length (c_shape c) /\
     Forall (fun s => Z.abs (cval s) <= 2147483647) st) ->
  reach_ok c -> dot (strides_z c) (map Z.pred (dims c)) = prod (dims c) - 1 -> readable m c ->
  exists r, find_last_if ss c f m = Ok (r, m) /\ last_at m c (fun v => f v = true) r.
Proof. exact @find_last_right_l. Qed.
Print Assumptions find_last_right.

(** In general it finds the last one of the elements that far away, and not of the container. *)
Theorem find_last_displaced : forall (T : Type) ss c (f : T -> bool) m,
  legal (c_shape c) -> c_shape c <> [] -> signeds (c_shape c) ->
  (exists st, get_stride c = Ok st /\ wfs st /\ signeds st /\ length st = length (c_shape c) /\
     Forall (fun s => Z.abs (cval s) <= 2147483647) st) ->
  reach_ok c ->
  let c' := Cn (c_kind c) (c_shape c) (c_stride c) (padd (c_data c) (prod (dims c) - 1 - dot (strides_z c) (map Z.pred (dims c)))) in
  readable m c' -> exists r, find_last_if ss c f m = Ok (r, m) /\ last_at m c' (fun v => f v = true) r.
Proof. exact @find_last_moved_l. Qed.
Print Assumptions find_last_displaced.

(** The column-major 2x3 view of Prop_ReverseStrided: its rows are 1 3 5 and 2 4 6. *)
Example col_view_hyps : legal (c_shape col_view) /\ signeds (c_shape col_view) /\
  (exists st, get_stride col_view = Ok st /\ wfs st /\ signeds st /\ length st = length (c_shape col_view) /\
     Forall (fun s => Z.abs (cval s) <= 2147483647) st) /\ reach_ok col_view /\ readable xm col_view.
Proof.
  split; [by_check|]. split; [repeat constructor|].
  split; [eexists; split; [reflexivity|]; split; [by_check|]; split; [repeat constructor|]; split; [reflexivity|]; repeat constructor; cbn; lia|].
  split; [|by_box]. intros is_ B; apply box_In in B; vm_compute in B.
  repeat (destruct B as [<-|B]; [vm_compute; discriminate|]); contradiction.
Qed.
Example col_view_find : find_last_if false col_view Z.odd xm = Ok (Some [int 0; int 2], xm) /\
  find_last_if false col_view (fun x => x <? 5) xm = Ok (Some [int 1; int 1], xm).
Proof. split; vm_compute; reflexivity. Qed.
(** The elements are 10 and 20; the displacement is -1, so that 7 and 8 are searched. *)
Definition pair2 : container := Cn K1S [int 2] [int 2] (Ptr 0 1).
Definition pm : mem Z := [Some (map Some [7; 10; 8; 20; 9])].
Example pair2_displaced : prod (dims pair2) - 1 - dot (strides_z pair2) (map Z.pred (dims pair2)) = -1 /\
  readable pm (Cn K1S [int 2] [int 2] (Ptr 0 0)) /\
  find_last_if false pair2 (fun x => x =? 20) pm = Ok (None, pm) /\
  find_last_if false pair2 (fun x => x =? 8) pm = Ok (Some [int 1], pm).
Proof. split; [reflexivity|]. split; [by_box|]. split; vm_compute; reflexivity. Qed.
