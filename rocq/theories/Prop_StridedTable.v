(** Property C24, continued: which elements of a table with strides of its own exist. *)
From Coq Require Import ZArith List Bool Lia.
From Verif Require Import Outcome CInt CIntFacts Spec SpecFacts ShapeSpec Shape ShapeFacts ShapeFacts2 Memory MemFacts Container
  ContainerSpec ContainerFacts ContainerFacts2 ContainerFacts3 StridedTableFacts.
Import ListNotations.
Open Scope Z_scope.

(** The table has as many elements as its shape says. An access inside the shape is good exactly when the offset the strides give is
    the one of such an element. *)
Theorem strided_table_access_iff : forall (T : Type) (m m1 : mem T) a b sh st t, legal sh -> sh <> [] ->
  make_table m a b sh (Some st) None = Ok (m1, t) ->
  c_shape t = sh /\ forall is_, addressable t (map cty is_) -> coord_of t is_ ->
    (0 <= dot (vals st) (vals is_) < prod (vals sh) -> forall v, exists m', put m1 t is_ v = Ok m' /\ get m' t is_ = Ok v) /\
    (~ 0 <= dot (vals st) (vals is_) < prod (vals sh) -> get m1 t is_ = UB /\ forall v, put m1 t is_ v = UB).
Proof. exact @strided_table_l. Qed.
Print Assumptions strided_table_access_iff.

(** With strides that are not negative: every access is good exactly when the one to the last coordinate is. *)
Theorem strided_table_good_iff_last : forall st ns, Forall (fun s => 0 <= s) st -> Forall (fun n => 0 < n) ns -> length st = length ns ->
  ((forall is_, in_box ns is_ -> 0 <= dot st is_ < prod ns) <-> dot st (map Z.pred ns) < prod ns).
Proof. exact strided_inside_l. Qed.
Print Assumptions strided_table_good_iff_last.

(** Column-major strides of a 2x3 table: every access is good. Rows of 10 elements: the second row is outside. *)
Definition cols : container := Cn K2S [int 2; int 3] [int 1; int 2] (Ptr 0 0).
Definition rows10 : container := Cn K2S [int 2; int 3] [int 10; int 1] (Ptr 0 0).
Example cols_made : make_table [] false false [int 2; int 3] (Some [int 1; int 2]) None = Ok ([Some (@repeat (option Z) None 6)], cols).
Proof. vm_compute. reflexivity. Qed.
Example cols_inside : forall is_, in_box [2; 3] is_ -> 0 <= dot [1; 2] is_ < prod [2; 3].
Proof. apply strided_table_good_iff_last; [repeat constructor; lia|repeat constructor; lia|reflexivity|reflexivity]. Qed.
Example rows10_outside : ~ (forall is_, in_box [2; 3] is_ -> 0 <= dot [10; 1] is_ < prod [2; 3]).
Proof.
  rewrite strided_table_good_iff_last; [|repeat constructor; lia|repeat constructor; lia|reflexivity]. vm_compute. discriminate.
Qed.
Example rows10_addressable : addressable rows10 [I32; I32].
Proof.
  split; [|split].
  - split; [by_check|]. split; [by_check|]. split; [|reflexivity].
    eexists. split; [reflexivity|]. split; [by_check|reflexivity].
  - left. repeat constructor; cbn; lia.
  - left. intros is_ B; apply box_In in B; vm_compute in B.
    repeat (destruct B as [<-|B]; [vm_compute; discriminate|]); contradiction.
Qed.
Example rows10_ex : let m := [Some (@repeat (option Z) None 6)] in
  map (fun is_ => match put m rows10 is_ 1 with Ok _ => true | _ => false end)
    [[int 0; int 0]; [int 0; int 2]; [int 1; int 0]; [int 1; int 2]] = [true; true; false; false].
Proof. vm_compute. reflexivity. Qed.
