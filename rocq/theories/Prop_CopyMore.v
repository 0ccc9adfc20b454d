(** Property C27, continued: copies that read outside of memory. *)
From Coq Require Import ZArith List Bool Lia.
From Verif Require Import Outcome CInt CIntFacts Spec SpecFacts ShapeSpec Shape ShapeFacts ShapeFacts2 Memory MemFacts Container
  ContainerSpec ContainerFacts ContainerFacts2 CopyMoreFacts.
Import ListNotations.
Open Scope Z_scope.

(** Tables built from a container and copies of a table, whatever its strides, are defined exactly when the numel cells from its origin
    on hold values, even where none of them is an element of the container. *)
Theorem copies_defined_iff : forall (T : Type) (m : mem T) ss c b off,
  legal (c_shape c) -> c_shape c <> [] -> c_data c = Ptr b off -> (b < length m)%nat ->
  ((exists r, table_of m ss c = Ok r) <-> (forall k, 0 <= k < prod (dims c) -> exists v, peek m (padd (c_data c) k) = Some v)) /\
  ((exists r, table_of m ss c = Ok r) \/ table_of m ss c = UB) /\
  (c_kind c <> KStatic -> wf_container c ->
   ((exists r, copy_table m c = Ok r) <-> (forall k, 0 <= k < prod (dims c) -> exists v, peek m (padd (c_data c) k) = Some v)) /\
   ((exists r, copy_table m c = Ok r) \/ copy_table m c = UB)).
Proof. exact @copies_defined_l. Qed.
Print Assumptions copies_defined_iff.

(** A container whose origin is less than numel cells before the end of its block, as that of a reversed view is. *)
Theorem copies_past_the_end : forall (T : Type) (m : mem T) ss c b off cs,
  legal (c_shape c) -> c_shape c <> [] -> c_data c = Ptr b off ->
  nth_error m b = Some (Some cs) -> 0 <= off < Z.of_nat (length cs) -> Z.of_nat (length cs) < off + prod (dims c) ->
  table_of m ss c = UB /\ copy_table m c = UB.
Proof. exact @copies_past_l. Qed.
Print Assumptions copies_past_the_end.

(** Two rows of three elements of a block of seven, the rows reversed: all elements are inside, the copy is not. The same rows forwards
    from cell 1 are copied. *)
Definition flip : container := Cn K2S [int 2; int 3] [CI I32 (-3); int 1] (Ptr 0 3).
Definition ahead : container := Cn K2S [int 2; int 3] [int 3; int 1] (Ptr 0 1).
Definition seven : mem Z := [Some (map Some [0; 1; 2; 3; 4; 5; 6])].
Example flip_ex : legal (c_shape flip) /\ prod (dims flip) = 6 /\ 7 < 3 + prod (dims flip) /\
  get seven flip [int 1; int 2] = Ok 2 /\ get seven flip [int 0; int 0] = Ok 3 /\
  table_of seven false flip = UB /\ copy_table seven flip = UB.
Proof. split; [by_check|]. repeat split; vm_compute; reflexivity. Qed.
Example ahead_ex : legal (c_shape ahead) /\ exists m' t, table_of seven false ahead = Ok (m', t) /\ get m' t [int 1; int 2] = Ok 6.
Proof. split; [by_check|]. do 2 eexists. split; [vm_compute; reflexivity|]. vm_compute. reflexivity. Qed.
