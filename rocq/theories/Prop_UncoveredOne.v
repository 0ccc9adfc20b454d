(** Properties C34 and C36-C38, continued: algorithms on a container that lacks an element. *)
From Coq Require Import ZArith List Bool Lia.
From Verif Require Import Outcome CInt CIntFacts Spec SpecFacts ShapeSpec Shape ShapeFacts ShapeFacts2 Memory MemFacts Container ContainerSpec
  ContainerFacts3 Algo AlgoSpec UncoveredFacts UncoveredOneFacts.
Import ListNotations.
Open Scope Z_scope.

(** c(is...) does not exist at one coordinate of the shape: fill and generate are undefined. *)
Theorem writers_missing_element : forall (T : Type) (m : mem T) c is_, wfs (c_shape c) -> nonnegs (dims c) -> map cty is_ = ctypes c ->
  in_box (dims c) (vals is_) -> ref m c is_ = UB ->
  (forall v, fill c v m = UB) /\ (forall f, generate f c m = UB).
Proof. exact @writers_missing_l. Qed.
Print Assumptions writers_missing_element.

Theorem replace_missing_element : forall (T : Type) (m : mem T) c is_, wfs (c_shape c) -> nonnegs (dims c) -> map cty is_ = ctypes c ->
  in_box (dims c) (vals is_) -> ref m c is_ = UB ->
  (forall f v, replace_if c f v m = UB) /\ (forall e o v, replace e c o v m = UB).
Proof. exact @replace_missing_l. Qed.
Print Assumptions replace_missing_element.

Theorem reduce_missing_element : forall (T A : Type) (m : mem T) c is_ (f : A -> T -> A) init,
  wfs (c_shape c) -> nonnegs (dims c) -> map cty is_ = ctypes c ->
  in_box (dims c) (vals is_) -> ref m c is_ = UB -> reduce c f init m = UB.
Proof. exact @reduce_missing_l. Qed.
Print Assumptions reduce_missing_element.

(** all_of, any_of and none_of do not stop when the answer is known: they are undefined too. *)
Theorem predicates_missing_element : forall (T : Type) (m : mem T) c is_, wfs (c_shape c) -> nonnegs (dims c) -> map cty is_ = ctypes c ->
  in_box (dims c) (vals is_) -> ref m c is_ = UB ->
  (forall f, all_of c f m = UB /\ any_of c f m = UB /\ none_of c f m = UB /\ count_if c f m = UB) /\ (forall e v, count e c v m = UB).
Proof. exact @predicates_missing_l. Qed.
Print Assumptions predicates_missing_element.

(** Two rows of two elements in a block of three: any_of is undefined although the first element answers; find is not. *)
Definition short : container := Cn K2 [int 2; int 2] [] (Ptr 0 0).
Definition sm3 : mem Z := [Some (map Some [1; 2; 3])].
Example short_ex : map cty [int 1; int 1] = ctypes short /\ in_box (dims short) (vals [int 1; int 1]) /\ ref sm3 short [int 1; int 1] = UB /\
  fill short 0 sm3 = UB /\ replace Z.eqb short 9 0 sm3 = UB /\ reduce short Z.add 0 sm3 = UB /\
  any_of short (Z.eqb 1) sm3 = UB /\ find Z.eqb short 1 sm3 = Ok (Some [int 0; int 0], sm3).
Proof. split; [reflexivity|]. split; [by_check|]. repeat split; vm_compute; reflexivity. Qed.
