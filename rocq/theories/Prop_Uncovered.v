(** Property C32, continued: inputs without an element at some coordinate. *)
From Coq Require Import ZArith List Bool Lia.
From Verif Require Import Outcome CInt CIntFacts Spec SpecFacts ShapeSpec Shape ShapeFacts ShapeFacts2 Memory MemFacts Container ContainerSpec
  ContainerFacts3 Algo AlgoSpec UncoveredFacts Prop_Algo.
Import ListNotations.
Open Scope Z_scope.

(** If the reference c(is...) is undefined for one of the containers at one coordinate of the first, so is the whole call, whatever the
    callables are: also copy_if where the condition never holds. *)
Theorem uncovered_undefined : forall (T : Type) (m : mem T) c0 is_, wfs (c_shape c0) -> nonnegs (dims c0) ->
  map cty is_ = ctypes c0 -> in_box (dims c0) (vals is_) ->
  (forall f c1 cs c, In c (c0 :: c1 :: cs) -> ref m c is_ = UB -> transform f c0 c1 cs m = UB) /\
  (forall c1 c, In c [c0; c1] -> ref m c is_ = UB ->
     copy c0 c1 m = UB /\ (forall f, copy_if f c0 c1 m = UB) /\
     (forall (A B : Type) init (R : A -> B -> A) (f : T -> T -> B), transform_reduce c0 c1 init R f m = UB) /\
     (forall (B : Type) init (f1 : T -> B -> T) f2, transform_exclusive_scan c0 c1 init f1 f2 m = UB /\
        transform_inclusive_scan c0 c1 init f1 f2 m = UB)).
Proof. exact @uncovered_l. Qed.
Print Assumptions uncovered_undefined.

(** In one dimension: an input shorter than the output, followed by nothing in memory. *)
Theorem shorter_input_undefined : forall (T : Type) (m : mem T) out a b p, c_shape out = [a] -> wfc a -> 0 <= cval b < cval a ->
  cval a <= 9223372036854775807 -> (forall k, cval b <= k -> ~ valid m (padd p k)) ->
  let in_ := Cn K1 [b] [] p in
  (forall f, transform f out in_ [] m = UB) /\ copy out in_ m = UB /\ (forall f, copy_if f out in_ m = UB).
Proof. exact @longer_l. Qed.
Print Assumptions shorter_input_undefined.

(** Three elements from two. *)
Definition three : container := Cn K1 [int 3] [] (Ptr 0 0).
Definition two : container := Cn K1 [int 2] [] (Ptr 1 0).
Definition tm : mem Z := [Some (map Some [1; 2; 3]); Some (map Some [4; 5])].
Example two_ends : forall k, 2 <= k -> ~ valid tm (padd (Ptr 1 0) k).
Proof.
  intros k Hk. unfold valid. cbn [padd cell nth_error tm map]. destruct (Z.leb_spec 0 (0 + k)); [|congruence].
  intros H1. apply H1. apply nth_error_None. cbn [length]. lia.
Qed.
Example uncovered_ex : map cty [int 2] = ctypes three /\ in_box (dims three) (vals [int 2]) /\ ref tm two [int 2] = UB /\
  copy_if (fun _ => false) three two tm = UB /\ copy two three tm = Ok [Some (map Some [1; 2; 3]); Some (map Some [1; 2])].
Proof. split; [reflexivity|]. split; [by_check|]. split; [reflexivity|]. split; vm_compute; reflexivity. Qed.
(** With something behind, neighbouring memory is read instead. *)
Example neighbour_ex : copy three (Cn K1 [int 2] [] (Ptr 1 0)) [Some (map Some [1; 2; 3]); Some (map Some [4; 5; 6])] =
  Ok [Some (map Some [4; 5; 6]); Some (map Some [4; 5; 6])].
Proof. vm_compute. reflexivity. Qed.
