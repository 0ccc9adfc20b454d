(** Property C43, continued: bisection on containers that are only partitioned, or in no particular order. *)
From Coq Require Import ZArith List Bool Lia.
From Verif Require Import Outcome CInt CIntFacts Spec SpecFacts ShapeSpec Shape ShapeFacts ShapeFacts2
  Memory MemFacts Container ContainerSpec ContainerFacts ContainerFacts2 ContainerFacts3 AlgoSpec
  Search SearchSpec SearchFacts SearchMoreSpec SearchMoreFacts Prop_Search.
Import ListNotations.
Open Scope Z_scope.

(** Partitioned containers are enough, with any callable. *)
Theorem lower_bound_partitioned : forall (T : Type) dbg (func : T -> T -> bool) c x m, searchable m c ->
  (forall a b y z, in_box (dims c) a -> in_box (dims c) b -> lex a b -> value m c a y -> value m c b z ->
     func z x = true -> func y x = true) ->
  exists r, lower_bound dbg func c x m = Ok r /\ first_at m c (fun v => func v x = false) r.
Proof. exact @lower_partitioned_l. Qed.
Print Assumptions lower_bound_partitioned.
Theorem upper_bound_partitioned : forall (T : Type) dbg (func : T -> T -> bool) c x m, searchable m c ->
  (forall a b y z, in_box (dims c) a -> in_box (dims c) b -> lex a b -> value m c a y -> value m c b z ->
     func x y = true -> func x z = true) ->
  exists r, upper_bound dbg func c x m = Ok r /\ first_at m c (fun v => func x v = true) r.
Proof. exact @upper_partitioned_l. Qed.
Print Assumptions upper_bound_partitioned.

(** Whatever the contents: an element that does not satisfy the condition after one that does. *)
Theorem bounds_are_boundaries : forall (T : Type) dbg (func : T -> T -> bool) c x m, searchable m c ->
  (exists r, lower_bound dbg func c x m = Ok r /\ boundary (fun e => func e x) m c r) /\
  (exists r, upper_bound dbg func c x m = Ok r /\ boundary (fun e => negb (func x e)) m c r).
Proof. exact (fun T dbg func c x m S => conj (@lower_boundary_l T dbg func c x m S) (@upper_boundary_l T dbg func c x m S)). Qed.
Print Assumptions bounds_are_boundaries.

(** binary_search never answers true without an equivalent element, whatever the contents. *)
Theorem binary_search_sound : forall (T : Type) dbg (func : T -> T -> bool) c x m, searchable m c -> binary_search dbg func c x m = Ok true ->
  exists is_ v, in_box (dims c) is_ /\ value m c is_ v /\ func v x = false /\ func x v = false.
Proof. exact @search_sound_l. Qed.
Print Assumptions binary_search_sound.

(** The converse needs the order: 7 is in the container and not found. *)
Definition unordered : mem Z := [Some (map Some [9; 1; 7; 2; 0; 3])].
Theorem binary_search_unsorted_refuted : exists c (m : mem Z) is_, searchable m c /\ in_box (dims c) is_ /\ value m c is_ 7 /\
  binary_search true Z.ltb c 7 m = Ok false.
Proof.
  exists sc, unordered, [0; 2]. split; [|split; [by_check|split; [reflexivity|vm_compute; reflexivity]]].
  split; [by_check|]. split; [discriminate|]. split; [apply default_addressable; by_default false|by_box].
Qed.
Print Assumptions binary_search_unsorted_refuted.

(** Compared by their halves, these are partitioned with respect to 4, though not sorted. *)
Definition halves (a b : Z) : bool := a / 2 <? b / 2.
Definition parted : mem Z := [Some (map Some [3; 0; 1; 5; 4; 9])].
Example parted_searchable : searchable parted sc.
Proof. split; [by_check|]. split; [discriminate|]. split; [apply default_addressable; by_default false|by_box]. Qed.
Example parted_ex : lower_bound true halves sc 4 parted = Ok (Some [int 1; int 0]) /\ upper_bound true halves sc 4 parted = Ok (Some [int 1; int 2]) /\
  binary_search true halves sc 4 parted = Ok true.
Proof. split; [vm_compute; reflexivity|]. split; vm_compute; reflexivity. Qed.
Example parted_hyp : forall a b y z, in_box (dims sc) a -> in_box (dims sc) b -> lex a b -> value parted sc a y -> value parted sc b z ->
  halves z 4 = true -> halves y 4 = true.
Proof.
  intros a b y z A B L Hy Hz. apply (rank_lex (dims sc) a b A B) in L.
  apply box_In in A, B; vm_compute in A, B.
  repeat (destruct A as [<-|A]; [repeat (destruct B as [<-|B]; [vm_compute in L; vm_compute in Hy, Hz; injection Hy as <-; injection Hz as <-; vm_compute; congruence|]); contradiction|]); contradiction.
Qed.
