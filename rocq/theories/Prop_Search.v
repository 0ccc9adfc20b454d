(** Property C43: bisection algorithms. *)
From Coq Require Import ZArith List Bool Lia.
From Verif Require Import Outcome CInt CIntFacts Spec SpecFacts ShapeSpec Shape ShapeFacts ShapeFacts2
  Memory MemFacts Container ContainerSpec ContainerFacts ContainerFacts2 ContainerFacts3 AlgoSpec
  Search SearchSpec SearchFacts.
Import ListNotations.
Open Scope Z_scope.

Theorem lower_bound_first_not_less : forall (T : Type) dbg (less : T -> T -> bool) c x m,
  searchable m c -> strict_weak_order less -> sorted less m c ->
  exists r, lower_bound dbg less c x m = Ok r /\ first_at m c (fun v => less v x = false) r.
Proof. exact @lower_bound_l. Qed.
Print Assumptions lower_bound_first_not_less.

Theorem upper_bound_first_greater : forall (T : Type) dbg (less : T -> T -> bool) c x m,
  searchable m c -> strict_weak_order less -> sorted less m c ->
  exists r, upper_bound dbg less c x m = Ok r /\ first_at m c (fun v => less x v = true) r.
Proof. exact @upper_bound_l. Qed.
Print Assumptions upper_bound_first_greater.

Theorem binary_search_finds_equivalent : forall (T : Type) dbg (less : T -> T -> bool) c x m,
  searchable m c -> strict_weak_order less -> sorted less m c ->
  exists b, binary_search dbg less c x m = Ok b /\
    (b = true <-> exists is_ v, in_box (dims c) is_ /\ value m c is_ v /\ less v x = false /\ less x v = false).
Proof. exact @binary_search_l. Qed.
Print Assumptions binary_search_finds_equivalent.

(** Sorted or not: termination (the loop never runs out of its numel() steps), no access out of range. *)
Theorem searches_safe_on_any_contents : forall (T : Type) dbg (less : T -> T -> bool) c x m, searchable m c ->
  (exists r, lower_bound dbg less c x m = Ok r) /\ (exists r, upper_bound dbg less c x m = Ok r) /\
  (exists b, binary_search dbg less c x m = Ok b).
Proof. exact @search_safe_l. Qed.
Print Assumptions searches_safe_on_any_contents.

(** A sorted 2x3 table with repeated values, and its last two columns through strides. *)
Definition sc : container := Cn K2 [int 2; int 3] [] (Ptr 0 0).
Definition sv : container := Cn K2S [int 2; int 2] [CI I32 3; int 1] (Ptr 0 1).
Definition sm : mem Z := [Some (map Some [1; 3; 3; 3; 5; 8])].
Example ltb_order : strict_weak_order Z.ltb.
Proof.
  split; [intros; apply Z.ltb_irrefl|]. split; intros x y z; rewrite ?Z.ltb_lt, ?Z.ltb_ge; lia.
Qed.
Example sc_searchable : searchable sm sc.
Proof.
  split; [by_check|]. split; [discriminate|]. split; [apply default_addressable; by_default false|by_box].
Qed.
Example sv_searchable : searchable sm sv.
Proof.
  split; [by_check|]. split; [discriminate|]. split; [|by_box]. split; [|split].
  - split; [by_check|]. split; [by_check|]. split; [|reflexivity].
    eexists. split; [reflexivity|]. split; [by_check|reflexivity].
  - left. by_check.
  - left. intros is_ B; apply box_In in B; vm_compute in B.
    repeat (destruct B as [<-|B]; [vm_compute; discriminate|]); contradiction.
Qed.
Ltac by_sorted :=
  let a := fresh "a" in let b := fresh "b" in let A := fresh "A" in let B := fresh "B" in
  let L := fresh "L" in let Hx := fresh "Hx" in let Hy := fresh "Hy" in
  intros a b ? ? A B L Hx Hy;
  match type of A with in_box ?ns _ => apply (rank_lex ns a b A B) in L end;
  apply box_In in A; apply box_In in B; vm_compute in A, B;
  repeat (destruct A as [<-|A];
    [repeat (destruct B as [<-|B];
      [vm_compute in L; vm_compute in Hx; vm_compute in Hy;
       first [discriminate L | injection Hx as <-; injection Hy as <-; reflexivity]|]); contradiction|]);
  contradiction.
Example sc_sorted : sorted Z.ltb sm sc. Proof. by_sorted. Qed.
Example sv_sorted : sorted Z.ltb sm sv. Proof. by_sorted. Qed.
Example search_ex :
  (lower_bound true Z.ltb sc 3 sm, upper_bound true Z.ltb sc 3 sm, lower_bound true Z.ltb sc 9 sm,
   upper_bound true Z.ltb sv 5 sm, binary_search true Z.ltb sc 5 sm, binary_search true Z.ltb sc 4 sm)
  = (Ok (Some [int 0; int 1]), Ok (Some [int 1; int 1]), Ok None, Ok (Some [int 1; int 1]), Ok true, Ok false).
Proof. vm_compute. reflexivity. Qed.
(** An unsorted table and an empty one. *)
Example search_unsorted_ex : lower_bound true Z.ltb sc 4 [Some (map Some [9; 1; 7; 2; 0; 3])] = Ok None.
Proof. vm_compute. reflexivity. Qed.
Example search_empty_ex : (lower_bound true Z.ltb (Cn K1 [int 0] [] Null) 4 sm, upper_bound true Z.ltb (Cn K1 [int 0] [] Null) 4 sm,
                           binary_search true Z.ltb (Cn K1 [int 0] [] Null) 4 sm) = (Ok None, Ok None, Ok false).
Proof. vm_compute. reflexivity. Qed.
