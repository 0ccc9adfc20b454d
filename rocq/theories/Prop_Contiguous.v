(** Property C47, continued: which slices have elements that follow each other in memory, for any number of slicers. *)
From Coq Require Import ZArith List Bool Lia.
From Verif Require Import Outcome CInt CIntFacts Spec SpecFacts ShapeSpec Shape ShapeFacts EndRatio Memory Container ContainerSpec ContainerFacts ContainerFacts3
  Slicer SlicerSpec SlicerFacts3 ContiguousSpec ContiguousFacts.
Import ListNotations.
Open Scope Z_scope.

(** The elements of a slice that is not empty are contiguous exactly when every axis on which more than one index is selected has
    step 1 and is followed by axes selected completely. *)
Theorem contiguous_slices : forall dbg a b c sls cs os ks ss tys, default_layout c -> c_data c <> Null ->
  (1 <= length sls <= length (c_shape c))%nat -> compress (length sls) (c_shape c) = Ok cs ->
  sliced cs sls os ks ss -> (dbg = true -> Forall wide sls) -> directed c sls ss tys -> Forall (fun k => 0 < k) ks ->
  exists v, slice_container dbg a b c sls = Ok v /\ dims v = ks /\ (contiguous v <-> solid (vals cs) ks ss).
Proof. exact contiguous_l. Qed.
Print Assumptions contiguous_slices.

(** Such are single indexes, then one slicer of step 1, then jokers. *)
Theorem contiguous_pattern : forall dbg a b c pre sl n cs os ks ss, default_layout c -> c_data c <> Null ->
  let sls := pre ++ sl :: repeat SAll n in Forall single pre -> unit_slicer sl = true ->
  (length sls <= length (c_shape c))%nat -> compress (length sls) (c_shape c) = Ok cs ->
  sliced cs sls os ks ss -> (dbg = true -> Forall wide sls) -> Forall (fun s => 0 < s) ss -> Forall (fun k => 0 < k) ks ->
  exists v, slice_container dbg a b c sls = Ok v /\ dims v = ks /\ contiguous v.
Proof. exact pattern_l. Qed.
Print Assumptions contiguous_pattern.

Definition box : container := Cn KGen [int 2; int 3; int 4] [int 12; int 4; int 1] (Ptr 0 0).
Lemma box_default : default_layout box. Proof. by_default false. Qed.
(** The middle of the three axes: 2 of 3 indexes, of one plane or of both. *)
Definition plane : list slc := [SIdx (int 1); SSlice (Some (BInt (int 1))) None None None; SAll].
Definition planes : list slc := [SAll; SSlice (Some (BInt (int 1))) None None None; SAll].
Lemma range_ex : takes (int 3) (SSlice (Some (BInt (int 1))) None None None) 1 2 1.
Proof. apply (takes_range (int 3) (Some (BInt (int 1))) None None 1 3 1); cbn; unfold wfc, in_ty; cbn; repeat split; lia. Qed.
Example contiguous_hold : default_layout box /\ c_data box <> Null /\ compress 3 (c_shape box) = Ok (c_shape box) /\
  sliced (c_shape box) plane [1; 1; 0] [1; 2; 4] [1; 1; 1] /\ Forall wide plane /\ directed box plane [1; 1; 1] [] /\
  solid [2; 3; 4] [1; 2; 4] [1; 1; 1] /\ preserve_reachability plane = false /\
  sliced (c_shape box) planes [0; 1; 0] [2; 2; 4] [1; 1; 1] /\ ~ solid [2; 3; 4] [2; 2; 4] [1; 1; 1].
Proof.
  split; [apply box_default|]. split; [discriminate|]. split; [reflexivity|]. split.
  { split; [exists SAll; split; [right; right; left; reflexivity|discriminate]|].
    apply sliced_cons; [apply (takes_index (int 2) (int 1)); unfold wfc, in_ty; cbn; lia|unfold inside; cbn; lia|].
    apply sliced_cons; [exact range_ex|unfold inside; cbn; lia|].
    apply sliced_cons; [apply (takes_all (int 4))|unfold inside; cbn; lia|apply sliced_nil]. }
  split; [repeat constructor|]. split; [left; repeat constructor|]. split; [cbn; repeat split; auto|]. split; [reflexivity|]. split.
  - split; [exists SAll; split; [left; reflexivity|discriminate]|].
    apply sliced_cons; [apply (takes_all (int 2))|unfold inside; cbn; lia|]. apply sliced_cons; [exact range_ex|unfold inside; cbn; lia|].
    apply sliced_cons; [apply (takes_all (int 4))|unfold inside; cbn; lia|apply sliced_nil].
  - cbn. intros ([E|[_ E]] & _); discriminate E.
Qed.
Example planes_ex : exists v w, slice_container true false false box plane = Ok v /\ elem v [0; 1; 3] = padd (c_data v) 7 /\ rank [1; 2; 4] [0; 1; 3] = 7 /\
  slice_container true false false box planes = Ok w /\ elem w [1; 0; 0] = padd (c_data w) 12 /\ rank [2; 2; 4] [1; 0; 0] = 8.
Proof. do 2 eexists. split; [vm_compute; reflexivity|]. split; [reflexivity|]. split; [reflexivity|]. split; [vm_compute; reflexivity|]. split; reflexivity. Qed.

(** The trait answers false for every number of slicers divisible by 3, whatever they are. *)
Theorem reachability_of_three : forall k sls, length sls = (3 * k)%nat -> preserve_reachability sls = false.
Proof. exact multiple_of_three_l. Qed.
Print Assumptions reachability_of_three.

(** It answers true for three jokers and an index, and if the last two extents are 2 or more the elements are not contiguous. *)
Theorem reachability_of_four_unsound : forall dbg a b c n0 n1 n2 n3 i, default_layout c -> c_data c <> Null -> c_shape c = [n0; n1; n2; n3] ->
  Forall (fun n => 0 < n) (dims c) -> 2 <= cval n2 -> 2 <= cval n3 -> wfc i -> 0 <= cval i < cval n3 -> (dbg = true -> promote (cty i) = cty i) ->
  preserve_reachability [SAll; SAll; SAll; SIdx i] = true /\
  exists v, slice_container dbg a b c [SAll; SAll; SAll; SIdx i] = Ok v /\ dims v = [cval n0; cval n1; cval n2; 1] /\ ~ contiguous v.
Proof. exact four_l. Qed.
Print Assumptions reachability_of_four_unsound.
Definition box4 : container := Cn KGen [int 1; int 1; int 2; int 2] [int 4; int 4; int 2; int 1] (Ptr 0 0).
Example four_hold : default_layout box4 /\ c_data box4 <> Null /\ Forall (fun n => 0 < n) (dims box4) /\ wfc (int 0).
Proof. split; [by_default false|]. split; [discriminate|]. split; [cbn; repeat constructor|unfold wfc, in_ty; cbn; lia]. Qed.
