(** Property C103: slices of views of more than 2^31 elements. *)
From Coq Require Import ZArith List Bool Lia.
From Verif Require Import Outcome CInt CIntFacts Spec SpecFacts ShapeSpec Shape ShapeFacts ShapeFacts2 EndRatio
  Memory MemFacts Container ContainerSpec ContainerFacts ContainerFacts2 ContainerFacts3 Algo AlgoSpec Slicer SlicerSpec SlicerFacts SlicerFacts2
  SlicerFacts3 LargeSpec LargeFacts LargeSliceSpec LargeSliceFacts LargeSliceFacts2.
Import ListNotations.
Open Scope Z_scope.

(** Four volumes of 65536 x 65536 x 8, the last extent of 64 bits. *)
Definition hs : shape := [int 4; int 65536; int 65536; CI I64 8].
Definition hv : container := Cn KGen hs [CI I64 34359738368; CI I64 524288; CI I64 8; int 1] (Ptr 0 0).
Definition cuts : list slc := [SAll; SSlice (Some (BInt (int 3))) (Some (int 2)) (Some (BInt (int 900))) None; SIdx (int 5); SAll].
(** One axis of 2^33 elements. *)
Definition lv : container := Cn K1 [CI I64 8589934592] [] (Ptr 0 0).

Lemma hs_large : large hs.
Proof.
  split; [unfold wfs, hs; apply Forall_cons; [|apply Forall_cons; [|apply Forall_cons; [|apply Forall_cons; [|apply Forall_nil]]]]; vm_compute; split; discriminate|].
  split; [unfold nonnegs; cbn; apply Forall_cons; [lia|apply Forall_cons; [lia|apply Forall_cons; [lia|apply Forall_cons; [lia|apply Forall_nil]]]]|].
  split; [vm_compute; discriminate|]. right. exists [int 4; int 65536; int 65536], (CI I64 8). split; [reflexivity|left; reflexivity].
Qed.
Lemma hv_large : large_layout hv.
Proof. split; [apply hs_large|]. split; [discriminate|]. exists false. vm_compute. reflexivity. Qed.
Lemma lv_large : large_layout lv.
Proof.
  split; [|split; [discriminate|exists false; vm_compute; reflexivity]].
  split; [apply Forall_cons; [vm_compute; split; discriminate|apply Forall_nil]|].
  split; [apply Forall_cons; [cbn; lia|apply Forall_nil]|]. split; [vm_compute; discriminate|]. left. reflexivity.
Qed.
Lemma cuts_hv : sliced hs cuts [0; 3; 5; 0] [4; 449; 1; 8] [1; 2; 1; 1].
Proof.
  split; [exists SAll; split; [left; reflexivity|intros i; discriminate]|].
  apply sliced_cons; [apply takes_all|unfold inside; cbn; lia|].
  apply sliced_cons; [|unfold inside; cbn; lia|].
  { change 449 with (ceil_div (900 - 3) 2). eapply (takes_range _ _ _ _ 3 900 2); [split; [vm_compute; split; discriminate|reflexivity]..| | |]; cbn; lia. }
  apply sliced_cons; [apply (takes_index _ (int 5)); vm_compute; split; discriminate|unfold inside; cbn; lia|].
  apply sliced_cons; [apply takes_all|unfold inside; cbn; lia|]. apply sliced_nil.
Qed.
Lemma cuts_step : on_last step64 cuts.
Proof. exists [SAll; SSlice (Some (BInt (int 3))) (Some (int 2)) (Some (BInt (int 900))) None; SIdx (int 5)], SAll. split; [reflexivity|exact Logic.I]. Qed.
Lemma cuts_count : countable cuts [4; 449; 1; 8].
Proof. right. left. vm_compute. discriminate. Qed.
Lemma cuts_check : checkable hs cuts.
Proof.
  split.
  - apply Forall_cons; [|apply Forall_cons; [|apply Forall_cons; [|apply Forall_cons; [|apply Forall_nil]]]];
      (split; [vm_compute; split; discriminate|vm_compute; split; discriminate]).
  - apply Forall_cons; [exact Logic.I|]. apply Forall_cons; [reflexivity|]. apply Forall_cons; [reflexivity|]. apply Forall_cons; [exact Logic.I|apply Forall_nil].
Qed.

(** On an axis of any 64-bit extent a forward slicer selects the indexes it means. *)
Theorem large_axis_range : forall n b s e bz ez sz, wfc n -> 0 <= cval n -> bound_is n b 0 bz -> bound_is n e (cval n) ez -> step_is s sz ->
  0 <= bz <= ez -> ez <= cval n -> 0 < sz ->
  exists co ck, reindex1 n (SSlice b s e None) = Ok co /\ reshape1 n (SSlice b s e None) = Ok ck /\ wfc co /\ wfc ck /\
    selects (cval co) (cval ck) sz (fun x => bz <= x < ez /\ (sz | x - bz)).
Proof.
  intros n b s e bz ez sz Wn Bn Hb He Hs R1 R2 Ps.
  destruct (takes_wide n (SSlice b s e None) bz (ceil_div (ez - bz) sz) sz Wn Bn) as (co & ck & E1 & V1 & W1 & _ & E2 & V2 & W2 & _);
    [apply takes_range with (ez := ez); assumption|exact Ps|].
  exists co, ck. rewrite V1, V2. repeat (split; [assumption|]). apply selects_forward; lia.
Qed.
Print Assumptions large_axis_range.
Theorem large_axis_slicer : forall n sl o k s, wfc n -> 0 <= cval n -> takes n sl o k s -> 0 < s ->
  exists co ck, reindex1 n sl = Ok co /\ cval co = o /\ reshape1 n sl = Ok ck /\ cval ck = k.
Proof.
  intros n sl o k s Wn Bn H P. destruct (takes_wide n sl o k s Wn Bn H P) as (co & ck & A & B & _ & _ & C & E & _).
  exists co, ck. auto.
Qed.
Print Assumptions large_axis_slicer.
Example large_axis_ex :
  reindex1 (CI U64 18446744073709551615) (SSlice (Some (BInt (int 7))) (Some (CI U64 9223372036854775808)) None None) = Ok (int 7) /\
  reshape1 (CI U64 18446744073709551615) (SSlice (Some (BInt (int 7))) (Some (CI U64 9223372036854775808)) None None) = Ok (CI U64 2) /\
  reshape1 (CI I64 8589934592) (drop_last (int 6)) = Ok (CI I64 8589934586).
Proof. split; [vm_compute; reflexivity|]. split; vm_compute; reflexivity. Qed.

(** A slicer moving backward selects the indexes it means too, when the bound it starts from can be incremented in its type. *)
Theorem large_axis_backward : forall n b s bz, wfc n -> bound_is n b (cval n - 1) bz -> wfc s -> cval s < 0 ->
  in_ty (promote (cty s)) (- cval s) -> 0 <= bz < cval n -> room b bz ->
  exists co ck, reindex1 n (SSlice b (Some s) None None) = Ok co /\ reshape1 n (SSlice b (Some s) None None) = Ok ck /\ wfc co /\ wfc ck /\
    selects (cval co) (cval ck) (cval s) (fun x => 0 <= x <= bz /\ (cval s | bz - x)).
Proof.
  intros n b s bz Wn Hb Ws Sn Is Rb Rm.
  destruct (backward_wide n b s bz Wn Hb Ws Sn Is Rb Rm) as (co & ck & E1 & V1 & W1 & E2 & V2 & W2).
  exists co, ck. rewrite V1, V2. do 4 (split; [assumption|]). apply selects_backward; lia.
Qed.
Print Assumptions large_axis_backward.
Example large_axis_backward_ex :
  reindex1 (CI U64 18446744073709551615) (every (int (-3))) = Ok (CI U64 18446744073709551614) /\
  reshape1 (CI U64 18446744073709551615) (every (int (-3))) = Ok (CI U64 6148914691236517205) /\
  reshape1 (CI I64 8589934592) (SSlice (Some (BInt (CI I64 4294967296))) (Some (int (-4))) None None) = Ok (CI I64 1073741825).
Proof. split; [vm_compute; reflexivity|]. split; vm_compute; reflexivity. Qed.
(** It cannot always be: from the greatest [int] the extent is undefined, from the greatest [unsigned] the slice is empty,
    though the axis has the element it starts from. *)
Theorem large_backward_bound_refuted : exists n, wfc n /\ 4294967295 < cval n /\
  reshape1 n (SSlice (Some (BInt (int 2147483647))) (Some (int (-1))) None None) = UB /\
  reshape1 n (SSlice (Some (BInt (CI U32 4294967295))) (Some (int (-1))) None None) = Ok (CI I64 0).
Proof.
  exists (CI I64 8589934592). split; [vm_compute; split; discriminate|]. split; [reflexivity|]. split; vm_compute; reflexivity.
Qed.
Print Assumptions large_backward_bound_refuted.

(** A view of one axis taken backward by a step of type std::int64_t: each access, of an index of any type, is to the element
    meant. *)
Theorem large_backward_view : forall st0 n b s bz data, large [n] -> bound_is n b (cval n - 1) bz -> wfc s -> cty s = I64 ->
  -9223372036854775807 <= cval s < 0 -> 0 <= bz < cval n -> room b bz ->
  exists v, slice_container false false st0 (Cn K1 [n] [] data) [SSlice b (Some s) None None] = Ok v /\
    dims v = [ceil_div (bz + 1) (- cval s)] /\
    forall j, wfc j -> 0 <= cval j < ceil_div (bz + 1) (- cval s) ->
      in_box [cval n] [bz + cval j * cval s] /\ address v [j] = Ok (padd data (bz + cval j * cval s)).
Proof. exact backward_view. Qed.
Print Assumptions large_backward_view.
Example large_backward_view_ex :
  large [CI I64 8589934592] /\ bound_is (CI I64 8589934592) None 8589934591 8589934591 /\ room None 8589934591 /\
  (v <- slice_container false false false lv [every (CI I64 (-2))] ;; address v [CI U64 4294967295]) = Ok (Ptr 0 1) /\
  (v <- slice_container false false false lv [every (CI I64 (-2))] ;; address v [int 2000000000]) = Ok (Ptr 0 4589934591).
Proof.
  split; [apply lv_large|]. split; [reflexivity|]. split; [exact Logic.I|]. split; lazy; reflexivity.
Qed.
(** With a step of type [int] it is not: an index of type [unsigned] designates an element 2^32 places further, and one of type
    [int] can overflow. *)
Theorem large_backward_int_step_refuted : exists v, slice_container false false false lv [every (int (-2))] = Ok v /\
  dims v = [4294967296] /\ address v [CI U32 1] = Ok (Ptr 0 (8589934591 - 2 + 4294967296)) /\ address v [int 2000000000] = UB.
Proof. eexists. split; [lazy; reflexivity|]. split; [lazy; reflexivity|]. split; lazy; reflexivity. Qed.
Print Assumptions large_backward_int_step_refuted.

(** Slicing a large view, one forward slicer per axis: the slice designates the elements selected. *)
Theorem large_slice : forall dbg ss0 st0 c sls os ks ss, large_layout c -> sliced (c_shape c) sls os ks ss ->
  Forall (fun s => 0 < s) ss -> on_last step64 sls -> countable sls ks -> (dbg = true -> checkable (c_shape c) sls) ->
  exists v, slice_container dbg ss0 st0 c sls = Ok v /\ dims v = ks /\ strides_z v = times ss (strides_of (dims c)) /\
    c_data v = padd (c_data c) (rank (dims c) os) /\ (forall tys, addressable v tys) /\
    forall js, in_box ks js -> in_box (dims c) (place os ss js) /\ elem v js = elem c (place os ss js).
Proof. exact slice_large_l. Qed.
Print Assumptions large_slice.
Example large_slice_ex : large_layout hv /\ sliced hs cuts [0; 3; 5; 0] [4; 449; 1; 8] [1; 2; 1; 1] /\ on_last step64 cuts /\
  countable cuts [4; 449; 1; 8] /\ checkable hs cuts /\
  slice_container true false false hv cuts =
    Ok (Cn KGen [int 4; int 449; int 1; CI I64 8] [CI I64 34359738368; CI I64 1048576; CI I64 8; int 1] (Ptr 0 1572904)).
Proof.
  split; [apply hv_large|]. split; [apply cuts_hv|]. split; [apply cuts_step|]. split; [apply cuts_count|]. split; [apply cuts_check|].
  vm_compute. reflexivity.
Qed.

(** An access to the slice is the access to the view at the index selected, of whatever integer types the indexes are. *)
Theorem large_slice_access : forall T (m : mem T) dbg ss0 st0 c sls os ks ss, large_layout c -> sliced (c_shape c) sls os ks ss ->
  Forall (fun s => 0 < s) ss -> on_last step64 sls -> countable sls ks -> (dbg = true -> checkable (c_shape c) sls) ->
  exists v, slice_container dbg ss0 st0 c sls = Ok v /\ dims v = ks /\
    forall js is_, coord_of v js -> coord_of c is_ -> vals is_ = place os ss (vals js) ->
      get m v js = get m c is_ /\ forall x, put m v js x = put m c is_ x.
Proof. intros T. exact slice_large_access. Qed.
Print Assumptions large_slice_access.
Example large_slice_access_ex :
  address (Cn KGen [int 4; int 449; int 1; CI I64 8] [CI I64 34359738368; CI I64 1048576; CI I64 8; int 1] (Ptr 0 1572904))
    [int 3; int 448; int 0; int 7] = address hv [int 3; int 899; int 5; int 7] /\
  address hv [int 3; int 899; int 5; int 7] = Ok (Ptr 0 103550550063).
Proof. split; vm_compute; reflexivity. Qed.

(** So the algorithms can be used on it. *)
Theorem large_slice_usable : forall T (m : mem T) dbg ss0 st0 c sls os ks ss, large_layout c -> sliced (c_shape c) sls os ks ss ->
  Forall (fun s => 0 < s) ss -> on_last step64 sls -> countable sls ks -> (dbg = true -> checkable (c_shape c) sls) ->
  exists v, slice_container dbg ss0 st0 c sls = Ok v /\ dims v = ks /\
    (forall js, in_box ks js -> elem v js = elem c (place os ss js)) /\
    (readable m c -> can_read m v v) /\ (writable m c -> can_write m v v).
Proof. intros T. exact slice_large_usable. Qed.
Print Assumptions large_slice_usable.
Theorem large_slice_fill : forall T (m : mem T) dbg ss0 st0 c sls os ks ss (x : T), large_layout c -> sliced (c_shape c) sls os ks ss ->
  Forall (fun s => 0 < s) ss -> on_last step64 sls -> countable sls ks -> (dbg = true -> checkable (c_shape c) sls) -> writable m c ->
  exists v m', slice_container dbg ss0 st0 c sls = Ok v /\ fill v x m = Ok m' /\
    forall is_, in_box (dims c) is_ ->
      ((exists js, in_box ks js /\ is_ = place os ss js) -> value m' c is_ x) /\
      ((forall js, in_box ks js -> is_ <> place os ss js) -> cell m' (elem c is_) = cell m (elem c is_)).
Proof. intros T. exact slice_large_fill. Qed.
Print Assumptions large_slice_fill.
(** The views sliced exist: a block of 2^37 elements. *)
Example large_slice_memory_ex : exists m : mem Z, writable m hv.
Proof.
  exists [Some (repeat (Some 7) (Z.to_nat 137438953472))]. intros is_ B. rewrite large_elem by (first [apply hv_large|exact B]).
  pose proof (rank_range _ _ B) as R. change (prod (dims hv)) with 137438953472 in R. cbn [hv c_data padd].
  unfold valid, cell. rewrite Z.add_0_l. cbn [nth_error]. destruct (Z.leb_spec 0 (rank (dims hv) is_)); [|lia].
  intros E. apply nth_error_None in E. rewrite repeat_length in E. lia.
Qed.

(** In a debug build an axis of 2^31 to 2^32 elements cannot be taken whole by the joker: the first index is an [int], and
    the extent is converted to it. *)
Theorem large_joker_abort : forall ss0 st0 c m, large_layout c -> In m (c_shape c) -> 2147483648 <= cval m <= 4294967296 ->
  slice_container true ss0 st0 c (repeat SAll (length (c_shape c))) = Abort.
Proof. exact jokers_abort_l. Qed.
Print Assumptions large_joker_abort.
Example large_joker_ex : slice_container true false false (Cn K1 [CI I64 4294967296] [] (Ptr 0 0)) [SAll] = Abort /\
  slice_container false false false (Cn K1 [CI I64 4294967296] [] (Ptr 0 0)) [SAll] =
    Ok (Cn K1S [CI I64 4294967296] [int 1] (Ptr 0 0)) /\
  slice_container true false false (Cn K1 [CI I64 4294967296] [] (Ptr 0 0)) [drop_first (CI I64 5)] =
    Ok (Cn K1S [CI I64 4294967291] [int 1] (Ptr 0 5)).
Proof. split; [vm_compute; reflexivity|]. split; vm_compute; reflexivity. Qed.

(** A step of type [int] on the last axis: the access of [int] index is computed in [int]. *)
Theorem large_int_step : forall b st0 n s i, large [n] -> 0 < s <= 2147483647 -> 0 <= i <= 2147483647 -> s * i < cval n -> 2147483647 < s * i ->
  exists v, slice_container false false st0 (Cn K1 [n] [] b) [every (int s)] = Ok v /\ coord_of v [int i] /\ index v [int i] = UB.
Proof. exact int_step_l. Qed.
Print Assumptions large_int_step.
Example large_int_step_ex :
  (v <- slice_container false false false lv [every (int 65536)] ;; index v [int 40000]) = UB /\
  (v <- slice_container false false false lv [every (CI I64 65536)] ;; index v [int 40000]) = Ok (CI I64 2621440000).
Proof. split; vm_compute; reflexivity. Qed.

(** An index on the last axis, whose extent alone was of 64 bits: the strides that the shape of the slice would have by itself
    are computed although they are not used, in [int]. *)
Theorem large_last_index_refuted : exists c sls os ks ss, large_layout c /\ sliced (c_shape c) sls os ks ss /\
  Forall (fun s => 0 < s) ss /\ on_last step64 sls /\ slice_container false false false c sls = UB.
Proof.
  exists hv, [SAll; SAll; SAll; SIdx (int 3)], [0; 0; 0; 3], [4; 65536; 65536; 1], [1; 1; 1; 1].
  split; [apply hv_large|]. split.
  - split; [exists SAll; split; [left; reflexivity|intros i; discriminate]|].
    do 3 (apply sliced_cons; [apply takes_all|unfold inside; cbn; lia|]).
    apply sliced_cons; [apply (takes_index _ (int 3)); vm_compute; split; discriminate|unfold inside; cbn; lia|]. apply sliced_nil.
  - split; [repeat (apply Forall_cons; [lia|]); apply Forall_nil|].
    split; [exists [SAll; SAll; SAll], (SIdx (int 3)); split; [reflexivity|exact Logic.I]|]. vm_compute. reflexivity.
Qed.
Print Assumptions large_last_index_refuted.

(** Fewer slicers than axes: the first extents are multiplied in their own types. *)
Theorem large_fewer_slicers_refuted : exists c, large_layout c /\ slice_container false false false c [SAll; SAll] = UB /\
  exists v, slice_container false false false c [SAll; SAll; SAll] = Ok v.
Proof. exists hv. split; [apply hv_large|]. split; [vm_compute; reflexivity|]. eexists. vm_compute. reflexivity. Qed.
Print Assumptions large_fewer_slicers_refuted.
