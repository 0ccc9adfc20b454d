(** Properties C44 - C47: slicers, slices of containers, slices of slices, reachability. *)
From Coq Require Import ZArith List Bool Lia.
From Verif Require Import Outcome CInt CIntFacts Spec SpecFacts ShapeSpec Shape ShapeFacts ShapeFacts2 EndRatio EndRatioSpec
  Memory MemFacts Container ContainerSpec ContainerFacts ContainerFacts2 ContainerFacts3 Slicer SlicerSpec
  SlicerFacts SlicerFacts2 SlicerFacts3 SlicerFacts4.
Import ListNotations.
Open Scope Z_scope.

(** C44: what a slicer selects on an axis of size n. *)
Theorem slice_range_selects : forall n b s e bz ez sz, axis n ->
  bound_is n b 0 bz -> bound_is n e (cval n) ez -> step_is s sz -> 0 <= bz <= ez -> ez <= cval n -> 0 < sz ->
  exists co ck, reindex1 n (SSlice b s e None) = Ok co /\ reshape1 n (SSlice b s e None) = Ok ck /\
    cval ck = ceil_div (ez - bz) sz /\
    selects (cval co) (cval ck) sz (fun x => bz <= x < ez /\ (sz | x - bz)).
Proof. exact slice_range_l. Qed.
Print Assumptions slice_range_selects.

Theorem slice_backward_selects : forall n b s bz sz, axis n ->
  bound_is n b (cval n - 1) bz -> step_is s sz -> 0 <= bz < cval n -> - 2147483647 <= sz < 0 ->
  exists co ck, reindex1 n (SSlice b s None None) = Ok co /\ reshape1 n (SSlice b s None None) = Ok ck /\
    selects (cval co) (cval ck) sz (fun x => 0 <= x <= bz /\ (sz | bz - x)).
Proof. exact slice_backward_l. Qed.
Print Assumptions slice_backward_selects.

Theorem slice_length_selects : forall n b s l bz lz sz, axis n ->
  bound_is n b 0 bz -> bound_is n (Some l) 0 lz -> step_is s sz -> 0 <= bz -> 0 <= lz -> 0 < sz ->
  exists co ck, reindex1 n (SSlice b s None (Some l)) = Ok co /\ reshape1 n (SSlice b s None (Some l)) = Ok ck /\
    selects (cval co) (cval ck) sz (fun x => bz <= x < bz + lz * sz /\ (sz | x - bz)).
Proof. exact slice_length_l. Qed.
Print Assumptions slice_length_selects.

Theorem joker_selects_all : forall n, axis n ->
  exists co ck, reindex1 n SAll = Ok co /\ reshape1 n SAll = Ok ck /\
    selects (cval co) (cval ck) 1 (fun x => 0 <= x < cval n).
Proof. exact joker_l. Qed.
Print Assumptions joker_selects_all.

Theorem index_selects_one : forall n i, axis n -> wfc i ->
  exists co ck, reindex1 n (SIdx i) = Ok co /\ reshape1 n (SIdx i) = Ok ck /\
    selects (cval co) (cval ck) 1 (fun x => x = cval i).
Proof. exact index_l. Qed.
Print Assumptions index_selects_one.

Theorem end_index_selects_one : forall n k, axis n -> sgn_ty k -> 1 <= cval k <= cval n ->
  exists co ck, reindex1 n (SEnd (ESub EEnd k)) = Ok co /\ reshape1 n (SEnd (ESub EEnd k)) = Ok ck /\
    selects (cval co) (cval ck) 1 (fun x => x = cval n - cval k).
Proof. exact last_index_l. Qed.
Print Assumptions end_index_selects_one.

Theorem between_selects : forall n b e ez, axis n -> wfc b -> bound_is n (Some e) 0 ez ->
  0 <= cval b <= ez -> ez <= cval n ->
  exists co ck, reindex1 n (between b e) = Ok co /\ reshape1 n (between b e) = Ok ck /\
    selects (cval co) (cval ck) 1 (fun x => cval b <= x < ez).
Proof. exact between_l. Qed.
Print Assumptions between_selects.

Theorem first_selects : forall n k, axis n -> wfc k -> 0 <= cval k ->
  exists co ck, reindex1 n (first k) = Ok co /\ reshape1 n (first k) = Ok ck /\
    selects (cval co) (cval ck) 1 (fun x => 0 <= x < cval k).
Proof. exact first_l. Qed.
Print Assumptions first_selects.

Theorem drop_first_selects : forall n k, axis n -> wfc k -> 0 <= cval k <= cval n ->
  exists co ck, reindex1 n (drop_first k) = Ok co /\ reshape1 n (drop_first k) = Ok ck /\
    selects (cval co) (cval ck) 1 (fun x => cval k <= x < cval n).
Proof. exact drop_first_l. Qed.
Print Assumptions drop_first_selects.

Theorem last_selects : forall n k, axis n -> sgn_ty k -> 0 <= cval k <= cval n ->
  exists co ck, reindex1 n (last k) = Ok co /\ reshape1 n (last k) = Ok ck /\
    selects (cval co) (cval ck) 1 (fun x => cval n - cval k <= x < cval n).
Proof. exact last_l. Qed.
Print Assumptions last_selects.

Theorem drop_last_selects : forall n k, axis n -> sgn_ty k -> 0 <= cval k <= cval n ->
  exists co ck, reindex1 n (drop_last k) = Ok co /\ reshape1 n (drop_last k) = Ok ck /\
    selects (cval co) (cval ck) 1 (fun x => 0 <= x < cval n - cval k).
Proof. exact drop_last_l. Qed.
Print Assumptions drop_last_selects.

Theorem every_selects : forall n s, axis n -> wfc s -> 0 < cval s ->
  exists co ck, reindex1 n (every s) = Ok co /\ reshape1 n (every s) = Ok ck /\
    selects (cval co) (cval ck) (cval s) (fun x => 0 <= x < cval n /\ (cval s | x)).
Proof. exact every_l. Qed.
Print Assumptions every_selects.

Theorem every_backward_selects : forall n s, axis n -> 0 < cval n -> wfc s -> - 2147483647 <= cval s < 0 ->
  exists co ck, reindex1 n (every s) = Ok co /\ reshape1 n (every s) = Ok ck /\
    selects (cval co) (cval ck) (cval s) (fun x => 0 <= x < cval n /\ (cval s | cval n - 1 - x)).
Proof. exact every_backward_l. Qed.
Print Assumptions every_backward_selects.

Example ex_axis : axis (CI U16 10).
Proof. split; [unfold wfc, in_ty; simpl; lia|simpl; lia]. Qed.
Example ex_bounds : bound_is (CI U16 10) (Some (BInt (CI I8 1))) 0 1 /\
  bound_is (CI U16 10) (Some (BEnd (ESub EEnd (int 1)))) 10 9 /\ step_is (Some (CI I64 3)) 3 /\ sgn_ty (CI U8 3).
Proof.
  split; [split; [unfold wfc, in_ty; simpl; lia|reflexivity]|].
  split; [eexists; split; [vm_compute; reflexivity|reflexivity]|].
  split; [split; [unfold wfc, in_ty; simpl; lia|reflexivity]|].
  split; [unfold wfc, in_ty; simpl; lia|reflexivity].
Qed.
(** slice(from=1, by=3, to=end-1) on 10 elements: 1, 4, 7. *)
Example slice_range_ex :
  let s := SSlice (Some (BInt (CI I8 1))) (Some (CI I64 3)) (Some (BEnd (ESub EEnd (int 1)))) None in
  (reindex1 (CI U16 10) s, reshape1 (CI U16 10) s) = (Ok (CI I8 1), Ok (CI I64 3)).
Proof. vm_compute. reflexivity. Qed.
(** from 8 by -3: 8, 5, 2; every(-4): 9, 5, 1. *)
Example slice_backward_ex :
  (reshape1 (int 10) (SSlice (Some (BInt (int 8))) (Some (int (-3))) None None),
   reindex1 (int 10) (every (int (-4))), reshape1 (int 10) (every (int (-4))))
  = (Ok (int 3), Ok (int 9), Ok (int 3)).
Proof. vm_compute. reflexivity. Qed.
Example named_ex :
  (reindex1 (CI U64 10) (last (int 3)), reshape1 (CI U64 10) (last (int 3)),
   reshape1 (CI U64 10) (drop_last (CI U8 3)), reshape1 (CI U64 10) (drop_first (int 3)), reshape1 (int 10) (every (int 3)))
  = (Ok (CI U64 7), Ok (int 3), Ok (CI U64 7), Ok (CI U64 7), Ok (int 4)).
Proof. vm_compute. reflexivity. Qed.

(** Outside: at(i) selects nothing, a slice given by `to` and `length` starts at 0, a negative step ignores
    `to`, a zero step divides by zero, descending bounds give a negative extent, first is not limited to
    the axis. *)
Theorem at_selects_nothing : forall n i, axis n -> wfc i -> 0 <= cval i < cval n ->
  exists co ck, reindex1 n (at_ i) = Ok co /\ cval co = cval i /\ reshape1 n (at_ i) = Ok ck /\ cval ck = 0.
Proof. exact at_empty_l. Qed.
Print Assumptions at_selects_nothing.

Theorem to_length_starts_at_zero : forall n s e l sz, axis n -> step_is s sz -> 0 < sz ->
  exists co, reindex1 n (SSlice None s (Some e) (Some l)) = Ok co /\ cval co = 0.
Proof. exact to_length_l. Qed.
Print Assumptions to_length_starts_at_zero.

Theorem backward_ignores_to : forall n b s e bz ez sz, axis n ->
  bound_is n (Some b) 0 bz -> bound_is n e (cval n) ez -> step_is s sz -> 0 <= bz < cval n -> - 2147483647 <= sz < 0 ->
  exists co ck, reindex1 n (SSlice (Some b) s e None) = Ok co /\ reshape1 n (SSlice (Some b) s e None) = Ok ck /\
    selects (cval co) (cval ck) sz (fun x => 0 <= x <= bz /\ (sz | bz - x)).
Proof. exact slice_backward_to_l. Qed.
Print Assumptions backward_ignores_to.

Theorem zero_step_divides_by_zero : forall n b s e bz ez, axis n ->
  bound_is n b 0 bz -> bound_is n e (cval n) ez -> step_is (Some s) 0 -> 0 <= bz < ez -> ez <= cval n ->
  reshape1 n (SSlice b (Some s) e None) = UB.
Proof. exact zero_step_l. Qed.
Print Assumptions zero_step_divides_by_zero.

Theorem descending_bounds_negative : forall n b e, axis n -> wfc b -> wfc e ->
  is_signed (cty b) = true -> is_signed (cty e) = true -> 0 <= cval e < cval b -> cval b <= 2147483647 ->
  exists ck, reshape1 n (between b (BInt e)) = Ok ck /\ cval ck = cval e - cval b /\ cval ck < 0.
Proof.
  intros n b e A Wb We Sb Se R1 R2.
  apply (descending_l n (BInt b) (BInt e) (cval b) (cval e) A (conj Wb eq_refl) (conj We eq_refl) R1 R2);
    intros c E; injection E as <-; assumption.
Qed.
Print Assumptions descending_bounds_negative.

Theorem slicers_outside_refuted :
  (exists n k, axis n /\ cval k = 12 /\ cval n = 10 /\ reshape1 n (first k) = Ok k) /\
  reshape1 (int 10) (between (CI U32 5) (BInt (CI U32 3))) = Ok (CI U32 4294967294) /\
  (reindex1 (int 10) (SSlice None None (Some (BInt (int 8))) (Some (BInt (int 3)))),
   reshape1 (int 10) (SSlice None None (Some (BInt (int 8))) (Some (BInt (int 3))))) = (Ok (int 0), Ok (int 3)) /\
  reshape1 (int 10) (SSlice (Some (BInt (int 8))) (Some (int (-1))) (Some (BInt (int 4))) None) = Ok (int 9).
Proof.
  split; [exists (int 10), (int 12); split; [split; [unfold wfc, in_ty; simpl; lia|simpl; lia]|vm_compute; auto]|].
  vm_compute. auto.
Qed.
Print Assumptions slicers_outside_refuted.

Example outside_ex : wfc (int 4) /\ step_is (Some (CI U8 0)) 0 /\
  reshape1 (int 10) (at_ (int 4)) = Ok (int 0) /\ reshape1 (int 10) (every (int 0)) = UB /\
  reshape1 (int 10) (between (int 5) (BInt (int 3))) = Ok (int (-2)).
Proof.
  split; [unfold wfc, in_ty; simpl; lia|]. split; [split; [unfold wfc, in_ty; simpl; lia|reflexivity]|].
  vm_compute. auto.
Qed.

(** C45: slices of a container in the default layout. *)
Theorem slice_of_default_layout : forall dbg a b c sls cs os ks ss tys, default_layout c ->
  (1 <= length sls <= length (c_shape c))%nat -> compress (length sls) (c_shape c) = Ok cs ->
  sliced cs sls os ks ss -> (dbg = true -> Forall wide sls) -> directed c sls ss tys ->
  exists v, slice_container dbg a b c sls = Ok v /\ dims v = ks /\ legal (c_shape v) /\ addressable v tys /\
    c_data v = padd (c_data c) (rank (vals cs) os) /\ strides_z v = times ss (strides_of (vals cs)) /\
    (forall js, in_box ks js -> in_box (vals cs) (place os ss js) /\
       elem v js = padd (c_data c) (rank (vals cs) (place os ss js))) /\
    (forall js is_, in_box ks js -> in_box (dims c) is_ ->
       merge_coord (length (c_shape c) - length sls + 1) (dims c) is_ = place os ss js -> elem v js = elem c is_).
Proof. exact slice_default_l. Qed.
Print Assumptions slice_of_default_layout.

Theorem slice_reads_and_writes_the_source : forall (T : Type) (m : mem T) dbg a b c sls cs os ks ss, default_layout c ->
  (1 <= length sls <= length (c_shape c))%nat -> compress (length sls) (c_shape c) = Ok cs ->
  sliced cs sls os ks ss -> (dbg = true -> Forall wide sls) ->
  (forall tys, Forall (fun t => is_signed t = true) tys -> directed c sls ss tys) ->
  exists v, slice_container dbg a b c sls = Ok v /\ dims v = ks /\ legal (c_shape v) /\
    (forall js, in_box ks js -> exists is_, in_box (dims c) is_ /\
       merge_coord (length (c_shape c) - length sls + 1) (dims c) is_ = place os ss js) /\
    (forall js is_, coord_of v js -> coord_of c is_ -> directed c sls ss (map cty js) ->
       merge_coord (length (c_shape c) - length sls + 1) (dims c) (vals is_) = place os ss (vals js) ->
       get m v js = get m c is_ /\ forall x, put m v js x = put m c is_ x).
Proof. exact @slice_default_get_l. Qed.
Print Assumptions slice_reads_and_writes_the_source.

Theorem drop_everything_aborts : forall a b c n k, default_layout c -> c_shape c = [n] -> wfc k ->
  promote (cty k) = cty k -> cval n <= cval k -> slice_container true a b c [drop_first k] = Abort.
Proof. intros a b. exact (drop_all_l a b). Qed.
Print Assumptions drop_everything_aborts.

Theorem slicing_empty_container_aborts : forall a b c n, default_layout c -> prod (dims c) = 0 ->
  (1 <= n <= length (c_shape c))%nat -> slice_container true a b c (repeat SAll n) = Abort.
Proof. intros a b. exact (empty_slice_l a b). Qed.
Print Assumptions slicing_empty_container_aborts.

(** Calls that are no slices: integers alone, which name an element, and indexes known at compile time, which
    shapes take and containers do not. *)
Theorem indexes_alone_are_no_slice : forall dbg a b c is_, slice_container dbg a b c (map SIdx is_) = UB.
Proof. exact indexes_alone_l. Qed.
Print Assumptions indexes_alone_are_no_slice.

Theorem constant_index_is_no_slice : forall dbg a b c sls i v, In (SConst i) sls -> slice_container dbg a b c sls <> Ok v.
Proof. exact constant_index_l. Qed.
Print Assumptions constant_index_is_no_slice.

Theorem shapes_take_constants : forall n i, axis n -> slice_shape [n] [SConst i] = Ok [int 1].
Proof. intros n i _. reflexivity. Qed.
Print Assumptions shapes_take_constants.

(** A table of 4 x 6 elements 0..23; rows 0, 2 by columns 1..4. *)
Definition sc : container := Cn K2 [int 4; int 6] [] (Ptr 0 0).
Definition sm : mem Z := [Some (map Some (zrange 0 24))].
Definition sls1 : list slc := [every (int 2); between (int 1) (BEnd (ESub EEnd (int 1)))].
Example sc_default : default_layout sc. Proof. by_default false. Qed.
Example sc_sliced : sliced (c_shape sc) sls1 [0; 1] [2; 4] [2; 1].
Proof.
  split; [by_slicer|]. constructor; [|unfold inside; simpl; lia|constructor; [|unfold inside; simpl; lia|constructor]].
  - refine (takes_range _ None (Some (int 2)) None 0 4 2 _ _ _ _ _ _); try reflexivity; try (simpl; lia).
    split; [apply wfc_int; unfold max31; lia|reflexivity].
  - refine (takes_range _ (Some (BInt (int 1))) None (Some (BEnd (ESub EEnd (int 1)))) 1 5 1 _ _ _ _ _ _);
      try reflexivity; try (simpl; lia).
    + split; [apply wfc_int; unfold max31; lia|reflexivity].
    + eexists. split; [vm_compute; reflexivity|reflexivity].
Qed.
Example sc_wide : Forall wide sls1. Proof. repeat constructor. Qed.
Example sc_directed : forall tys, directed sc sls1 [2; 1] tys.
Proof. intros tys. left. repeat constructor. Qed.
Example slice_ex : exists v, slice_container true false false sc sls1 = Ok v /\ dims v = [2; 4] /\
  (get sm v [int 0; int 0], get sm v [int 1; int 3]) = (Ok 1, Ok 16) /\
  get sm sc [int 2; int 4] = Ok 16.
Proof. eexists. split; [vm_compute; reflexivity|]. vm_compute. auto. Qed.
(** One slicer on two axes: the axes are merged. *)
Example slice_flat_ex : exists v, slice_container true false false sc [SSlice (Some (BInt (int 3))) (Some (int 5)) None None] = Ok v /\
  dims v = [5] /\ (get sm v [int 0], get sm v [int 4]) = (Ok 3, Ok 23).
Proof. eexists. split; [vm_compute; reflexivity|]. vm_compute. auto. Qed.
(** Backwards. *)
Example slice_back_ex : exists v, slice_container true false false sc [every (int (-1)); every (int (-2))] = Ok v /\
  dims v = [4; 3] /\ (get sm v [int 0; int 0], get sm v [int 3; int 2]) = (Ok 23, Ok 1).
Proof. eexists. split; [vm_compute; reflexivity|]. vm_compute. auto. Qed.
Example sc_empty : default_layout (Cn K2 [int 0; int 6] [] (Ptr 0 0)). Proof. by_default false. Qed.
Example sc_line : default_layout (Cn K1 [int 6] [] (Ptr 0 0)). Proof. by_default false. Qed.

(** Limits: a step much longer than the axis overflows; begin in a type too narrow for the extent fails
    the assertion; unsigned 32-bit extents break backward slices. *)
Theorem slice_limits_refuted :
  slice_container false false false sc [every (int 1073741824); SAll] = UB /\
  (let c := Cn K1 [int 300] [] (Ptr 0 0) in
   slice_container true false false c [drop_first (CI I8 100)] = Abort /\
   exists v, slice_container false false false c [drop_first (CI I8 100)] = Ok v /\ dims v = [200]) /\
  (exists v, slice_container true false false (Cn K2 [CI U32 2; CI U32 3] [] (Ptr 0 0)) [every (int (-1)); SAll] = Ok v /\
     dims v = [2; 3] /\ address v [int 1; int 0] = Ok (Ptr 0 4294967296)).
Proof.
  split; [vm_compute; reflexivity|]. split.
  - split; [vm_compute; reflexivity|]. eexists. split; vm_compute; reflexivity.
  - eexists. split; [vm_compute; reflexivity|]. split; vm_compute; reflexivity.
Qed.
Print Assumptions slice_limits_refuted.

(** C46: slices of containers with any strides. *)
Theorem slice_of_strided : forall dbg a b c sls os ks ss p off, wf_container c -> legal (c_shape c) -> c_shape c <> [] ->
  sliced (c_shape c) sls os ks ss -> (dbg = true -> Forall wide sls) ->
  (nonnegs (strides_z c) /\ Forall (fun s => 0 < s) ss \/
   (exists st, get_stride c = Ok st /\ signeds st) /\
   Forall (fun sl => match sl with SSlice _ (Some s) _ _ => is_signed (cty s) = true | _ => True end) sls) ->
  Forall (fun x => Z.abs x <= 2147483647) (times ss (strides_z c)) ->
  c_data c = Ptr p off ->
  exists v, slice_container dbg a b c sls = Ok v /\ dims v = ks /\ legal (c_shape v) /\
    strides_z v = times ss (strides_z c) /\ c_data v = padd (c_data c) (rank (dims c) os) /\
    forall js, in_box ks js ->
      (elem v js = elem c (place os ss js) <-> rank (dims c) os = dot (strides_z c) os).
Proof. exact slice_strided_l. Qed.
Print Assumptions slice_of_strided.

Theorem slice_of_slice : forall d1 d2 a1 b1 a2 b2 c sls1 sls2 os1 ks1 ss1 os2 ks2 ss2 v1 p off,
  default_layout c -> sliced (c_shape c) sls1 os1 ks1 ss1 -> (d1 = true -> Forall wide sls1) ->
  Forall (fun s => 0 < s) ss1 -> slice_container d1 a1 b1 c sls1 = Ok v1 ->
  sliced (c_shape v1) sls2 os2 ks2 ss2 -> (d2 = true -> Forall wide sls2) -> Forall (fun s => 0 < s) ss2 ->
  Forall (fun x => Z.abs x <= 2147483647) (times ss2 (strides_z v1)) ->
  c_data c = Ptr p off ->
  exists v2, slice_container d2 a2 b2 v1 sls2 = Ok v2 /\ dims v2 = ks2 /\
    forall js, in_box ks2 js ->
      (elem v2 js = elem c (place os1 ss1 (place os2 ss2 js)) <->
       rank ks1 os2 = dot (times ss1 (strides_of (dims c))) os2).
Proof. exact slice_slice_l. Qed.
Print Assumptions slice_of_slice.

Theorem slice_of_slice_at_origin : forall d1 d2 a1 b1 a2 b2 c sls1 sls2 os1 ks1 ss1 ks2 ss2 v1 p off,
  default_layout c -> sliced (c_shape c) sls1 os1 ks1 ss1 -> (d1 = true -> Forall wide sls1) ->
  Forall (fun s => 0 < s) ss1 -> slice_container d1 a1 b1 c sls1 = Ok v1 ->
  sliced (c_shape v1) sls2 (repeat 0 (length sls2)) ks2 ss2 -> (d2 = true -> Forall wide sls2) ->
  Forall (fun s => 0 < s) ss2 -> Forall (fun x => Z.abs x <= 2147483647) (times ss2 (strides_z v1)) ->
  c_data c = Ptr p off ->
  exists v2, slice_container d2 a2 b2 v1 sls2 = Ok v2 /\ dims v2 = ks2 /\
    forall js, in_box ks2 js ->
      elem v2 js = elem c (place os1 ss1 (place (repeat 0 (length sls2)) ss2 js)).
Proof. exact slice_slice_origin_l. Qed.
Print Assumptions slice_of_slice_at_origin.

Theorem slice_of_contiguous_slice : forall d1 d2 a1 b1 a2 b2 c sls1 sls2 os1 ks1 ss1 os2 ks2 ss2 v1 p off,
  default_layout c -> sliced (c_shape c) sls1 os1 ks1 ss1 -> (d1 = true -> Forall wide sls1) ->
  Forall (fun s => 0 < s) ss1 -> slice_container d1 a1 b1 c sls1 = Ok v1 ->
  (forall k, (k < length ks1)%nat -> nth k (strides_z v1) 0 = prod (skipn (S k) ks1)) ->
  sliced (c_shape v1) sls2 os2 ks2 ss2 -> (d2 = true -> Forall wide sls2) -> Forall (fun s => 0 < s) ss2 ->
  Forall (fun x => Z.abs x <= 2147483647) (times ss2 (strides_z v1)) ->
  c_data c = Ptr p off ->
  exists v2, slice_container d2 a2 b2 v1 sls2 = Ok v2 /\ dims v2 = ks2 /\
    forall js, in_box ks2 js -> elem v2 js = elem c (place os1 ss1 (place os2 ss2 js)).
Proof. exact slice_slice_default_l. Qed.
Print Assumptions slice_of_contiguous_slice.

(** The first four columns, then rows from the second one on: the second slice starts at element 4, in the
    wrong row, instead of 6. *)
Definition cols : list slc := [SAll; first (int 4)].
Definition rows : list slc := [drop_first (int 1); SAll].
Example cols_sliced : sliced (c_shape sc) cols [0; 0] [4; 4] [1; 1].
Proof.
  split; [by_slicer|]. constructor; [constructor|unfold inside; simpl; lia|constructor; [|unfold inside; simpl; lia|constructor]].
  refine (takes_length _ None None (BInt (int 4)) 0 4 1 _ _ _ _ _ _); try reflexivity; try lia.
  split; [apply wfc_int; unfold max31; lia|reflexivity].
Qed.
Example rows_sliced : exists v1, slice_container true false false sc cols = Ok v1 /\
  sliced (c_shape v1) rows [1; 0] [3; 4] [1; 1] /\
  Forall (fun x => Z.abs x <= 2147483647) (times [1; 1] (strides_z v1)).
Proof.
  eexists. split; [vm_compute; reflexivity|]. split.
  - split; [by_slicer|]. constructor; [|unfold inside; simpl; lia|constructor; [constructor|unfold inside; simpl; lia|constructor]].
    refine (takes_range _ (Some (BInt (int 1))) None None 1 4 1 _ _ _ _ _ _); try reflexivity; try (simpl; lia).
    split; [apply wfc_int; unfold max31; lia|reflexivity].
  - change (Forall (fun x => Z.abs x <= 2147483647) [6; 1]). repeat constructor; lia.
Qed.
(** Rows of rows: contiguous. *)
Example contiguous_slice : exists v1, slice_container true false false sc rows = Ok v1 /\
  (forall k, (k < 2)%nat -> nth k (strides_z v1) 0 = prod (skipn (S k) [3; 6])) /\
  sliced (c_shape v1) rows [1; 0] [2; 6] [1; 1] /\
  exists v2, slice_container true false false v1 rows = Ok v2 /\ get sm v2 [int 0; int 0] = get sm sc [int 2; int 0].
Proof.
  eexists. split; [vm_compute; reflexivity|]. split.
  - intros [|[|k]] H; [reflexivity|reflexivity|lia].
  - split.
    + split; [by_slicer|]. constructor; [|unfold inside; simpl; lia|constructor; [constructor|unfold inside; simpl; lia|constructor]].
      refine (takes_range _ (Some (BInt (int 1))) None None 1 3 1 _ _ _ _ _ _); try reflexivity; try (simpl; lia).
      split; [apply wfc_int; unfold max31; lia|reflexivity].
    + eexists. split; [vm_compute; reflexivity|]. vm_compute. reflexivity.
Qed.

Theorem slice_of_slice_refuted :
  exists v1 v2 v3, slice_container true false false sc cols = Ok v1 /\
    slice_container true false false v1 rows = Ok v2 /\ dims v2 = [3; 4] /\
    get sm v2 [int 0; int 0] = Ok 4 /\ get sm v1 [int 1; int 0] = Ok 6 /\
    (** one slicer for the two axes of the slice: consecutive elements of the source *)
    slice_container true false false v1 [SAll] = Ok v3 /\ dims v3 = [16] /\ get sm v3 [int 4] = Ok 4.
Proof.
  do 3 eexists. split; [vm_compute; reflexivity|]. split; [vm_compute; reflexivity|]. split; [vm_compute; reflexivity|].
  split; [vm_compute; reflexivity|]. split; [vm_compute; reflexivity|]. split; [vm_compute; reflexivity|].
  split; vm_compute; reflexivity.
Qed.
Print Assumptions slice_of_slice_refuted.

(** C47 *)
Theorem preserve_reachability_sound_1_2 : forall dbg a b c sls cs os ks ss, default_layout c ->
  (length sls = 1 \/ length sls = 2)%nat -> (length sls <= length (c_shape c))%nat ->
  compress (length sls) (c_shape c) = Ok cs -> sliced cs sls os ks ss -> (dbg = true -> Forall wide sls) ->
  preserve_reachability sls = true ->
  exists v, slice_container dbg a b c sls = Ok v /\ dims v = ks /\
    forall js, in_box ks js -> elem v js = padd (c_data v) (rank (dims v) js).
Proof. exact preserve_sound_l. Qed.
Print Assumptions preserve_reachability_sound_1_2.

Example preserve_ex : preserve_reachability rows = true /\ preserve_reachability cols = false /\
  preserve_reachability [SIdx (int 2); first (int 3)] = true /\ preserve_reachability sls1 = false.
Proof. vm_compute. auto. Qed.
Example rows_of_table : sliced (c_shape sc) rows [1; 0] [3; 6] [1; 1].
Proof.
  split; [by_slicer|]. constructor; [|unfold inside; simpl; lia|constructor; [constructor|unfold inside; simpl; lia|constructor]].
  refine (takes_range _ (Some (BInt (int 1))) None None 1 4 1 _ _ _ _ _ _); try reflexivity; try (simpl; lia).
  split; [apply wfc_int; unfold max31; lia|reflexivity].
Qed.

(** Three jokers: everything is kept, yet the answer is no. Three intervals and a joker: the answer is yes
    and there are holes between the elements. *)
Definition sc3 : container := Cn KGen [int 2; int 2; int 2] [int 4; int 2; int 1] (Ptr 0 0).
Definition sc4 : container := Cn KGen [int 3; int 3; int 3; int 3] [int 27; int 9; int 3; int 1] (Ptr 0 0).
Definition hole : list slc := [between (int 0) (BInt (int 2)); between (int 0) (BInt (int 2)); between (int 0) (BInt (int 2)); SAll].
Theorem preserve_reachability_refuted :
  (default_layout sc3 /\ preserve_reachability [SAll; SAll; SAll] = false /\
   exists v, slice_container true false false sc3 [SAll; SAll; SAll] = Ok v /\
     forall js, in_box (dims v) js -> elem v js = padd (c_data v) (rank (dims v) js)) /\
  (default_layout sc4 /\ preserve_reachability hole = true /\
   exists v, slice_container true false false sc4 hole = Ok v /\ dims v = [2; 2; 2; 3] /\
     elem v [0; 1; 0; 0] = padd (c_data v) 9 /\ rank (dims v) [0; 1; 0; 0] = 6).
Proof.
  split.
  - split; [by_default false|]. split; [reflexivity|]. eexists. split; [vm_compute; reflexivity|].
    intros js B. apply box_In in B. vm_compute in B.
    repeat (destruct B as [<-|B]; [vm_compute; reflexivity|]). contradiction.
  - split; [by_default false|]. split; [reflexivity|]. eexists. split; [vm_compute; reflexivity|]. vm_compute. auto.
Qed.
Print Assumptions preserve_reachability_refuted.
