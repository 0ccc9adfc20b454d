(** C82: what is known at compile time about a slice. *)
From Coq Require Import ZArith String List Bool Lia.
From Verif Require Import Outcome CInt CIntFacts Spec Shape ShapeSpec ShapeFacts ShapeFacts2 Prefilled PrefilledSpec PrefilledFacts
  NamedSize NamedSizeSpec NamedStride NamedStrideSpec EndRatio EndRatioSpec Memory Container ContainerSpec ContainerFacts
  ContainerFacts2 ContainerFacts3 Slicer SlicerSpec SlicerFacts2 SlicerFacts3 SliceText Names NamesSpec SliceKinds SliceKindsSpec SliceKindsFacts SliceKindsFacts2.
Import ListNotations.
Open Scope Z_scope.

(** A slice: its shape and its strides, which of their axes are known, and no axis keeps its name. *)
Theorem slice_kinds : forall dbg c p r sls cs os ks ss tys, described c p r -> default_layout c ->
  (1 <= length sls <= length (c_shape c))%nat -> compress (length sls) (c_shape c) = Ok cs ->
  sliced cs (map plain_slc sls) os ks ss -> (dbg = true -> Forall wide (map plain_slc sls)) ->
  directed c (map plain_slc sls) ss tys -> runtime_starts p sls ->
  exists v q s, pslice_container dbg c p r sls = Ok (v, q, s) /\ described v q s /\ dims v = ks /\
    (c_kind v = KStatic <-> Forall known (pdesc q) /\ Forall known (pdesc s)) /\
    slice_container dbg (is_fully_static (pdesc q)) (is_fully_static (pdesc s)) c (map plain_slc sls) = Ok v /\
    map aid (pdesc q) = unnamed_axes (length sls) /\ map aid (pdesc s) = unnamed_axes (length sls) /\
    (forall k d sl, nth_error (pdesc q) k = Some d -> nth_error sls k = Some sl ->
      (known d -> extent_constant (Forall known (grouped (length sls) k (pdesc p))) sl) /\
      (~ stepped_range sl -> extent_constant (Forall known (grouped (length sls) k (pdesc p))) sl -> known d)) /\
    (forall k d e sl, nth_error (pdesc s) k = Some d -> nth_error (pdesc r) (length (pdesc r) - length sls + k) = Some e ->
      nth_error sls k = Some sl -> (known d <-> stride_constant (known e) sl)).
Proof. exact pslice_container_l. Qed.
Print Assumptions slice_kinds.

(** A container known at compile time, sliced by constants without steps: known at compile time. *)
Theorem static_slice_static : forall dbg c p r sls cs os ks ss tys, described c p r -> default_layout c ->
  (1 <= length sls <= length (c_shape c))%nat -> compress (length sls) (c_shape c) = Ok cs ->
  sliced cs (map plain_slc sls) os ks ss -> (dbg = true -> Forall wide (map plain_slc sls)) ->
  directed c (map plain_slc sls) ss tys -> runtime_starts p sls ->
  forall v q s, pslice_container dbg c p r sls = Ok (v, q, s) ->
  Forall known (pdesc p) -> Forall known (pdesc r) -> Forall (fun sl => constant_slicer sl /\ ~ stepped_range sl) sls ->
  c_kind v = KStatic.
Proof. exact static_slice_l. Qed.
Print Assumptions static_slice_static.

(** A single slicer with a run-time number is enough to lose it. *)
Theorem runtime_slice_dynamic : forall dbg c p r sls cs os ks ss tys, described c p r -> default_layout c ->
  (1 <= length sls <= length (c_shape c))%nat -> compress (length sls) (c_shape c) = Ok cs ->
  sliced cs (map plain_slc sls) os ks ss -> (dbg = true -> Forall wide (map plain_slc sls)) ->
  directed c (map plain_slc sls) ss tys -> runtime_starts p sls ->
  forall v q s sl, pslice_container dbg c p r sls = Ok (v, q, s) -> In sl sls -> ~ constant_slicer sl ->
  c_kind v <> KStatic.
Proof. exact dynamic_slice_l. Qed.
Print Assumptions runtime_slice_dynamic.

(** A container is not sliced from a constant on. *)
Theorem constant_start_rejected : forall dbg c p r sls k sl x, described c p r -> legal (c_shape c) ->
  (1 <= length sls <= length (c_shape c))%nat -> nth_error sls k = Some sl ->
  start_constant (Forall known (grouped (length sls) k (pdesc p))) sl -> pslice_container dbg c p r sls <> Ok x.
Proof. exact constant_start_rejected_l. Qed.
Print Assumptions constant_start_rejected.

Theorem starts_at_run_time : forall nk, ~ start_constant nk KAll /\
  (forall i, ~ start_constant nk (KIdx (Nm false i))) /\ (forall st en ln, ~ start_constant nk (KSl (Ts None st en ln))) /\
  (forall i st en ln, ~ start_constant nk (KSl (Ts (Some (TInt (Nm false i))) st en ln))).
Proof. exact starts_at_run_time_l. Qed.
Print Assumptions starts_at_run_time.

Theorem helpers_are_runtime : forall sl, helper sl -> ~ constant_slicer sl.
Proof. exact (fun sl H K => proj2 (helper_runtime True sl H) (proj1 K)). Qed.
Print Assumptions helpers_are_runtime.

(** and they select what the same slicers select elsewhere (C44). *)
Theorem helpers_plain : forall i n b, plain_slc (kat i) = at_ i /\ plain_slc (kevery i) = every i /\
  plain_slc (kfirst n) = first n /\ plain_slc (kdrop_first n) = drop_first n /\ plain_slc (klast n) = last n /\
  plain_slc (kdrop_last n) = drop_last n /\ plain_slc (kbetween i b) = between i (plain_bound b).
Proof. exact helper_plain_l. Qed.
Print Assumptions helpers_plain.

(** A range from the largest int, a constant, with a step: does not compile, wherever the range ends. *)
Theorem largest_bound_rejected : forall dbg p r st en q,
  pslice_shape dbg p (KSl (Ts (Some (TInt (Nm true (CI I32 2147483647)))) (Some st) en None) :: r) <> Ok q.
Proof. exact largest_bound_l. Qed.
Print Assumptions largest_bound_rejected.
(** At run time the same range of an axis of that size is empty. *)
Definition longest : prefilled :=
  {| pdesc := [{| aid := AIdx (-1); acont := CStatic (CI I32 2147483647) |}]; pstore := [] |}.
Example largest_ex : exists q,
  pslice_shape true longest [KSl (Ts (Some (TInt (Nm false (CI I32 2147483647)))) (Some (Nm true (CI U8 1))) None None)] = Ok q /\
  to_values q = Ok [int 0].
Proof. eexists. split; [vm_compute; reflexivity|reflexivity]. Qed.

Theorem index_and_end_are_constant : forall sl, (sl = KAll \/ (exists e, sl = KEnd e) \/ exists i, sl = KIdx i) ->
  constant_slicer sl /\ ~ stepped_range sl.
Proof. intros sl [->|[[e ->]|[i ->]]]; cbn; repeat split; auto. Qed.
Print Assumptions index_and_end_are_constant.

(** The names of the axes are lost, whatever the slicers. *)
Theorem slice_loses_names : forall dbg c p r sls cs os ks ss tys, described c p r -> default_layout c ->
  (1 <= length sls <= length (c_shape c))%nat -> compress (length sls) (c_shape c) = Ok cs ->
  sliced cs (map plain_slc sls) os ks ss -> (dbg = true -> Forall wide (map plain_slc sls)) ->
  directed c (map plain_slc sls) ss tys -> runtime_starts p sls ->
  forall v q s a, pslice_container dbg c p r sls = Ok (v, q, s) -> user_axis a ->
  pget_axis q a = UB /\ pget_axis s a = UB.
Proof. exact names_lost_l. Qed.
Print Assumptions slice_loses_names.

(** The unit stride of the last axis. *)
Theorem slice_unit_stride : forall dbg r st sls ws q sl, wfp r -> to_values r = Ok st -> Forall wfc st ->
  (1 <= length sls <= length st)%nat ->
  slice_stride (compress_stride (length sls) st) (map plain_slc sls) = Ok ws -> pslice_stride dbg r sls = Ok q ->
  nth_error sls (length sls - 1) = Some sl ->
  let step := match sl with KSl s => ts_step s | _ => None end in
  (step = None -> is_unit (pdesc q) = is_unit (pdesc r)) /\
  (forall k, step = Some k -> is_fixed k = false -> is_unit (pdesc q) = false) /\
  (forall k, step = Some k -> is_fixed k = true -> wfc (nint k) -> 0 <= cval (nint k) <= 2147483647 ->
     is_unit (pdesc r) = true -> (is_unit (pdesc q) = true <-> cval (nint k) = 1)).
Proof. exact unit_slice_l. Qed.
Print Assumptions slice_unit_stride.

(** Constant bounds with a constant step: the number of elements is a constant only when counting down from the first
    bound would give the same number. *)
Theorem stepped_constants : forall dbg p n b e s q, wfp p -> to_values p = Ok [n] -> legal [n] ->
  wfc b -> wfc e -> wfc s -> Forall (fun k => promote (cty k) = I32) [b; e; s] ->
  0 <= cval b <= cval e -> cval e <= cval n -> cval b < 2147483647 -> 0 < cval s ->
  pslice_shape dbg p [KSl (Ts (Some (TInt (Nm true b))) (Some (Nm true s)) (Some (TInt (Nm true e))) None)] = Ok q ->
  (Forall known (pdesc q) <-> ceil_div (cval e - cval b) (cval s) = ceil_div (cval b + 1) (cval s)).
Proof. exact stepped_constants_l. Qed.
Print Assumptions stepped_constants.

Definition cst (z : Z) : knum := Nm true (CI U8 z).
Definition line8 : prefilled := {| pdesc := [{| aid := AIdx (-1); acont := CStatic (CI U8 8) |}]; pstore := [] |}.
Theorem stepped_constants_refuted : exists q,
  pslice_shape true line8 [KSl (Ts (Some (TInt (cst 0))) (Some (cst 2)) (Some (TInt (cst 8))) None)] = Ok q /\
  to_values q = Ok [int 4] /\ ~ Forall known (pdesc q).
Proof.
  eexists. split; [vm_compute; reflexivity|]. split; [vm_compute; reflexivity|].
  intros F. inversion F as [|? ? [x X] _]. discriminate.
Qed.
Print Assumptions stepped_constants_refuted.

(** A table of 4 rows of 6 columns, all known; rows kept, all columns but the last. *)
Definition kd : prefilled := {| pdesc := [{| aid := AName "h"; acont := CStatic (CI U8 4) |};
  {| aid := AName "w"; acont := CStatic (CI U8 6) |}]; pstore := [] |}.
Definition kr : prefilled := {| pdesc := [{| aid := AName "h"; acont := CStatic (int 6) |};
  {| aid := AName "w"; acont := CStatic (int 1) |}]; pstore := [] |}.
Definition kc : container := Cn KStatic [CI U8 4; CI U8 6] [int 6; int 1] (Ptr 0 0).
Definition ksls : list kslc := [KAll; KSl (Ts None None (Some (TEnd (TESub TEEnd (cst 1)))) None)].
Definition krun : list kslc := [KAll; kdrop_last (int 1)].
Example kd_described : described kc kd kr.
Proof.
  split; [split; [reflexivity|constructor]|]. split; [reflexivity|]. split; [split; [reflexivity|constructor]|].
  split; [|reflexivity]. cbn. repeat constructor; cbv; discriminate.
Qed.
Example kc_default : default_layout kc. Proof. by_default true. Qed.
Example ksls_sliced : sliced [CI U8 4; CI U8 6] (map plain_slc ksls) [0; 0] [4; 5] [1; 1] /\
  sliced [CI U8 4; CI U8 6] (map plain_slc krun) [0; 0] [4; 5] [1; 1].
Proof.
  split; (split; [by_slicer|]; constructor; [constructor|unfold inside; simpl; lia|constructor; [|unfold inside; simpl; lia|constructor]]).
  - refine (takes_range _ None None (Some (BEnd (ESub EEnd (CI U8 1)))) 0 5 1 _ _ _ _ _ _); try reflexivity; try (simpl; lia).
    eexists. split; [vm_compute; reflexivity|reflexivity].
  - refine (takes_range _ None None (Some (BEnd (ESub EEnd (int 1)))) 0 5 1 _ _ _ _ _ _); try reflexivity; try (simpl; lia).
    eexists. split; [vm_compute; reflexivity|reflexivity].
Qed.
Example ksls_known : Forall known (pdesc kd) /\ Forall known (pdesc kr) /\ is_unit (pdesc kr) = true /\
  Forall wide (map plain_slc ksls) /\ (forall tys, directed kc (map plain_slc ksls) [1; 1] tys) /\
  Forall (fun sl => constant_slicer sl /\ ~ stepped_range sl) ksls.
Proof.
  split; [repeat constructor; eexists; reflexivity|]. split; [repeat constructor; eexists; reflexivity|].
  split; [reflexivity|]. split; [repeat constructor|]. split; [intros tys; left; repeat constructor|].
  constructor; [|constructor; [|constructor]]; split; [| | |]; cbn; repeat split; auto; intuition congruence.
Qed.
Example slice_kinds_ex : exists v q s w q' s', pslice_container true kc kd kr ksls = Ok (v, q, s) /\
  c_kind v = KStatic /\ dims v = [4; 5] /\ is_unit (pdesc s) = true /\
  pslice_container true kc kd kr krun = Ok (w, q', s') /\ c_kind w = K2S /\ dims w = [4; 5] /\ is_unit (pdesc s') = true /\
  user_axis (AName "w") /\ pget_axis kd (AName "w") = Ok (CI U8 6) /\ pget_axis q (AName "w") = UB.
Proof.
  do 6 eexists. split; [vm_compute; reflexivity|]. do 3 (split; [vm_compute; reflexivity|]).
  split; [vm_compute; reflexivity|]. do 3 (split; [vm_compute; reflexivity|]). split; [|split; reflexivity].
  try exact I; try (cbv; auto).
Qed.
Example ksls_starts : runtime_starts kd ksls /\ runtime_starts kd krun.
Proof. split; intros [|[|[|k]]] sl E; injection E as <- || discriminate E; cbn; tauto. Qed.
(** The last column: from end - 1 on, or from the constant 5, which does not compile; its shape alone does. *)
Definition klast_run : list kslc := [KAll; KEnd (TESub TEEnd (Nm false (int 1)))].
Definition klast_const : list kslc := [KAll; KEnd (TESub TEEnd (cst 1))].
Example constant_start_ex : exists w q s q',
  start_constant (Forall known (grouped 2 1 (pdesc kd))) (KEnd (TESub TEEnd (cst 1))) /\
  runtime_starts kd klast_run /\ pslice_container true kc kd kr klast_run = Ok (w, q, s) /\ dims w = [4; 1] /\
  pslice_container true kc kd kr klast_const = UB /\ pslice_container true kc kd kr [KAll; KIdx (cst 5)] = UB /\
  pslice_shape true kd klast_const = Ok q' /\ to_values q' = Ok [CI U8 4; int 1].
Proof.
  do 4 eexists. split; [cbn; split; [repeat constructor; eexists; reflexivity|cbn; auto]|].
  split; [intros [|[|[|k]]] sl E; injection E as <- || discriminate E; cbn; intuition discriminate|].
  split; [vm_compute; reflexivity|]. split; [vm_compute; reflexivity|]. split; [vm_compute; reflexivity|].
  split; [vm_compute; reflexivity|]. split; [vm_compute; reflexivity|]. vm_compute. reflexivity.
Qed.
(** 2 and 4, the positions of [2,5[ counted by 2: their number is a constant. *)
Example stepped_ex : exists q,
  pslice_shape true line8 [KSl (Ts (Some (TInt (cst 2))) (Some (cst 2)) (Some (TInt (cst 5))) None)] = Ok q /\
  to_values q = Ok [int 2] /\ is_fully_static (pdesc q) = true /\
  ceil_div (5 - 2) 2 = ceil_div (2 + 1) 2.
Proof. eexists. split; [vm_compute; reflexivity|]. vm_compute. auto. Qed.
Example line8_ok : wfp line8 /\ to_values line8 = Ok [CI U8 8] /\ legal [CI U8 8].
Proof. split; [split; [reflexivity|constructor]|]. split; [reflexivity|by_check]. Qed.
