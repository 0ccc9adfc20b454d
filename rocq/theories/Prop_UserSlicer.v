(** Property C98: slicers of types of the user. *)
From Coq Require Import ZArith List Bool Lia.
From Verif Require Import Outcome CInt CIntFacts Spec SpecFacts ShapeSpec Shape ShapeFacts ShapeFacts2 EndRatio EndRatioSpec
  Memory MemFacts Container ContainerSpec ContainerFacts ContainerFacts3 Slicer SlicerSpec SlicerFacts3 SlicerFacts4 UserSlicer UserSlicerSpec UserSlicerFacts.
Import ListNotations.
Open Scope Z_scope.

(** A slice is made of the elements that the answers name, whatever mixture of slicers is given. *)
Theorem user_slice_selects : forall T (m : mem T) dbg ss0 st0 c sls cs st os ns ss, default_layout c ->
  (1 <= length sls <= length (c_shape c))%nat -> compress (length sls) (c_shape c) = Ok cs -> get_stride c = Ok st ->
  cut cs (compress_stride (length sls) st) sls os ns ss -> some_xslicer sls -> (dbg = true -> all_wide cs sls) ->
  posprod ns <= 2147483647 ->
  exists v, xslice_container dbg ss0 st0 c sls = Ok v /\ dims v = ns /\
    (forall js, in_box ns js -> exists is_, in_box (dims c) is_ /\
       merge_coord (length (c_shape c) - length sls + 1) (dims c) is_ = place os ss js) /\
    (forall js is_, coord_of v js -> coord_of c is_ ->
       merge_coord (length (c_shape c) - length sls + 1) (dims c) (vals is_) = place os ss (vals js) ->
       get m v js = get m c is_ /\ forall x, put m v js x = put m c is_ x).
Proof. intros T. exact xslice_get_l. Qed.
Print Assumptions user_slice_selects.

(** The slice is a container like others: the properties of C23-C28 hold of it. *)
Theorem user_slice_addressable : forall dbg ss0 st0 c sls cs st os ns ss tys, default_layout c ->
  (1 <= length sls <= length (c_shape c))%nat -> compress (length sls) (c_shape c) = Ok cs -> get_stride c = Ok st ->
  cut cs (compress_stride (length sls) st) sls os ns ss -> some_xslicer sls -> (dbg = true -> all_wide cs sls) ->
  posprod ns <= 2147483647 ->
  exists v, xslice_container dbg ss0 st0 c sls = Ok v /\ dims v = ns /\ legal (c_shape v) /\ addressable v tys /\
    c_data v = padd (c_data c) (rank (vals cs) os) /\ strides_z v = times ss (strides_of (vals cs)) /\
    (forall js, in_box ns js -> in_box (vals cs) (place os ss js) /\
       elem v js = padd (c_data c) (rank (vals cs) (place os ss js))) /\
    (forall js is_, in_box ns js -> in_box (dims c) is_ ->
       merge_coord (length (c_shape c) - length sls + 1) (dims c) is_ = place os ss js -> elem v js = elem c is_).
Proof. exact xslice_l. Qed.
Print Assumptions user_slice_addressable.

(** A type that answers as a slicer of the library is as good as it. *)
Theorem user_slicer_stands_for : forall dbg ss0 st0 c cs st sls sls', default_layout c -> (1 <= length sls <= length (c_shape c))%nat ->
  compress (length sls) (c_shape c) = Ok cs -> get_stride c = Ok st -> length sls = length sls' ->
  some_slicer sls' -> some_xslicer sls -> (forall i, ~ In (SConst i) sls') ->
  (forall i sl sl', nth_error sls i = Some sl -> nth_error sls' i = Some sl' ->
     stands_for cs (compress_stride (length sls) st) i sl sl') ->
  xslice_container dbg ss0 st0 c sls = slice_container dbg ss0 st0 c sls'.
Proof. exact stands_default_l. Qed.
Print Assumptions user_slicer_stands_for.

(** Shapes ask for the number of elements only. *)
Theorem shape_asks_reshape : forall s cs sls, compress (length sls) s = Ok cs -> (forall sl, In sl sls -> exists u, sl = User u) ->
  exists sh, xslice_shape s sls = Ok sh /\ length sh = length sls /\
    forall k u, nth_error sls k = Some (User u) ->
      match u_count u with Some f => nth_error sh k = Some (f cs k) | None => nth_error sh k = Some (int 1) end.
Proof. exact shape_asks_l. Qed.
Print Assumptions shape_asks_reshape.

(** Containers cannot be sliced without reindex, nor by a type that also converts to an integer. *)
Theorem container_needs_reindex : forall dbg ss0 st0 c sls u v, In (User u) sls -> (u_index u = None \/ u_convertible u = true) ->
  xslice_container dbg ss0 st0 c sls <> Ok v.
Proof. exact no_index_l. Qed.
Print Assumptions container_needs_reindex.

(** In debug a first index outside of its axis stops the program. *)
Theorem user_start_checked : forall ss0 st0 c sls cs st cos, default_layout c -> (1 <= length sls <= length (c_shape c))%nat ->
  compress (length sls) (c_shape c) = Ok cs -> get_stride c = Ok st -> some_xslicer sls ->
  (forall sl, In sl sls -> exists u, sl = User u /\ u_convertible u = false) ->
  length cos = length sls ->
  (forall k u x, nth_error sls k = Some (User u) -> nth_error cos k = Some x -> exists f, u_index u = Some f /\ f cs k = x) ->
  wfs cos -> nonnegs (vals cos) -> Forall (fun c => promote (cty c) = cty c) cos -> ~ in_box (vals cs) (vals cos) ->
  xslice_container true ss0 st0 c sls = Abort.
Proof. exact outside_l. Qed.
Print Assumptions user_start_checked.

(** One or two slicers: what preserve_reachability says is right if has_step is. *)
Theorem user_reachability : forall dbg ss0 st0 c sls cs st os ns ss, default_layout c ->
  (length sls = 1 \/ length sls = 2)%nat -> (length sls <= length (c_shape c))%nat -> compress (length sls) (c_shape c) = Ok cs -> get_stride c = Ok st ->
  cut cs (compress_stride (length sls) st) sls os ns ss -> some_xslicer sls -> (dbg = true -> all_wide cs sls) ->
  Forall2 honest sls ss -> xpreserve sls = true ->
  exists v, xslice_container dbg ss0 st0 c sls = Ok v /\ dims v = ns /\
    forall js, in_box ns js -> elem v js = padd (c_data v) (rank (dims v) js).
Proof. exact xpreserve_l. Qed.
Print Assumptions user_reachability.

(** ** Examples *)
(** Every second index from the third on, as many as there are, written by the user. *)
Definition thirds : user := {| u_index := Some (fun _ _ => int 2); u_convertible := false;
  u_count := Some (fun c k => match nth_error c k with Some n => int ((cval n - 1) / 2) | None => int 0 end);
  u_stride := Some (fun st k => match nth_error st k with Some d => int (2 * cval d) | None => int 0 end);
  u_has_step := Some true; u_interval := true |}.
(** The same element five times: stride 0. *)
Definition again : user := {| u_index := Some (fun _ k => int (Z.of_nat k)); u_convertible := false;
  u_count := Some (fun _ _ => int 5); u_stride := Some (fun _ _ => int 0); u_has_step := Some true; u_interval := true |}.
(** test/unit/utility/slicer/api.cpp 10-33. *)
Definition ten (d : Z) : user := {| u_index := None; u_convertible := false;
  u_count := Some (fun c k => match nth_error c k with Some n => int (cval n + 10 * d) | None => int 0 end);
  u_stride := None; u_has_step := None; u_interval := false |}.
Definition ten_static (d : Z) : user := {| u_index := None; u_convertible := false;
  u_count := Some (fun _ k => int (Z.of_nat k + 10 * d)); u_stride := None; u_has_step := None; u_interval := false |}.
Definition tc : container := Cn K2 [int 4; int 7] [] (Ptr 0 0).
Definition tm : mem Z := [Some (map Some (zrange 0 28))].

Example tc_default : default_layout tc. Proof. by_default false. Qed.
Example tc_cut : cut (c_shape tc) (compress_stride 2 [int 7; int 1]) [User again; User thirds] [0; 2] [5; 3] [0; 2].
Proof.
  constructor; [|unfold on_axis; simpl; lia|constructor; [|unfold on_axis; simpl; lia|constructor]].
  - split; [|split]; [eexists| |]; repeat (apply conj; [reflexivity|]).
    + split; [apply wfc_int; unfold max31; lia|reflexivity].
    + split; [apply wfc_int; unfold max31; lia|reflexivity].
    + split; [apply wfc_int; unfold max31; lia|reflexivity].
  - split; [|split]; [eexists| |]; repeat (apply conj; [reflexivity|]).
    + split; [apply wfc_int; unfold max31; lia|reflexivity].
    + split; [apply wfc_int; unfold max31; cbn; lia|reflexivity].
    + split; [apply wfc_int; unfold max31; cbn; lia|reflexivity].
Qed.
Example tc_hyps : compress 2 (c_shape tc) = Ok (c_shape tc) /\ get_stride tc = Ok [int 7; int 1] /\
  some_xslicer [User again; User thirds] /\ all_wide (c_shape tc) [User again; User thirds] /\ posprod [5; 3] <= 2147483647.
Proof.
  split; [vm_compute; reflexivity|]. split; [vm_compute; reflexivity|]. split.
  - exists (User again). split; [left; reflexivity|]. discriminate.
  - split; [|vm_compute; discriminate]. intros [|[|k]] sl E; cbn in E; [| |destruct k; discriminate]; injection E as <-; intros f Ef; injection Ef as <-; reflexivity.
Qed.
Example user_slice_ex : exists v, xslice_container true false false tc [User again; User thirds] = Ok v /\ dims v = [5; 3] /\
  (get tm v [int 0; int 0], get tm v [int 4; int 0], get tm v [int 3; int 2]) = (Ok 2, Ok 2, Ok 6).
Proof. eexists. split; [vm_compute; reflexivity|]. vm_compute. auto. Qed.
(** One slicer on two axes is asked about the merged axis. *)
Example user_slice_flat_ex : exists v, xslice_container true false false tc [User thirds] = Ok v /\ dims v = [13] /\
  (get tm v [int 0], get tm v [int 12]) = (Ok 2, Ok 26).
Proof. eexists. split; [vm_compute; reflexivity|]. vm_compute. auto. Qed.
(** Together with slicers of the library. *)
Example user_slice_mixed_ex : exists v, xslice_container true false false tc [Lib (SIdx (int 3)); User thirds] = Ok v /\
  dims v = [1; 3] /\ get tm v [int 0; int 2] = Ok 27.
Proof. eexists. split; [vm_compute; reflexivity|]. vm_compute. auto. Qed.
Example stands_ex : stands_for (c_shape tc) [int 7; int 1] 1 (User thirds) (SSlice (Some (BInt (int 2))) (Some (int 2)) None None) /\
  xslice_container true false false tc [Lib SAll; User thirds] =
  slice_container true false false tc [SAll; SSlice (Some (BInt (int 2))) (Some (int 2)) None None].
Proof. split; [|vm_compute; reflexivity]. eexists _, _, _. repeat (split; [vm_compute; reflexivity|]). vm_compute. reflexivity. Qed.
Example shape_asks_ex :
  let s := map int [7; 3; 5; 2; 6; 8; 4] in
  xslice_shape s (map (fun d => User (ten d)) [1; 2; 3; 4; 5; 6; 7]) = Ok (map int [17; 23; 35; 42; 56; 68; 74]) /\
  xslice_shape s (map (fun d => User (ten_static d)) [1; 2; 3; 4; 5; 6; 7]) = Ok (map int [10; 21; 32; 43; 54; 65; 76]) /\
  xslice_shape s [User (ten 1)] = Ok [int 40330] /\ xslice_container true false false tc [User (ten 1); Lib SAll] = UB.
Proof. do 3 (apply conj; [vm_compute; reflexivity|]). vm_compute. reflexivity. Qed.
Definition after : user := {| u_index := Some (fun c k => match nth_error c k with Some n => n | None => int 0 end); u_convertible := false;
  u_count := None; u_stride := None; u_has_step := Some false; u_interval := false |}.
Example start_ex : some_xslicer [User after] /\ ~ in_box (vals [int 28]) (vals [int 28]) /\
  xslice_container true false false tc [User after] = Abort /\ exists v, xslice_container false false false tc [User after] = Ok v /\ dims v = [1].
Proof.
  split; [exists (User after); split; [left; reflexivity|discriminate]|]. split.
  - intros B. inversion B; subst. cbn in *. lia.
  - split; [vm_compute; reflexivity|]. eexists. split; vm_compute; reflexivity.
Qed.
(** The last n indexes with has_step = false, kwk_is_interval: the rows stay reachable. *)
Definition last_two : user := {| u_index := Some (fun c k => match nth_error c k with Some n => int (cval n - 2) | None => int 0 end);
  u_convertible := false; u_count := Some (fun _ _ => int 2); u_stride := None; u_has_step := Some false; u_interval := true |}.
Example reachable_ex : xpreserve [User last_two; Lib SAll] = true /\ xpreserve [Lib SAll; User last_two] = false /\
  Forall2 honest [User last_two; Lib SAll] [1; 1] /\
  exists v, xslice_container true false false tc [User last_two; Lib SAll] = Ok v /\ dims v = [2; 7] /\ c_data v = Ptr 0 14.
Proof.
  split; [reflexivity|]. split; [reflexivity|]. split; [repeat constructor|]. eexists. split; [vm_compute; reflexivity|]. vm_compute. auto.
Qed.
Example reachable_cut : cut (c_shape tc) [int 7; int 1] [User last_two; Lib SAll] [2; 0] [2; 7] [1; 1].
Proof.
  constructor; [|unfold on_axis; simpl; lia|constructor; [|unfold on_axis; simpl; lia|constructor]].
  - split; [|split]; [eexists| |]; repeat (apply conj; [reflexivity|]).
    + split; [apply wfc_int; unfold max31; cbn; lia|reflexivity].
    + split; [apply wfc_int; unfold max31; lia|reflexivity].
    + reflexivity.
  - split; [constructor|simpl; lia].
Qed.

(** ** What is not checked *)
(** The number of elements is not compared with the extent, in debug either: ten elements of an axis of four. *)
Definition too_many : user := {| u_index := Some (fun _ _ => int 0); u_convertible := false; u_count := Some (fun _ _ => int 10);
  u_stride := None; u_has_step := Some false; u_interval := true |}.
Theorem user_extent_checked_refuted : exists c (m : mem Z) v, default_layout c /\ dims c = [4] /\ readable m c /\
  xslice_container true false false c [User too_many] = Ok v /\ dims v = [10] /\ get m v [int 3] = Ok 8 /\ get m v [int 4] = UB.
Proof.
  exists (Cn K1 [int 4] [] (Ptr 0 0)), [Some (map Some [5; 6; 7; 8])]. eexists. split; [by_default false|]. split; [reflexivity|]. split.
  - unfold readable. apply (box_forall [4]); [repeat constructor; lia|]. vm_compute. repeat (apply Forall_cons; [eexists; reflexivity|]). apply Forall_nil.
  - split; [vm_compute; reflexivity|]. vm_compute. auto.
Qed.
Print Assumptions user_extent_checked_refuted.

(** has_step is taken on trust: a type with has_step = false and a stride of its own. *)
Definition sly : user := {| u_index := Some (fun _ _ => int 0); u_convertible := false; u_count := Some (fun _ _ => int 2);
  u_stride := Some (fun st k => match nth_error st k with Some d => int (2 * cval d) | None => int 0 end); u_has_step := Some false; u_interval := true |}.
Theorem has_step_checked_refuted : exists c v, default_layout c /\ xpreserve [User sly] = true /\
  xslice_container true false false c [User sly] = Ok v /\ dims v = [2] /\ in_box (dims v) [1] /\
  elem v [1] <> padd (c_data v) (rank (dims v) [1]).
Proof.
  exists (Cn K1 [int 4] [] (Ptr 0 0)). eexists. split; [by_default false|]. split; [reflexivity|].
  split; [vm_compute; reflexivity|]. split; [vm_compute; reflexivity|]. split; [repeat constructor; vm_compute; congruence|]. vm_compute. discriminate.
Qed.
Print Assumptions has_step_checked_refuted.

(** Without has_step nothing is said to stay reachable. *)
Theorem no_has_step : forall u sl, u_has_step u = None ->
  xpreserve [User u] = false /\ xpreserve [User u; sl] = false /\ xpreserve [sl; User u] = false.
Proof. exact no_has_step_l. Qed.
Print Assumptions no_has_step.
Example no_has_step_ex : u_has_step (ten 1) = None. Proof. reflexivity. Qed.
