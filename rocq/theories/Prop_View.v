(** Property C54: the algorithms on slices, reversed and reshaped views of a container. *)
From Coq Require Import ZArith List Bool Lia.
From Verif Require Import Outcome CInt CIntFacts Spec SpecFacts ShapeSpec Shape ShapeFacts ShapeFacts2 EndRatio EndRatioSpec
  Memory MemFacts Container ContainerSpec ContainerFacts ContainerFacts2 ContainerFacts3 Algo AlgoSpec Slicer SlicerSpec SlicerFacts3
  ViewSpec ViewFacts.
Import ListNotations.
Open Scope Z_scope.

(** What the algorithms of C32 - C42 require of their operands holds for a slice. *)
Theorem slice_can_read_and_write : forall (T : Type) (m : mem T) dbg a b c sls cs os ks ss v, default_layout c ->
  (1 <= length sls <= length (c_shape c))%nat -> compress (length sls) (c_shape c) = Ok cs ->
  sliced cs sls os ks ss -> (dbg = true -> Forall wide sls) ->
  slice_container dbg a b c sls = Ok v -> directed c sls ss (ctypes v) ->
  (readable m c -> can_read m v v) /\ (writable m c -> can_write m v v).
Proof.
  intros T m dbg a b c sls cs os ks ss v D N Cs Sl Wd Ev Dr.
  exact (conj (slice_can_read_l m dbg a b c sls cs os ks ss v D N Cs Sl Wd Ev Dr)
              (slice_can_write_l m dbg a b c sls cs os ks ss v D N Cs Sl Wd Ev Dr)).
Qed.
Print Assumptions slice_can_read_and_write.

Theorem fill_slice : forall (T : Type) (m : mem T) dbg a b c sls cs os ks ss v, default_layout c ->
  (1 <= length sls <= length (c_shape c))%nat -> compress (length sls) (c_shape c) = Ok cs ->
  sliced cs sls os ks ss -> (dbg = true -> Forall wide sls) ->
  slice_container dbg a b c sls = Ok v -> directed c sls ss (ctypes v) ->
  forall x, writable m c ->
  exists m', fill v x m = Ok m' /\
    (forall is_, picked c sls os ks ss is_ -> value m' c is_ x) /\ others_kept c sls os ks ss m m'.
Proof. exact @fill_slice_l. Qed.
Print Assumptions fill_slice.

Theorem transform_slice : forall (T : Type) (m : mem T) dbg a b c sls cs os ks ss v, default_layout c ->
  (1 <= length sls <= length (c_shape c))%nat -> compress (length sls) (c_shape c) = Ok cs ->
  sliced cs sls os ks ss -> (dbg = true -> Forall wide sls) ->
  slice_container dbg a b c sls = Ok v -> directed c sls ss (ctypes v) ->
  forall f, readable m c ->
  exists m', transform f v v [] m = Ok m' /\
    (forall is_ x, picked c sls os ks ss is_ -> value m c is_ x -> value m' c is_ (f [x])) /\
    others_kept c sls os ks ss m m'.
Proof. exact @transform_slice_l. Qed.
Print Assumptions transform_slice.

Theorem reduce_slice : forall (T : Type) (m : mem T) dbg a b c sls cs os ks ss v, default_layout c ->
  (1 <= length sls <= length (c_shape c))%nat -> compress (length sls) (c_shape c) = Ok cs ->
  sliced cs sls os ks ss -> (dbg = true -> Forall wide sls) ->
  slice_container dbg a b c sls = Ok v -> directed c sls ss (ctypes v) ->
  forall (A : Type) (f : A -> T -> A) init, readable m c ->
  exists vs, Forall2 (fun js x => exists is_, at_position c sls os ss js is_ /\ value m c is_ x) (box ks) vs /\
    reduce v f init m = Ok (fold_left f vs init, m).
Proof. exact @reduce_slice_l. Qed.
Print Assumptions reduce_slice.

Theorem any_of_slice : forall (T : Type) (m : mem T) dbg a b c sls cs os ks ss v, default_layout c ->
  (1 <= length sls <= length (c_shape c))%nat -> compress (length sls) (c_shape c) = Ok cs ->
  sliced cs sls os ks ss -> (dbg = true -> Forall wide sls) ->
  slice_container dbg a b c sls = Ok v -> directed c sls ss (ctypes v) ->
  forall f, readable m c ->
  exists b, any_of v f m = Ok (b, m) /\
    (b = true <-> exists is_ x, picked c sls os ks ss is_ /\ value m c is_ x /\ f x = true).
Proof. exact @any_of_slice_l. Qed.
Print Assumptions any_of_slice.

(** Rows 0, 2 by columns 1..4 of a table of 4 x 6 elements 0..23. *)
Definition vc : container := Cn K2 [int 4; int 6] [] (Ptr 0 0).
Definition vm : mem Z := [Some (map Some (zrange 0 24)); Some (map Some (zrange 100 24))].
Definition vsls : list slc := [every (int 2); between (int 1) (BEnd (ESub EEnd (int 1)))].
Definition vv : container := Cn K2S [int 2; int 4] [int 12; int 1] (Ptr 0 1).
Example vc_default : default_layout vc. Proof. by_default false. Qed.
Example vc_readable : readable vm vc. Proof. by_box. Qed.
Example vc_writable : writable vm vc. Proof. by_box. Qed.
Example vc_compress : compress (length vsls) (c_shape vc) = Ok [int 4; int 6]. Proof. reflexivity. Qed.
Example vc_sliced : sliced [int 4; int 6] vsls [0; 1] [2; 4] [2; 1].
Proof.
  split; [by_slicer|]. constructor; [|unfold inside; simpl; lia|constructor; [|unfold inside; simpl; lia|constructor]].
  - refine (takes_range _ None (Some (int 2)) None 0 4 2 _ _ _ _ _ _); try reflexivity; try (simpl; lia).
    split; [apply wfc_int; unfold max31; lia|reflexivity].
  - refine (takes_range _ (Some (BInt (int 1))) None (Some (BEnd (ESub EEnd (int 1)))) 1 5 1 _ _ _ _ _ _);
      try reflexivity; try (simpl; lia).
    + split; [apply wfc_int; unfold max31; lia|reflexivity].
    + eexists. split; [vm_compute; reflexivity|reflexivity].
Qed.
Example vc_wide : Forall wide vsls. Proof. repeat constructor. Qed.
Example vc_slice : slice_container true false false vc vsls = Ok vv. Proof. vm_compute. reflexivity. Qed.
Example vc_directed : directed vc vsls [2; 1] (ctypes vv). Proof. left. repeat constructor. Qed.
Example fill_slice_ex : fill vv (-1) vm =
  Ok [Some (map Some [0; -1; -1; -1; -1; 5; 6; 7; 8; 9; 10; 11; 12; -1; -1; -1; -1; 17; 18; 19; 20; 21; 22; 23]);
      Some (map Some (zrange 100 24))].
Proof. vm_compute. reflexivity. Qed.
Example reduce_slice_ex : reduce vv Z.add 0 vm = Ok (1 + 2 + 3 + 4 + 13 + 14 + 15 + 16, vm).
Proof. vm_compute. reflexivity. Qed.
Example any_of_slice_ex : (any_of vv (fun x => x =? 13) vm, any_of vv (fun x => x =? 7) vm) = (Ok (true, vm), Ok (false, vm)).
Proof. vm_compute. reflexivity. Qed.

Theorem reverse_can_read_and_write : forall (T : Type) (m : mem T) ss c, default_layout c -> signeds (c_shape c) ->
  exists rc, reverse ss c = Ok rc /\ dims rc = dims c /\ ctypes rc = ctypes c /\
    (readable m c -> can_read m rc rc) /\ (writable m c -> can_write m rc rc) /\
    (forall is_, in_box (dims c) is_ -> elem rc is_ = elem c (mirror_coord (dims c) is_)) /\
    (forall vs, values m c c vs -> values m rc rc (rev vs)).
Proof. exact @reverse_view_l. Qed.
Print Assumptions reverse_can_read_and_write.

Theorem reduce_reverse : forall (T A : Type) ss c (f : A -> T -> A) init m,
  default_layout c -> signeds (c_shape c) -> readable m c ->
  exists rc vs, reverse ss c = Ok rc /\ values m c c vs /\ reduce rc f init m = Ok (fold_left f (rev vs) init, m).
Proof. exact @reduce_reverse_l. Qed.
Print Assumptions reduce_reverse.

Theorem predicates_of_reverse : forall (T : Type) ss c (f : T -> bool) m,
  default_layout c -> signeds (c_shape c) -> readable m c ->
  exists rc, reverse ss c = Ok rc /\ count_if rc f m = count_if c f m /\ all_of rc f m = all_of c f m /\
    any_of rc f m = any_of c f m /\ none_of rc f m = none_of c f m.
Proof. exact @count_reverse_l. Qed.
Print Assumptions predicates_of_reverse.

Theorem copy_reverse_mirrors : forall (T : Type) ss c out (m : mem T),
  default_layout c -> signeds (c_shape c) -> readable m c ->
  can_write m out out -> dims out = dims c -> ctypes out = ctypes c -> no_alias c c out ->
  exists rc m', reverse ss c = Ok rc /\ copy out rc m = Ok m' /\
    (forall is_ v, in_box (dims c) is_ -> value m c (mirror_coord (dims c) is_) v -> value m' out is_ v) /\
    frame out out m m'.
Proof. exact @copy_reverse_l. Qed.
Print Assumptions copy_reverse_mirrors.

Definition vl : container := Cn K1 [int 5] [] (Ptr 0 0).
Definition vlm : mem Z := [Some (map Some [1; 2; 3; 4; 5]); Some [None; None; None; None; None]].
Example vl_default : default_layout vl. Proof. by_default false. Qed.
Example vl_readable : readable vlm vl. Proof. by_box. Qed.
Example vl_signed : signeds (c_shape vl). Proof. repeat constructor. Qed.
Example vo_write : can_write vlm (Cn K1 [int 5] [] (Ptr 1 0)) (Cn K1 [int 5] [] (Ptr 1 0)).
Proof. apply AlgoFacts4.default_can_write; [by_default false|reflexivity|by_box]. Qed.
Example vo_no_alias : no_alias vl vl (Cn K1 [int 5] [] (Ptr 1 0)).
Proof. apply (AlgoFacts4.other_block_no_alias vl vl _ 0 0 1 0); try reflexivity. discriminate. Qed.
Example reverse_ex : exists rc, reverse false vl = Ok rc /\
  reduce rc (fun a x => 10 * a + x) 0 vlm = Ok (54321, vlm) /\
  copy (Cn K1 [int 5] [] (Ptr 1 0)) rc vlm = Ok [Some (map Some [1; 2; 3; 4; 5]); Some (map Some [5; 4; 3; 2; 1])] /\
  count_if rc (fun x => x <? 3) vlm = Ok (2, vlm).
Proof. eexists. split; [reflexivity|]. vm_compute. auto. Qed.

(** Copying a reversed view onto its own source does not reverse it. *)
Theorem copy_reverse_in_place_refuted : exists c (m m' : mem Z) rc is_ x y,
  default_layout c /\ signeds (c_shape c) /\ readable m c /\ reverse false c = Ok rc /\ copy c rc m = Ok m' /\
  in_box (dims c) is_ /\ value m c (mirror_coord (dims c) is_) x /\ value m' c is_ y /\ x <> y.
Proof.
  exists vl, vlm, [Some (map Some [5; 4; 3; 4; 5]); Some [None; None; None; None; None]],
    (Cn K1S [int 5] [int (-1)] (Ptr 0 4)), [3], 2, 4.
  split; [exact vl_default|]. split; [exact vl_signed|]. split; [exact vl_readable|].
  split; [vm_compute; reflexivity|]. split; [vm_compute; reflexivity|].
  split; [by_check|]. split; [reflexivity|]. split; [reflexivity|lia].
Qed.
Print Assumptions copy_reverse_in_place_refuted.

Theorem reduce_reshape : forall (T A : Type) ss c sh (f : A -> T -> A) init m, default_layout c -> legal sh -> sh <> [] ->
  prod (vals sh) = prod (dims c) -> readable m c ->
  exists v vs, reshape_view ss c sh = Ok v /\ can_read m v v /\ can_write m v v /\
    values m c c vs /\ values m v v vs /\ reduce v f init m = reduce c f init m.
Proof. exact @reshape_reduce_l. Qed.
Print Assumptions reduce_reshape.

Example reshape_ex : legal [int 3; CI U8 8] /\ prod (vals [int 3; CI U8 8]) = prod (dims vc) /\
  exists v, reshape_view false vc [int 3; CI U8 8] = Ok v /\ reduce v (fun a x => 3 * a - x) 1 vm = reduce vc (fun a x => 3 * a - x) 1 vm.
Proof. split; [by_check|]. split; [reflexivity|]. eexists. split; [reflexivity|]. vm_compute. reflexivity. Qed.
