(** Property C79: algorithms whose output shares elements with their inputs. *)
From Coq Require Import ZArith List Bool Lia.
From Verif Require Import Outcome CInt CIntFacts Spec SpecFacts ShapeSpec Shape ShapeFacts ShapeFacts2
  Memory MemFacts Container ContainerSpec ContainerFacts ContainerFacts2 ContainerFacts3 EndRatio Slicer SlicerSpec
  Algo AlgoSpec AlgoFacts4 SplitSpec SplitFacts OverlapSpec OverlapFacts OverlapFacts2 Prop_Slicer Prop_Split.
Import ListNotations.
Open Scope Z_scope.

Theorem transform_overlapping : forall (T : Type) (f : list T -> T) out c0 cs (m : mem T),
  can_write m out out -> Forall (can_read m out) (c0 :: cs) ->
  exists m', transform f out c0 cs m = Ok m' /\ frame out out m m' /\
    forall b, in_box (dims out) b -> exists vs, Forall2 (fun c v => sees m m' out c b v) (c0 :: cs) vs /\ value m' out b (f vs).
Proof. exact @transform_overlap_l. Qed.
Print Assumptions transform_overlapping.

Theorem copy_overlapping : forall (T : Type) out c (m : mem T), can_write m out out -> can_read m out c ->
  exists m', copy out c m = Ok m' /\ frame out out m m' /\
    forall b, in_box (dims out) b -> exists v, sees m m' out c b v /\ value m' out b v.
Proof. exact @copy_overlap_l. Qed.
Print Assumptions copy_overlapping.

Theorem transform_reading_ahead : forall (T : Type) (f : list T -> T) out c0 cs (m : mem T),
  can_write m out out -> Forall (can_read m out) (c0 :: cs) -> Forall (reads_ahead out) (c0 :: cs) ->
  exists m', transform f out c0 cs m = Ok m' /\
    (forall is_ vs, in_box (dims out) is_ -> Forall2 (fun c v => value m c is_ v) (c0 :: cs) vs -> value m' out is_ (f vs)) /\
    frame out out m m'.
Proof. exact @transform_ahead_l. Qed.
Print Assumptions transform_reading_ahead.

Theorem tile_moved_backwards : forall (T : Type) (m : mem T) d1 a1 b1 d2 a2 b2 c p q,
  default_layout c -> is_part d1 c p -> is_part d2 c q ->
  counts p = counts q -> steps p = steps q -> not_after (starts p) (starts q) -> readable m c ->
  exists vp vq m', slice_container d1 a1 b1 c (cuts p) = Ok vp /\ slice_container d2 a2 b2 c (cuts q) = Ok vq /\ copy vp vq m = Ok m' /\
    (forall js v, in_box (counts p) js -> value m c (place (starts q) (steps q) js) v ->
       value m' c (place (starts p) (steps p) js) v) /\
    (forall is_, in_box (dims c) is_ -> ~ chosen p is_ -> cell m' (elem c is_) = cell m (elem c is_)) /\ frame c c m m'.
Proof. exact @tile_copy_l. Qed.
Print Assumptions tile_moved_backwards.

Theorem rows_moved_forwards_repeat : forall (T : Type) (m : mem T) d1 a1 b1 d2 a2 b2 c n rest slp slq s k h b o,
  default_layout c -> c_shape c = n :: rest -> c_data c = Ptr b o ->
  is_part d1 c (block rest slp (s + k) h) -> is_part d2 c (block rest slq s h) -> 0 < k -> readable m c ->
  exists vp vq m', slice_container d1 a1 b1 c (cuts (block rest slp (s + k) h)) = Ok vp /\
    slice_container d2 a2 b2 c (cuts (block rest slq s h)) = Ok vq /\ copy vp vq m = Ok m' /\
    forall r js v, 0 <= r < h -> in_box (vals rest) js -> value m c ((s + r mod k) :: js) v -> value m' c ((s + k + r) :: js) v.
Proof. exact @rows_up_l. Qed.
Print Assumptions rows_moved_forwards_repeat.

Theorem shift_backwards : forall (T : Type) (m : mem T) out c b o k,
  can_write m out out -> can_read m out c -> dims c = dims out ->
  in_a_row c b o -> in_a_row out b (o + k) -> k <= 0 ->
  exists m', copy out c m = Ok m' /\
    (forall is_ v, in_box (dims out) is_ -> value m c is_ v -> value m' out is_ v) /\ frame out out m m'.
Proof. exact @shift_down_l. Qed.
Print Assumptions shift_backwards.

Theorem shift_forwards_repeats : forall (T : Type) (m : mem T) out c b o k,
  can_write m out out -> can_read m out c -> dims c = dims out ->
  in_a_row c b o -> in_a_row out b (o + k) -> 0 < k ->
  exists m', copy out c m = Ok m' /\
    (forall is_ js v, in_box (dims out) is_ -> in_box (dims out) js -> rank (dims out) js = rank (dims out) is_ mod k ->
       value m c js v -> value m' out is_ v) /\ frame out out m m'.
Proof. exact @shift_up_l. Qed.
Print Assumptions shift_forwards_repeats.

Theorem transform_on_previous_is_running : forall (T : Type) (m : mem T) (g : T -> T -> T) out c b o a vs,
  can_write m out out -> can_read m out c -> can_read m out out -> dims c = dims out ->
  in_a_row c b o -> in_a_row out b (o + 1) ->
  (forall is_ v, in_box (dims out) is_ -> rank (dims out) is_ = 0 -> value m c is_ v -> v = a) -> values m out out vs ->
  exists m', transform (fun xs => match xs with [x; y] => g x y | _ => a end) out c [out] m = Ok m' /\
    values m' out out (running g a vs) /\ frame out out m m'.
Proof. exact @recurrence_l. Qed.
Print Assumptions transform_on_previous_is_running.

(** A tile of 3 x 4 of a table of 4 x 6 moved up and to the right. *)
Definition low_left : part := Part [drop_first (int 1); first (int 4)] [1; 0] [3; 4] [1; 1].
Definition up_right : part := Part [first (int 3); drop_first (int 2)] [0; 2] [3; 4] [1; 1].
Example moved_parts : is_part true sc low_left /\ is_part true sc up_right /\ not_after (starts up_right) (starts low_left).
Proof. split; [by_part|]. split; [by_part|]. right. apply lex_head; [lia|reflexivity]. Qed.
Definition moved (p q : part) : outcome (list Z) :=
  vp <- slice_container true false false sc (cuts p) ;; vq <- slice_container true false false sc (cuts q) ;;
  m' <- copy vp vq sm ;; mapM (fun is_ => load m' (elem sc is_)) (box (dims sc)).
Example moved_ex : moved up_right low_left =
  Ok [0; 1; 6; 7; 8; 9; 6; 7; 12; 13; 14; 15; 12; 13; 18; 19; 20; 21; 18; 19; 20; 21; 22; 23].
Proof. vm_compute. reflexivity. Qed.
Example moved_rows :
  is_part true sc (block [int 6] (drop_first (int 1)) (0 + 1) 3) /\ is_part true sc (block [int 6] (first (int 3)) 0 3).
Proof. split; by_part. Qed.

(** Moved the other way, elements are repeated: the tile cannot be copied forwards within its table. *)
Theorem tile_moved_forwards_refuted : exists (c : container) (p q : part) (m : mem Z) vp vq m' js v,
  default_layout c /\ is_part true c p /\ is_part true c q /\ counts p = counts q /\ steps p = steps q /\ readable m c /\
  slice_container true false false c (cuts p) = Ok vp /\ slice_container true false false c (cuts q) = Ok vq /\ copy vp vq m = Ok m' /\
  in_box (counts p) js /\ value m c (place (starts q) (steps q) js) v /\ ~ value m' c (place (starts p) (steps p) js) v.
Proof.
  exists sc, low_left, up_right, sm.
  destruct (slice_container true false false sc (cuts low_left)) as [vp| | |] eqn:E1; try (vm_compute in E1; discriminate).
  destruct (slice_container true false false sc (cuts up_right)) as [vq| | |] eqn:E2; try (vm_compute in E2; discriminate).
  destruct (copy vp vq sm) as [m'| | |] eqn:E3;
    try (vm_compute in E1, E2; injection E1 as <-; injection E2 as <-; vm_compute in E3; discriminate).
  exists vp, vq, m', [1; 0], 8.
  pose proof moved_parts as (P & Q & _).
  split; [exact sc_default|]. split; [exact P|]. split; [exact Q|].
  split; [reflexivity|]. split; [reflexivity|]. split; [by_box|].
  split; [reflexivity|]. split; [reflexivity|]. split; [exact E3|].
  split; [repeat constructor; lia|]. split; [reflexivity|].
  vm_compute in E1, E2. injection E1 as <-. injection E2 as <-. vm_compute in E3. injection E3 as <-. vm_compute. discriminate.
Qed.
Print Assumptions tile_moved_forwards_refuted.

(** Prefix sums of a table in place, through two views; a shift by two repeats two elements. *)
Definition from_0 : container := Cn K1 [int 5] [] (Ptr 0 0).
Definition from_1 : container := Cn K1 [int 5] [] (Ptr 0 1).
Definition from_2 : container := Cn K2 [int 2; int 2] [] (Ptr 0 2).
Definition to_2 : container := Cn K2 [int 2; int 2] [] (Ptr 0 0).
Definition om : mem Z := [Some (map Some [10; 1; 2; 3; 4; 5])].
Example from_default : default_layout from_0 /\ default_layout from_1 /\ default_layout from_2 /\ default_layout to_2.
Proof. repeat (split; [by_default false|]). by_default false. Qed.
Example from_rows : in_a_row from_0 0 0 /\ in_a_row from_1 0 (0 + 1) /\ in_a_row to_2 0 0 /\ in_a_row from_2 0 (0 + 2).
Proof.
  destruct from_default as (D0 & D1 & D2 & D3).
  split; [|split; [|split]]; apply default_row; try assumption; reflexivity.
Qed.
Example from_access : can_write om from_1 from_1 /\ can_read om from_1 from_0 /\ can_read om from_1 from_1 /\
  can_write om from_2 from_2 /\ can_read om from_2 to_2 /\ values om from_1 from_1 [1; 2; 3; 4; 5].
Proof.
  destruct from_default as (D0 & D1 & D2 & D3).
  split; [apply default_can_write; [exact D1|reflexivity|by_box]|].
  split; [apply default_can_read; [exact D0|reflexivity|by_box]|].
  split; [apply default_can_read; [exact D1|reflexivity|by_box]|].
  split; [apply default_can_write; [exact D2|reflexivity|by_box]|].
  split; [apply default_can_read; [exact D3|reflexivity|by_box]|].
  unfold values. vm_compute. repeat constructor.
Qed.
Example prefix_sums : transform (fun xs => match xs with [x; y] => x + y | _ => 10 end) from_1 from_0 [from_1] om
  = Ok [Some (map Some [10; 11; 13; 16; 20; 25])].
Proof. vm_compute. reflexivity. Qed.
Example shifts : (copy from_2 to_2 om, copy to_2 from_2 om)
  = (Ok [Some (map Some [10; 1; 10; 1; 10; 1])], Ok [Some (map Some [2; 3; 4; 5; 4; 5])]).
Proof. vm_compute. reflexivity. Qed.
