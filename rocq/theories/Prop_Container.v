(** Properties C23 - C28 and C50: element access, copies, assignment and exchange of containers. *)
From Coq Require Import ZArith List Bool Lia.
From Verif Require Import Outcome CInt CIntFacts Spec SpecFacts ShapeSpec Shape ShapeFacts ShapeFacts2
  Memory MemFacts Container ContainerSpec ContainerFacts ContainerFacts2 ContainerFacts3.
Import ListNotations.
Open Scope Z_scope.

(** C23 *)
Theorem default_access_is_row_major_rank : forall c is_, default_layout c -> coord_of c is_ ->
  exists i, index c is_ = Ok i /\ cval i = rank (dims c) (vals is_) /\ 0 <= cval i < prod (dims c) /\
            address c is_ = Ok (padd (c_data c) (rank (dims c) (vals is_))).
Proof. intros c is_ D [W B]. exact (default_index_rank_l c is_ D W B). Qed.
Print Assumptions default_access_is_row_major_rank.

Theorem default_access_injective : forall c a b i j, default_layout c -> coord_of c a -> coord_of c b ->
  index c a = Ok i -> index c b = Ok j -> cval i = cval j -> vals a = vals b.
Proof. intros c a b i j D [Wa Ba] [Wb Bb]. exact (default_index_inj_l c a b i j D Wa Wb Ba Bb). Qed.
Print Assumptions default_access_injective.

Theorem default_access_surjective : forall c r, default_layout c -> 0 <= r < prod (dims c) ->
  exists is_, in_box (dims c) is_ /\ rank (dims c) is_ = r /\
  forall cs, wfs cs -> vals cs = is_ -> exists i, index c cs = Ok i /\ cval i = r.
Proof. exact default_index_surj_l. Qed.
Print Assumptions default_access_surjective.

(** A new table: every element is in fresh memory. *)
Theorem new_table_elements_allocated : forall (T : Type) (m : mem T) ss sh, legal sh -> sh <> [] ->
  exists m' t, make_table m ss ss sh None None = Ok (m', t) /\ default_layout t /\ c_shape t = sh /\
    writable m' t /\ extends m m' /\
    forall is_, in_box (vals sh) is_ -> ~ valid m (elem t is_).
Proof. exact @new_table_l. Qed.
Print Assumptions new_table_elements_allocated.

(** One container per specialisation of the accessor. *)
Definition ex_static : container := Cn KStatic [int 2; CI U8 3] [CI I32 3; int 1] (Ptr 0 0).
Definition ex_1d : container := Cn K1 [CI I64 6] [] (Ptr 0 0).
Definition ex_2d : container := Cn K2 [int 2; int 3] [] (Ptr 0 0).
Definition ex_3d : container := Cn KGen [int 1; int 2; int 3] [CI I32 6; CI I32 3; int 1] (Ptr 0 0).
Definition ex_mem : mem Z := [Some (map Some [10; 11; 12; 13; 14; 15])].
Example ex_static_ok : default_layout ex_static. Proof. by_default true. Qed.
Example ex_1d_ok : default_layout ex_1d. Proof. by_default false. Qed.
Example ex_2d_ok : default_layout ex_2d. Proof. by_default false. Qed.
Example ex_3d_ok : default_layout ex_3d. Proof. by_default false. Qed.
Example ex_coord_ok : coord_of ex_2d [CI U16 1; int 2].
Proof. split; [by_check|by_check]. Qed.
Example access_ex : (get ex_mem ex_static [int 1; int 2], get ex_mem ex_1d [int 5],
                     get ex_mem ex_2d [CI U16 1; int 2], get ex_mem ex_3d [int 0; int 1; CI I8 2])
                    = (Ok 15, Ok 15, Ok 15, Ok 15).
Proof. vm_compute. reflexivity. Qed.
Example access_out_of_range_ex : get ex_mem ex_2d [int 2; int 0] = UB.
Proof. vm_compute. reflexivity. Qed.
Example new_table_ex : make_table ex_mem false false [int 2; int 2] None None =
  Ok (ex_mem ++ [Some [None; None; None; None]], Cn K2 [int 2; int 2] [] (Ptr 1 0)).
Proof. vm_compute. reflexivity. Qed.

(** C24 *)
Theorem strided_access_exact : forall (T : Type) (m : mem T) c is_,
  addressable c (map cty is_) -> coord_of c is_ ->
  (forall v, get m c is_ = Ok v <-> peek m (elem c (vals is_)) = Some v) /\
  (forall v, valid m (elem c (vals is_)) ->
     exists m', put m c is_ v = Ok m' /\ peek m' (elem c (vals is_)) = Some v /\
       forall p, p <> elem c (vals is_) -> cell m' p = cell m p) /\
  (~ valid m (elem c (vals is_)) -> get m c is_ = UB /\ forall v, put m c is_ v = UB).
Proof. exact @strided_access_l. Qed.
Print Assumptions strided_access_exact.

(** The lower right 2x2 corner of ex_2d, upside down: strides -3 and 1. *)
Definition ex_strided : container := Cn K2S [int 2; int 2] [CI I32 (-3); int 1] (Ptr 0 4).
Example ex_strided_ok : addressable ex_strided [I32; I8].
Proof.
  split; [|split].
  - split; [by_check|]. split; [by_check|]. split; [|reflexivity].
    eexists. split; [reflexivity|]. split; [by_check|reflexivity].
  - right. split; [|repeat constructor]. eexists. split; [reflexivity|]. repeat constructor.
  - left. intros is_ B; apply box_In in B; vm_compute in B.
    repeat (destruct B as [<-|B]; [vm_compute; discriminate|]); contradiction.
Qed.
Example strided_access_ex : map (fun i => get ex_mem ex_strided i)
    [[int 0; CI I8 0]; [int 0; CI I8 1]; [int 1; CI I8 0]; [int 1; CI I8 1]] = [Ok 14; Ok 15; Ok 11; Ok 12].
Proof. vm_compute. reflexivity. Qed.

(** A table given strides has numel() elements whatever the strides. *)
Theorem strided_table_out_of_bounds_refuted : exists sh st is_ (m : mem Z) t,
  legal sh /\ make_table [] false false sh (Some st) None = Ok (m, t) /\
  c_shape t = sh /\ coord_of t is_ /\ put m t is_ 1 = UB.
Proof.
  exists [int 2; int 3], [int 10; int 1], [int 1; int 0], [Some (repeat None 6)],
    (Cn K2S [int 2; int 3] [int 10; int 1] (Ptr 0 0)).
  split; [by_check|]. split; [reflexivity|]. split; [reflexivity|].
  split; [split; [by_check|by_check]|]. vm_compute. reflexivity.
Qed.
Print Assumptions strided_table_out_of_bounds_refuted.

(** C25 *)
Theorem table_copy_is_deep : forall (T : Type) (m : mem T) c, default_layout c -> readable m c ->
  exists m' t, copy_table m c = Ok (m', t) /\ default_layout t /\ c_shape t = c_shape c /\
    (forall is_, coord_of c is_ -> exists v, get m c is_ = Ok v /\ get m' t is_ = Ok v) /\
    extends m m' /\
    (forall ws, Forall (fun w => coord_of t (fst w)) ws -> exists m'', puts m' t ws = Ok m'' /\
       forall is_, coord_of c is_ -> get m'' c is_ = get m c is_) /\
    (forall ws, Forall (fun w => coord_of c (fst w)) ws -> exists m'', puts m' c ws = Ok m'' /\
       forall is_, coord_of c is_ -> get m'' t is_ = get m c is_).
Proof. exact @copy_table_deep_l. Qed.
Print Assumptions table_copy_is_deep.

Example ex_2d_readable : readable ex_mem ex_2d. Proof. by_box. Qed.
Example ex_static_readable : readable ex_mem ex_static. Proof. by_box. Qed.
Example ex_3d_readable : readable ex_mem ex_3d. Proof. by_box. Qed.
Example table_copy_ex : copy_table ex_mem ex_2d =
  Ok (ex_mem ++ [Some (map Some [10; 11; 12; 13; 14; 15])], Cn K2 [int 2; int 3] [] (Ptr 1 0)).
Proof. vm_compute. reflexivity. Qed.

(** C26 *)
Theorem view_of_default_is_shallow : forall ss c, default_layout c ->
  exists v, view_of ss c = Ok v /\ c_shape v = c_shape c /\
    forall is_, coord_of c is_ -> address v is_ = address c is_ /\
      forall (T : Type) (m : mem T), get m v is_ = get m c is_ /\
        forall x, put m v is_ x = put m c is_ x.
Proof. exact view_of_default_l. Qed.
Print Assumptions view_of_default_is_shallow.

Theorem reshape_of_default_is_shallow : forall ss c sh, default_layout c -> legal sh -> sh <> [] ->
  prod (vals sh) = prod (dims c) ->
  exists v, reshape_view ss c sh = Ok v /\ c_shape v = sh /\
    forall is_ js, wfs is_ -> in_box (vals sh) (vals is_) -> coord_of c js ->
      rank (vals sh) (vals is_) = rank (dims c) (vals js) -> address v is_ = address c js.
Proof. intros ss c sh D L N E. exact (reshape_view_l ss c sh (proj1 D) L N E D). Qed.
Print Assumptions reshape_of_default_is_shallow.

Example view_ex : exists v, view_of false ex_3d = Ok v /\ get ex_mem v [int 0; int 1; int 0] = Ok 13 /\
  exists m, put ex_mem v [int 0; int 1; int 0] 99 = Ok m /\ get m ex_3d [int 0; int 1; int 0] = Ok 99.
Proof. eexists. split; [reflexivity|]. split; [reflexivity|]. eexists. split; reflexivity. Qed.
Example reshape_ex : exists v, reshape_view false ex_2d [int 3; int 2] = Ok v /\
  get ex_mem v [int 2; int 0] = Ok 14 /\ get ex_mem ex_2d [int 1; int 1] = Ok 14.
Proof. eexists. split; [reflexivity|]. split; reflexivity. Qed.

(** C27 *)
Theorem view_of_strided_agrees_iff : forall ss c is_ v,
  addressable c (map cty is_) -> legal (c_shape c) -> c_shape c <> [] -> c_data c <> Null ->
  coord_of c is_ -> view_of ss c = Ok v ->
  (address v is_ = address c is_ <-> dot (strides_z c) (vals is_) = rank (dims c) (vals is_)).
Proof. exact view_of_strided_l. Qed.
Print Assumptions view_of_strided_agrees_iff.

Theorem view_of_any_is_contiguous : forall ss c, legal (c_shape c) -> c_shape c <> [] ->
  exists v, view_of ss c = Ok v /\ default_layout v /\ c_shape v = c_shape c /\
    forall is_, coord_of c is_ -> address v is_ = Ok (padd (c_data c) (rank (dims c) (vals is_))).
Proof. exact view_of_contiguous_l. Qed.
Print Assumptions view_of_any_is_contiguous.

Theorem table_of_any_copies_contiguous_elements : forall (T : Type) (m : mem T) ss c,
  legal (c_shape c) -> c_shape c <> [] ->
  (forall k, 0 <= k < prod (dims c) -> exists v, peek m (padd (c_data c) k) = Some v) ->
  exists m' t, table_of m ss c = Ok (m', t) /\ default_layout t /\ c_shape t = c_shape c /\
    (forall is_, coord_of c is_ -> get m' t is_ = load m (padd (c_data c) (rank (dims c) (vals is_)))) /\
    extends m m'.
Proof. exact @table_of_contiguous_l. Qed.
Print Assumptions table_of_any_copies_contiguous_elements.

Theorem strided_table_copy_loses_strides : forall (T : Type) (m : mem T) c,
  c_kind c <> KStatic -> wf_container c -> legal (c_shape c) -> c_shape c <> [] ->
  (forall k, 0 <= k < prod (dims c) -> exists v, peek m (padd (c_data c) k) = Some v) ->
  exists m' t, copy_table m c = Ok (m', t) /\ c_shape t = c_shape c /\
    (forall is_, coord_of c is_ -> get m' t is_ = load m (padd (c_data c) (rank (dims c) (vals is_)))) /\
    extends m m'.
Proof. exact @copy_strided_l. Qed.
Print Assumptions strided_table_copy_loses_strides.

(** Every other element of a row: 10, 12, 14. *)
Definition ex_every2 : container := Cn K1S [int 3] [int 2] (Ptr 0 0).
Example ex_every2_ok : addressable ex_every2 [I32].
Proof.
  split; [|split].
  - split; [by_check|]. split; [by_check|]. split; [|reflexivity].
    eexists. split; [reflexivity|]. split; [by_check|reflexivity].
  - left. by_check.
  - left. intros is_ B; apply box_In in B; vm_compute in B.
    repeat (destruct B as [<-|B]; [vm_compute; discriminate|]); contradiction.
Qed.
Theorem copies_of_strided_views_refuted : exists c is_ (m m1 : mem Z) v t,
  addressable c (map cty is_) /\ coord_of c is_ /\ readable m c /\
  view_of false c = Ok v /\ table_of m false c = Ok (m1, t) /\
  get m v is_ <> get m c is_ /\ get m1 t is_ <> get m c is_.
Proof.
  exists ex_every2, [int 1], ex_mem. do 3 eexists. split; [exact ex_every2_ok|].
  split; [split; [by_check|by_check]|]. split; [by_box|].
  split; [reflexivity|]. split; [vm_compute; reflexivity|]. split; vm_compute; discriminate.
Qed.
Print Assumptions copies_of_strided_views_refuted.

(** The elements of the source are all live, but the copy reads past the buffer: a view with a negative
    stride (as reverse makes them). *)
Theorem table_of_reversed_view_refuted : exists c (m : mem Z), wf_container c /\
  reach_ok c /\ readable m c /\ table_of m false c = UB.
Proof.
  exists (Cn K1S [int 3] [CI I32 (-1)] (Ptr 0 2)), [Some (map Some [1; 2; 3])].
  split; [|split; [|split]].
  - split; [by_check|]. split; [by_check|]. split; [|reflexivity].
    eexists. split; [reflexivity|]. split; [by_check|reflexivity].
  - intros is_ B; apply box_In in B; vm_compute in B.
    repeat (destruct B as [<-|B]; [vm_compute; discriminate|]); contradiction.
  - by_box.
  - vm_compute. reflexivity.
Qed.
Print Assumptions table_of_reversed_view_refuted.

(** C28 *)
Theorem heap_assignment_is_deep_copy : forall (T : Type) (m : mem T) dst src,
  default_layout dst -> default_layout src -> same_type dst src -> owns m dst -> readable m src ->
  exists m' d, assign_table m dst src = Ok (m', d) /\ default_layout d /\ c_shape d = c_shape src /\
    (forall is_, coord_of src is_ -> get m' d is_ = get m src is_) /\
    (forall is_, in_box (dims d) is_ -> ~ valid m (elem d is_)) /\
    (forall p, valid m p -> ~ same_block p (c_data dst) -> cell m' p = cell m p).
Proof. exact @assign_table_l. Qed.
Print Assumptions heap_assignment_is_deep_copy.

Theorem heap_assignment_keeps_source : forall (T : Type) (m : mem T) dst src,
  default_layout dst -> default_layout src -> same_type dst src -> owns m dst -> readable m src ->
  ~ same_block (c_data src) (c_data dst) ->
  exists m' d, assign_table m dst src = Ok (m', d) /\
    forall is_, coord_of src is_ -> get m' src is_ = get m src is_.
Proof. exact @assign_source_l. Qed.
Print Assumptions heap_assignment_keeps_source.

Theorem stack_assignment_is_deep_copy : forall (T : Type) (m : mem T) dst src,
  default_layout dst -> default_layout src -> same_type dst src -> c_kind dst = KStatic ->
  readable m dst -> readable m src ->
  exists m', assign_stack_table m dst src = Ok (m', dst) /\
    (forall is_, coord_of src is_ -> get m' dst is_ = get m src is_) /\
    (forall p, valid m p -> (forall is_, in_box (dims dst) is_ -> p <> elem dst is_) -> cell m' p = cell m p).
Proof. exact @assign_stack_l. Qed.
Print Assumptions stack_assignment_is_deep_copy.

Theorem heap_swap_exchanges : forall a b, same_type a b -> wf_container a -> wf_container b ->
  let (a', b') := swap_containers a b in
  c_shape a' = c_shape b /\ c_shape b' = c_shape a /\
  (forall is_, elem a' is_ = elem b is_) /\ (forall is_, elem b' is_ = elem a is_) /\
  (forall is_, index a' is_ = index b is_) /\ (forall is_, index b' is_ = index a is_).
Proof. exact swap_heap_l. Qed.
Print Assumptions heap_swap_exchanges.

Theorem stack_swap_exchanges : forall (T : Type) (m : mem T) a b,
  default_layout a -> default_layout b -> same_type a b -> c_kind a = KStatic ->
  readable m a -> readable m b -> ~ same_block (c_data a) (c_data b) ->
  exists m', swap_stack m a b = Ok (m', a, b) /\
    (forall is_, coord_of a is_ -> get m' a is_ = get m b is_ /\ get m' b is_ = get m a is_) /\
    (forall p, (forall is_, in_box (dims a) is_ -> p <> elem a is_ /\ p <> elem b is_) -> cell m' p = cell m p).
Proof. exact @swap_stack_l. Qed.
Print Assumptions stack_swap_exchanges.

Theorem stack_swap_self : forall (T : Type) (m : mem T) a,
  default_layout a -> c_kind a = KStatic -> readable m a ->
  exists m', swap_stack m a a = Ok (m', a, a) /\ forall q, cell m' q = cell m q.
Proof. exact @swap_stack_self_l. Qed.
Print Assumptions stack_swap_self.

Definition ex_mem2 : mem Z := ex_mem ++ [Some (map Some [1; 2; 3; 4])].
Definition ex_2d' : container := Cn K2 [int 2; int 2] [] (Ptr 1 0).
Example ex_2d'_ok : default_layout ex_2d' /\ same_type ex_2d' ex_2d /\ owns ex_mem2 ex_2d' /\ owns ex_mem2 ex_2d.
Proof.
  split; [by_default false|]. split; [split; [reflexivity|split; [reflexivity|discriminate]]|].
  split; right; do 2 eexists; split; reflexivity.
Qed.
Example assign_ex : assign_table ex_mem2 ex_2d' ex_2d =
  Ok ([Some (map Some [10; 11; 12; 13; 14; 15]); None; Some (map Some [10; 11; 12; 13; 14; 15])],
      Cn K2 [int 2; int 3] [] (Ptr 2 0)).
Proof. vm_compute. reflexivity. Qed.
Example self_assign_ex : assign_table ex_mem2 ex_2d' ex_2d' =
  Ok ([Some (map Some [10; 11; 12; 13; 14; 15]); None; Some (map Some [1; 2; 3; 4])],
      Cn K2 [int 2; int 2] [] (Ptr 2 0)).
Proof. vm_compute. reflexivity. Qed.
Definition ex_stack1 : container := Cn KStatic [int 2; int 2] [CI I32 2; int 1] (Ptr 0 0).
Definition ex_stack2 : container := Cn KStatic [int 2; int 2] [CI I32 2; int 1] (Ptr 1 0).
Definition ex_mem3 : mem Z := [Some (map Some [5; 6; 7; 8]); Some (map Some [1; 2; 3; 4])].
Example ex_stack_ok : default_layout ex_stack1 /\ default_layout ex_stack2 /\ same_type ex_stack1 ex_stack2 /\
  ~ same_block (c_data ex_stack1) (c_data ex_stack2).
Proof.
  split; [by_default true|]. split; [by_default true|].
  split; [split; [reflexivity|split; [reflexivity|split; reflexivity]]|]. discriminate.
Qed.
Example ex_stack_readable : readable ex_mem3 ex_stack1. Proof. by_box. Qed.
Example ex_stack_readable2 : readable ex_mem3 ex_stack2. Proof. by_box. Qed.
Example stack_swap_ex : swap_stack ex_mem3 ex_stack1 ex_stack2 =
  Ok ([Some (map Some [1; 2; 3; 4]); Some (map Some [5; 6; 7; 8])], ex_stack1, ex_stack2).
Proof. vm_compute. reflexivity. Qed.
Example stack_assign_ex : assign_stack_table ex_mem3 ex_stack1 ex_stack2 =
  Ok ([Some (map Some [1; 2; 3; 4]); Some (map Some [1; 2; 3; 4]); None], ex_stack1).
Proof. vm_compute. reflexivity. Qed.

(** C50 *)
Theorem default_stride_maps_everything_to_zero : forall is_, wfs is_ ->
  exists i, linearize (stride_default (length is_)) is_ = Ok i /\ cval i = 0.
Proof. intros is_ W. exact (linearize_zero_l is_ (int 0) (wfc_small_int 0 ltac:(unfold max31; lia)) eq_refl W). Qed.
Print Assumptions default_stride_maps_everything_to_zero.

Theorem default_stride_aliases_elements : forall (T : Type) (m : mem T) sh data a b c,
  (2 < length sh)%nat -> wfs a -> wfs b -> length a = length sh -> length b = length sh ->
  make_view false false sh (Some (stride_default (length sh))) data = Ok c ->
  address c a = Ok data /\ address c b = Ok data /\ get m c a = get m c b.
Proof. exact @default_stride_aliases_l. Qed.
Print Assumptions default_stride_aliases_elements.

Theorem default_stride_is_not_ones_refuted : exists n, vals (stride_default n) <> repeat 1 n.
Proof. exists 1%nat. vm_compute. discriminate. Qed.
Print Assumptions default_stride_is_not_ones_refuted.

Example default_stride_ex :
  linearize (stride_default 3) [int 4; CI U8 5; CI I64 6] = Ok (CI I64 0).
Proof. vm_compute. reflexivity. Qed.
