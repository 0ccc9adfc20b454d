(** Property C99: views of more than 2^31 elements. *)
From Coq Require Import ZArith List Bool Lia.
From Verif Require Import Outcome CInt CIntFacts Spec SpecFacts ShapeSpec Shape ShapeFacts ShapeFacts2
  Memory MemFacts Container ContainerSpec ContainerFacts ContainerFacts2 ContainerFacts3 Algo AlgoSpec AlgoFacts4 LargeSpec LargeFacts LargeFacts2.
Import ListNotations.
Open Scope Z_scope.

(** Three planes of 65536 x 65536, the last extent of 64 bits; and a volume of [unsigned long]. *)
Definition g : shape := [int 3; int 65536; CI I64 65536].
Definition sq : shape := [CI U64 65536; CI U64 65537].
Lemma g_large : large g.
Proof.
  split; [unfold wfs, g; apply Forall_cons; [|apply Forall_cons; [|apply Forall_cons; [|apply Forall_nil]]]; vm_compute; split; discriminate|].
  split; [unfold nonnegs; cbn; apply Forall_cons; [lia|apply Forall_cons; [lia|apply Forall_cons; [lia|apply Forall_nil]]]|].
  split; [vm_compute; discriminate|]. right. exists [int 3; int 65536], (CI I64 65536). split; [reflexivity|left; reflexivity].
Qed.
Lemma sq_large : large sq.
Proof.
  split; [unfold wfs, sq; apply Forall_cons; [|apply Forall_cons; [|apply Forall_nil]]; vm_compute; split; discriminate|].
  split; [unfold nonnegs; cbn; apply Forall_cons; [lia|apply Forall_cons; [lia|apply Forall_nil]]|].
  split; [vm_compute; discriminate|]. right. exists [CI U64 65536], (CI U64 65537). split; [reflexivity|right; reflexivity].
Qed.

(** Strides, indexes and coordinates are exact. *)
Theorem large_strides : forall s, large s -> s <> [] ->
  exists st, as_stride s = Ok st /\ vals st = strides_of (vals s) /\ wfs st.
Proof. intros s L N. destruct (as_stride_large s L N) as (st & A & B & C & _). exists st. auto. Qed.
Print Assumptions large_strides.

Theorem large_linear_index : forall dbg s is_, large s -> s <> [] -> coord_in s is_ -> (dbg = true -> fits s is_) ->
  exists i, linear_index dbg s is_ = Ok i /\ cval i = rank (vals s) (vals is_) /\ wfc i.
Proof. exact large_index. Qed.
Print Assumptions large_linear_index.
Example large_linear_index_ex :
  coord_in g [int 2; int 100; int 65535] /\
  linear_index true g [int 2; int 100; int 65535] = Ok (CI I64 8596553727).
Proof.
  split; [|vm_compute; reflexivity]. split.
  - apply Forall_cons; [|apply Forall_cons; [|apply Forall_cons; [|apply Forall_nil]]]; vm_compute; split; discriminate.
  - apply in_box_cons; [cbn; lia|]. apply in_box_cons; [cbn; lia|]. apply in_box_cons; [cbn; lia|]. apply in_box_nil.
Qed.

Theorem large_coordinates_inverse : forall s idx, large s -> s <> [] -> wfc idx -> 0 <= cval idx < prod (vals s) ->
  exists cs, coordinates false idx s = Ok cs /\ in_box (vals s) (vals cs) /\ rank (vals s) (vals cs) = cval idx /\
             Forall (fun c => cty c = cty idx) cs /\ wfs cs.
Proof. exact large_coordinates. Qed.
Print Assumptions large_coordinates_inverse.
Example large_coordinates_ex : coordinates false (CI I64 8596553727) g = Ok [CI I64 2; CI I64 100; CI I64 65535].
Proof. vm_compute. reflexivity. Qed.

(** Views: an access reaches the element of its row-major rank. *)
Theorem large_view_access : forall T ss sh data is_, large sh -> sh <> [] -> coord_in sh is_ ->
  exists v, make_view ss ss sh None data = Ok v /\ forall m : mem T,
    (forall x, get m v is_ = Ok x <-> peek m (padd data (rank (vals sh) (vals is_))) = Some x) /\
    (forall x, valid m (padd data (rank (vals sh) (vals is_))) ->
       exists m', put m v is_ x = Ok m' /\ get m' v is_ = Ok x /\
         forall p, p <> padd data (rank (vals sh) (vals is_)) -> cell m' p = cell m p).
Proof. intros T. exact large_access. Qed.
Print Assumptions large_view_access.

(** So the algorithms can be used on them: their hypotheses hold. *)
Theorem large_view_usable : forall ss sh data, large sh -> sh <> [] ->
  exists v, make_view ss ss sh None data = Ok v /\ c_shape v = sh /\ c_data v = data /\ (forall tys, addressable v tys) /\
    (forall is_, in_box (vals sh) is_ -> elem v is_ = padd data (rank (vals sh) is_)) /\
    forall T (m : mem T), (readable m v -> can_read m v v) /\ (writable m v -> can_write m v v).
Proof.
  intros ss sh data L N. destruct (large_view ss sh data L N) as (v & E & D & S1 & S2). exists v.
  split; [exact E|]. split; [exact S1|]. split; [exact S2|]. split; [intros tys; apply large_addressable, D|]. split.
  - intros is_ B. rewrite <- S1, <- S2 in *. apply large_elem; assumption.
  - intros T m. split; [apply large_can_read; auto|apply large_can_write; auto].
Qed.
Print Assumptions large_view_usable.

Theorem large_fill : forall T ss sh data v (x : T) m, large sh -> sh <> [] -> make_view ss ss sh None data = Ok v ->
  (forall k, 0 <= k < prod (vals sh) -> valid m (padd data k)) ->
  exists m', fill v x m = Ok m' /\ (forall k, 0 <= k < prod (vals sh) -> peek m' (padd data k) = Some x) /\
    (forall p, (forall k, 0 <= k < prod (vals sh) -> p <> padd data k) -> cell m' p = cell m p).
Proof. exact @large_fill_l. Qed.
Print Assumptions large_fill.

Theorem large_reduce : forall T A ss sh data v (f : A -> T -> A) init m vs, large sh -> sh <> [] ->
  make_view ss ss sh None data = Ok v -> Z.of_nat (length vs) = prod (vals sh) ->
  (forall k x, nth_error vs k = Some x -> peek m (padd data (Z.of_nat k)) = Some x) ->
  reduce v f init m = Ok (fold_left f vs init, m).
Proof. exact @large_reduce_l. Qed.
Print Assumptions large_reduce.

(** The hypotheses hold of a block of three times 2^32 elements. *)
Definition gm : mem Z := [Some (repeat (Some 7) (Z.to_nat 12884901888))].
Definition gv : container := Cn KGen g [CI I64 4294967296; CI I64 65536; int 1] (Ptr 0 0).
Example gv_ex : make_view false false g None (Ptr 0 0) = Ok gv.
Proof. vm_compute. reflexivity. Qed.
Lemma gm_holds : forall k, 0 <= k < 12884901888 -> peek gm (Ptr 0 k) = Some 7.
Proof.
  intros k H. unfold peek, cell, gm. cbn [nth_error]. destruct (Z.leb_spec 0 k); [|lia].
  rewrite (nth_error_repeat (Some 7)); [reflexivity|]. lia.
Qed.
Example large_sum_ex : reduce gv Z.add 0 gm = Ok (fold_left Z.add (repeat 7 (Z.to_nat 12884901888)) 0, gm).
Proof.
  apply (large_reduce Z Z false g (Ptr 0 0)); [apply g_large|discriminate|apply gv_ex| |].
  - rewrite repeat_length. change (prod (vals g)) with 12884901888. lia.
  - intros k x E. assert (L : (k < Z.to_nat 12884901888)%nat).
    { apply (f_equal (fun o => match o with Some _ => true | None => false end)) in E.
      destruct (Nat.lt_ge_cases k (Z.to_nat 12884901888)) as [|G]; [assumption|].
      rewrite (proj2 (nth_error_None _ _)) in E by (rewrite repeat_length; exact G). discriminate. }
    rewrite nth_error_repeat in E by exact L. injection E as <-. cbn [padd]. rewrite Z.add_0_l. apply gm_holds. lia.
Qed.
Example large_sum_value : fold_left Z.add (repeat 7 (Z.to_nat 12884901888)) 0 = 90194313216.
Proof.
  assert (G : forall n a, fold_left Z.add (repeat 7 n) a = a + 7 * Z.of_nat n).
  { induction n as [|n IH]; intros a; [cbn; lia|]. cbn [repeat fold_left]. rewrite IH. lia. }
  rewrite G, Z2Nat.id by lia. reflexivity.
Qed.

(** The number of elements is not: numel() is an int. *)
Theorem large_numel_truncated : forall s, large s -> s <> [] -> exists n, numel s = Ok n /\ cty n = I32 /\ wfc n /\
  cval n mod 4294967296 = prod (vals s) mod 4294967296.
Proof. exact large_numel. Qed.
Print Assumptions large_numel_truncated.
Theorem large_numel_refuted : exists s, large s /\ s <> [] /\ numel s = Ok (int 65536) /\ prod (vals s) = 4295032832.
Proof. exists sq. split; [apply sq_large|]. split; [discriminate|]. split; vm_compute; reflexivity. Qed.
Print Assumptions large_numel_refuted.

(** Hence a large table does not have its elements. *)
Theorem large_table_too_short : forall T (m : mem T) ss sh n, large sh -> 2147483647 < prod (vals sh) ->
  numel sh = Ok n -> 0 <= cval n ->
  exists m' t, make_table m ss ss sh None None = Ok (m', t) /\ c_shape t = sh /\
    (forall is_, in_box (vals sh) is_ -> (valid m' (elem t is_) <-> rank (vals sh) is_ < cval n)) /\
    exists is_, in_box (vals sh) is_ /\ ~ valid m' (elem t is_) /\
      forall tis, wfs tis -> vals tis = is_ -> get m' t tis = UB /\ forall x, put m' t tis x = UB.
Proof. intros T. exact large_table_short. Qed.
Print Assumptions large_table_too_short.
Example large_table_ex : large sq /\ 2147483647 < prod (vals sq) /\ numel sq = Ok (int 65536).
Proof. split; [apply sq_large|]. split; vm_compute; reflexivity. Qed.

(** coordinates() stops in debug although the index is one of the shape; so does linear_index() for coordinates whose
    type does not hold the extents. *)
Theorem large_coordinates_assertion_refuted : exists s idx, large s /\ s <> [] /\ wfc idx /\ 0 <= cval idx < prod (vals s) /\
  coordinates true idx s = Abort.
Proof.
  exists sq, (CI I64 70000). split; [apply sq_large|]. split; [discriminate|]. split; [vm_compute; split; discriminate|].
  split; [split; [discriminate|reflexivity]|]. vm_compute. reflexivity.
Qed.
Print Assumptions large_coordinates_assertion_refuted.
Theorem large_index_assertion_refuted : exists s is_ i, large s /\ s <> [] /\ coord_in s is_ /\
  linear_index true s is_ = Abort /\ linear_index false s is_ = Ok i /\ cval i = rank (vals s) (vals is_).
Proof.
  exists [CI I64 4294967296], [int 5], (int 5). split; [|split; [discriminate|split; [|split; [|split]]]]; try (vm_compute; reflexivity).
  - split; [apply Forall_cons; [vm_compute; split; discriminate|apply Forall_nil]|].
    split; [apply Forall_cons; [cbn; lia|apply Forall_nil]|]. split; [vm_compute; discriminate|]. left. reflexivity.
  - split; [apply Forall_cons; [vm_compute; split; discriminate|apply Forall_nil]|]. apply in_box_cons; [cbn; lia|apply in_box_nil].
Qed.
Print Assumptions large_index_assertion_refuted.

(** With inner extents of int the offset overflows. *)
Theorem large_int_extents_refuted : exists v is_, make_view false false [CI I64 65536; int 65536] None (Ptr 0 0) = Ok v /\
  coord_of v is_ /\ index v is_ = UB.
Proof.
  exists (Cn K2 [CI I64 65536; int 65536] [] (Ptr 0 0)), [int 40000; int 0]. split; [vm_compute; reflexivity|]. split; [|vm_compute; reflexivity].
  split; [apply Forall_cons; [|apply Forall_cons; [|apply Forall_nil]]; vm_compute; split; discriminate|].
  apply in_box_cons; [cbn; lia|]. apply in_box_cons; [cbn; lia|apply in_box_nil].
Qed.
Print Assumptions large_int_extents_refuted.

(** The reversal of a view of more than 2^31 - 1 elements starts where the truncated number of elements says, never at
    its last element. *)
Theorem large_reverse_misplaced : forall st c rc b o, large_layout c -> c_data c = Ptr b o -> 2147483647 < prod (dims c) -> reverse st c = Ok rc ->
  exists n, numel (c_shape c) = Ok n /\ cval n <= 2147483647 /\
    elem rc (repeat 0 (length (dims c))) = padd (c_data c) (cval n - 1) /\
    elem c (mirror_coord (dims c) (repeat 0 (length (dims c)))) = padd (c_data c) (prod (dims c) - 1) /\
    elem rc (repeat 0 (length (dims c))) <> elem c (mirror_coord (dims c) (repeat 0 (length (dims c)))).
Proof. exact large_reverse_l. Qed.
Print Assumptions large_reverse_misplaced.
Example reversed_ex : large_layout gv /\ c_data gv = Ptr 0 0 /\ prod (dims gv) = 12884901888 /\
  exists rc, reverse false gv = Ok rc /\ c_data rc = Ptr 0 (-1).
Proof.
  split; [split; [apply g_large|split; [discriminate|exists false; vm_compute; reflexivity]]|]. split; [reflexivity|]. split; [vm_compute; reflexivity|].
  eexists. split; [vm_compute; reflexivity|]. reflexivity.
Qed.

(** Searches from the end start at the truncated number of elements. *)
Theorem large_search_from_end_refuted : exists (m : mem Z) v, readable m v /\ large (c_shape v) /\
  make_view false false (c_shape v) None (Ptr 0 0) = Ok v /\ find_last_if false v (fun x => x =? 7) m = UB.
Proof.
  exists gm, gv. split; [|split; [apply g_large|split; [apply gv_ex|]]].
  - intros is_ B. exists 7. assert (D : large_layout gv) by (split; [apply g_large|split; [discriminate|exists false; vm_compute; reflexivity]]).
    unfold value. rewrite large_elem by assumption. pose proof (rank_range _ _ B) as R. change (prod (dims gv)) with 12884901888 in R.
    cbn [c_data gv padd]. rewrite Z.add_0_l. apply gm_holds. exact R.
  - unfold gm. generalize (repeat (Some 7) (Z.to_nat 12884901888)). intros cells. vm_compute. reflexivity.
Qed.
Print Assumptions large_search_from_end_refuted.
