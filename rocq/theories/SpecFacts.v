(** Facts on the specification vocabulary only (mathematical integers). *)
From Coq Require Import ZArith List Bool Lia Sorting.Permutation.
From Verif Require Import Spec.
Import ListNotations.
Open Scope Z_scope.

(** Row-major strides: the product of the following extents. *)
Fixpoint strides_of (ns : list Z) : list Z :=
  match ns with
  | [] => []
  | _ :: ns' => prod ns' :: strides_of ns'
  end.

Lemma prod_cons n l : prod (n :: l) = n * prod l.
Proof. reflexivity. Qed.

Lemma posprod_cons n l : posprod (n :: l) = Z.max 1 n * posprod l.
Proof. reflexivity. Qed.

Lemma prod_app a b : prod (a ++ b) = prod a * prod b.
Proof.
  induction a as [|x a IH]; [cbn [app]; change (prod []) with 1; lia|].
  cbn [app]. rewrite !prod_cons, IH. lia.
Qed.

Lemma posprod_app a b : posprod (a ++ b) = posprod a * posprod b.
Proof.
  induction a as [|x a IH]; [cbn [app]; change (posprod []) with 1; lia|].
  cbn [app]. rewrite !posprod_cons, IH. lia.
Qed.

Lemma posprod_pos l : 1 <= posprod l.
Proof.
  induction l as [|x l IH]; [change (posprod []) with 1; lia|].
  rewrite posprod_cons. assert (1 <= Z.max 1 x) by lia. nia.
Qed.

Lemma prod_nonneg l : Forall (fun n => 0 <= n) l -> 0 <= prod l.
Proof.
  induction 1 as [|x l Hx Hl IH]; [change (prod []) with 1; lia|]. rewrite prod_cons. nia.
Qed.

Lemma prod_le_posprod l : Forall (fun n => 0 <= n) l -> prod l <= posprod l.
Proof.
  induction 1 as [|x l Hx Hl IH]; [cbv; discriminate|].
  rewrite prod_cons, posprod_cons.
  pose proof (prod_nonneg l Hl). pose proof (posprod_pos l).
  assert (x * prod l <= x * posprod l) by nia. nia.
Qed.

Lemma posprod_tail_le n l : posprod l <= posprod (n :: l).
Proof. rewrite posprod_cons. pose proof (posprod_pos l). assert (1 <= Z.max 1 n) by lia. nia. Qed.

Lemma posprod_head_le n l : n <= posprod (n :: l).
Proof.
  rewrite posprod_cons. pose proof (posprod_pos l).
  assert (1 <= Z.max 1 n) by lia. assert (n <= Z.max 1 n) by lia. nia.
Qed.

Lemma posprod_eq_prod l : Forall (fun n => 1 <= n) l -> posprod l = prod l.
Proof.
  induction 1 as [|x l Hx Hl IH]; [reflexivity|].
  rewrite prod_cons, posprod_cons, IH. rewrite Z.max_r by lia. reflexivity.
Qed.

Lemma prod_zero_iff l : prod l = 0 <-> In 0 l.
Proof.
  induction l as [|x l IH].
  - split; [discriminate|intros []].
  - rewrite prod_cons, Z.mul_eq_0, IH. simpl. tauto.
Qed.

Lemma in_box_length ns is_ : in_box ns is_ -> length is_ = length ns.
Proof. induction 1; simpl; congruence. Qed.

Lemma in_box_prod_pos ns is_ : in_box ns is_ -> Forall (fun n => 1 <= n) ns.
Proof. induction 1; constructor; [lia|assumption]. Qed.

Lemma prod_pos l : Forall (fun n => 1 <= n) l -> 1 <= prod l.
Proof.
  induction 1 as [|x l Hx Hl IH]; [change (prod []) with 1; lia|]. rewrite prod_cons. nia.
Qed.

Lemma prod_pos_all l : Forall (fun n => 0 <= n) l -> 0 < prod l -> Forall (fun n => 1 <= n) l.
Proof.
  induction 1 as [|x l Hx Hl IH]; intros Hp; constructor.
  - rewrite prod_cons in *. pose proof (prod_nonneg l Hl). nia.
  - apply IH. rewrite prod_cons in *. pose proof (prod_nonneg l Hl). nia.
Qed.

Lemma in_box_app n1 n2 i1 i2 : length i1 = length n1 ->
  in_box (n1 ++ n2) (i1 ++ i2) <-> in_box n1 i1 /\ in_box n2 i2.
Proof.
  revert i1; induction n1 as [|n n1 IH]; intros [|i i1] Hl; simpl in *; try discriminate.
  - split; [intros H; split; [constructor|exact H]|tauto].
  - split.
    + intros H; inversion H; subst. apply IH in H5; [|congruence]. destruct H5.
      split; [constructor; assumption|assumption].
    + intros [H1 H2]. inversion H1; subst. constructor; [assumption|].
      apply IH; [congruence|tauto].
Qed.

Lemma rank_from_dot acc ns is_ : length is_ = length ns ->
  rank_from acc ns is_ = acc * prod ns + dot (strides_of ns) is_.
Proof.
  revert acc is_; induction ns as [|n ns IH]; intros acc [|i is_] Hl; simpl in *; try discriminate.
  - change (prod []) with 1; lia.
  - rewrite IH by congruence. rewrite prod_cons. lia.
Qed.

Lemma rank_dot ns is_ : length is_ = length ns -> rank ns is_ = dot (strides_of ns) is_.
Proof. intros. unfold rank. rewrite rank_from_dot by assumption. lia. Qed.

Lemma rank_cons n ns i is_ : length is_ = length ns ->
  rank (n :: ns) (i :: is_) = i * prod ns + rank ns is_.
Proof.
  intros H. rewrite !rank_dot by (simpl; congruence). simpl. lia.
Qed.

Lemma rank_range ns is_ : in_box ns is_ -> 0 <= rank ns is_ < prod ns.
Proof.
  induction 1 as [|n ns i is_ Hi Hb IH]; [cbv; split; congruence|].
  rewrite rank_cons by (apply in_box_length; assumption). rewrite prod_cons. nia.
Qed.

Lemma rank_app n1 n2 i1 i2 : length i1 = length n1 -> length i2 = length n2 ->
  rank (n1 ++ n2) (i1 ++ i2) = rank n1 i1 * prod n2 + rank n2 i2.
Proof.
  intros H1 H2. revert i1 H1.
  induction n1 as [|n n1 IH]; intros [|i i1] H1; simpl in H1; try discriminate.
  - change (rank [] []) with 0. cbn [app]. lia.
  - cbn [app]. rewrite rank_cons by (rewrite !app_length; congruence).
    rewrite IH by congruence. rewrite (rank_cons n n1 i i1) by congruence.
    rewrite prod_app. lia.
Qed.

Lemma rank_inj ns is_ js : in_box ns is_ -> in_box ns js -> rank ns is_ = rank ns js -> is_ = js.
Proof.
  intros Hi; revert js; induction Hi as [|n ns i is_ Hi Hb IH]; intros js Hj E.
  - inversion Hj; reflexivity.
  - inversion Hj as [|n' ns' j js' Hj1 Hj2]; subst.
    rewrite !rank_cons in E by (apply in_box_length; assumption).
    pose proof (rank_range _ _ Hb). pose proof (rank_range _ _ Hj2).
    assert (i = j) by nia. subst j. f_equal. apply IH; [assumption|lia].
Qed.

Lemma rank_lex ns is_ js : in_box ns is_ -> in_box ns js ->
  (lex is_ js <-> rank ns is_ < rank ns js).
Proof.
  intros Hi; revert js; induction Hi as [|n ns i is_ Hi Hb IH]; intros js Hj.
  - inversion Hj; subst. split; [intros H; inversion H|lia].
  - inversion Hj as [|n' ns' j js' Hj1 Hj2]; subst.
    rewrite !rank_cons by (apply in_box_length; assumption).
    pose proof (rank_range _ _ Hb). pose proof (rank_range _ _ Hj2).
    specialize (IH _ Hj2). split.
    + intros HL; inversion HL; subst; [nia|].
      match goal with K : lex is_ js' |- _ => apply IH in K end. lia.
    + intros HL. destruct (Z.lt_trichotomy i j) as [L|[E|G]].
      * apply lex_head; [assumption|].
        apply in_box_length in Hb, Hj2. congruence.
      * subst j. apply lex_tail, IH. lia.
      * nia.
Qed.

(** Coordinates of a rank. *)
Fixpoint inner_of (r : Z) (ns : list Z) : list Z :=
  match ns with
  | [] => []
  | n :: ns' => (r / prod ns') mod n :: inner_of r ns'
  end.
Definition coords_of (r : Z) (ns : list Z) : list Z :=
  match ns with
  | [] => []
  | _ :: ns' => r / prod ns' :: inner_of r ns'
  end.

Lemma inner_of_length r ns : length (inner_of r ns) = length ns.
Proof. induction ns; simpl; congruence. Qed.

Lemma inner_of_box r ns : 0 <= r -> Forall (fun n => 1 <= n) ns -> in_box ns (inner_of r ns).
Proof.
  intros Hr; induction 1 as [|n ns Hn Hns IH]; simpl; constructor; [|assumption].
  apply Z.mod_pos_bound. lia.
Qed.

Lemma inner_of_rank r ns : 0 <= r -> Forall (fun n => 1 <= n) ns ->
  rank ns (inner_of r ns) = r mod prod ns.
Proof.
  intros Hr; induction 1 as [|n ns Hn Hns IH].
  - change (prod []) with 1. rewrite Z.mod_1_r. reflexivity.
  - cbn [inner_of]. rewrite rank_cons by apply inner_of_length. rewrite IH, prod_cons.
    pose proof (prod_pos ns Hns). rewrite (Z.mul_comm n). rewrite Z.rem_mul_r by lia. lia.
Qed.

Lemma coords_of_box r ns : Forall (fun n => 1 <= n) ns -> ns <> [] -> 0 <= r < prod ns ->
  in_box ns (coords_of r ns).
Proof.
  intros H Hne Hr. destruct H as [|n ns Hn Hns]; [congruence|].
  rewrite prod_cons in Hr. pose proof (prod_pos ns Hns).
  simpl. constructor; [|apply inner_of_box; [lia|assumption]].
  split; [apply Z.div_pos; lia|apply Z.div_lt_upper_bound; lia].
Qed.

Lemma coords_of_rank r ns : Forall (fun n => 1 <= n) ns -> ns <> [] -> 0 <= r ->
  rank ns (coords_of r ns) = r.
Proof.
  intros H Hne Hr. destruct H as [|n ns Hn Hns]; [congruence|].
  simpl. rewrite rank_cons by apply inner_of_length.
  rewrite inner_of_rank by assumption. pose proof (prod_pos ns Hns).
  rewrite (Z.div_mod r (prod ns)) at 3 by lia. lia.
Qed.

Lemma rank_surj ns r : Forall (fun n => 1 <= n) ns -> ns <> [] -> 0 <= r < prod ns ->
  exists is_, in_box ns is_ /\ rank ns is_ = r.
Proof.
  intros. exists (coords_of r ns). split; [apply coords_of_box|apply coords_of_rank]; auto; lia.
Qed.

(** Boxes *)
Lemma zrange_In s n z : In z (zrange s n) <-> s <= z < s + Z.of_nat n.
Proof.
  revert s; induction n as [|n IH]; intros s; simpl; [lia|]. rewrite IH. lia.
Qed.

Lemma zrange_length s n : length (zrange s n) = n.
Proof. revert s; induction n; simpl; congruence. Qed.

Lemma zrange_app s a b : zrange s (a + b) = zrange s a ++ zrange (s + Z.of_nat a) b.
Proof.
  revert s; induction a as [|a IH]; intros s.
  - simpl. f_equal. lia.
  - cbn [zrange Nat.add app]. rewrite IH. f_equal. f_equal. f_equal. lia.
Qed.

Lemma box_In ns is_ : In is_ (box ns) <-> in_box ns is_.
Proof.
  revert is_; induction ns as [|n ns IH]; intros is_; simpl.
  - split; [intros [<-|[]]; constructor|intros H; inversion H; auto].
  - rewrite in_flat_map. split.
    + intros (i & Hi & H). apply in_map_iff in H as (t & <- & Ht). apply zrange_In in Hi.
      constructor; [lia|apply IH; assumption].
    + intros H; inversion H; subst. exists i. split; [apply zrange_In; lia|].
      apply in_map, IH; assumption.
Qed.

Lemma box_length ns : Forall (fun n => 0 <= n) ns -> Z.of_nat (length (box ns)) = prod ns.
Proof.
  induction 1 as [|n ns Hn Hns IH]; [reflexivity|].
  rewrite prod_cons, <- IH. cbn [box].
  assert (G : forall s k, length (flat_map (fun i => map (cons i) (box ns)) (zrange s k))
                          = (k * length (box ns))%nat).
  { intros s k; revert s; induction k as [|k IHk]; intros s; simpl; [reflexivity|].
    rewrite app_length, map_length, IHk. reflexivity. }
  rewrite G. nia.
Qed.

Lemma zrange_shift c s n : map (fun r => c + r) (zrange s n) = zrange (c + s) n.
Proof.
  revert s; induction n as [|n IH]; intros s; [reflexivity|].
  cbn [zrange map]. rewrite IH. f_equal. f_equal. lia.
Qed.

(** The box is sorted: the coordinate in position p has rank p. *)
Lemma box_rank_zrange ns : Forall (fun n => 0 <= n) ns ->
  map (rank ns) (box ns) = zrange 0 (length (box ns)).
Proof.
  induction 1 as [|n ns Hn Hns IH]; [reflexivity|].
  cbn [box].
  assert (G : forall k s, 0 <= s ->
     map (rank (n :: ns)) (flat_map (fun i => map (cons i) (box ns)) (zrange s k))
     = zrange (s * prod ns) (k * length (box ns))).
  { induction k as [|k IHk]; intros s Hs; [reflexivity|].
    cbn [zrange flat_map]. rewrite map_app, IHk by lia.
    change (S k * length (box ns))%nat with (length (box ns) + k * length (box ns))%nat.
    rewrite zrange_app. f_equal.
    - rewrite map_map.
      rewrite (map_ext_in _ (fun t => s * prod ns + rank ns t)).
      2:{ intros t Ht. apply box_In in Ht. apply rank_cons, in_box_length; assumption. }
      rewrite <- (map_map (rank ns) (fun r => s * prod ns + r)), IH.
      rewrite zrange_shift. f_equal. lia.
    - f_equal. rewrite (box_length ns Hns). lia. }
  assert (Hl : length (flat_map (fun i => map (cons i) (box ns)) (zrange 0 (Z.to_nat n)))
               = (Z.to_nat n * length (box ns))%nat).
  { specialize (G (Z.to_nat n) 0 ltac:(lia)). apply (f_equal (@length Z)) in G.
    rewrite map_length, zrange_length in G. exact G. }
  rewrite Hl, G by lia. f_equal.
Qed.

Lemma zrange_NoDup s n : NoDup (zrange s n).
Proof.
  revert s; induction n as [|n IH]; intros s; simpl; constructor; [|apply IH].
  rewrite zrange_In. lia.
Qed.

Lemma box_NoDup ns : Forall (fun n => 0 <= n) ns -> NoDup (box ns).
Proof.
  intros H. apply (NoDup_map_inv (rank ns)). rewrite box_rank_zrange by assumption.
  apply zrange_NoDup.
Qed.

Lemma strides_of_length ns : length (strides_of ns) = length ns.
Proof. induction ns; simpl; congruence. Qed.

Lemma dot_nonneg a b : Forall (fun x => 0 <= x) a -> Forall (fun x => 0 <= x) b -> 0 <= dot a b.
Proof.
  intros Ha; revert b; induction Ha as [|x a Hx Ha IH]; intros b Hb; [simpl; lia|].
  destruct Hb as [|y b Hy Hb]; [simpl; lia|]. simpl. specialize (IH _ Hb). nia.
Qed.

Lemma in_box_nonneg ns is_ : in_box ns is_ -> Forall (fun i => 0 <= i) is_.
Proof. induction 1; constructor; [lia|assumption]. Qed.

Lemma strides_of_nonneg ns : Forall (fun n => 0 <= n) ns -> Forall (fun s => 0 <= s) (strides_of ns).
Proof. induction 1; simpl; constructor; [apply prod_nonneg|]; assumption. Qed.

Lemma ceil_div_spec n d : 0 < d -> (ceil_div n d - 1) * d < n <= ceil_div n d * d.
Proof.
  intros Hd. unfold ceil_div.
  pose proof (Z.div_mod (- n) d ltac:(lia)) as E. pose proof (Z.mod_pos_bound (- n) d Hd) as B.
  set (q := - n / d) in *. set (r := - n mod d) in *.
  replace ((- q - 1) * d) with (- (d * q) - d) by ring.
  replace (- q * d) with (- (d * q)) by ring. lia.
Qed.

Lemma skipn_skipn {A} a b (l : list A) : skipn a (skipn b l) = skipn (a + b) l.
Proof.
  revert l; induction b as [|b IH]; intros l; [rewrite Nat.add_0_r; reflexivity|].
  destruct l as [|x l]; [rewrite !skipn_nil; reflexivity|].
  rewrite Nat.add_succ_r. cbn [skipn]. apply IH.
Qed.

Lemma Forall2_len {A B} (P : A -> B -> Prop) l1 l2 : Forall2 P l1 l2 -> length l1 = length l2.
Proof. induction 1; simpl; congruence. Qed.
