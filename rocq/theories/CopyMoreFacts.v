(** Facts about copies of containers that read outside of memory, for property C27, continued. *)
From Coq Require Import ZArith List Bool Lia.
From Verif Require Import Outcome CInt CIntFacts Spec SpecFacts ShapeSpec Shape ShapeFacts ShapeFacts2 Memory MemFacts Container
  ContainerSpec ContainerFacts ContainerFacts2.
Import ListNotations.
Open Scope Z_scope.

Section Copies.
Context {T : Type}.
Implicit Type m : mem T.

Lemma load_none m p : peek m p = None -> load m p = UB.
Proof. unfold peek, load. destruct (cell m p) as [[v|]|]; [discriminate|reflexivity..]. Qed.

(** The first cell that cannot be read. *)
Lemma readable_dec m p n : (forall k, 0 <= k < Z.of_nat n -> exists v, peek m (padd p k) = Some v) \/
  (exists k, 0 <= k < Z.of_nat n /\ peek m (padd p k) = None).
Proof.
  induction n as [|n IH]; [left; intros; lia|].
  destruct IH as [IH|(k & R & E)]; [|right; exists k; split; [lia|exact E]].
  destruct (peek m (padd p (Z.of_nat n))) as [v|] eqn:E; [left|right; exists (Z.of_nat n); split; [lia|exact E]].
  intros k R. destruct (Z.eq_dec k (Z.of_nat n)) as [->|]; [eauto|apply IH; lia].
Qed.

Lemma copy_elements_ub n : forall m sb so db d_o k, sb <> db -> 0 <= k < Z.of_nat n -> peek m (Ptr sb (so + k)) = None ->
  copy_elements m (Ptr sb so) (Ptr db d_o) n = UB.
Proof.
  induction n as [|n IH]; intros m sb so db d_o k Ne R E; [lia|]. cbn [copy_elements].
  destruct (peek m (Ptr sb so)) as [v|] eqn:P.
  - rewrite (load_peek _ _ _ P). cbn [bind]. unfold store.
    destruct (validb m (Ptr db d_o)); [|reflexivity]. cbn [bind padd].
    destruct (Z.eq_dec k 0) as [->|]; [rewrite Z.add_0_r in E; congruence|].
    apply (IH _ _ _ _ _ (k - 1)); [exact Ne|lia|]. rewrite peek_upd_other by congruence.
    rewrite <- E. f_equal. f_equal. lia.
  - rewrite (load_none _ _ P). reflexivity.
Qed.

Lemma peek_app m x p : (match p with Ptr b _ => (b < length m)%nat | Null => True end) -> peek (m ++ x) p = peek m p.
Proof. destruct p as [|b o]; [reflexivity|]. intros H. unfold peek, cell. rewrite nth_error_app1 by exact H. reflexivity. Qed.

Lemma new_block_ub m n b off k : (b < length m)%nat -> 0 <= k < n -> peek m (Ptr b (off + k)) = None ->
  new_block m n (Some (Ptr b off)) = UB.
Proof.
  intros Hb R E. unfold new_block. destruct (Z.eqb_spec n 0); [lia|]. unfold alloc.
  rewrite (copy_elements_ub _ _ _ _ _ _ k); [reflexivity|lia|lia|]. rewrite peek_app; [exact E|exact Hb].
Qed.

Lemma table_of_ub_l m ss c b off k : legal (c_shape c) -> c_shape c <> [] -> c_data c = Ptr b off -> (b < length m)%nat ->
  0 <= k < prod (dims c) -> peek m (padd (c_data c) k) = None -> table_of m ss c = UB /\ copy_table m c = UB.
Proof.
  intros Lg Ne Ed Hb R E. pose proof (numel_ok (c_shape c) Lg Ne) as En.
  assert (Hn : exists n, numel (c_shape c) = Ok n /\ cval n = prod (dims c)) by (eexists; split; [exact En|reflexivity]).
  clear En. destruct Hn as (n & En & Vn). rewrite Ed in E. cbn [padd] in E.
  unfold table_of, copy_table, table_like, settings, make_table. rewrite En, Ed. cbn [bind].
  rewrite (new_block_ub m (cval n) b off k Hb); [split; reflexivity|lia|exact E].
Qed.

Lemma copies_defined_l m ss c b off : legal (c_shape c) -> c_shape c <> [] -> c_data c = Ptr b off -> (b < length m)%nat ->
  ((exists r, table_of m ss c = Ok r) <-> (forall k, 0 <= k < prod (dims c) -> exists v, peek m (padd (c_data c) k) = Some v)) /\
  ((exists r, table_of m ss c = Ok r) \/ table_of m ss c = UB) /\
  (c_kind c <> KStatic -> wf_container c ->
   ((exists r, copy_table m c = Ok r) <-> (forall k, 0 <= k < prod (dims c) -> exists v, peek m (padd (c_data c) k) = Some v)) /\
   ((exists r, copy_table m c = Ok r) \/ copy_table m c = UB)).
Proof.
  intros Lg Ne Ed Hb. pose proof (legal_prod _ Lg) as Hp. fold (dims c) in Hp.
  destruct (readable_dec m (c_data c) (Z.to_nat (prod (dims c)))) as [R|(k & R & E)]; rewrite Z2Nat.id in R by lia.
  - split; [|split].
    + split; [intros _; exact R|]. intros _. destruct (table_of_contiguous_l m ss c Lg Ne R) as (m' & t & Et & _). eauto.
    + left. destruct (table_of_contiguous_l m ss c Lg Ne R) as (m' & t & Et & _). eauto.
    + intros K W. destruct (copy_strided_l m c K W Lg Ne R) as (m' & t & Et & _). split; [|left; eauto].
      split; [intros _; exact R|eauto].
  - destruct (table_of_ub_l m ss c b off k Lg Ne Ed Hb R E) as [U1 U2]. rewrite U1, U2.
    assert (X : forall r : mem T * container, @UB (mem T * container) <> Ok r) by discriminate.
    assert (N : ~ (forall k, 0 <= k < prod (dims c) -> exists v, peek m (padd (c_data c) k) = Some v)).
    { intros H. destruct (H k R) as (v & Ev). congruence. }
    split; [|split; [right; reflexivity|]].
    + split; [intros (r & H); discriminate|tauto].
    + intros _ _. split; [|right; reflexivity]. split; [intros (r & H); discriminate|tauto].
Qed.

(** Not enough cells after the origin. *)
Lemma copies_past_l m ss c b off cs : legal (c_shape c) -> c_shape c <> [] -> c_data c = Ptr b off ->
  nth_error m b = Some (Some cs) -> 0 <= off < Z.of_nat (length cs) -> Z.of_nat (length cs) < off + prod (dims c) ->
  table_of m ss c = UB /\ copy_table m c = UB.
Proof.
  intros Lg Ne Ed Hb R P. apply (table_of_ub_l m ss c b off (Z.of_nat (length cs) - off)); try assumption.
  - apply nth_lt in Hb. exact Hb.
  - lia.
  - rewrite Ed. cbn [padd]. replace (off + (Z.of_nat (length cs) - off)) with (Z.of_nat (length cs)) by lia.
    unfold peek, cell. rewrite Hb. destruct (Z.leb_spec 0 (Z.of_nat (length cs))); [|lia].
    rewrite Nat2Z.id. rewrite (proj2 (nth_error_None cs (length cs))) by lia. reflexivity.
Qed.
End Copies.
