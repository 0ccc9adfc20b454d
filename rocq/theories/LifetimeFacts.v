From Coq Require Import Arith List Bool Lia.
From Verif Require Import Outcome Memory MemFacts ForEachSpec ForEachFacts Alloc AllocSpec Lifetime LifetimeSpec.
Import ListNotations.

(** ** Loops over the elements *)
Lemma run_seq {S} (f : nat -> S -> outcome S) (st : nat -> S) n :
  (forall k, k < n -> f k (st k) = Ok (st (1 + k))) -> run f (seq 0 n) (st 0) = Ok (st n).
Proof.
  intros H. assert (G : forall k i, i + k = n -> run f (seq i k) (st i) = Ok (st n)).
  { induction k as [|k IH]; intros i E; cbn [seq run]; [replace i with n by lia; reflexivity|].
    rewrite H by lia. rewrite bind_ok. apply IH. lia. }
  apply G. lia.
Qed.

Lemma run_rev {S} (f : nat -> S -> outcome S) (st : nat -> S) n :
  (forall k, k < n -> f k (st (1 + k)) = Ok (st k)) -> run f (rev (seq 0 n)) (st n) = Ok (st 0).
Proof.
  induction n as [|n IH]; intros H; [reflexivity|].
  rewrite seq_S, rev_app_distr. cbn [rev app run plus]. rewrite H by lia. rewrite bind_ok. apply IH. intros k K. apply H. lia.
Qed.

Lemma run_stuck {S} (f : nat -> S -> outcome S) (st : nat -> S) n k : k < n ->
  (forall i, i < k -> f i (st i) = Ok (st (1 + i))) -> f k (st k) = UB -> run f (seq 0 n) (st 0) = UB.
Proof.
  intros K H U. replace n with (k + (1 + (n - k - 1))) by lia. rewrite seq_app, run_app, (run_seq f st k H).
  cbn [bind seq plus run]. rewrite U. reflexivity.
Qed.

(** The first [k] elements of a list, then the others of another one. *)
Definition splice {A} (k : nat) (a b : list A) : list A := firstn k a ++ skipn k b.

Lemma splice_0 {A} (a b : list A) : splice 0 a b = b. Proof. reflexivity. Qed.
Lemma splice_all {A} n (a b : list A) : length a = n -> length b = n -> splice n a b = a.
Proof. intros <- L. unfold splice. rewrite firstn_all, skipn_all2 by lia. apply app_nil_r. Qed.
Lemma splice_at {A} k (a b : list A) : length a = length b -> nth_error (splice k a b) k = nth_error b k.
Proof.
  revert k b. induction a as [|x a IH]; intros [|k] [|y b] L; try discriminate; try reflexivity.
  exact (IH k b ltac:(simpl in L; lia)).
Qed.
Lemma splice_set {A} k (a b : list A) x : length a = length b -> nth_error a k = Some x ->
  set_nth (splice k a b) k x = splice (1 + k) a b.
Proof.
  revert k b. induction a as [|y a IH]; intros [|k] [|z b] L E; try discriminate; unfold splice in *; simpl in *.
  - injection E as ->. reflexivity.
  - f_equal. apply IH; [lia|exact E].
Qed.
Lemma splice_at_S {A} k (a b : list A) x : length a = length b -> nth_error a k = Some x ->
  nth_error (splice (1 + k) a b) k = Some x.
Proof.
  intros L E. rewrite <- (splice_set k a b x L E). apply set_nth_same.
  assert (H : k < length a) by (apply nth_error_Some; congruence).
  unfold splice. rewrite app_length, firstn_length, skipn_length. lia.
Qed.
Lemma splice_len {A} k (a b : list A) : length a = length b -> length (splice k a b) = length b.
Proof. intros L. unfold splice. rewrite app_length, firstn_length, skipn_length. lia. Qed.
Lemma splice_back {A} k (a b : list A) x : length a = length b -> nth_error b k = Some x ->
  set_nth (splice (1 + k) a b) k x = splice k a b.
Proof.
  revert k b. induction a as [|y a IH]; intros [|k] [|z b] L E; try discriminate; unfold splice in *; simpl in *.
  - injection E as ->. reflexivity.
  - f_equal. apply IH; [lia|exact E].
Qed.

Lemma set_twice {A} (l : list A) : forall i x y, set_nth (set_nth l i x) i y = set_nth l i y.
Proof. induction l as [|z l IH]; intros [|i] x y; simpl; try reflexivity. f_equal. apply IH. Qed.
Lemma set_swap {A} (l : list A) : forall i j x y, i <> j -> set_nth (set_nth l i x) j y = set_nth (set_nth l j y) i x.
Proof.
  induction l as [|z l IH]; intros [|i] [|j] x y N; simpl; try reflexivity; [congruence|].
  f_equal. apply IH. congruence.
Qed.
Lemma set_same {A} (l : list A) i x : nth_error l i = Some x -> set_nth l i x = l.
Proof. revert i; induction l as [|z l IH]; intros [|i] E; try discriminate; simpl in *; [congruence|]. f_equal. auto. Qed.

(** ** Blocks *)
Section Blocks.
  Context {T : Type}.
  Implicit Types (h : slots T) (cs : list (option T)).

  Lemma slot_set h b cs i : b < length h -> slot (set_nth h b cs) b i = nth_error cs i.
  Proof. intros L. unfold slot. rewrite set_nth_same by exact L. reflexivity. Qed.
  Lemma put_set h b cs i x : b < length h -> put_slot (set_nth h b cs) b i x = set_nth h b (set_nth cs i x).
  Proof. intros L. unfold put_slot. rewrite set_nth_same by exact L. apply set_twice. Qed.
  Lemma slot_other h b c cs i : b <> c -> slot (set_nth h b cs) c i = slot h c i.
  Proof. intros N. unfold slot. rewrite set_nth_other by exact N. reflexivity. Qed.
  Lemma put_other h b c cs i x : b <> c -> put_slot (set_nth h b cs) c i x = set_nth (put_slot h c i x) b cs.
  Proof.
    intros N. unfold put_slot. rewrite set_nth_other by exact N. destruct (nth_error h c); [|reflexivity].
    apply set_swap. exact N.
  Qed.
  Lemma blk_lt h b cs : nth_error h b = Some cs -> b < length h.
  Proof. intros E. apply nth_error_Some. congruence. Qed.

  (** One loop step on the block [b], from [x] to [y]. *)
  Variables (h : slots T) (b : nat) (old new : list (option T)).
  Hypothesis B : nth_error h b = Some old.
  Hypothesis L : length new = length old.
  Definition part k : slots T := set_nth h b (splice k new old).

  Lemma part_0 : part 0 = h. Proof. unfold part. rewrite splice_0. apply set_same. exact B. Qed.
  Lemma part_n : part (length old) = set_nth h b new.
  Proof. unfold part. rewrite splice_all by auto. reflexivity. Qed.
  Lemma part_slot k : slot (part k) b k = nth_error old k.
  Proof. unfold part. rewrite slot_set by (eapply blk_lt; exact B). apply splice_at. exact L. Qed.
  Lemma part_slot_S k y : nth_error new k = Some y -> slot (part (1 + k)) b k = Some y.
  Proof. intros E. unfold part. rewrite slot_set by (eapply blk_lt; exact B). apply splice_at_S; assumption. Qed.
  Lemma part_put k y : nth_error new k = Some y -> put_slot (part k) b k y = part (1 + k).
  Proof. intros E. unfold part. rewrite put_set by (eapply blk_lt; exact B). f_equal. apply splice_set; assumption. Qed.
  Lemma part_back k y : nth_error old k = Some y -> put_slot (part (1 + k)) b k y = part k.
  Proof. intros E. unfold part. rewrite put_set by (eapply blk_lt; exact B). f_equal. apply splice_back; assumption. Qed.
  Lemma part_other k c i : b <> c -> slot (part k) c i = slot h c i.
  Proof. apply slot_other. Qed.
  Lemma part_blk k c : b <> c -> nth_error (part k) c = nth_error h c.
  Proof. intros N. unfold part. apply set_nth_other. exact N. Qed.
End Blocks.

Lemma nth_map_Some {T} (l : list T) k x : nth_error l k = Some x -> nth_error (map Some l) k = Some (Some x).
Proof. intros E. apply map_nth_error. exact E. Qed.
Lemma nth_exists {A} (l : list A) k : k < length l -> exists x, nth_error l k = Some x.
Proof. intros H. destruct (nth_error l k) eqn:E; [eauto|]. apply nth_error_None in E. lia. Qed.
Lemma nth_rep {A} (x : A) n k : k < n -> nth_error (repeat x n) k = Some x.
Proof. revert k; induction n; intros [|k] H; simpl; try lia; [reflexivity|]. apply IHn; lia. Qed.

Lemma new_blk {T} (h : slots T) n : nth_error (h ++ [repeat None n]) (length h) = Some (repeat None n).
Proof. rewrite nth_error_app2, Nat.sub_diag by lia. reflexivity. Qed.
Lemma app_blk {T} (h : slots T) cs c : c <> length h -> nth_error (h ++ [cs]) c = nth_error h c.
Proof.
  intros N. destruct (Nat.lt_ge_cases c (length h)) as [H|H].
  - apply nth_error_app1. exact H.
  - rewrite (proj2 (nth_error_None h c)) by exact H. apply nth_error_None. rewrite app_length. simpl. lia.
Qed.

(** What changes in the storage: only the blocks of a list. *)
Definition same_but {T} (bs : list nat) (h h' : slots T) : Prop :=
  forall c, ~ In c bs -> nth_error h' c = nth_error h c.

Lemma same_set {T} (h : slots T) b cs : same_but [b] h (set_nth h b cs).
Proof. intros c N. apply set_nth_other. simpl in N. intuition. Qed.

(** ** The operations on blocks *)
Section Ops.
  Context {T : Type} (ec : eclass T) (n : nat).

  Lemma default_ok (h : slots T) : exists h', stack_default ec n h = Ok (h', length h) /\
    nth_error h' (length h) = Some (map Some (repeat (e_default ec) n)) /\ same_but [length h] h h'.
  Proof.
    unfold stack_default, new_slots. set (h1 := h ++ [repeat None n]). set (b := length h).
    assert (B : nth_error h1 b = Some (repeat None n)) by apply new_blk.
    pose (new := map (@Some T) (repeat (e_default ec) n)).
    assert (Ln : length new = length (@repeat (option T) None n)) by (unfold new; rewrite map_length, !repeat_length; reflexivity).
    exists (set_nth h1 b new).
    replace h1 with (part h1 b (repeat None n) new 0) at 1 by (apply part_0; assumption).
    rewrite (run_seq _ (part h1 b (repeat None n) new)).
    - rewrite bind_ok. split; [|split].
      + do 2 f_equal. pose proof (part_n h1 b (repeat None n) new Ln) as E. rewrite repeat_length in E. exact E.
      + apply set_nth_same. eapply blk_lt. exact B.
      + intros c N. rewrite set_nth_other by (simpl in N; intuition). apply app_blk. simpl in N. intuition.
    - intros k K. unfold e_construct. rewrite part_slot by assumption. rewrite nth_rep by exact K.
      f_equal. apply part_put; [assumption|exact Ln|]. unfold new. apply nth_map_Some, nth_rep. exact K.
  Qed.

  Lemma assign_ok (h : slots T) b old l src : nth_error h b = Some (map Some old) -> length old = n -> length l = n ->
    (forall h' k x, same_but [b] h h' -> nth_error l k = Some x -> src h' k = Ok x) ->
    stack_assign n src b h = Ok (set_nth h b (map Some l)).
  Proof.
    intros B Lo Ll Hs. unfold stack_assign.
    assert (Ln : length (map (@Some T) l) = length (map (@Some T) old)) by (rewrite !map_length; congruence).
    replace h with (part h b (map Some old) (map Some l) 0) at 1 by (apply part_0; assumption).
    rewrite (run_seq _ (part h b (map Some old) (map Some l))).
    - f_equal. pose proof (part_n h b (map Some old) (map Some l) Ln) as E. rewrite map_length, Lo in E. exact E.
    - intros k K. destruct (nth_exists l k) as (x & Ex); [lia|]. destruct (nth_exists old k) as (y & Ey); [lia|].
      rewrite (Hs _ k x); [|apply same_set|exact Ex]. rewrite bind_ok. unfold e_assign, look.
      rewrite part_slot by assumption. rewrite (nth_map_Some _ _ _ Ey), bind_ok. f_equal.
      apply part_put; [assumption|exact Ln|]. apply nth_map_Some. exact Ex.
  Qed.

  Lemma from_ok (h : slots T) l src : length l = n ->
    (forall h' k x, same_but [length h] h h' -> nth_error l k = Some x -> src h' k = Ok x) ->
    exists h', stack_from ec n src h = Ok (h', length h) /\
      nth_error h' (length h) = Some (map Some l) /\ same_but [length h] h h'.
  Proof.
    intros Ll Hs. destruct (default_ok h) as (h1 & E & B & S). unfold stack_from. rewrite E, bind_ok.
    rewrite (assign_ok h1 (length h) (repeat (e_default ec) n) l); try assumption; [|apply repeat_length|].
    - rewrite bind_ok. eexists. split; [reflexivity|]. split; [apply set_nth_same; eapply blk_lt; exact B|].
      intros c N. rewrite set_nth_other by (simpl in N; intuition). apply S. exact N.
    - intros h' k x S' Ex. apply Hs; [|exact Ex]. intros c N. rewrite S' by exact N. apply S. exact N.
  Qed.

  Lemma from_short (h : slots T) xs : length xs < n -> stack_from ec n (from_list xs) h = UB.
  Proof.
    intros H. destruct (default_ok h) as (h1 & E & B & S). unfold stack_from. rewrite E, bind_ok.
    unfold stack_assign.
    pose (old := map (@Some T) (repeat (e_default ec) n)). fold old in B.
    pose (new := map (@Some T) xs ++ skipn (length xs) old).
    assert (Lo : length old = n) by (unfold old; rewrite map_length, repeat_length; reflexivity).
    assert (Ln : length new = length old) by (unfold new; rewrite app_length, map_length, skipn_length; lia).
    replace h1 with (part h1 (length h) old new 0) at 1 by (apply part_0; assumption).
    rewrite (run_stuck _ (part h1 (length h) old new) n (length xs)); [reflexivity|exact H| |].
    - intros i Hi. destruct (nth_exists xs i Hi) as (x & Ex). unfold from_list. rewrite Ex, bind_ok. unfold e_assign, look.
      rewrite part_slot by assumption. unfold old at 1. rewrite nth_map_Some with (x := e_default ec) by (apply nth_rep; lia).
      rewrite bind_ok. f_equal. apply part_put; [assumption|exact Ln|]. unfold new.
      rewrite nth_error_app1 by (rewrite map_length; exact Hi). apply nth_map_Some. exact Ex.
    - unfold from_list. rewrite (proj2 (nth_error_None xs (length xs))) by lia. reflexivity.
  Qed.

  Lemma destroy_ok (h : slots T) b l : nth_error h b = Some (map Some l) -> length l = n ->
    stack_destroy n b h = Ok (set_nth h b (repeat None n)).
  Proof.
    intros B Ll. unfold stack_destroy.
    assert (Ln : length (map (@Some T) l) = length (@repeat (option T) None n)) by (rewrite map_length, repeat_length; exact Ll).
    pose (h0 := set_nth h b (repeat None n)).
    assert (B0 : nth_error h0 b = Some (repeat None n)) by (apply set_nth_same; eapply blk_lt; exact B).
    assert (E0 : part h0 b (repeat None n) (map Some l) n = h).
    { pose proof (part_n h0 b (repeat None n) (map Some l) Ln) as E. rewrite repeat_length in E. rewrite E.
      unfold h0. rewrite set_twice. apply set_same. exact B. }
    rewrite <- E0 at 1. rewrite (run_rev _ (part h0 b (repeat None n) (map Some l))).
    - f_equal. apply part_0. exact B0.
    - intros k K. destruct (nth_exists l k) as (x & Ex); [lia|]. unfold e_destroy, look.
      rewrite (part_slot_S h0 b (repeat None n) (map Some l) B0 Ln k (Some x)) by (apply nth_map_Some; exact Ex).
      rewrite bind_ok. f_equal. apply part_back; [assumption|exact Ln|]. apply nth_rep. exact K.
  Qed.

  (** Two blocks at once. *)
  Definition part2 (h : slots T) b old new c old' new' k := part (part h b old new k) c old' new' k.

  Lemma part2_0 h b old new c old' new' : b <> c -> nth_error h b = Some old -> nth_error h c = Some old' ->
    part2 h b old new c old' new' 0 = h.
  Proof. intros N B C. unfold part2. rewrite (part_0 h b old new B). apply part_0. exact C. Qed.

  Lemma part2_n h b old new c old' new' : length new = length old -> length new' = length old' -> length old' = length old ->
    part2 h b old new c old' new' (length old) = set_nth (set_nth h b new) c new'.
  Proof.
    intros L1 L2 L3. unfold part2. rewrite (part_n h b old new L1). rewrite <- L3. rewrite (part_n _ c old' new' L2). reflexivity.
  Qed.

  Lemma move_ok (h : slots T) c l : nth_error h c = Some (map Some l) -> length l = n ->
    exists h', stack_move ec n c h = Ok (h', length h) /\ nth_error h' (length h) = Some (map Some l) /\
      nth_error h' c = Some (map Some (map (e_moved ec) l)) /\ same_but [length h; c] h h'.
  Proof.
    intros C Ll. pose proof (blk_lt _ _ _ C) as Lc. unfold stack_move, new_slots.
    set (h1 := h ++ [repeat None n]). set (b := length h). assert (N : b <> c) by (unfold b; lia).
    assert (B : nth_error h1 b = Some (repeat None n)) by apply new_blk.
    assert (C1 : nth_error h1 c = Some (map Some l)) by (unfold h1; rewrite app_blk by lia; exact C).
    pose (nb := map (@Some T) l). pose (nc := map (@Some T) (map (e_moved ec) l)).
    assert (Lb : length nb = length (@repeat (option T) None n)) by (unfold nb; rewrite map_length, repeat_length; exact Ll).
    assert (Lc' : length nc = length (map (@Some T) l)) by (unfold nc; rewrite !map_length; reflexivity).
    exists (set_nth (set_nth h1 b nb) c nc).
    replace h1 with (part2 h1 b (repeat None n) nb c (map Some l) nc 0) at 1 by (apply part2_0; assumption).
    rewrite (run_seq _ (part2 h1 b (repeat None n) nb c (map Some l) nc)).
    - rewrite bind_ok. split; [|split; [|split]].
      + do 2 f_equal. pose proof (part2_n h1 b (repeat None n) nb c (map Some l) nc Lb Lc') as E.
        rewrite map_length, repeat_length in E. rewrite <- E by exact Ll. reflexivity.
      + rewrite set_nth_other by auto. apply set_nth_same. eapply blk_lt; exact B.
      + apply set_nth_same. rewrite set_nth_length. eapply blk_lt; exact C1.
      + intros d Hd. rewrite !set_nth_other by (simpl in Hd; intuition). apply app_blk. unfold b in *. simpl in Hd. intuition.
    - intros k K. destruct (nth_exists l k) as (x & Ex); [lia|]. unfold e_move_out, look, part2.
      assert (Ck : nth_error (part h1 b (repeat None n) nb k) c = Some (map Some l)) by (rewrite part_blk; assumption).
      rewrite (part_slot _ c _ nc Ck Lc'). rewrite (nth_map_Some _ _ _ Ex), !bind_ok.
      rewrite (part_put _ c _ nc Ck Lc' k (Some (e_moved ec x))) by (unfold nc; apply nth_map_Some, map_nth_error; exact Ex).
      unfold e_construct. rewrite part_other by auto. rewrite (part_slot h1 b _ nb B Lb), nth_rep by exact K. f_equal.
      unfold part at 1. rewrite put_other by auto.
      rewrite (part_put h1 b _ nb B Lb k (Some x)) by (apply nth_map_Some; exact Ex). reflexivity.
  Qed.

  Lemma move_assign_ok (h : slots T) b c l l' : b <> c -> nth_error h b = Some (map Some l) ->
    nth_error h c = Some (map Some l') -> length l = n -> length l' = n ->
    exists h', stack_move_assign ec n b c h = Ok h' /\ nth_error h' b = Some (map Some l') /\
      nth_error h' c = Some (map Some (map (e_moved ec) l')) /\ same_but [b; c] h h'.
  Proof.
    intros N B C Ll Ll'. unfold stack_move_assign.
    pose (nb := map (@Some T) l'). pose (nc := map (@Some T) (map (e_moved ec) l')).
    assert (Lb : length nb = length (map (@Some T) l)) by (unfold nb; rewrite !map_length; congruence).
    assert (Lc : length nc = length (map (@Some T) l')) by (unfold nc; rewrite !map_length; reflexivity).
    exists (set_nth (set_nth h b nb) c nc).
    replace h with (part2 h b (map Some l) nb c (map Some l') nc 0) at 1 by (apply part2_0; assumption).
    rewrite (run_seq _ (part2 h b (map Some l) nb c (map Some l') nc)).
    - split; [|split; [|split]].
      + f_equal. pose proof (part2_n h b (map Some l) nb c (map Some l') nc Lb Lc) as E.
        rewrite !map_length, Ll in E. rewrite <- E by exact Ll'. reflexivity.
      + rewrite set_nth_other by auto. apply set_nth_same. eapply blk_lt; exact B.
      + apply set_nth_same. rewrite set_nth_length. eapply blk_lt; exact C.
      + intros d Hd. rewrite !set_nth_other by (simpl in Hd; intuition). reflexivity.
    - intros k K. destruct (nth_exists l k) as (y & Ey); [lia|]. destruct (nth_exists l' k) as (x & Ex); [lia|].
      unfold e_move_assign. rewrite (proj2 (Nat.eqb_neq b c) N). cbn [andb]. unfold e_move_out, look, part2.
      assert (Ck : nth_error (part h b (map Some l) nb k) c = Some (map Some l')) by (rewrite part_blk; assumption).
      rewrite (part_slot _ c _ nc Ck Lc). rewrite (nth_map_Some _ _ _ Ex), !bind_ok.
      rewrite (part_put _ c _ nc Ck Lc k (Some (e_moved ec x))) by (unfold nc; apply nth_map_Some, map_nth_error; exact Ex).
      unfold e_assign, look. rewrite part_other by auto. rewrite (part_slot h b _ nb B Lb), (nth_map_Some _ _ _ Ey), bind_ok. f_equal.
      unfold part at 1. rewrite put_other by auto.
      rewrite (part_put h b _ nb B Lb k (Some x)) by (apply nth_map_Some; exact Ex). reflexivity.
  Qed.

  Lemma self_move_ok (h : slots T) b l : nth_error h b = Some (map Some l) -> length l = n ->
    stack_move_assign ec n b b h = Ok (set_nth h b (map Some (map (e_self ec) l))).
  Proof.
    intros B Ll. unfold stack_move_assign. pose (nb := map (@Some T) (map (e_self ec) l)).
    assert (Lb : length nb = length (map (@Some T) l)) by (unfold nb; rewrite !map_length; reflexivity).
    replace h with (part h b (map Some l) nb 0) at 1 by (apply part_0; assumption).
    rewrite (run_seq _ (part h b (map Some l) nb)).
    - f_equal. pose proof (part_n h b (map Some l) nb Lb) as E. rewrite map_length, Ll in E. exact E.
    - intros k K. destruct (nth_exists l k) as (x & Ex); [lia|]. unfold e_move_assign. rewrite !Nat.eqb_refl. cbn [andb].
      unfold look. rewrite (part_slot h b _ nb B Lb), (nth_map_Some _ _ _ Ex), bind_ok. f_equal.
      apply part_put; [assumption|exact Lb|]. unfold nb. apply nth_map_Some, map_nth_error. exact Ex.
  Qed.

  Lemma swap_ok (h : slots T) b c l l' : b <> c -> nth_error h b = Some (map Some l) ->
    nth_error h c = Some (map Some l') -> length l = n -> length l' = n ->
    exists h', stack_swap ec n b c h = Ok h' /\ nth_error h' b = Some (map Some l') /\
      nth_error h' c = Some (map Some l) /\ same_but [b; c] h h'.
  Proof.
    intros N B C Ll Ll'. unfold stack_swap.
    pose (nb := map (@Some T) l'). pose (nc := map (@Some T) l).
    assert (Lb : length nb = length (map (@Some T) l)) by (unfold nb; rewrite !map_length; congruence).
    assert (Lc : length nc = length (map (@Some T) l')) by (unfold nc; rewrite !map_length; congruence).
    exists (set_nth (set_nth h b nb) c nc).
    replace h with (part2 h b (map Some l) nb c (map Some l') nc 0) at 1 by (apply part2_0; assumption).
    rewrite (run_seq _ (part2 h b (map Some l) nb c (map Some l') nc)).
    - split; [|split; [|split]].
      + f_equal. pose proof (part2_n h b (map Some l) nb c (map Some l') nc Lb Lc) as E.
        rewrite !map_length, Ll in E. rewrite <- E by exact Ll'. reflexivity.
      + rewrite set_nth_other by auto. apply set_nth_same. eapply blk_lt; exact B.
      + apply set_nth_same. rewrite set_nth_length. eapply blk_lt; exact C.
      + intros d Hd. rewrite !set_nth_other by (simpl in Hd; intuition). reflexivity.
    - intros k K. destruct (nth_exists l k) as (y & Ey); [lia|]. destruct (nth_exists l' k) as (x & Ex); [lia|].
      pose (hb := part h b (map Some l) nb k).
      assert (Ck : nth_error hb c = Some (map Some l')) by (unfold hb; rewrite part_blk; assumption).
      change (part2 h b (map Some l) nb c (map Some l') nc k) with (part hb c (map Some l') nc k).
      (* t = move(b_k) *)
      unfold e_move_out at 1, look at 1. rewrite part_other by auto. unfold hb at 1.
      rewrite (part_slot h b _ nb B Lb), (nth_map_Some _ _ _ Ey), !bind_ok.
      set (hm := put_slot _ b k _).
      assert (Em : hm = set_nth (put_slot hb b k (Some (e_moved ec y))) c (splice k nc (map Some l')))
        by (unfold hm, part at 1; apply put_other; auto).
      assert (Lhb : b < length h) by (eapply blk_lt; exact B).
      assert (Eb : put_slot hb b k (Some (e_moved ec y)) =
                   set_nth h b (set_nth (splice k nb (map Some l)) k (Some (e_moved ec y)))) by (apply put_set; exact Lhb).
      assert (Lcc : c < length h) by (eapply blk_lt; exact C).
      (* b_k = move(c_k) *)
      unfold e_move_assign. rewrite (proj2 (Nat.eqb_neq b c) N). cbn [andb]. unfold e_move_out, look.
      rewrite Em at 1. rewrite slot_set by (unfold hb, put_slot, part; rewrite set_nth_same by exact Lhb; rewrite !set_nth_length; exact Lcc).
      rewrite splice_at by exact Lc. rewrite (nth_map_Some _ _ _ Ex), !bind_ok.
      rewrite Em. rewrite put_set by (rewrite Eb, set_nth_length; exact Lcc).
      unfold e_assign, look. rewrite slot_other by auto. rewrite Eb, slot_set by exact Lhb.
      rewrite set_nth_same by (rewrite splice_len by exact Lb; rewrite map_length; lia).
      rewrite !bind_ok. rewrite put_other by auto. rewrite put_set by exact Lhb. rewrite set_twice.
      rewrite (splice_set k nb (map Some l) (Some x) Lb) by (apply nth_map_Some; exact Ex).
      (* c_k = move(t) *)
      rewrite slot_set by (rewrite set_nth_length; exact Lcc).
      rewrite set_nth_same by (rewrite splice_len by exact Lc; rewrite map_length; lia).
      rewrite bind_ok. rewrite put_set by (rewrite set_nth_length; exact Lcc). rewrite set_twice.
      rewrite (splice_set k nc (map Some l') (Some y) Lc) by (apply nth_map_Some; exact Ey). reflexivity.
  Qed.

  Lemma self_swap_ok (h : slots T) b l : nth_error h b = Some (map Some l) -> length l = n ->
    stack_swap ec n b b h = Ok h.
  Proof.
    intros B Ll. unfold stack_swap. apply (run_seq _ (fun _ => h)).
      intros k K. destruct (nth_exists l k) as (y & Ey); [lia|]. pose proof (blk_lt _ _ _ B) as Lh.
      assert (K2 : k < length (map (@Some T) l)) by (rewrite map_length; lia).
      assert (S0 : slot h b k = Some (Some y)) by (unfold slot; rewrite B; apply nth_map_Some; exact Ey).
      assert (P0 : forall v, put_slot h b k v = set_nth h b (set_nth (map Some l) k v)) by (intros v; unfold put_slot; rewrite B; reflexivity).
      unfold e_move_out, look. rewrite S0, !bind_ok, P0. unfold e_move_assign. rewrite !Nat.eqb_refl. cbn [andb].
      unfold e_assign, look. rewrite slot_set by exact Lh. rewrite set_nth_same by exact K2. rewrite !bind_ok.
      rewrite put_set by exact Lh. rewrite slot_set by exact Lh. rewrite set_twice, set_nth_same by exact K2. rewrite bind_ok.
      rewrite put_set by exact Lh. rewrite set_twice. f_equal. rewrite (set_same (map Some l)) by (apply nth_map_Some; exact Ey).
      apply set_same. exact B.
  Qed.
End Ops.

(** ** Histories *)
Section Histories.
  Context {T : Type} (ec : eclass T) (n : nat).
  Implicit Types (s : sstate T) (e : nat -> option (list T)).

  Lemma hold_var s e v b : tables_hold n s e -> s_vars s v = Some b ->
    exists l, e v = Some l /\ length l = n /\ nth_error (s_slots s) b = Some (map Some l).
  Proof. intros (H & _) E. specialize (H v). rewrite E in H. destruct (e v) as [l|]; [|contradiction]. exists l. tauto. Qed.
  Lemma hold_none s e v : tables_hold n s e -> e v = None -> s_vars s v = None.
  Proof. intros (H & _) E. specialize (H v). rewrite E in H. destruct (s_vars s v); [contradiction|reflexivity]. Qed.
  Lemma hold_some s e v l : tables_hold n s e -> e v = Some l ->
    exists b, s_vars s v = Some b /\ length l = n /\ nth_error (s_slots s) b = Some (map Some l).
  Proof. intros (H & _) E. specialize (H v). rewrite E in H. destruct (s_vars s v) as [b|]; [|contradiction]. exists b. tauto. Qed.
  Lemma hold_lt s e v b : tables_hold n s e -> s_vars s v = Some b -> b < length (s_slots s).
  Proof. intros H E. destruct (hold_var s e v b H E) as (l & _ & _ & B). eapply blk_lt; exact B. Qed.

  Lemma slot_blk (h h' : slots T) b i : nth_error h' b = nth_error h b -> slot h' b i = slot h b i.
  Proof. intros E. unfold slot. rewrite E. reflexivity. Qed.
  Lemma slot_dead (h : slots T) b i k (x : T) : nth_error h b = Some (repeat None k) -> slot h b i <> Some (Some x).
  Proof.
    intros E. unfold slot. rewrite E. intros H. apply nth_error_In, repeat_spec in H. discriminate.
  Qed.

  (** A new table, the other ones keeping their blocks. *)
  Lemma hold_new s e e' h' v l : tables_hold n s e -> s_vars s v = None ->
    nth_error h' (length (s_slots s)) = Some (map Some l) -> length l = n ->
    e' v = Some l ->
    (forall w, w <> v -> match s_vars s w with
       | Some b => exists l', e' w = Some l' /\ length l' = n /\ nth_error h' b = Some (map Some l')
       | None => e' w = None end) ->
    (forall b, b <> length (s_slots s) -> nth_error h' b = nth_error (s_slots s) b \/ exists w, s_vars s w = Some b) ->
    tables_hold n (SS h' (bindv (s_vars s) v (Some (length (s_slots s))))) e'.
  Proof.
    intros H V B Ll Ev Ew Hb. split; [|split]; cbn [s_slots s_vars].
    - intros w. unfold bindv. destruct (Nat.eqb_spec w v) as [->|N]; [rewrite Ev; split; assumption|].
      specialize (Ew w N). destruct (s_vars s w) as [b|]; [|rewrite Ew; exact I].
      destruct Ew as (l' & -> & A & C). split; assumption.
    - intros w w' b. unfold bindv. destruct (Nat.eqb_spec w v) as [->|N], (Nat.eqb_spec w' v) as [->|N']; intros E1 E2.
      + reflexivity.
      + injection E1 as <-. pose proof (hold_lt s e w' _ H E2). lia.
      + injection E2 as <-. pose proof (hold_lt s e w _ H E1). lia.
      + eapply H; eassumption.
    - intros b i x Hx. unfold bindv. destruct (Nat.eq_dec b (length (s_slots s))) as [->|N].
      + exists v. rewrite Nat.eqb_refl. reflexivity.
      + assert (G : exists w, s_vars s w = Some b).
        { destruct (Hb b N) as [E|E]; [|exact E]. rewrite (slot_blk _ _ _ _ E) in Hx. eapply H; exact Hx. }
        destruct G as (w & Ew'). exists w. destruct (Nat.eqb_spec w v) as [->|]; [congruence|exact Ew'].
  Qed.

  (** New contents, the same tables. *)
  Lemma hold_change s e e' h' : tables_hold n s e ->
    (forall w, match s_vars s w with
       | Some b => exists l', e' w = Some l' /\ length l' = n /\ nth_error h' b = Some (map Some l')
       | None => e' w = None end) ->
    (forall b, nth_error h' b = nth_error (s_slots s) b \/ (exists w, s_vars s w = Some b) \/
               exists k, nth_error h' b = Some (repeat None k)) ->
    tables_hold n (SS h' (s_vars s)) e'.
  Proof.
    intros H Ew Hb. split; [|split]; cbn [s_slots s_vars].
    - intros w. specialize (Ew w). destruct (s_vars s w) as [b|]; [|rewrite Ew; exact I].
      destruct Ew as (l' & -> & A & C). split; assumption.
    - apply H.
    - intros b i x Hx. destruct (Hb b) as [E|[E|(k & E)]]; [|exact E|].
      + rewrite (slot_blk _ _ _ _ E) in Hx. eapply H; exact Hx.
      + exfalso. exact (slot_dead h' b i k x E Hx).
  Qed.

  (** The tables a change does not concern. *)
  Lemma hold_keep s e h' bs w b : tables_hold n s e -> same_but bs (s_slots s) h' -> s_vars s w = Some b -> ~ In b bs ->
    exists l', e w = Some l' /\ length l' = n /\ nth_error h' b = Some (map Some l').
  Proof.
    intros H S E N. destruct (hold_var s e w b H E) as (l & A & B & C). exists l. rewrite (S b N). auto.
  Qed.

  Lemma set_eq {X} (e : nat -> option X) v x : set e v x v = x.
  Proof. unfold set. rewrite Nat.eqb_refl. reflexivity. Qed.
  Lemma set_ne {X} (e : nat -> option X) v w x : w <> v -> set e v x w = e w.
  Proof. intros N. unfold set. rewrite (proj2 (Nat.eqb_neq w v) N). reflexivity. Qed.

  Lemma step_ok s e o : tables_hold n s e ->
    match table_step ec n e o with
    | Some e' => exists s', sstep ec n s o = Ok s' /\ tables_hold n s' e'
    | None => sstep ec n s o = UB
    end.
  Proof.
    intros H. pose proof H as (H1 & H2 & H3). set (h := s_slots s). set (L := length h).
    assert (Fresh : forall w b, s_vars s w = Some b -> b <> L) by (intros w b E; pose proof (hold_lt s e w b H E); unfold L, h; lia).
    destruct o as [v|v xs|v w|v w|v w|v w|v w|v i x|v]; cbn [table_step sstep]; fold h.
    - (* default *)
      destruct (e v) as [l|] eqn:Ev.
      + destruct (hold_some s e v l H Ev) as (b & Eb & _). unfold fresh. rewrite Eb. reflexivity.
      + pose proof (hold_none s e v H Ev) as Nv. unfold fresh. rewrite Nv, bind_ok.
        destruct (default_ok ec n h) as (h' & -> & B & S). rewrite bind_ok. eexists. split; [reflexivity|].
        apply (hold_new s e _ h' v (repeat (e_default ec) n)); try assumption.
        * apply repeat_length.
        * apply set_eq.
        * intros w N. destruct (s_vars s w) as [b|] eqn:Ew.
          -- rewrite set_ne by exact N. apply (hold_keep s e h' [L]); try assumption. simpl. pose proof (Fresh w b Ew). intuition.
          -- rewrite set_ne by exact N. specialize (H1 w). rewrite Ew in H1. destruct (e w); [contradiction|reflexivity].
        * intros b N. left. apply S. simpl. unfold L, h in *. intuition.
    - (* from *)
      destruct (e v) as [l|] eqn:Ev.
      { destruct (hold_some s e v l H Ev) as (b & Eb & _). unfold fresh. rewrite Eb. reflexivity. }
      pose proof (hold_none s e v H Ev) as Nv. unfold fresh. rewrite Nv, bind_ok.
      destruct (Nat.leb_spec n (length xs)) as [Hl|Hl]; [|rewrite from_short by exact Hl; reflexivity].
      assert (Lf : length (firstn n xs) = n) by (rewrite firstn_length; lia).
      destruct (from_ok ec n h (firstn n xs) (from_list xs) Lf) as (h' & -> & B & S).
      { intros h' k x _ Ex. unfold from_list. assert (K : k < n) by (rewrite <- Lf; apply nth_error_Some; congruence).
        assert (G : nth_error xs k = nth_error (firstn n xs) k).
        { rewrite <- (firstn_skipn n xs) at 1. apply nth_error_app1. rewrite Lf. exact K. }
        rewrite G, Ex. reflexivity. }
      rewrite bind_ok. eexists. split; [reflexivity|]. apply (hold_new s e _ h' v (firstn n xs)); try assumption.
      + apply set_eq.
      + intros w N. destruct (s_vars s w) as [b|] eqn:Ew.
        * rewrite set_ne by exact N. apply (hold_keep s e h' [L]); try assumption. simpl. pose proof (Fresh w b Ew). intuition.
        * rewrite set_ne by exact N. specialize (H1 w). rewrite Ew in H1. destruct (e w); [contradiction|reflexivity].
      + intros b N. left. apply S. simpl. unfold L, h in *. intuition.
    - (* copy *)
      destruct (e v) as [l|] eqn:Ev.
      { destruct (hold_some s e v l H Ev) as (b & Eb & _). unfold fresh. rewrite Eb. reflexivity. }
      pose proof (hold_none s e v H Ev) as Nv. unfold fresh. rewrite Nv, bind_ok. unfold var.
      destruct (e w) as [l|] eqn:Ew; [|rewrite (hold_none s e w H Ew); reflexivity].
      destruct (hold_some s e w l H Ew) as (c & Ec & Ll & C). rewrite Ec, bind_ok.
      destruct (from_ok ec n h l (fun h i => look h c i) Ll) as (h' & -> & B & S).
      { intros h' k x S Ex. unfold look, slot. rewrite S by (simpl; pose proof (Fresh w c Ec); unfold L in *; intuition).
        fold h in C. rewrite C. rewrite (nth_map_Some _ _ _ Ex). reflexivity. }
      rewrite bind_ok. eexists. split; [reflexivity|]. apply (hold_new s e _ h' v l); try assumption.
      + apply set_eq.
      + intros u N. destruct (s_vars s u) as [b|] eqn:Eu.
        * rewrite set_ne by exact N. apply (hold_keep s e h' [L]); try assumption. simpl. pose proof (Fresh u b Eu). intuition.
        * rewrite set_ne by exact N. specialize (H1 u). rewrite Eu in H1. destruct (e u); [contradiction|reflexivity].
      + intros b N. left. apply S. simpl. unfold L, h in *. intuition.
    - (* move *)
      destruct (e v) as [l|] eqn:Ev.
      { destruct (hold_some s e v l H Ev) as (b & Eb & _). unfold fresh. rewrite Eb. reflexivity. }
      pose proof (hold_none s e v H Ev) as Nv. unfold fresh. rewrite Nv, bind_ok. unfold var.
      destruct (e w) as [l|] eqn:Ew; [|rewrite (hold_none s e w H Ew); reflexivity].
      destruct (hold_some s e w l H Ew) as (c & Ec & Ll & C). rewrite Ec, bind_ok.
      destruct (move_ok ec n h c l C Ll) as (h' & -> & B & C' & S).
      rewrite bind_ok. eexists. split; [reflexivity|]. apply (hold_new s e _ h' v l); try assumption.
      + apply set_eq.
      + intros u N. rewrite set_ne by exact N. destruct (s_vars s u) as [b|] eqn:Eu.
        * destruct (Nat.eq_dec u w) as [->|Nu].
          -- rewrite set_eq. exists (map (e_moved ec) l). rewrite map_length.
             replace b with c by congruence. auto.
          -- rewrite set_ne by exact Nu. apply (hold_keep s e h' [L; c]); try assumption. simpl. pose proof (Fresh u b Eu).
             intros [|[Hc|[]]]; [congruence|]. subst b. apply Nu. eapply H2; eassumption.
        * destruct (Nat.eq_dec u w) as [->|Nu]; [congruence|]. rewrite set_ne by exact Nu.
          specialize (H1 u). rewrite Eu in H1. destruct (e u); [contradiction|reflexivity].
      + intros b N. destruct (Nat.eq_dec b c) as [->|Nc]; [right; exists w; exact Ec|].
        left. apply S. simpl. unfold L, h in *. intuition.
    - (* copy assignment *)
      unfold var. destruct (e v) as [l0|] eqn:Ev; [|rewrite (hold_none s e v H Ev); reflexivity].
      destruct (hold_some s e v l0 H Ev) as (b & Eb & Ll0 & B). rewrite Eb, bind_ok.
      destruct (e w) as [l|] eqn:Ew; [|rewrite (hold_none s e w H Ew); reflexivity].
      destruct (hold_some s e w l H Ew) as (c & Ec & Ll & C). rewrite Ec, bind_ok.
      destruct (from_ok ec n h l (fun h i => look h c i) Ll) as (h1 & -> & B1 & S1).
      { intros h' k x S Ex. unfold look, slot. rewrite S by (simpl; pose proof (Fresh w c Ec); unfold L in *; intuition).
        fold h in C. rewrite C. rewrite (nth_map_Some _ _ _ Ex). reflexivity. }
      rewrite bind_ok. fold L.
      assert (Nb : b <> L) by (eapply Fresh; exact Eb).
      destruct (swap_ok ec n h1 b L l0 l Nb) as (h2 & -> & B2 & B3 & S2); try assumption.
      { rewrite S1; [exact B|]. simpl. unfold L in Nb. intuition. }
      rewrite bind_ok. rewrite (destroy_ok n h2 L l0 B3 Ll0), bind_ok. eexists. split; [reflexivity|].
      apply (hold_change s e); [exact H| |].
      + intros u. destruct (s_vars s u) as [d|] eqn:Eu.
        * pose proof (Fresh u d Eu) as Nd. destruct (Nat.eq_dec u v) as [->|Nu].
          -- rewrite set_eq. exists l. replace d with b by congruence. rewrite set_nth_other by auto. auto.
          -- rewrite set_ne by exact Nu. destruct (hold_var s e u d H Eu) as (l' & E' & Ll' & D). exists l'.
             rewrite set_nth_other by auto. assert (Nd' : d <> b) by (intros ->; apply Nu; eapply H2; eassumption).
             rewrite S2 by (simpl; intuition). rewrite S1 by (simpl; unfold L in *; intuition). auto.
        * destruct (Nat.eq_dec u v) as [->|Nu]; [congruence|]. rewrite set_ne by exact Nu.
          specialize (H1 u). rewrite Eu in H1. destruct (e u); [contradiction|reflexivity].
      + intros d. destruct (Nat.eq_dec d L) as [->|Nd].
        * right. right. exists n. apply set_nth_same. eapply blk_lt; exact B3.
        * destruct (Nat.eq_dec d b) as [->|Ndb]; [right; left; exists v; exact Eb|].
          left. rewrite set_nth_other by auto. rewrite S2 by (simpl; intuition). apply S1. simpl. unfold L in *. intuition.
    - (* move assignment *)
      unfold var. destruct (e v) as [l0|] eqn:Ev; [|rewrite (hold_none s e v H Ev); reflexivity].
      destruct (hold_some s e v l0 H Ev) as (b & Eb & Ll0 & B). rewrite Eb, bind_ok.
      destruct (e w) as [l|] eqn:Ew; [|rewrite (hold_none s e w H Ew); reflexivity].
      destruct (hold_some s e w l H Ew) as (c & Ec & Ll & C). rewrite Ec, bind_ok.
      destruct (Nat.eqb_spec v w) as [->|Nvw].
      + assert (l0 = l) by congruence. subst l0. assert (c = b) by congruence. subst c.
        rewrite (self_move_ok ec n h b l B Ll), bind_ok. eexists. split; [reflexivity|].
        apply (hold_change s e); [exact H| |].
        * intros u. destruct (s_vars s u) as [d|] eqn:Eu.
          -- destruct (Nat.eq_dec u w) as [->|Nu].
             ++ rewrite set_eq. exists (map (e_self ec) l). rewrite map_length. replace d with b by congruence.
                rewrite set_nth_same by (eapply blk_lt; exact B). auto.
             ++ rewrite set_ne by exact Nu. apply (hold_keep s e _ [b]); try assumption; [apply same_set|].
                simpl. intros [->|[]]. apply Nu. eapply H2; eassumption.
          -- destruct (Nat.eq_dec u w) as [->|Nu]; [congruence|]. rewrite set_ne by exact Nu.
             specialize (H1 u). rewrite Eu in H1. destruct (e u); [contradiction|reflexivity].
        * intros d. destruct (Nat.eq_dec d b) as [->|Nd]; [right; left; exists w; exact Eb|]. left. apply set_nth_other. auto.
      + assert (Nbc : b <> c) by (intros ->; apply Nvw; eapply H2; eassumption).
        destruct (move_assign_ok ec n h b c l0 l Nbc B C Ll0 Ll) as (h' & -> & B' & C' & S). rewrite bind_ok.
        eexists. split; [reflexivity|]. apply (hold_change s e); [exact H| |].
        * intros u. destruct (s_vars s u) as [d|] eqn:Eu.
          -- destruct (Nat.eq_dec u v) as [->|Nu].
             ++ rewrite set_eq. exists l. replace d with b by congruence. auto.
             ++ rewrite set_ne by exact Nu. destruct (Nat.eq_dec u w) as [->|Nuw].
                ** rewrite set_eq. exists (map (e_moved ec) l). rewrite map_length. replace d with c by congruence. auto.
                ** rewrite set_ne by exact Nuw. apply (hold_keep s e _ [b; c]); try assumption.
                   simpl. intros [->|[->|[]]]; [apply Nu|apply Nuw]; eapply H2; eassumption.
          -- destruct (Nat.eq_dec u v) as [->|Nu]; [congruence|]. rewrite set_ne by exact Nu.
             destruct (Nat.eq_dec u w) as [->|Nuw]; [congruence|]. rewrite set_ne by exact Nuw.
             specialize (H1 u). rewrite Eu in H1. destruct (e u); [contradiction|reflexivity].
        * intros d. destruct (Nat.eq_dec d b) as [->|Nd]; [right; left; exists v; exact Eb|].
          destruct (Nat.eq_dec d c) as [->|Ndc]; [right; left; exists w; exact Ec|]. left. apply S. simpl. intuition.
    - (* swap *)
      unfold var. destruct (e v) as [l0|] eqn:Ev; [|rewrite (hold_none s e v H Ev); reflexivity].
      destruct (hold_some s e v l0 H Ev) as (b & Eb & Ll0 & B). rewrite Eb, bind_ok.
      destruct (e w) as [l|] eqn:Ew; [|rewrite (hold_none s e w H Ew); reflexivity].
      destruct (hold_some s e w l H Ew) as (c & Ec & Ll & C). rewrite Ec, bind_ok.
      destruct (Nat.eq_dec v w) as [->|Nvw].
      + assert (l0 = l) by congruence. subst l0. assert (c = b) by congruence. subst c.
        rewrite (self_swap_ok ec n h b l B Ll), bind_ok. eexists. split; [reflexivity|].
        apply (hold_change s e); [exact H| |intros d; left; reflexivity].
        intros u. destruct (s_vars s u) as [d|] eqn:Eu.
        * destruct (Nat.eq_dec u w) as [->|Nu].
          -- rewrite set_eq. exists l. replace d with b by congruence. auto.
          -- rewrite !set_ne by exact Nu. destruct (hold_var s e u d H Eu) as (l' & E' & Ll' & D). exists l'. auto.
        * destruct (Nat.eq_dec u w) as [->|Nu]; [congruence|]. rewrite !set_ne by exact Nu.
          specialize (H1 u). rewrite Eu in H1. destruct (e u); [contradiction|reflexivity].
      + assert (Nbc : b <> c) by (intros ->; apply Nvw; eapply H2; eassumption).
        destruct (swap_ok ec n h b c l0 l Nbc B C Ll0 Ll) as (h' & -> & B' & C' & S). rewrite bind_ok.
        eexists. split; [reflexivity|]. apply (hold_change s e); [exact H| |].
        * intros u. destruct (s_vars s u) as [d|] eqn:Eu.
          -- destruct (Nat.eq_dec u w) as [->|Nuw].
             ++ rewrite set_eq. exists l0. replace d with c by congruence. auto.
             ++ rewrite set_ne by exact Nuw. destruct (Nat.eq_dec u v) as [->|Nu].
                ** rewrite set_eq. exists l. replace d with b by congruence. auto.
                ** rewrite set_ne by exact Nu. apply (hold_keep s e _ [b; c]); try assumption.
                   simpl. intros [->|[->|[]]]; [apply Nu|apply Nuw]; eapply H2; eassumption.
          -- destruct (Nat.eq_dec u w) as [->|Nuw]; [congruence|]. rewrite set_ne by exact Nuw.
             destruct (Nat.eq_dec u v) as [->|Nu]; [congruence|]. rewrite set_ne by exact Nu.
             specialize (H1 u). rewrite Eu in H1. destruct (e u); [contradiction|reflexivity].
        * intros d. destruct (Nat.eq_dec d b) as [->|Nd]; [right; left; exists v; exact Eb|].
          destruct (Nat.eq_dec d c) as [->|Ndc]; [right; left; exists w; exact Ec|]. left. apply S. simpl. intuition.
    - (* write *)
      unfold var. destruct (e v) as [l|] eqn:Ev; [|rewrite (hold_none s e v H Ev); reflexivity].
      destruct (hold_some s e v l H Ev) as (b & Eb & Ll & B). fold h in B. rewrite Eb, bind_ok.
      unfold e_assign, look, slot, put_slot. rewrite B.
      destruct (Nat.ltb_spec i (length l)) as [Hi|Hi].
      + destruct (nth_exists l i Hi) as (y & Ey). rewrite (nth_map_Some _ _ _ Ey), !bind_ok. eexists. split; [reflexivity|].
        assert (Es : forall (l : list T) i, i < length l -> set_nth (map Some l) i (Some x) = map Some (firstn i l ++ x :: skipn (S i) l)).
        { clear. induction l as [|z l IH]; intros [|i] Hi; simpl in *; try lia; [reflexivity|]. f_equal. apply IH. lia. }
        rewrite Es by exact Hi. apply (hold_change s e); [exact H| |].
        * intros u. destruct (s_vars s u) as [d|] eqn:Eu.
          -- destruct (Nat.eq_dec u v) as [->|Nu].
             ++ rewrite set_eq. eexists. split; [reflexivity|]. split.
                ** rewrite app_length. cbn [length]. rewrite firstn_length, skipn_length. lia.
                ** replace d with b by congruence. apply set_nth_same. eapply blk_lt; exact B.
             ++ rewrite set_ne by exact Nu. apply (hold_keep s e _ [b]); try assumption; [apply same_set|].
                simpl. intros [->|[]]. apply Nu. eapply H2; eassumption.
          -- destruct (Nat.eq_dec u v) as [->|Nu]; [congruence|]. rewrite set_ne by exact Nu.
             specialize (H1 u). rewrite Eu in H1. destruct (e u); [contradiction|reflexivity].
        * intros d. destruct (Nat.eq_dec d b) as [->|Nd]; [right; left; exists v; exact Eb|]. left. apply set_nth_other. auto.
      + rewrite (proj2 (nth_error_None (map Some l) i)) by (rewrite map_length; exact Hi). reflexivity.
    - (* destroy *)
      unfold var. destruct (e v) as [l|] eqn:Ev; [|rewrite (hold_none s e v H Ev); reflexivity].
      destruct (hold_some s e v l H Ev) as (b & Eb & Ll & B). fold h in B. rewrite Eb, bind_ok.
      rewrite (destroy_ok n h b l B Ll), bind_ok. eexists. split; [reflexivity|].
      split; [|split]; cbn [s_slots s_vars].
      + intros u. unfold bindv. destruct (Nat.eqb_spec u v) as [->|Nu]; [rewrite set_eq; exact I|].
        rewrite set_ne by exact Nu. specialize (H1 u). destruct (e u) as [l'|], (s_vars s u) as [d|] eqn:Eu; try assumption.
        rewrite set_nth_other; [exact H1|]. intros ->. apply Nu. eapply H2; eassumption.
      + intros u u' d. unfold bindv. destruct (Nat.eqb_spec u v); [discriminate|]. destruct (Nat.eqb_spec u' v); [discriminate|]. apply H2.
      + intros d i x Hx. destruct (Nat.eq_dec b d) as [<-|Nd].
        * exfalso. eapply slot_dead; [|exact Hx]. apply set_nth_same. eapply blk_lt; exact B.
        * rewrite slot_other in Hx by exact Nd. destruct (H3 d i x Hx) as (u & Eu). exists u. unfold bindv.
          destruct (Nat.eqb_spec u v) as [->|]; [congruence|exact Eu].
  Qed.

  Lemma runs_ok os : forall s e, tables_hold n s e ->
    match table_runs ec n e os with
    | Some e' => exists s', sruns ec n s os = Ok s' /\ tables_hold n s' e'
    | None => sruns ec n s os = UB
    end.
  Proof.
    induction os as [|o os IH]; intros s e H; cbn [table_runs sruns]; [eauto|].
    pose proof (step_ok s e o H) as G. destruct (table_step ec n e o) as [e1|].
    - destruct G as (s1 & -> & H1). rewrite bind_ok. apply IH. exact H1.
    - rewrite G. reflexivity.
  Qed.

  Lemma init_hold : tables_hold n (@sinit T) (fun _ => None).
  Proof. split; [|split]; cbn; [auto|discriminate|]. intros b i x H. unfold slot in H. simpl in H. destruct b; discriminate. Qed.

  Lemma stack_tables_l os :
    match table_runs ec n (fun _ => None) os with
    | Some e => exists s, sruns ec n sinit os = Ok s /\ tables_hold n s e
    | None => sruns ec n sinit os = UB
    end.
  Proof. apply runs_ok, init_hold. Qed.

  Lemma stack_tables_end_l os s : sruns ec n sinit os = Ok s -> (forall v, s_vars s v = None) ->
    forall b i x, slot (s_slots s) b i <> Some (Some x).
  Proof.
    intros E V b i x Hx. pose proof (stack_tables_l os) as G. destruct (table_runs ec n (fun _ => None) os) as [e|].
    - destruct G as (s' & E' & (_ & _ & H3)). assert (s' = s) by congruence. subst s'.
      destruct (H3 b i x Hx) as (v & Ev). rewrite V in Ev. discriminate.
    - congruence.
  Qed.

  (** Heap tables *)
  Lemma run_first {S} (f : nat -> S -> outcome S) (s : S) : n <> 0 -> f 0 s = UB -> run f (seq 0 n) s = UB.
  Proof. intros N E. destruct n as [|k]; [congruence|]. cbn [seq run]. rewrite E. reflexivity. Qed.

  Lemma heap_raw_l (h : slots T) i : look (fst (heap_new n h)) (snd (heap_new n h)) i = UB.
  Proof.
    unfold heap_new, new_slots, look, slot. cbn [fst snd]. rewrite new_blk.
    destruct (nth_error (repeat None n) i) as [o|] eqn:E; [|reflexivity].
    apply nth_error_In, repeat_spec in E. subst o. reflexivity.
  Qed.

  Lemma heap_from_l (h : slots T) src : n <> 0 -> (forall h', (exists x, src h' 0 = Ok x) \/ src h' 0 = UB) ->
    heap_from n src h = UB.
  Proof.
    intros N Hs. unfold heap_from. pose proof (heap_raw_l h 0) as R. destruct (heap_new n h) as [h1 b]. cbn [fst snd] in R.
    rewrite run_first; [reflexivity|exact N|]. destruct (Hs h1) as [(x & ->)| ->]; [|reflexivity].
    rewrite bind_ok. unfold e_assign. rewrite R. reflexivity.
  Qed.

  Lemma heap_copies_l (h : slots T) : n <> 0 ->
    (forall xs, heap_from n (from_list xs) h = UB) /\ (forall c, heap_from n (fun h i => look h c i) h = UB).
  Proof.
    intros N. split; [intros xs|intros c]; apply heap_from_l; try exact N; intros h'.
    - unfold from_list. destruct (nth_error xs 0); [left; eauto|right; reflexivity].
    - unfold look. destruct (slot h' c 0) as [[x|]|]; [left; eauto|right; reflexivity|right; reflexivity].
  Qed.

  Lemma heap_write_l (h : slots T) i x : e_assign (fst (heap_new n h)) (snd (heap_new n h)) i x = UB.
  Proof. unfold e_assign. rewrite heap_raw_l. reflexivity. Qed.

  Lemma heap_leak_l (h : slots T) i x : i < n ->
    exists h', e_construct (fst (heap_new n h)) (snd (heap_new n h)) i x = Ok h' /\
      look (heap_destroy (snd (heap_new n h)) h') (snd (heap_new n h)) i = Ok x.
  Proof.
    intros Hi. unfold heap_new, new_slots, e_construct, put_slot, heap_destroy, look. cbn [fst snd].
    unfold slot at 1. rewrite new_blk, (nth_rep None n i Hi). eexists. split; [reflexivity|].
    rewrite slot_set by (rewrite app_length; simpl; lia). rewrite set_nth_same by (rewrite repeat_length; exact Hi).
    reflexivity.
  Qed.
End Histories.
