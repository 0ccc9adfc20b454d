From Coq Require Import Arith List Bool Lia.
From Verif Require Import Outcome Memory MemFacts ForEachSpec ForEachFacts Alloc AllocSpec Lifetime LifetimeSpec LifetimeFacts
  FailSpec Throw ThrowSpec.
Import ListNotations.

Section Plans.
  Variable fails : ekind -> nat -> bool.
  Lemma first_app a b t : first_throw fails (a ++ b) t =
    match first_throw fails a t with Some k => Some k | None => option_map (plus (length a)) (first_throw fails b (t + length a)) end.
  Proof.
    revert t. induction a as [|k a IH]; intros t; cbn [app first_throw length].
    - rewrite Nat.add_0_r. destruct (first_throw fails b t); reflexivity.
    - destruct (fails k t); [reflexivity|]. rewrite IH. destruct (first_throw fails a (S t)); [reflexivity|].
      replace (S t + length a) with (t + S (length a)) by lia. destruct (first_throw fails b (t + S (length a))); reflexivity.
  Qed.
  Lemma first_lt l t k : first_throw fails l t = Some k -> k < length l.
  Proof.
    revert t k. induction l as [|x l IH]; intros t k; cbn [first_throw length]; [discriminate|].
    destruct (fails x t); [intros [= <-]; lia|]. destruct (first_throw fails l (S t)) as [j|] eqn:E; [|discriminate].
    intros [= <-]. specialize (IH _ _ E). lia.
  Qed.
End Plans.

Lemma splice_put {T} (f g : T -> T) k l x : nth_error l k = Some x ->
  set_nth (splice k (map Some (map f l)) (map Some l)) k (Some (g x)) = map Some (until f g k l).
Proof.
  revert k. induction l as [|y l IH]; intros [|k] E; try discriminate; unfold splice, until in *; simpl in *.
  - injection E as ->. reflexivity.
  - f_equal. apply IH. exact E.
Qed.
Lemma until_len {A} (f g : A -> A) k l : length (until f g k l) = length l.
Proof.
  revert k. induction l as [|y l IH]; intros [|k]; unfold until in *; simpl in *; try reflexivity.
  f_equal. apply IH.
Qed.
Lemma splice_half {T} (g : T -> T -> T) k : forall new old x y, nth_error new k = Some x -> nth_error old k = Some y ->
  set_nth (splice k (map Some new) (map Some old)) k (Some (g y x)) = map Some (half g k new old).
Proof.
  induction k as [|k IH]; intros [|a new] [|c old] x y E F; try discriminate; unfold splice, half in *; simpl in *.
  - injection E as ->. injection F as ->. reflexivity.
  - f_equal. apply IH; assumption.
Qed.
Lemma half_len {A} (g : A -> A -> A) k : forall new old, length new = length old -> k < length old -> length (half g k new old) = length old.
Proof.
  induction k as [|k IH]; intros [|a new] [|c old] L K; cbn [length] in *; try lia.
  - reflexivity.
  - change (S (length (half g k new old)) = S (length old)). f_equal. apply IH; lia.
Qed.

Section Loops.
  Context {T : Type} (fails : ekind -> nat -> bool) (tc : tclass T).

  (** A loop with one operation of an element by iteration. *)
  Lemma t_run_plan kd (f : nat -> tstate T -> tresult T) (st br : nat -> slots T) n :
    (forall k t, k < n -> f k (st k, t) = if fails kd t then Ok (br k, S t, true) else Ok (st (1 + k), S t, false)) ->
    forall t, t_run f (seq 0 n) (st 0, t) =
      match first_throw fails (repeat kd n) t with
      | None => Ok (st n, t + n, false)
      | Some k => Ok (br k, t + k + 1, true)
      end.
  Proof.
    intros H. assert (G : forall k i t, i + k = n -> t_run f (seq i k) (st i, t) =
      match first_throw fails (repeat kd k) t with
      | None => Ok (st n, t + k, false)
      | Some j => Ok (br (i + j), t + j + 1, true)
      end).
    { induction k as [|k IH]; intros i t E; cbn [seq t_run repeat first_throw].
      - rewrite !Nat.add_0_r in *. subst i. reflexivity.
      - rewrite H by lia. destruct (fails kd t); unfold t_then; cbn [bind].
        + rewrite !Nat.add_0_r. do 3 f_equal. lia.
        + change (1 + i) with (S i). rewrite IH by lia. destruct (first_throw fails (repeat kd k) (S t)) as [j|]; cbn [option_map].
          * replace (S i + j) with (i + S j) by lia. replace (S t + j + 1) with (t + S j + 1) by lia. reflexivity.
          * replace (S t + k) with (t + S k) by lia. reflexivity. }
    intros t. rewrite (G n 0 t) by lia. reflexivity.
  Qed.

  Lemma then_ok (s : tstate T) f : t_then (Ok (s, false)) f = f s. Proof. reflexivity. Qed.
  Lemma then_thrown (s : tstate T) f : t_then (Ok (s, true)) f = Ok (s, true). Proof. reflexivity. Qed.
  Lemma t_run_app f (l l' : list nat) : forall s : tstate T, t_run f (l ++ l') s = t_then (t_run f l s) (t_run f l').
  Proof.
    induction l as [|i l IH]; intros s; cbn [app t_run]; [reflexivity|]. unfold t_then at 1 3.
    destruct (f i s) as [[s1 x]| | |]; cbn [bind]; try reflexivity. destruct x; [reflexivity|]. apply IH.
  Qed.

  (** A loop with three operations by iteration. *)
  Lemma t_run_three kd (f : nat -> tstate T -> tresult T) (st : nat -> slots T) n :
    (forall k t, k < n -> match first_throw fails (repeat kd 3) t with
        | None => f k (st k, t) = Ok (st (1 + k), t + 3, false)
        | Some j => exists s, f k (st k, t) = Ok (s, true)
        end) ->
    forall t, match first_throw fails (repeat kd (3 * n)) t with
      | None => t_run f (seq 0 n) (st 0, t) = Ok (st n, t + 3 * n, false)
      | Some j => exists s, t_run f (seq 0 n) (st 0, t) = Ok (s, true)
      end.
  Proof.
    intros H. assert (G : forall k i t, i + k = n -> match first_throw fails (repeat kd (3 * k)) t with
      | None => t_run f (seq i k) (st i, t) = Ok (st n, t + 3 * k, false)
      | Some j => exists s, t_run f (seq i k) (st i, t) = Ok (s, true)
      end).
    { induction k as [|k IH]; intros i t E.
      - cbn. rewrite !Nat.add_0_r in *. subst i. reflexivity.
      - replace (3 * S k) with (3 + 3 * k) by lia. rewrite repeat_app, first_app, repeat_length. cbn [seq t_run].
        specialize (H i t ltac:(lia)). destruct (first_throw fails (repeat kd 3) t) as [j|].
        + destruct H as (s & ->). exists s. reflexivity.
        + rewrite H. unfold t_then. cbn [bind]. specialize (IH (1 + i) (t + 3) ltac:(lia)).
          destruct (first_throw fails (repeat kd (3 * k)) (t + 3)) as [j|]; cbn [option_map].
          * exact IH.
          * refine (eq_trans IH _). do 3 f_equal. lia. }
    intros t. exact (G n 0 t eq_refl).
  Qed.

  Lemma t_build_plan kd (f : nat -> tstate T -> tresult T) b (st br fin : nat -> slots T) n :
    (forall k t, k < n -> f k (st k, t) = if fails kd t then Ok (br k, S t, true) else Ok (st (1 + k), S t, false)) ->
    (forall k, k < n -> run (fun i h => e_destroy h b i) (rev (seq 0 k)) (br k) = Ok (fin k)) ->
    forall t, t_build f b [] (seq 0 n) (st 0, t) =
      match first_throw fails (repeat kd n) t with
      | None => Ok (st n, t + n, false)
      | Some k => Ok (fin k, t + k + 1, true)
      end.
  Proof.
    intros H D. assert (G : forall k i t, i + k = n -> t_build f b (rev (seq 0 i)) (seq i k) (st i, t) =
      match first_throw fails (repeat kd k) t with
      | None => Ok (st n, t + k, false)
      | Some j => Ok (fin (i + j), t + j + 1, true)
      end).
    { induction k as [|k IH]; intros i t E; cbn [seq t_build repeat first_throw].
      - rewrite !Nat.add_0_r in *. subst i. reflexivity.
      - rewrite H by lia. destruct (fails kd t); cbn [bind fst snd].
        + rewrite D by lia. cbn [bind]. rewrite !Nat.add_0_r. do 3 f_equal. lia.
        + change (1 + i) with (S i). replace (i :: rev (seq 0 i)) with (rev (seq 0 (S i))) by (rewrite seq_S, rev_app_distr; reflexivity).
          rewrite IH by lia. destruct (first_throw fails (repeat kd k) (S t)) as [j|]; cbn [option_map].
          * replace (S i + j) with (i + S j) by lia. replace (S t + j + 1) with (t + S j + 1) by lia. reflexivity.
          * replace (S t + k) with (t + S k) by lia. reflexivity. }
    intros t. exact (G n 0 t eq_refl).
  Qed.
End Loops.

(** ** The operations on blocks *)
Section Ops.
  Context {T : Type} (fails : ekind -> nat -> bool) (tc : tclass T) (n : nat).
  Notation ec := (t_class tc).

  Lemma t_default_ok (h : slots T) t :
    exists h' : slots T, nth_error h' (length h) = Some (map Some (repeat (e_default ec) n)) /\ same_but [length h] h h' /\
      t_default fails tc n (length h) (h ++ [repeat None n], t) =
      match first_throw fails (plan_new n) t with
      | None => Ok (h', t + n, false)
      | Some k => Ok (h ++ [repeat None n], t + k + 1, true)
      end.
  Proof.
    unfold t_default, plan_new. set (h1 := h ++ [repeat None n]). set (b := length h).
    assert (B : nth_error h1 b = Some (repeat None n)) by apply new_blk.
    pose (new := map (@Some T) (repeat (e_default ec) n)).
    assert (Ln : length new = length (@repeat (option T) None n)) by (unfold new; rewrite map_length, !repeat_length; reflexivity).
    exists (set_nth h1 b new). split; [|split].
    - apply set_nth_same. eapply blk_lt. exact B.
    - intros c N. rewrite set_nth_other by (simpl in N; intuition). apply app_blk. simpl in N. intuition.
    - pose proof (part_n h1 b (repeat None n) new Ln) as En. rewrite repeat_length in En. rewrite <- En.
      assert (E0 : part h1 b (repeat None n) new 0 = h1) by (apply part_0; assumption).
      rewrite <- E0 at 1.
      rewrite (t_build_plan fails KDefault _ b (part h1 b (repeat None n) new) (part h1 b (repeat None n) new) (fun _ => h1)).
      + reflexivity.
      + intros k u K. unfold t_construct. rewrite part_slot by assumption. rewrite nth_rep by exact K.
        rewrite part_put; [reflexivity|assumption|exact Ln|]. unfold new. apply nth_map_Some, nth_rep. exact K.
      + intros k K. rewrite <- E0 at 2. apply (run_rev _ (part h1 b (repeat None n) new)). intros j J. unfold e_destroy, look.
        rewrite (part_slot_S h1 b (repeat None n) new B Ln j (Some (e_default ec))) by (unfold new; apply nth_map_Some, nth_rep; lia).
        rewrite bind_ok. f_equal. apply part_back; [assumption|exact Ln|]. apply nth_rep. lia.
  Qed.

  (** The copies of the elements of a source, as far as it goes. *)
  Lemma t_copies_ok (h : slots T) b old l m src t : nth_error h b = Some (map Some old) -> length old = n -> length l = n -> m <= n ->
    (forall h' k x, same_but [b] h h' -> k < m -> nth_error l k = Some x -> src h' k = Ok x) ->
    exists br : nat -> slots T, (forall k, k < m -> (exists l', nth_error (br k) b = Some (map Some l') /\ length l' = n) /\ same_but [b] h (br k)) /\
      t_run (fun i s => v <- src (fst s) i ;; t_assign fails tc b i v s) (seq 0 m) (h, t) =
      match first_throw fails (repeat KCopy m) t with
      | None => Ok (part h b (map Some old) (map Some l) m, t + m, false)
      | Some k => Ok (br k, t + k + 1, true)
      end.
  Proof.
    intros B Lo Ll Hm Hs.
    assert (Ln : length (map (@Some T) l) = length (map (@Some T) old)) by (rewrite !map_length; congruence).
    pose (st := part h b (map Some old) (map Some l)).
    pose (br := fun k => match nth_error l k, nth_error old k with
      | Some x, Some y => put_slot (st k) b k (Some (t_broken tc y x)) | _, _ => h end).
    pose proof (blk_lt _ _ _ B) as Lb.
    exists br. split.
    - intros k K. destruct (nth_exists l k) as (x & Ex); [lia|]. destruct (nth_exists old k) as (y & Ey); [lia|].
      unfold br. rewrite Ex, Ey. unfold st, part. rewrite put_set by exact Lb. rewrite (splice_half (t_broken tc) k l old x y Ex Ey).
      split; [|apply same_set]. eexists. split; [apply set_nth_same; exact Lb|]. rewrite half_len; lia.
    - assert (E0 : st 0 = h) by (apply part_0; assumption). rewrite <- E0 at 1.
      rewrite (t_run_plan fails KCopy _ st br); [reflexivity|].
      intros k u K. destruct (nth_exists l k) as (x & Ex); [lia|]. destruct (nth_exists old k) as (y & Ey); [lia|].
      cbn [fst]. rewrite (Hs _ k x); [|apply same_set|exact K|exact Ex]. rewrite bind_ok. unfold t_assign, look, br. unfold st at 1.
      rewrite part_slot by assumption. rewrite (nth_map_Some _ _ _ Ey), bind_ok, Ex, Ey.
      unfold st at 2. rewrite (part_put h b (map Some old) (map Some l) B Ln k (Some x)) by (apply nth_map_Some; exact Ex). reflexivity.
  Qed.

  Lemma t_from_ok (h : slots T) l src m t : length l = n -> m <= n ->
    (forall h' k x, same_but [length h] h h' -> k < m -> nth_error l k = Some x -> src h' k = Ok x) ->
    (m < n -> forall h', src h' m = UB) ->
    exists (h' : slots T) (bad : nat -> slots T), nth_error h' (length h) = Some (map Some l) /\ same_but [length h] h h' /\
      (forall k, nth_error (bad k) (length h) = Some (repeat None n) /\ same_but [length h] h (bad k)) /\
      t_from fails tc n src (length h) (h ++ [repeat None n], t) =
      match first_throw fails (plan_from n m) t with
      | None => if Nat.eqb m n then Ok (h', t + (n + n), false) else UB
      | Some k => Ok (bad k, t + k + 1, true)
      end.
  Proof.
    intros Ll Hm Hs Hu. destruct (t_default_ok h t) as (h1 & B & S & E).
    pose (old := repeat (e_default ec) n). assert (Lo : length old = n) by apply repeat_length.
    destruct (t_copies_ok h1 (length h) old l m src (t + n) B Lo Ll Hm) as (br & Hbr & Ec).
    { intros h' k x S' K Ex. apply Hs; [|exact K|exact Ex]. intros c N. rewrite S' by exact N. apply S. exact N. }
    pose proof (blk_lt _ _ _ B) as Lb.
    assert (Ln : length (map (@Some T) l) = length (map (@Some T) old)) by (rewrite !map_length; congruence).
    exists (set_nth h1 (length h) (map Some l)),
      (fun k => if Nat.ltb k n then h ++ [repeat None n] else
                if Nat.ltb (k - n) m then set_nth (br (k - n)) (length h) (repeat None n) else h ++ [repeat None n]).
    split; [apply set_nth_same; exact Lb|]. split.
    { intros c N. rewrite set_nth_other by (simpl in N; intuition). apply S. exact N. }
    assert (Base : nth_error (h ++ [repeat None n]) (length h) = Some (@repeat (option T) None n) /\
                   same_but [length h] h (h ++ [repeat None n])).
    { split; [apply new_blk|]. intros c N. apply app_blk. simpl in N. intuition. }
    split.
    { intros k. destruct (k <? n); [exact Base|]. destruct (Nat.ltb_spec (k - n) m) as [K|K]; [|exact Base].
      destruct (Hbr (k - n) K) as ((l' & B' & _) & S'). split; [apply set_nth_same; eapply blk_lt; exact B'|].
      intros c N. rewrite set_nth_other by (simpl in N; intuition). rewrite S' by exact N. apply S. exact N. }
    unfold t_from. rewrite E. unfold plan_from, plan_new. rewrite first_app, repeat_length, (Nat.min_r n m Hm).
    destruct (first_throw fails (repeat KDefault n) t) as [k|] eqn:F1.
    { unfold t_then at 1. rewrite bind_ok. cbv beta iota. apply first_lt in F1. rewrite repeat_length in F1. destruct (Nat.ltb_spec k n); [reflexivity|lia]. }
    unfold t_then at 1. rewrite bind_ok. cbv beta iota.
    assert (Split : seq 0 n = seq 0 m ++ seq m (n - m)) by (rewrite <- seq_app; f_equal; lia).
    rewrite Split, t_run_app, Ec. destruct (first_throw fails (repeat KCopy m) (t + n)) as [k|] eqn:F2; cbn [option_map].
    - unfold t_then at 1. rewrite !bind_ok. cbv beta iota. rewrite ?bind_ok. cbv beta iota. cbn [fst snd]. apply first_lt in F2. rewrite repeat_length in F2.
      destruct (Hbr k F2) as ((l' & B' & Ll') & _). rewrite (destroy_ok n _ _ l' B' Ll'), bind_ok.
      destruct (Nat.ltb_spec (n + k) n); [lia|]. replace (n + k - n) with k by lia.
      destruct (Nat.ltb_spec k m); [|lia]. do 3 f_equal. lia.
    - unfold t_then at 1. rewrite bind_ok. cbv beta iota. destruct (Nat.eqb_spec m n) as [->|N].
      + rewrite Nat.sub_diag. cbn [seq t_run bind]. pose proof (part_n h1 (length h) (map Some old) (map Some l) Ln) as En.
        rewrite map_length, Lo in En. rewrite En. do 3 f_equal. lia.
      + replace (n - m) with (1 + (n - m - 1)) by lia. cbn [Nat.add seq t_run fst]. rewrite (Hu ltac:(lia)). reflexivity.
  Qed.

  Lemma t_move_ok (h : slots T) c l t : nth_error h c = Some (map Some l) -> length l = n ->
    exists (h' : slots T) (bad : nat -> slots T), nth_error h' (length h) = Some (map Some l) /\ nth_error h' c = Some (map Some (map (e_moved ec) l)) /\
      same_but [length h; c] h h' /\
      (forall k, k < n -> nth_error (bad k) (length h) = Some (repeat None n) /\
        nth_error (bad k) c = Some (map Some (until (e_moved ec) (t_left tc) k l)) /\ same_but [length h; c] h (bad k)) /\
      t_move fails tc n (length h) c (h ++ [repeat None n], t) =
      match first_throw fails (plan_move n) t with
      | None => Ok (h', t + n, false)
      | Some k => Ok (bad k, t + k + 1, true)
      end.
  Proof.
    intros C Ll. pose proof (blk_lt _ _ _ C) as Lc. unfold t_move, plan_move.
    set (h1 := h ++ [repeat None n]). set (b := length h). assert (N : b <> c) by (unfold b; lia).
    assert (B : nth_error h1 b = Some (repeat None n)) by apply new_blk.
    assert (C1 : nth_error h1 c = Some (map Some l)) by (unfold h1; rewrite app_blk by lia; exact C).
    pose (nb := map (@Some T) l). pose (nc := map (@Some T) (map (e_moved ec) l)).
    assert (Lb : length nb = length (@repeat (option T) None n)) by (unfold nb; rewrite map_length, repeat_length; exact Ll).
    assert (Lc' : length nc = length (map (@Some T) l)) by (unfold nc; rewrite !map_length; reflexivity).
    pose proof (blk_lt _ _ _ B) as LB. pose proof (blk_lt _ _ _ C1) as LC.
    assert (Other : forall d, d <> b -> nth_error h1 d = nth_error h d) by (intros d Hd; apply app_blk; exact Hd).
    pose (bad := fun k => set_nth h1 c (map Some (until (e_moved ec) (t_left tc) k l))).
    exists (set_nth (set_nth h1 b nb) c nc), bad. split; [|split; [|split; [|split]]].
    - rewrite set_nth_other by auto. apply set_nth_same. exact LB.
    - apply set_nth_same. rewrite set_nth_length. exact LC.
    - intros d Hd. rewrite !set_nth_other by (simpl in Hd; intuition). apply Other. simpl in Hd. intuition.
    - intros k K. unfold bad. split; [rewrite set_nth_other by auto; exact B|]. split; [apply set_nth_same; exact LC|].
      intros d Hd. rewrite set_nth_other by (simpl in Hd; intuition). apply Other. simpl in Hd. intuition.
    - pose (st := part2 h1 b (repeat None n) nb c (map Some l) nc).
      assert (E0 : st 0 = h1) by (apply part2_0; assumption).
      assert (En : st n = set_nth (set_nth h1 b nb) c nc).
      { pose proof (part2_n h1 b (repeat None n) nb c (map Some l) nc Lb Lc') as E.
        rewrite map_length, repeat_length in E. apply E. exact Ll. }
      pose (br := fun k => set_nth (part h1 b (repeat None n) nb k) c (map Some (until (e_moved ec) (t_left tc) k l))).
      rewrite <- E0 at 1. rewrite (t_build_plan fails KMove _ b st br bad); [rewrite En; reflexivity| |].
      + intros k u K. destruct (nth_exists l k) as (x & Ex); [lia|]. unfold t_move_construct, look, st, part2.
        assert (Ck : nth_error (part h1 b (repeat None n) nb k) c = Some (map Some l)) by (rewrite part_blk; assumption).
        rewrite (part_slot _ c _ nc Ck Lc'). rewrite (nth_map_Some _ _ _ Ex), bind_ok.
        rewrite part_other by auto. rewrite (part_slot h1 b _ nb B Lb), nth_rep by exact K.
        destruct (fails KMove u).
        * do 3 f_equal. unfold br, part at 1. rewrite put_set by (eapply blk_lt; exact Ck). f_equal.
          unfold nc. apply splice_put. exact Ex.
        * rewrite (part_put _ c _ nc Ck Lc' k (Some (e_moved ec x))) by (unfold nc; apply nth_map_Some, map_nth_error; exact Ex).
          do 3 f_equal. unfold part at 1. rewrite put_other by auto.
          rewrite (part_put h1 b _ nb B Lb k (Some x)) by (apply nth_map_Some; exact Ex). reflexivity.
      + intros k K. pose (X := map (@Some T) (until (e_moved ec) (t_left tc) k l)).
        pose (sd := fun j => set_nth (part h1 b (repeat None n) nb j) c X).
        replace (bad k) with (sd 0) by (unfold sd, bad, X; rewrite part_0 by exact B; reflexivity).
        change (br k) with (sd k). apply (run_rev _ sd). intros j J. destruct (nth_exists l j) as (x & Ex); [lia|].
        unfold e_destroy, look, sd. rewrite slot_other by auto.
        rewrite (part_slot_S h1 b (repeat None n) nb B Lb j (Some x)) by (apply nth_map_Some; exact Ex).
        rewrite bind_ok. f_equal. rewrite put_other by auto. f_equal. apply part_back; [assumption|exact Lb|]. apply nth_rep. lia.
  Qed.

  Lemma t_massign_ok (h : slots T) b c l l' t : b <> c -> nth_error h b = Some (map Some l) ->
    nth_error h c = Some (map Some l') -> length l = n -> length l' = n ->
    exists (h' : slots T) (bad : nat -> slots T), nth_error h' b = Some (map Some l') /\ nth_error h' c = Some (map Some (map (e_moved ec) l')) /\
      same_but [b; c] h h' /\
      (forall k, k < n -> nth_error (bad k) b = Some (map Some (half (t_broken tc) k l' l)) /\
        nth_error (bad k) c = Some (map Some (until (e_moved ec) (t_left tc) k l')) /\ same_but [b; c] h (bad k)) /\
      t_massign fails tc n b c (h, t) =
      match first_throw fails (plan_move n) t with
      | None => Ok (h', t + n, false)
      | Some k => Ok (bad k, t + k + 1, true)
      end.
  Proof.
    intros N B C Ll Ll'. unfold t_massign, plan_move.
    pose (nb := map (@Some T) l'). pose (nc := map (@Some T) (map (e_moved ec) l')).
    assert (Lb : length nb = length (map (@Some T) l)) by (unfold nb; rewrite !map_length; congruence).
    assert (Lc : length nc = length (map (@Some T) l')) by (unfold nc; rewrite !map_length; reflexivity).
    pose proof (blk_lt _ _ _ B) as LB. pose proof (blk_lt _ _ _ C) as LC.
    pose (bad := fun k => set_nth (set_nth h b (map Some (half (t_broken tc) k l' l))) c (map Some (until (e_moved ec) (t_left tc) k l'))).
    exists (set_nth (set_nth h b nb) c nc), bad. split; [|split; [|split; [|split]]].
    - rewrite set_nth_other by auto. apply set_nth_same. exact LB.
    - apply set_nth_same. rewrite set_nth_length. exact LC.
    - intros d Hd. rewrite !set_nth_other by (simpl in Hd; intuition). reflexivity.
    - intros k K. unfold bad. split; [rewrite set_nth_other by auto; apply set_nth_same; exact LB|].
      split; [apply set_nth_same; rewrite set_nth_length; exact LC|].
      intros d Hd. rewrite !set_nth_other by (simpl in Hd; intuition). reflexivity.
    - pose (st := part2 h b (map Some l) nb c (map Some l') nc).
      assert (E0 : st 0 = h) by (apply part2_0; assumption).
      assert (En : st n = set_nth (set_nth h b nb) c nc).
      { pose proof (part2_n h b (map Some l) nb c (map Some l') nc Lb Lc) as E. rewrite !map_length, Ll in E. apply E. exact Ll'. }
      rewrite <- E0 at 1. rewrite (t_run_plan fails KMove _ st bad); [rewrite En; reflexivity|].
      intros k u K. destruct (nth_exists l k) as (y & Ey); [lia|]. destruct (nth_exists l' k) as (x & Ex); [lia|].
      unfold t_move_assign. rewrite (proj2 (Nat.eqb_neq b c) N). cbn [andb]. unfold look, st, part2.
      assert (Ck : nth_error (part h b (map Some l) nb k) c = Some (map Some l')) by (rewrite part_blk; assumption).
      rewrite (part_slot _ c _ nc Ck Lc). rewrite (nth_map_Some _ _ _ Ex), bind_ok.
      rewrite part_other by auto. rewrite (part_slot h b _ nb B Lb), (nth_map_Some _ _ _ Ey), bind_ok.
      destruct (fails KMove u).
      + do 3 f_equal. unfold part at 1. rewrite put_set by (eapply blk_lt; exact Ck).
        unfold nc. rewrite (splice_put (e_moved ec) (t_left tc) k l' x Ex).
        rewrite put_other by auto. unfold bad. f_equal. unfold part. rewrite put_set by exact LB. f_equal.
        unfold nb. apply splice_half; assumption.
      + rewrite (part_put _ c _ nc Ck Lc k (Some (e_moved ec x))) by (unfold nc; apply nth_map_Some, map_nth_error; exact Ex).
        do 3 f_equal. unfold part at 1. rewrite put_other by auto.
        rewrite (part_put h b _ nb B Lb k (Some x)) by (apply nth_map_Some; exact Ex). reflexivity.
  Qed.

  Lemma t_self_ok (h : slots T) b l t : nth_error h b = Some (map Some l) -> length l = n ->
    t_massign fails tc n b b (h, t) =
    match first_throw fails (plan_move n) t with
    | None => Ok (set_nth h b (map Some (map (e_self ec) l)), t + n, false)
    | Some k => Ok (set_nth h b (map Some (until (e_self ec) (t_self tc) k l)), t + k + 1, true)
    end.
  Proof.
    intros B Ll. unfold t_massign, plan_move. pose (nb := map (@Some T) (map (e_self ec) l)).
    assert (Lb : length nb = length (map (@Some T) l)) by (unfold nb; rewrite !map_length; reflexivity).
    pose (st := part h b (map Some l) nb).
    assert (E0 : st 0 = h) by (apply part_0; assumption).
    assert (En : st n = set_nth h b nb) by (pose proof (part_n h b (map Some l) nb Lb) as E; rewrite map_length, Ll in E; exact E).
    pose proof (blk_lt _ _ _ B) as LB.
    rewrite <- E0 at 1. rewrite (t_run_plan fails KMove _ st (fun k => set_nth h b (map Some (until (e_self ec) (t_self tc) k l))));
      [rewrite En; reflexivity|].
    intros k u K. destruct (nth_exists l k) as (x & Ex); [lia|]. unfold t_move_assign. rewrite !Nat.eqb_refl. cbn [andb].
    unfold look, st. rewrite (part_slot h b _ nb B Lb), (nth_map_Some _ _ _ Ex), bind_ok. destruct (fails KMove u).
    - do 3 f_equal. unfold part. rewrite put_set by exact LB. f_equal. unfold nb. apply splice_put. exact Ex.
    - do 3 f_equal. apply part_put; [assumption|exact Lb|]. unfold nb. apply nth_map_Some, map_nth_error. exact Ex.
  Qed.

  (** Swaps: they agree with those of Lifetime.v unless something throws. *)
  Lemma t_swap1_ok h b c k t h' :
    (' (x, h1) <- e_move_out ec h b k ;; h2 <- e_move_assign ec h1 b k c k ;; e_assign h2 c k x) = Ok h' ->
    match first_throw fails (repeat KMove 3) t with
    | None => t_swap1 fails tc b k c k (h, t) = Ok (h', t + 3, false)
    | Some j => exists s, t_swap1 fails tc b k c k (h, t) = Ok (s, true)
    end.
  Proof.
    intros E. unfold t_swap1. unfold e_move_out at 1 in E. destruct (look h b k) as [x| | |] eqn:Lx; try discriminate. rewrite bind_ok in E. rewrite bind_ok in E. rewrite bind_ok. cbv beta iota in E.
    cbn [repeat first_throw]. destruct (fails KMove t) eqn:F1; [eexists; reflexivity|].
    set (h1 := put_slot h b k (Some (e_moved ec x))) in *.
    assert (M : exists h2, e_move_assign ec h1 b k c k = Ok h2 /\
      (if fails KMove (S t) then exists s, t_move_assign fails tc b k c k (h1, S t) = Ok (s, true)
       else t_move_assign fails tc b k c k (h1, S t) = Ok (h2, S (S t), false))).
    { unfold e_move_assign, t_move_assign in *. destruct (Nat.eqb b c && Nat.eqb k k).
      - destruct (look h1 b k) as [z| | |]; try discriminate. rewrite !bind_ok. eexists. split; [reflexivity|].
        destruct (fails KMove (S t)); [eexists|]; reflexivity.
      - unfold e_move_out in *. destruct (look h1 c k) as [z| | |]; try discriminate. rewrite !bind_ok in E |- *.
        unfold e_assign at 1 in E. unfold e_assign at 1.
        destruct (look (put_slot h1 c k (Some (e_moved ec z))) b k) as [y| | |] eqn:Ly; try discriminate. rewrite bind_ok.
        eexists. split; [reflexivity|].
        assert (G : exists y', look h1 b k = Ok y').
        { unfold look, h1, slot, put_slot in *. unfold look, slot in Lx. destruct (nth_error h b) as [cs|] eqn:Eb; [|discriminate].
          destruct (nth_error cs k) as [[w|]|] eqn:Ek; try discriminate.
          rewrite set_nth_same by (eapply blk_lt; exact Eb). rewrite set_nth_same by (apply nth_error_Some; congruence). eauto. }
        destruct G as (y' & ->). rewrite bind_ok. destruct (fails KMove (S t)); [eexists|]; reflexivity. }
    destruct M as (h2 & E2 & G). rewrite E2, bind_ok in E.
    destruct (fails KMove (S t)) eqn:F2.
    - destruct G as (s & ->). unfold t_then. cbn. eexists. reflexivity.
    - rewrite G. unfold t_then. cbn [bind]. unfold e_assign in E. destruct (look h2 c k) as [y| | |]; try discriminate.
      rewrite bind_ok in E |- *. injection E as <-. destruct (fails KMove (S (S t))); cbn [option_map]; [eexists; reflexivity|].
      do 3 f_equal. lia.
  Qed.

  Lemma run_prefix {X} (f : nat -> X -> outcome X) (s s' : X) m : run f (seq 0 m) s = Ok s' ->
    exists st, st 0 = s /\ st m = s' /\ forall k, k < m -> f k (st k) = Ok (st (1 + k)).
  Proof.
    revert s'. induction m as [|m IH]; intros s' E.
    - injection E as <-. exists (fun _ => s). split; [reflexivity|]. split; [reflexivity|]. intros k K. lia.
    - rewrite seq_S, run_app in E. destruct (run f (seq 0 m) s) as [s1| | |] eqn:R; try discriminate. rewrite bind_ok in E.
      destruct (IH s1 eq_refl) as (st & S0 & S1 & H). exists (fun k => if Nat.eqb k (S m) then s' else st k).
      cbn [run plus] in E. destruct (f m s1) as [s2| | |] eqn:F; try discriminate. rewrite bind_ok in E. injection E as ->.
      split; [exact S0|]. rewrite Nat.eqb_refl. split; [reflexivity|].
      intros k K. destruct (Nat.eqb_spec k (S m)); [lia|]. destruct (Nat.eqb_spec (1 + k) (S m)) as [Ek|Ek].
      + replace k with m by lia. rewrite S1. exact F.
      + apply H. lia.
  Qed.

  Lemma t_swap_ok h b c h' t : stack_swap ec n b c h = Ok h' ->
    t_swap fails tc n b c (h, t) =
    match first_throw fails (plan_swap n) t with None => Ok (h', t + 3 * n, false) | Some _ => Abort end.
  Proof.
    intros E. unfold stack_swap in E. apply run_prefix in E as (st & S0 & Sn & H). unfold t_swap, plan_swap.
    pose proof (t_run_three fails KMove (fun i => t_swap1 fails tc b i c i) st n) as G.
    assert (Hp : forall k u, k < n -> match first_throw fails (repeat KMove 3) u with
        | None => t_swap1 fails tc b k c k (st k, u) = Ok (st (1 + k), u + 3, false)
        | Some j => exists s, t_swap1 fails tc b k c k (st k, u) = Ok (s, true) end).
    { intros k u K. apply t_swap1_ok. apply H. exact K. }
    specialize (G Hp t). rewrite S0 in G. destruct (first_throw fails (repeat KMove (3 * n)) t) as [j|].
    - destruct G as (s & ->). reflexivity.
    - rewrite G, Sn. reflexivity.
  Qed.
End Ops.
