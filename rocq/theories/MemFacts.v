From Coq Require Import ZArith List Bool Lia.
From Verif Require Import Outcome Memory.
Import ListNotations.
Open Scope Z_scope.

Lemma set_nth_length {A} (l : list A) n x : length (set_nth l n x) = length l.
Proof. revert n; induction l; intros [|]; simpl; auto. Qed.

Lemma set_nth_same {A} (l : list A) n x : (n < length l)%nat -> nth_error (set_nth l n x) n = Some x.
Proof. revert n; induction l; intros [|n] H; simpl in *; try lia; [reflexivity|]. apply IHl; lia. Qed.

Lemma set_nth_other {A} (l : list A) n k x : n <> k -> nth_error (set_nth l n x) k = nth_error l k.
Proof. revert n k; induction l; intros [|n] [|k] H; simpl; try reflexivity; try congruence. apply IHl; congruence. Qed.

Definition valid_ {T} (m : mem T) (p : ptr) : Prop := cell m p <> None.

Lemma validb_true {T} (m : mem T) p : validb m p = true <-> cell m p <> None.
Proof. unfold validb. destruct (cell m p); split; congruence. Qed.

Lemma cell_ptr {T} (m : mem T) b o v : cell m (Ptr b o) = Some v ->
  exists cs, nth_error m b = Some (Some cs) /\ 0 <= o /\ nth_error cs (Z.to_nat o) = Some v.
Proof.
  simpl. destruct (nth_error m b) as [[cs|]|] eqn:E; try discriminate.
  destruct (Z.leb_spec 0 o); [|discriminate]. eauto.
Qed.

Lemma nth_lt {A} (l : list A) n x : nth_error l n = Some x -> (n < length l)%nat.
Proof. intros H. apply nth_error_Some. congruence. Qed.

Lemma cell_upd_same {T} (m : mem T) p v : cell m p <> None -> cell (upd m p v) p = Some (Some v).
Proof.
  destruct p as [|b o]; intros H; [simpl in H; congruence|].
  destruct (cell m (Ptr b o)) as [c|] eqn:E; [|congruence].
  apply cell_ptr in E. destruct E as (cs & E1 & E2 & E3). simpl.
  rewrite E1. destruct (Z.leb_spec 0 o); [|lia].
  rewrite set_nth_same by (eapply nth_lt; exact E1).
  rewrite set_nth_same by (eapply nth_lt; exact E3). reflexivity.
Qed.

Lemma cell_upd_other {T} (m : mem T) p q v : p <> q -> cell (upd m p v) q = cell m q.
Proof.
  intros N. destruct p as [|b o]; [reflexivity|]. unfold upd.
  destruct (nth_error m b) as [[cs|]|] eqn:E; try reflexivity.
  destruct (Z.leb_spec 0 o); [|reflexivity].
  destruct q as [|b' o']; [reflexivity|]. unfold cell.
  destruct (Nat.eq_dec b b') as [<-|Nb].
  - rewrite set_nth_same by (eapply nth_lt; exact E). rewrite E.
    destruct (Z.leb_spec 0 o'); [|reflexivity]. apply set_nth_other.
    intros G. apply N. f_equal. lia.
  - rewrite set_nth_other by exact Nb. reflexivity.
Qed.

Lemma ptr_eq_dec (p q : ptr) : {p = q} + {p <> q}.
Proof. decide equality; [apply Z.eq_dec|apply Nat.eq_dec]. Qed.

Lemma valid_upd {T} (m : mem T) p q v : cell (upd m p v) q <> None <-> cell m q <> None.
Proof.
  destruct (ptr_eq_dec p q) as [<-|N].
  - destruct (cell m p) eqn:E.
    + rewrite cell_upd_same by congruence. split; congruence.
    + destruct p as [|b o]; [simpl; tauto|]. simpl in E. unfold upd.
      destruct (nth_error m b) as [[cs|]|] eqn:Eb; try (unfold cell; rewrite Eb; tauto).
      destruct (Z.leb_spec 0 o); [|unfold cell; rewrite Eb; destruct (Z.leb_spec 0 o); [lia|tauto]].
      unfold cell. rewrite set_nth_same by (eapply nth_lt; exact Eb).
      destruct (Z.leb_spec 0 o); [|lia].
      assert (Hl : (length cs <= Z.to_nat o)%nat) by (apply nth_error_None; exact E).
      replace (nth_error (set_nth cs (Z.to_nat o) (Some v)) (Z.to_nat o)) with (@None (option T)).
      * split; intros G; exfalso; apply G; reflexivity.
      * symmetry. apply nth_error_None. rewrite set_nth_length. exact Hl.
  - rewrite cell_upd_other by exact N. tauto.
Qed.

Lemma peek_upd_same {T} (m : mem T) p v : cell m p <> None -> peek (upd m p v) p = Some v.
Proof. intros H. unfold peek. rewrite cell_upd_same by exact H. reflexivity. Qed.

Lemma peek_upd_other {T} (m : mem T) p q v : p <> q -> peek (upd m p v) q = peek m q.
Proof. intros H. unfold peek. rewrite cell_upd_other by exact H. reflexivity. Qed.

Lemma peek_valid {T} (m : mem T) p v : peek m p = Some v -> cell m p <> None.
Proof. unfold peek. destruct (cell m p); congruence. Qed.

Lemma load_peek {T} (m : mem T) p v : peek m p = Some v -> load m p = Ok v.
Proof. unfold peek, load. destruct (cell m p) as [[x|]|]; congruence. Qed.

Lemma load_inv {T} (m : mem T) p v : load m p = Ok v -> peek m p = Some v.
Proof. unfold peek, load. destruct (cell m p) as [[x|]|]; congruence. Qed.

Lemma store_valid {T} (m : mem T) p v : cell m p <> None -> store m p v = Ok (upd m p v).
Proof. intros H. unfold store. apply validb_true in H. rewrite H. reflexivity. Qed.

Lemma padd_padd p a b : padd (padd p a) b = padd p (a + b).
Proof. destruct p; simpl; [reflexivity|]. f_equal. lia. Qed.

Lemma padd_0 p : padd p 0 = p.
Proof. destruct p; simpl; [reflexivity|]. f_equal. lia. Qed.

Lemma padd_inj b o x y : padd (Ptr b o) x = padd (Ptr b o) y -> x = y.
Proof. simpl. intros H. injection H. lia. Qed.

(** Sequences of optional writes. *)
Definition apply_writes {T} (ws : list (ptr * option T)) (m : mem T) : mem T :=
  fold_left (fun m pv => match snd pv with Some v => upd m (fst pv) v | None => m end) ws m.

Lemma apply_app {T} (a b : list (ptr * option T)) m :
  apply_writes (a ++ b) m = apply_writes b (apply_writes a m).
Proof. apply fold_left_app. Qed.

Lemma apply_valid {T} (ws : list (ptr * option T)) : forall m p,
  cell (apply_writes ws m) p <> None <-> cell m p <> None.
Proof.
  unfold apply_writes.
  induction ws as [|[q [v|]] ws IH]; intros m p; cbn [fold_left fst snd]; [tauto| |apply IH].
  etransitivity; [apply IH|apply valid_upd].
Qed.

Lemma apply_other {T} (ws : list (ptr * option T)) : forall m p,
  (forall q v, In (q, Some v) ws -> q <> p) -> cell (apply_writes ws m) p = cell m p.
Proof.
  unfold apply_writes.
  induction ws as [|[q [v|]] ws IH]; intros m p H; cbn [fold_left fst snd]; [reflexivity| |].
  - rewrite IH; [|intros; eapply H; right; eassumption].
    apply cell_upd_other. eapply H. left. reflexivity.
  - apply IH. intros; eapply H; right; eassumption.
Qed.

Lemma apply_in {T} (ws : list (ptr * option T)) : forall m p v,
  NoDup (map fst ws) -> In (p, Some v) ws -> cell m p <> None ->
  cell (apply_writes ws m) p = Some (Some v).
Proof.
  induction ws as [|[q o] ws IH]; intros m p v N H V; simpl in *; [contradiction|].
  inversion N; subst. destruct H as [E|H].
  - injection E as <- ->. unfold apply_writes; cbn [fold_left fst snd]. fold (apply_writes ws (upd m q v)).
    rewrite apply_other; [apply cell_upd_same; exact V|].
    intros q' v' Hin <-. apply H2. apply in_map_iff. exists (q', Some v'). split; [reflexivity|exact Hin].
  - unfold apply_writes; cbn [fold_left fst snd].
    destruct o as [v'|].
    + fold (apply_writes ws (upd m q v')). apply IH; try assumption. apply valid_upd. exact V.
    + fold (apply_writes ws m). apply IH; assumption.
Qed.

(** Blocks appended by an allocation. *)
Lemma cell_app {T} (m m2 : mem T) p : cell m p <> None -> cell (m ++ m2) p = cell m p.
Proof.
  destruct p as [|b o]; [reflexivity|]. simpl. intros H.
  destruct (nth_error m b) eqn:E; [|congruence].
  rewrite nth_error_app1 by (eapply nth_lt; exact E). rewrite E. reflexivity.
Qed.

Lemma nth_error_repeat' {A} (x : A) n k : (k < n)%nat -> nth_error (repeat x n) k = Some x.
Proof. revert k; induction n; intros [|k] H; simpl; try lia; [reflexivity|]. apply IHn; lia. Qed.

Lemma cell_alloc {T} (m : mem T) n o : 0 <= o < n ->
  cell (fst (alloc m n)) (Ptr (length m) o) = Some None.
Proof.
  intros H. simpl. rewrite nth_error_app2 by lia. rewrite Nat.sub_diag. simpl.
  destruct (Z.leb_spec 0 o); [|lia]. apply nth_error_repeat'. lia.
Qed.

Lemma cell_fresh {T} (m : mem T) o : cell m (Ptr (length m) o) = None.
Proof.
  simpl. destruct (nth_error m (length m)) eqn:E; [|reflexivity]. apply nth_lt in E. lia.
Qed.

Lemma cell_block_lt {T} (m : mem T) b o : cell m (Ptr b o) <> None -> (b < length m)%nat.
Proof.
  simpl. intros H. destruct (nth_error m b) eqn:E; [|congruence]. eapply nth_lt; exact E.
Qed.

(** std::copy into a block disjoint from the source. *)
Lemma copy_elements_ok {T} n : forall (m : mem T) sb so db d_o,
  sb <> db ->
  (forall k, 0 <= k < Z.of_nat n -> exists v, peek m (Ptr sb (so + k)) = Some v) ->
  (forall k, 0 <= k < Z.of_nat n -> cell m (Ptr db (d_o + k)) <> None) ->
  exists m', copy_elements m (Ptr sb so) (Ptr db d_o) n = Ok m' /\
    (forall k, 0 <= k < Z.of_nat n -> peek m' (Ptr db (d_o + k)) = peek m (Ptr sb (so + k))) /\
    (forall p, (forall k, 0 <= k < Z.of_nat n -> p <> Ptr db (d_o + k)) -> cell m' p = cell m p) /\
    (forall p, cell m' p <> None <-> cell m p <> None) /\ length m' = length m.
Proof.
  induction n as [|n IH]; intros m sb so db d_o N R W.
  - exists m. simpl. split; [reflexivity|]. split; [intros; lia|]. split; [auto|]. split; [tauto|reflexivity].
  - destruct (R 0 ltac:(lia)) as (v & Hv). rewrite Z.add_0_r in Hv.
    pose proof (W 0 ltac:(lia)) as Wv. rewrite Z.add_0_r in Wv.
    simpl copy_elements. rewrite (load_peek _ _ _ Hv). cbn [bind]. rewrite store_valid by exact Wv. cbn [bind].
    destruct (IH (upd m (Ptr db d_o) v) sb (so + 1) db (d_o + 1)) as (m' & E & V & F & S & L).
    + exact N.
    + intros k Hk. rewrite peek_upd_other; [|congruence].
      replace (so + 1 + k) with (so + (k + 1)) by lia. apply R. lia.
    + intros k Hk. apply valid_upd. replace (d_o + 1 + k) with (d_o + (k + 1)) by lia. apply W. lia.
    + exists m'. split; [exact E|]. split; [|split; [|split]].
      * intros k Hk. destruct (Z.eq_dec k 0) as [->|Nk].
        -- rewrite !Z.add_0_r. unfold peek. rewrite F; [|intros k' Hk' G; injection G; lia].
           rewrite cell_upd_same by exact Wv. unfold peek in Hv. rewrite Hv. reflexivity.
        -- specialize (V (k - 1) ltac:(lia)). replace (d_o + 1 + (k - 1)) with (d_o + k) in V by lia.
           rewrite V. rewrite peek_upd_other; [|congruence]. do 2 f_equal. lia.
      * intros p Hp. rewrite F.
        -- apply cell_upd_other. specialize (Hp 0 ltac:(lia)). rewrite Z.add_0_r in Hp. congruence.
        -- intros k Hk. specialize (Hp (k + 1) ltac:(lia)). replace (d_o + 1 + k) with (d_o + (k + 1)) by lia. exact Hp.
      * intros p. rewrite S. apply valid_upd.
      * rewrite L. unfold upd. destruct (nth_error m db) as [[cs|]|]; try reflexivity.
        destruct (0 <=? d_o); [apply set_nth_length|reflexivity].
Qed.
