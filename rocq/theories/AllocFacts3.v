(** What a program sees of its tables (C29, C31). *)
From Coq Require Import ZArith List Bool Lia PeanoNat.
From Verif Require Import Outcome Memory Alloc AllocSpec AllocFacts AllocFacts2.
Import ListNotations.
Open Scope Z_scope.

Definition seen (t : htable) : Z * bool :=
  (ht_size t, match hb_ptr (ht_blk t) with None => negb (ht_size t =? 0) | Some _ => false end).

Lemma sees_at s e v : sees s e -> e v = option_map seen (h_tabs s v).
Proof. intros H. rewrite (H v). destruct (h_tabs s v); reflexivity. Qed.

Lemma sees_set s e v t : sees s e -> sees (with_tab s v t) (set e v (option_map seen t)).
Proof.
  intros H w. unfold set, with_tab, bindv. cbn [h_tabs]. destruct (Nat.eqb w v); [destruct t; reflexivity|apply H].
Qed.

Lemma sees_ext s s' e e' : sees s e -> (forall v, h_tabs s' v = h_tabs s v) -> (forall v, e' v = e v) -> sees s' e'.
Proof. intros H Hs He v. rewrite He, Hs. apply H. Qed.

Lemma alloc_sees zero s k n s1 p e : sees s e -> hallocate zero s k n = (s1, p) -> sees s1 e /\
  (n <> 0 -> p <> None).
Proof.
  intros H. unfold hallocate. destruct ((n =? 0) && _) eqn:E; intros [= <- <-].
  - split; [exact H|]. apply andb_true_iff in E. destruct E as [E _]. apply Z.eqb_eq in E. congruence.
  - split; [intros v; apply H|discriminate].
Qed.

Lemma new_sees zero s k n s1 x e : sees s e -> hnew zero s k n = (s1, x) ->
  sees s1 e /\ seen (HT x n) = (n, false).
Proof.
  intros H. unfold hnew. destruct (hallocate zero s k n) as [s2 p] eqn:E. intros [= <- <-].
  destruct (alloc_sees _ _ _ _ _ _ e H E) as [S N]. split; [exact S|]. unfold seen. cbn.
  destruct p; [reflexivity|]. destruct (Z.eqb_spec n 0) as [|X]; [reflexivity|]. exfalso. apply (N X). reflexivity.
Qed.

Lemma copy_sees zero s t s1 t1 e : sees s e -> hcopy zero s t = Ok (s1, t1) ->
  sees s1 e /\ seen t1 = (ht_size t, false) /\ seen t = (ht_size t, false).
Proof.
  intros H. unfold hcopy. destruct (hnew zero s 0 (ht_size t)) as [s2 x] eqn:E.
  destruct (new_sees _ _ _ _ _ _ e H E) as [S N].
  destruct (Z.eqb_spec (ht_size t) 0) as [Z0|Z0].
  - intros [= <- <-]. split; [exact S|]. split; [exact N|]. unfold seen. rewrite Z0.
    destruct (hb_ptr (ht_blk t)); reflexivity.
  - destruct (hb_ptr (ht_blk t)) eqn:P; [|discriminate]. intros [= <- <-]. split; [intros v; apply S|].
    split; [exact N|]. unfold seen. rewrite P. reflexivity.
Qed.

Lemma destroy_sees s x s1 e : sees s e -> hdestroy s x = Ok s1 -> sees s1 e.
Proof.
  intros H. unfold hdestroy, hdelete. destruct (hb_ptr x); [destruct (hb_alloc x); [|discriminate]|];
    intros [= <-]; [intros v; apply H|exact H].
Qed.

Lemma destroy_tabs s x s1 : hdestroy s x = Ok s1 -> h_tabs s1 = h_tabs s.
Proof.
  unfold hdestroy, hdelete. destruct (hb_ptr x); [destruct (hb_alloc x); [|discriminate]|]; intros [= <-]; reflexivity.
Qed.

Lemma var_inv {X} (e : vars X) v x : var e v = Ok x -> e v = Some x.
Proof. unfold var. destruct (e v); [intros [= ->]; reflexivity|discriminate]. Qed.
Lemma fresh_inv {X} (e : vars X) v x : fresh e v = Ok x -> e v = None.
Proof. unfold fresh. destruct (e v); [discriminate|reflexivity]. Qed.

Lemma copy_tabs zero s t s1 t1 : hcopy zero s t = Ok (s1, t1) -> h_tabs s1 = h_tabs s.
Proof.
  unfold hcopy, hnew, hallocate. destruct ((ht_size t =? 0) && _); cbn;
    (destruct (ht_size t =? 0); [intros [= <- <-]; reflexivity|]);
    (destruct (hb_ptr (ht_blk t)); [intros [= <- <-]; reflexivity|discriminate]).
Qed.

Lemma step_sees zero s o s' e : sees s e -> hstep zero s o = Ok s' ->
  exists e', size_step e o = Some e' /\ sees s' e'.
Proof.
  intros H. destruct o as [v|v k n|v w|v w|v w|v w|v w|v]; cbn [hstep size_step].
  - intros E. apply bind_inv in E. destruct E as (u & F & E). apply fresh_inv in F. injection E as <-.
    rewrite (sees_at s e v H), F. cbn [option_map]. eexists. split; [reflexivity|].
    exact (sees_set s e v (Some _) H).
  - intros E. apply bind_inv in E. destruct E as (u & F & E). apply fresh_inv in F.
    destruct (n <? 0); [discriminate|]. destruct (hnew zero s k n) as [s1 x] eqn:N.
    destruct (new_sees _ _ _ _ _ _ e H N) as [S1 N1]. injection E as <-.
    rewrite (sees_at s e v H), F. cbn [option_map]. eexists. split; [reflexivity|].
    rewrite <- N1. exact (sees_set s1 e v (Some _) S1).
  - intros E. apply bind_inv in E. destruct E as (u & F & E). apply fresh_inv in F.
    apply bind_inv in E. destruct E as (t & V & E). apply var_inv in V.
    apply bind_inv in E. destruct E as ([s1 t1] & C & E). injection E as <-.
    destruct (copy_sees _ _ _ _ _ e H C) as (S1 & N1 & N2).
    rewrite (sees_at s e v H), (sees_at s e w H), F, V. cbn [option_map]. rewrite N2.
    eexists. split; [reflexivity|]. rewrite <- N1. exact (sees_set s1 e v (Some _) S1).
  - intros E. apply bind_inv in E. destruct E as (u & F & E). apply fresh_inv in F.
    apply bind_inv in E. destruct E as (t & V & E). apply var_inv in V. injection E as <-.
    rewrite (sees_at s e v H), (sees_at s e w H), F, V. cbn [option_map]. unfold seen at 1.
    eexists. split; [reflexivity|].
    exact (sees_set _ _ v (Some t) (sees_set s e w (Some (HT moved_from (ht_size t))) H)).
  - intros E. apply bind_inv in E. destruct E as (t & V & E). apply var_inv in V.
    apply bind_inv in E. destruct E as ([s1 local] & C & E).
    apply bind_inv in E. destruct E as (old & O & E). apply var_inv in O.
    destruct (copy_sees _ _ _ _ _ e H C) as (S1 & N1 & N2).
    rewrite (sees_at s1 e v S1), (sees_at s e w H), O, V. cbn [option_map]. rewrite N2.
    eexists. split; [reflexivity|]. apply (destroy_sees _ _ _ _ (sees_set s1 e v (Some local) S1)) in E.
    cbn [option_map] in E. rewrite N1 in E. exact E.
  - intros E. apply bind_inv in E. destruct E as (t & V & E). apply var_inv in V. cbv zeta in E.
    apply bind_inv in E. destruct E as (old & O & E). apply var_inv in O.
    apply bind_inv in E. destruct E as (s3 & D & E). apply destroy_tabs in D.
    apply bind_inv in E. destruct E as (t3 & V3 & E). apply var_inv in V3.
    apply bind_inv in E. destruct E as (t4 & V4 & E). apply var_inv in V4. injection E as <-.
    unfold with_tab in *. cbn [h_tabs] in *. rewrite D in V3, V4.
    assert (Ov : exists o', h_tabs s v = Some o').
    { unfold bindv in O. destruct (Nat.eqb_spec v w) as [->|]; eauto. }
    destruct Ov as [o' Ov].
    rewrite (sees_at s e v H), (sees_at s e w H), Ov, V. cbn [option_map]. unfold seen at 1.
    eexists. split; [reflexivity|]. intros x. unfold set. cbn [h_tabs]. rewrite D. unfold bindv in *.
    rewrite Nat.eqb_refl in *.
    destruct (Nat.eqb_spec x v) as [->|Nx].
    + destruct (Nat.eqb_spec v w) as [->|Nv].
      * rewrite ?Nat.eqb_refl in *. inversion V3; subst t3. inversion V4; subst t4. reflexivity.
      * injection V4 as <-. cbn. reflexivity.
    + destruct (Nat.eqb_spec x w) as [->|Nw].
      * destruct (Nat.eqb_spec w v) as [->|Nwv]; [congruence|]. injection V3 as <-. reflexivity.
      * apply H.
  - intros E. apply bind_inv in E. destruct E as (t & V & E). apply var_inv in V.
    apply bind_inv in E. destruct E as (u & W & E). apply var_inv in W. injection E as <-.
    rewrite (sees_at s e v H), (sees_at s e w H), V, W. cbn [option_map]. eexists. split; [reflexivity|].
    exact (sees_set _ _ w (Some t) (sees_set s e v (Some u) H)).
  - intros E. apply bind_inv in E. destruct E as (t & V & E). apply var_inv in V.
    rewrite (sees_at s e v H), V. cbn [option_map]. eexists. split; [reflexivity|].
    exact (destroy_sees _ _ _ _ (sees_set s e v None H) E).
Qed.

Lemma runs_sees zero os : forall s e s', sees s e -> hruns zero s os = Ok s' ->
  exists e', size_runs e os = Some e' /\ sees s' e'.
Proof.
  induction os as [|o os IH]; intros s e s' H E; cbn [hruns size_runs] in *.
  - injection E as <-. eauto.
  - apply bind_inv in E. destruct E as (s1 & E1 & E). destruct (step_sees zero s o s1 e H E1) as (e1 & -> & H1).
    exact (IH s1 e1 s' H1 E).
Qed.

Lemma seen_hollow t : seen t = (ht_size t, false) -> ~ hollow t.
Proof.
  intros E [H1 H2]. unfold seen in E. rewrite H2 in E. injection E as E. apply negb_false_iff, Z.eqb_eq in E.
  exact (H1 E).
Qed.

Lemma size_step_allowed s e o e' : sees s e -> size_step e o = Some e' -> allowed s o.
Proof.
  intros H. destruct o as [v|v k n|v w|v w|v w|v w|v w|v]; cbn [size_step allowed];
    try rewrite (sees_at s e v H); try rewrite (sees_at s e w H).
  - destruct (h_tabs s v); [discriminate|reflexivity].
  - destruct (Z.ltb_spec n 0); [discriminate|]. destruct (h_tabs s v); [discriminate|]. auto.
  - destruct (h_tabs s w) as [t|]; [|discriminate]. cbn [option_map]. destruct (seen t) as [n m] eqn:S. destruct m; [discriminate|].
    destruct (h_tabs s v); [discriminate|]. intros _. split; [reflexivity|]. exists t. split; [reflexivity|].
    apply seen_hollow. rewrite S. unfold seen in S. congruence.
  - destruct (h_tabs s v); [discriminate|]. destruct (h_tabs s w); [|discriminate]. intros _.
    split; [reflexivity|discriminate].
  - destruct (h_tabs s v); [|discriminate]. destruct (h_tabs s w) as [t|]; [|discriminate]. cbn [option_map].
    destruct (seen t) as [n m] eqn:S. destruct m; [discriminate|]. intros _. split; [discriminate|]. exists t.
    split; [reflexivity|]. apply seen_hollow. rewrite S. unfold seen in S. congruence.
  - destruct (h_tabs s v); [|discriminate]. destruct (h_tabs s w); [|discriminate]. intros _. split; discriminate.
  - destruct (h_tabs s v); [|discriminate]. destruct (h_tabs s w); [|discriminate]. intros _. split; discriminate.
  - destruct (h_tabs s v); [|discriminate]. discriminate.
Qed.

Lemma hruns_app zero os1 : forall os2 s, hruns zero s (os1 ++ os2) = s1 <- hruns zero s os1 ;; hruns zero s1 os2.
Proof.
  induction os1 as [|o os1 IH]; intros os2 s; [reflexivity|]. cbn [app hruns]. rewrite bind_assoc.
  destruct (hstep zero s o); cbn [bind]; [apply IH|reflexivity..].
Qed.

Lemma sizes_defined zero os : forall pre s e e', hruns zero hinit pre = Ok s -> sees s e ->
  size_runs e os = Some e' -> exists s', hruns zero s os = Ok s' /\ sees s' e'.
Proof.
  induction os as [|o os IH]; intros pre s e e' P H E; cbn [hruns size_runs] in *.
  - injection E as <-. eauto.
  - destruct (size_step e o) as [e1|] eqn:S; [|discriminate].
    destruct (histories_progress_l zero pre s o P (size_step_allowed s e o e1 H S)) as [s1 E1]. rewrite E1. cbn [bind].
    destruct (step_sees zero s o s1 e H E1) as (e2 & S2 & H1). rewrite S in S2. injection S2 as <-.
    apply (IH (pre ++ [o]) s1 e1 e'); [|exact H1|exact E].
    rewrite hruns_app, P. cbn [bind hruns]. rewrite E1. reflexivity.
Qed.

Lemma histories_as_sizes_l zero os :
  match size_runs (fun _ => None) os with
  | Some e => exists s, hruns zero hinit os = Ok s /\ sees s e
  | None => forall s, hruns zero hinit os <> Ok s
  end.
Proof.
  assert (H0 : sees hinit (fun _ => None)) by (intros v; reflexivity).
  destruct (size_runs (fun _ => None) os) as [e|] eqn:E.
  - exact (sizes_defined zero os [] hinit _ e eq_refl H0 E).
  - intros s Hs. destruct (runs_sees zero os hinit _ s H0 Hs) as (e' & E' & _). congruence.
Qed.
