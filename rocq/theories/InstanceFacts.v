(** Proofs about stateful allocators in tables. *)
From Coq Require Import ZArith List Bool Permutation Lia.
From Verif Require Import Outcome Alloc Instance InstanceSpec.
Import ListNotations.
Open Scope Z_scope.

Section Proofs.
Context {A W : Type} (ac : behaviour A W) (h0 : A).
Notation istate := (istate A W). Notation itable := (itable A). Notation iop := (iop A W).
Notation istep := (istep ac h0). Notation iruns := (iruns ac h0).

Lemma var_ok {X} (e : vars X) v x : var e v = Ok x -> e v = Some x.
Proof. unfold var. destruct (e v); congruence. Qed.
Lemma fresh_ok {X} (e : vars X) v u : fresh e v = Ok u -> e v = None.
Proof. unfold fresh. destruct (e v); congruence. Qed.
Lemma bind_inv {X Y} (x : outcome X) (f : X -> outcome Y) y : bind x f = Ok y -> exists a, x = Ok a /\ f a = Ok y.
Proof. destruct x; try discriminate. eauto. Qed.

(** ** What a table holds *)
Definition key (t : itable) : list (option nat * option (inst A)) :=
  match it_ptr t, it_alloc t with None, None => [] | p, a => [(p, a)] end.
Definition okey (t : option itable) := match t with Some t => key t | None => [] end.
Definition held (L : list nat) (e : vars itable) := flat_map (fun v => okey (e v)) L.

Lemma held_ext L e e' : (forall v, e v = e' v) -> held L e = held L e'.
Proof. intros H. unfold held. apply flat_map_ext. intros v. rewrite H. reflexivity. Qed.

Lemma held_other L e v x : ~ In v L -> held L (bindv e v x) = held L e.
Proof.
  intros H. induction L as [|w L IH]; [reflexivity|]. cbn [held flat_map]. unfold held in IH.
  rewrite IH by (intros K; apply H; right; exact K). unfold bindv.
  destruct (Nat.eqb_spec w v) as [->|]; [exfalso; apply H; left; reflexivity|reflexivity].
Qed.

(** Replacing one table. *)
Lemma held_split L v : NoDup L -> In v L -> forall e, exists rest,
  Permutation (held L e) (okey (e v) ++ rest) /\ forall x, Permutation (held L (bindv e v x)) (okey x ++ rest).
Proof.
  intros N I e. apply in_split in I. destruct I as [l1 [l2 ->]].
  apply NoDup_remove_2 in N.
  exists (held l1 e ++ held l2 e).
  assert (G : forall e, held (l1 ++ v :: l2) e = held l1 e ++ okey (e v) ++ held l2 e).
  { intros f. unfold held. rewrite flat_map_app. reflexivity. }
  split; [rewrite G; rewrite !app_assoc; apply Permutation_app_tail, Permutation_app_comm|].
  intros x. rewrite G. rewrite !held_other by (intros K; apply N; apply in_or_app; tauto).
  unfold bindv at 1. rewrite Nat.eqb_refl. rewrite !app_assoc. apply Permutation_app_tail, Permutation_app_comm.
Qed.

(** [changes L e e' out in]: the tables in e' are those in e without [out] and with [in_]. *)
Definition changes (L : list nat) (e e' : vars itable) out in_ :=
  Permutation (held L e' ++ out) (held L e ++ in_).

Lemma changes_set L e v x : NoDup L -> In v L -> changes L e (bindv e v x) (okey (e v)) (okey x).
Proof.
  intros N I. destruct (held_split L v N I e) as [rest [P Q]]. unfold changes. rewrite (Q x), P.
  rewrite <- !app_assoc. rewrite (Permutation_app_comm rest (okey (e v))).
  rewrite (Permutation_app_comm rest (okey x)). rewrite !app_assoc.
  apply Permutation_app_tail, Permutation_app_comm.
Qed.

Lemma changes_trans L e1 e2 e3 o1 i1 o2 i2 :
  changes L e1 e2 o1 i1 -> changes L e2 e3 o2 i2 -> changes L e1 e3 (o1 ++ o2) (i1 ++ i2).
Proof.
  unfold changes. intros P Q.
  rewrite (Permutation_app_comm o1 o2), app_assoc, Q, <- app_assoc, (Permutation_app_comm i2 o1), app_assoc, P.
  rewrite <- app_assoc. reflexivity.
Qed.

Lemma changes_ext L e e' e'' o i : changes L e e' o i -> (forall v, e'' v = e' v) -> changes L e e'' o i.
Proof. unfold changes. intros H E. rewrite (held_ext L e'' e' E). exact H. Qed.

Lemma changes_same L e o o' i i' :
  forall e', changes L e e' o i -> Permutation (o ++ i') (o' ++ i) -> changes L e e' o' i'.
Proof.
  unfold changes. intros e' H P. apply (Permutation_app_inv_l o).
  rewrite (Permutation_app_comm o (held L e' ++ o')), <- app_assoc, (Permutation_app_comm o' o), app_assoc, H.
  rewrite <- app_assoc. rewrite (Permutation_app_comm i o'), <- P.
  rewrite !app_assoc. apply Permutation_app_tail, Permutation_app_comm.
Qed.

(** ** One operation *)

(** The block and the objects of what a table holds. *)
Definition blk (k : option nat * option (inst A)) : list (A * nat) :=
  match k with (Some p, Some i) => [(i_state i, p)] | _ => [] end.
Definition obj (k : option nat * option (inst A)) : list nat :=
  match k with (_, Some i) => [i_id i] | _ => [] end.

(** The effect of an operation on the objects: what was made, what ended, the events and the new
    identities. *)
Record effect (L : list nat) (s s' : istate) (made ended : list (option nat * option (inst A)))
  (evs : list (ievent A W)) : Prop := Effect {
  ef_tabs : changes L (i_tabs s) (i_tabs s') ended made;
  ef_trace : i_trace s' = i_trace s ++ evs;
  ef_alloc : allocations ac evs = flat_map blk made;
  ef_free : releases evs = flat_map blk ended;
  ef_ids : exists n, i_next s' = (i_next s + n)%nat /\
    Permutation (ends evs ++ flat_map obj made) (flat_map obj ended ++ seq (i_next s) n);
  ef_new : forall id, allocating id evs -> (i_next s <= id)%nat /\ In (EGone id) evs;
  ef_old : forall id, deallocating id evs -> In id (flat_map obj ended);
  ef_was : incl ended (held L (i_tabs s));
  ef_world : through ac (i_world s) evs (i_world s')
}.

Lemma held_in L e v t : In v L -> e v = Some t -> incl (key t) (held L e).
Proof. intros I E k K. unfold held. apply in_flat_map. exists v. split; [exact I|]. rewrite E. exact K. Qed.

Lemma make_block_eq s a n s1 r i :
  make_block ac s a n = (s1, (r, i)) ->
  s1 = IS (fst (b_allocate ac (i_world s) a n)) (i_user s) (i_tabs s) (S (S (i_next s)))
         (i_trace s ++ [EAllocate (i_next s) (i_world s) a n; EGone (i_next s)]) /\
  i = In_ (S (i_next s)) (fst (snd (b_allocate ac (i_world s) a n))) /\ r = snd (snd (b_allocate ac (i_world s) a n)).
Proof.
  unfold make_block. destruct (b_allocate ac (i_world s) a n) as [w1 [a1 r1]]. intros H. injection H as <- <- <-. auto.
Qed.

Lemma key_made p i n : key (IT p (Some i) n) = [(p, Some i)].
Proof. unfold key. cbn [it_ptr it_alloc]. destruct p; reflexivity. Qed.

Lemma blk_made (s : istate) a n (i : nat) :
  blk (snd (snd (b_allocate ac (i_world s) a n)), Some (In_ i (fst (snd (b_allocate ac (i_world s) a n))))) =
  match b_allocate ac (i_world s) a n with (_, (a1, Some p)) => [(a1, p)] | _ => [] end.
Proof. destruct (b_allocate ac (i_world s) a n) as [w1 [a1 [p|]]]; reflexivity. Qed.

(** Destroying: the events and no change of the variables. *)
Lemma destroy_ok s t s' :
  destroy ac s t = Ok s' ->
  exists evs, through ac (i_world s) evs (i_world s') /\ i_user s' = i_user s /\ i_tabs s' = i_tabs s /\ i_next s' = i_next s /\ i_trace s' = i_trace s ++ evs /\
    allocations ac evs = [] /\ releases evs = flat_map blk (key t) /\ ends evs = flat_map obj (key t) /\
    requests evs = [] /\ (forall id, ~ allocating id evs) /\
    (forall id, deallocating id evs -> In id (flat_map obj (key t))).
Proof.
  destruct t as [p a n]. unfold destroy, release, end_inst, key. cbn [it_ptr it_alloc].
  intros H. destruct p as [q|]; destruct a as [i|]; cbn [bind] in H; try discriminate H; injection H as <-.
  - exists [EDeallocate (i_id i) (i_world s) (i_state i) q; EGone (i_id i)]. unfold log. cbn.
    rewrite <- app_assoc. split; [auto|]. repeat (split; [reflexivity|]). split.
    + intros id [x [y [z [K|[K|[]]]]]]; discriminate.
    + intros id [x [y [z [K|[K|[]]]]]]; [injection K as <- _ _ _; left; reflexivity|discriminate].
  - exists [EGone (i_id i)]. unfold log. cbn. repeat (split; [reflexivity|]). split.
    + intros id [x [y [z [K|[]]]]]; discriminate.
    + intros id [x [y [z [K|[]]]]]; discriminate.
  - exists []. rewrite app_nil_r. repeat (split; [reflexivity|]). split.
    + intros id [x [y [z []]]].
    + intros id [x [y [z []]]].
Qed.

Lemma copy_table_ok s t s1 c :
  copy_table ac h0 s t = Ok (s1, c) ->
  exists evs, i_world s1 = fst (b_allocate ac (i_world s) h0 (it_size t)) /\
    i_user s1 = i_user s /\ i_tabs s1 = i_tabs s /\ i_next s1 = S (S (i_next s)) /\
    i_trace s1 = i_trace s ++ EAllocate (i_next s) (i_world s) h0 (it_size t) ::
      EGone (i_next s) :: evs /\ (evs = [] \/ exists p, evs = [ERead p (it_size t)]) /\
    c = IT (snd (snd (b_allocate ac (i_world s) h0 (it_size t)))) (Some (In_ (S (i_next s)) (fst (snd (b_allocate ac (i_world s) h0 (it_size t)))))) (it_size t).
Proof.
  unfold copy_table. destruct (make_block ac s h0 (it_size t)) as [s2 [r i]] eqn:M.
  apply make_block_eq in M. destruct M as [-> [-> ->]]. intros H.
  destruct (it_size t =? 0).
  - injection H as <- <-. exists []. cbn. auto 10.
  - destruct (it_ptr t) as [p|]; [|discriminate]. injection H as <- <-. exists [ERead p (it_size t)].
    unfold log. cbn. rewrite <- app_assoc. cbn. repeat (split; [reflexivity|]). split; [right; eauto|reflexivity].
Qed.

Definition vars_of (o : iop) : list nat :=
  match o with
  | NUser _ _ | NWorld _ => []
  | NDefault v | NNew v _ _ | NDestroy v => [v]
  | NCopy v w | NMove v w | NCopyAssign v w | NMoveAssign v w | NSwap v w => [v; w]
  end.

Lemma bindv_same {X} (e : vars X) v x : bindv e v x v = x.
Proof. unfold bindv. rewrite Nat.eqb_refl. reflexivity. Qed.
Lemma bindv_other {X} (e : vars X) v x w : w <> v -> bindv e v x w = e w.
Proof. intros H. unfold bindv. destruct (Nat.eqb_spec w v); congruence. Qed.

Lemma effect_nothing L s s' : i_world s' = i_world s ->
  (forall v, i_tabs s' v = i_tabs s v) -> i_trace s' = i_trace s -> i_next s' = i_next s ->
  effect L s s' [] [] [].
Proof.
  intros Ww T R N. constructor; try reflexivity.
  - unfold changes. rewrite !app_nil_r. rewrite (held_ext L _ _ T). reflexivity.
  - rewrite app_nil_r. exact R.
  - exists O. split; [lia|reflexivity].
  - intros id [a [n [r []]]].
  - intros id [a [n [p []]]].
  - intros k [].
  - symmetry. exact Ww.
Qed.

(** A new block, with more events which are no calls. *)
Lemma new_ids (s : istate) (a : A) n evs :
  (evs = [] \/ exists p m, evs = [ERead p m]) ->
  let r := snd (snd (b_allocate ac (i_world s) a n)) in let i := In_ (S (i_next s)) (fst (snd (b_allocate ac (i_world s) a n))) in
  let l := EAllocate (i_next s) (i_world s) a n :: EGone (i_next s) :: evs in
  through ac (i_world s) l (fst (b_allocate ac (i_world s) a n)) /\ allocations ac l = flat_map blk [(r, Some i)] /\ releases l = [] /\
  ends l ++ flat_map obj [(r, Some i)] = seq (i_next s) 2 /\ requests l = [(a, n)] /\
  (forall id, allocating id l -> (i_next s <= id)%nat /\ In (EGone id) l) /\
  (forall id, ~ deallocating id l).
Proof.
  intros E. cbv zeta. split; [|split; [|split; [|split; [|split; [|split]]]]].
  - destruct E as [->|[p [m ->]]]; cbn; auto.
  - cbn [flat_map]. rewrite blk_made, app_nil_r. unfold allocations. cbn [flat_map].
    destruct E as [->|[p [m ->]]]; cbn [flat_map]; rewrite !app_nil_r; reflexivity.
  - destruct E as [->|[p [m ->]]]; reflexivity.
  - destruct E as [->|[p [m ->]]]; cbn; destruct (snd (snd (b_allocate ac (i_world s) a n))); reflexivity.
  - destruct E as [->|[p [m ->]]]; reflexivity.
  - intros id [x [y [z [K|[K|K]]]]].
    + injection K as <- _ _ _. split; [lia|right; left; reflexivity].
    + discriminate.
    + destruct E as [->|[p [m ->]]]; [destruct K|destruct K as [K|[]]; discriminate].
  - intros id [x [y [z [K|[K|K]]]]]; try discriminate.
    destruct E as [->|[p [m ->]]]; [destruct K|destruct K as [K|[]]; discriminate].
Qed.

Ltac inL := match goal with H : incl _ ?L |- In _ ?L => apply H; cbn [vars_of In]; tauto end.

Lemma through_app (t1 t2 : list (ievent A W)) : forall w w1 w2,
  through ac w t1 w1 -> through ac w1 t2 w2 -> through ac w (t1 ++ t2) w2.
Proof.
  induction t1 as [|e t1 IH]; intros w w1 w2 H1 H2; cbn [app]; [cbn in H1; subst; exact H2|].
  destruct e; cbn [through] in H1 |- *; try (destruct H1 as [E H1]; split; [exact E|]); eapply IH; eassumption.
Qed.

Lemma step_effect L s o s' :
  NoDup L -> incl (vars_of o) L -> istep s o = Ok s' -> exists made ended evs, effect L s s' made ended evs.
Proof.
  intros N I H. destruct o as [u a|wd|v|v u n|v w|v w|v w|v w|v w|v]; cbn [Instance.istep] in H.
  - injection H as <-. exists [], [], []. apply effect_nothing; reflexivity.
  - injection H as <-. exists [], [], [EWorld wd]. unfold log. constructor; cbn [i_world i_tabs i_trace i_next]; try reflexivity.
    + unfold changes. rewrite !app_nil_r. reflexivity.
    + exists O. split; [lia|reflexivity].
    + intros id [a [n [r [K|[]]]]]; discriminate.
    + intros id [a [n [p [K|[]]]]]; discriminate.
    + intros k [].
  - apply bind_inv in H. destruct H as [x [F H]]. apply fresh_ok in F. injection H as <-.
    exists [(None, Some (In_ (i_next s) h0))], [], []. constructor; cbn [i_tabs i_trace i_next].
    + assert (V : In v L) by inL. pose proof (changes_set L (i_tabs s) v (Some (IT None (Some (In_ (i_next s) h0)) 0)) N V) as C.
      rewrite F in C. exact C.
    + rewrite app_nil_r. reflexivity.
    + reflexivity.
    + reflexivity.
    + exists 1%nat. split; [lia|]. reflexivity.
    + intros id [a [n [r []]]].
    + intros id [a [n [p []]]].
    + intros k [].
    + reflexivity.
  - apply bind_inv in H. destruct H as [x [F H]]. apply fresh_ok in F.
    apply bind_inv in H. destruct H as [a [U H]]. apply var_ok in U.
    destruct (n <? 0); [discriminate|].
    destruct (make_block ac s a n) as [s1 [r i]] eqn:M. apply make_block_eq in M. destruct M as [-> [-> ->]].
    injection H as <-.
    pose proof (new_ids s a n [] (or_introl eq_refl)) as K. cbv zeta in K. destruct K as [K0 [K1 [K2 [K3 [_ [K4 K5]]]]]].
    eexists [(_, Some _)], [], _. constructor; cbn [set_tab i_tabs i_trace i_next].
    + assert (V : In v L) by inL. pose proof (changes_set L (i_tabs s) v (Some (IT (snd (snd (b_allocate ac (i_world s) a n)))
        (Some (In_ (S (i_next s)) (fst (snd (b_allocate ac (i_world s) a n))))) n)) N V) as C.
      rewrite F in C. cbn [okey] in C. rewrite key_made in C. exact C.
    + reflexivity.
    + exact K1.
    + exact K2.
    + exists 2%nat. split; [lia|]. cbn [flat_map app]. rewrite <- K3. reflexivity.
    + exact K4.
    + intros id D. destruct (K5 id D).
    + intros k [].
    + exact K0.
  - apply bind_inv in H. destruct H as [x [F H]]. apply fresh_ok in F.
    apply bind_inv in H. destruct H as [t [Wt H]]. apply var_ok in Wt.
    apply bind_inv in H. destruct H as [[s1 c] [C H]]. apply copy_table_ok in C.
    destruct C as [evs [C0 [_ [C2 [C3 [C4 [C5 ->]]]]]]]. injection H as <-.
    assert (E : evs = [] \/ exists p m, evs = [ERead p m]) by (destruct C5 as [->|[p ->]]; eauto).
    pose proof (new_ids s h0 (it_size t) evs E) as K. cbv zeta in K. destruct K as [K0 [K1 [K2 [K3 [_ [K4 K5]]]]]].
    eexists [(_, Some _)], [], _. constructor; cbn [set_tab i_tabs i_trace i_next].
    + assert (V : In v L) by inL. rewrite C2. pose proof (changes_set L (i_tabs s) v (Some (IT (snd (snd (b_allocate ac (i_world s) h0 (it_size t))))
        (Some (In_ (S (i_next s)) (fst (snd (b_allocate ac (i_world s) h0 (it_size t)))))) (it_size t))) N V) as C.
      rewrite F in C. cbn [okey] in C. rewrite key_made in C. exact C.
    + exact C4.
    + exact K1.
    + exact K2.
    + exists 2%nat. split; [lia|]. cbn [flat_map app]. rewrite <- K3. reflexivity.
    + exact K4.
    + intros id D. destruct (K5 id D).
    + intros k [].
    + cbn [set_tab i_world]; rewrite C0; exact K0.
  - apply bind_inv in H. destruct H as [x [F H]]. apply fresh_ok in F.
    apply bind_inv in H. destruct H as [t [Wt H]]. apply var_ok in Wt. injection H as <-.
    assert (D : v <> w) by congruence.
    exists [], [], []. constructor; cbn [set_tab i_tabs i_trace i_next]; try reflexivity.
    + assert (V : In v L) by inL. assert (V' : In w L) by inL.
      pose proof (changes_trans _ _ _ _ _ _ _ _ (changes_set L (i_tabs s) w (Some (IT None None (it_size t))) N V')
                    (changes_set L _ v (Some t) N V)) as C.
      eapply changes_same; [exact C|]. rewrite bindv_other by exact D. rewrite Wt, F. cbn [okey].
      rewrite !app_nil_r. reflexivity.
    + rewrite app_nil_r. reflexivity.
    + exists O. split; [lia|reflexivity].
    + intros id [a [n [r []]]].
    + intros id [a [n [p []]]].
    + intros k [].
  - apply bind_inv in H. destruct H as [t [Wt H]]. apply var_ok in Wt.
    apply bind_inv in H. destruct H as [[s1 c] [C H]]. apply copy_table_ok in C.
    destruct C as [evs [C0 [_ [C2 [C3 [C4 [C5 ->]]]]]]].
    assert (E : evs = [] \/ exists p m, evs = [ERead p m]) by (destruct C5 as [->|[p ->]]; eauto).
    pose proof (new_ids s h0 (it_size t) evs E) as K. cbv zeta in K. destruct K as [K0 [K1 [K2 [K3 [_ [K4 K5]]]]]].
    apply bind_inv in H. destruct H as [old [V0 H]]. apply var_ok in V0. rewrite C2 in V0.
    apply destroy_ok in H. destruct H as [ev2 [D0 [_ [D1 [D2 [D3 [D4 [D5 [D6 [_ [D7 D8]]]]]]]]]]].
    cbn [set_tab i_world i_tabs i_trace i_next] in D0, D1, D2, D3.
    eexists [(_, Some _)], (key old), (_ ++ ev2). constructor.
    + assert (V : In v L) by inL. rewrite D1, C2. pose proof (changes_set L (i_tabs s) v (Some (IT (snd (snd (b_allocate ac (i_world s) h0 (it_size t))))
        (Some (In_ (S (i_next s)) (fst (snd (b_allocate ac (i_world s) h0 (it_size t)))))) (it_size t))) N V) as C.
      rewrite V0 in C. cbn [okey] in C. rewrite key_made in C. exact C.
    + rewrite D3, C4, <- app_assoc. reflexivity.
    + unfold allocations in *. rewrite flat_map_app, D4, app_nil_r. exact K1.
    + unfold releases in *. rewrite flat_map_app, D5. rewrite K2. reflexivity.
    + exists 2%nat. split; [rewrite D2, C3; lia|]. unfold ends in *. rewrite flat_map_app, D6.
      rewrite <- K3. rewrite <- app_assoc. rewrite Permutation_app_comm, <- app_assoc.
      apply Permutation_app_head. apply Permutation_app_comm.
    + intros id [a [n [r Q]]]. apply in_app_or in Q. destruct Q as [Q|Q].
      * destruct (K4 id) as [Q1 Q2]; [exists a, n, r; exact Q|]. split; [exact Q1|]. apply in_or_app. left. exact Q2.
      * destruct (D7 id). exists a, n, r. exact Q.
    + intros id [a [n [p Q]]]. apply in_app_or in Q. destruct Q as [Q|Q].
      * destruct (K5 id). exists a, n, p. exact Q.
      * apply D8. exists a, n, p. exact Q.
    + apply (held_in L (i_tabs s) v); [inL|exact V0].
    + eapply through_app; [exact K0|]. rewrite <- C0. exact D0.
  - apply bind_inv in H. destruct H as [t [Wt H]]. apply var_ok in Wt. cbv zeta in H.
    apply bind_inv in H. destruct H as [old [V0 H]]. apply var_ok in V0. cbn [set_tab i_tabs] in V0.
    apply bind_inv in H. destruct H as [s3 [R H]].
    apply bind_inv in H. destruct H as [t3 [T3 H]]. apply var_ok in T3.
    apply bind_inv in H. destruct H as [t4 [T4 H]]. apply var_ok in T4. cbn [set_tab i_tabs] in T4.
    injection H as <-.
    assert (V : In v L) by inL. assert (V' : In w L) by inL.
    destruct (Nat.eq_dec v w) as [<-|D].
    + (* self move *)
      rewrite bindv_same in V0. injection V0 as <-. cbn [it_ptr it_alloc release] in R. injection R as <-.
      cbn [set_tab i_tabs] in T3, T4 |- *. rewrite bindv_same in T3. injection T3 as <-.
      rewrite bindv_same in T4. injection T4 as <-. cbn [it_ptr it_alloc it_size end_inst].
      exists [], [], []. apply effect_nothing; try reflexivity. intros z. cbn [set_tab i_tabs].
      unfold bindv. destruct (Nat.eqb_spec z v) as [->|]; [|reflexivity]. rewrite Wt. destruct t; reflexivity.
    + rewrite bindv_other in V0 by exact D.
      assert (X : exists ev, through ac (i_world s) ev (i_world s3) /\ i_user s3 = i_user s /\ i_next s3 = i_next s /\ i_trace s3 = i_trace s ++ ev /\
        i_tabs s3 = bindv (bindv (i_tabs s) w (Some (IT None (it_alloc t) (it_size t)))) v
                      (Some (IT (it_ptr t) (it_alloc old) (it_size old))) /\
        allocations ac ev = [] /\ releases ev = flat_map blk (key old) /\ ends ev = [] /\
        (forall id, ~ allocating id ev) /\ (forall id, deallocating id ev -> In id (flat_map obj (key old)))).
      { unfold release in R. destruct old as [[q|] [i|] m]; cbn [it_ptr it_alloc] in R; try discriminate R; injection R as <-.
        - exists [EDeallocate (i_id i) (i_world s) (i_state i) q]. cbn. split; [auto|]. repeat (split; [reflexivity|]). split.
          + intros id [x [y [z [K|[]]]]]; discriminate.
          + intros id [x [y [z [K|[]]]]]. injection K as <- _ _ _. left. reflexivity.
        - exists []. cbn. rewrite app_nil_r. repeat (split; [reflexivity|]). split.
          + intros id [x [y [z []]]].
          + intros id [x [y [z []]]].
        - exists []. cbn. rewrite app_nil_r. repeat (split; [reflexivity|]). split.
          + intros id [x [y [z []]]].
          + intros id [x [y [z []]]]. }
      destruct X as [ev [X0 [_ [X2 [X3 [X4 [X5 [X6 [X7 [X8 X9]]]]]]]]]].
      rewrite X4 in T3, T4. rewrite bindv_other in T3 by congruence. rewrite bindv_same in T3. injection T3 as <-.
      rewrite bindv_other in T4 by congruence. rewrite bindv_same in T4. injection T4 as <-.
      cbn [it_ptr it_alloc it_size].
      exists [], (key old), (ev ++ match it_alloc old with Some i => [EGone (i_id i)] | None => [] end).
      assert (Ob : flat_map obj (key old) = match it_alloc old with Some i => [i_id i] | None => [] end).
      { destruct old as [[q|] [i|] m]; reflexivity. }
      assert (C : changes L (i_tabs s) (bindv (bindv (i_tabs s3) w (Some (IT None None (it_size t)))) v
                     (Some (IT (it_ptr t) (it_alloc t) (it_size t)))) (key old) []).
      { eapply changes_ext with (e' := bindv (bindv (i_tabs s) w (Some (IT None None (it_size t)))) v
                     (Some (IT (it_ptr t) (it_alloc t) (it_size t)))).
        - pose proof (changes_trans _ _ _ _ _ _ _ _ (changes_set L (i_tabs s) w (Some (IT None None (it_size t))) N V')
                    (changes_set L _ v (Some (IT (it_ptr t) (it_alloc t) (it_size t))) N V)) as C.
          eapply changes_same; [exact C|]. rewrite bindv_other by exact D. rewrite Wt, V0. cbn [okey].
          destruct t as [tp ta tn]. cbn [it_ptr it_alloc it_size]. rewrite app_nil_r. cbn [app].
          replace (key (IT None None tn)) with (@nil (option nat * option (inst A))) by reflexivity.
          cbn [app]. apply Permutation_app_comm.
        - intros z. rewrite X4. unfold bindv. destruct (Nat.eqb z v); [reflexivity|]. destruct (Nat.eqb z w); reflexivity. }
      assert (G : forall (z : istate), i_tabs (end_inst z (it_alloc old)) = i_tabs z /\
         i_next (end_inst z (it_alloc old)) = i_next z /\
         i_trace (end_inst z (it_alloc old)) = i_trace z ++ match it_alloc old with Some i => [EGone (i_id i)] | None => [] end).
      { intros z. unfold end_inst. destruct (it_alloc old); cbn; rewrite ?app_nil_r; auto. }
      destruct (G (set_tab (set_tab s3 w (Some (IT None None (it_size t)))) v
                     (Some (IT (it_ptr t) (it_alloc t) (it_size t))))) as [G1 [G2 G3]].
      constructor.
      * rewrite G1. exact C.
      * rewrite G3. cbn [set_tab i_trace]. rewrite X3, app_assoc. reflexivity.
      * unfold allocations in *. rewrite flat_map_app, X5. destruct (it_alloc old); reflexivity.
      * unfold releases in *. rewrite flat_map_app, X6. destruct (it_alloc old); cbn; rewrite app_nil_r; reflexivity.
      * exists O. split; [rewrite G2; cbn [set_tab i_next]; lia|]. cbn [seq flat_map]. rewrite !app_nil_r, Ob.
        unfold ends in *. rewrite flat_map_app, X7. destruct (it_alloc old); reflexivity.
      * intros id [a [n [r Q]]]. exfalso. apply in_app_or in Q. destruct Q as [Q|Q].
        -- destruct (X8 id). exists a, n, r. exact Q.
        -- destruct (it_alloc old); [destruct Q as [Q|[]]; discriminate|destruct Q].
      * intros id [a [n [p Q]]]. apply in_app_or in Q. destruct Q as [Q|Q].
        -- apply X9. exists a, n, p. exact Q.
        -- destruct (it_alloc old); [destruct Q as [Q|[]]; discriminate|destruct Q].
      * apply (held_in L (i_tabs s) v); [exact V|exact V0].
      * eapply through_app; [exact X0|]. unfold end_inst. destruct (it_alloc old); reflexivity.
  - apply bind_inv in H. destruct H as [t [V0 H]]. apply var_ok in V0.
    apply bind_inv in H. destruct H as [u [Wt H]]. apply var_ok in Wt. injection H as <-.
    assert (V : In v L) by inL. assert (V' : In w L) by inL.
    exists [], [], []. constructor; cbn [set_tab i_tabs i_trace i_next]; try reflexivity.
    + pose proof (changes_trans _ _ _ _ _ _ _ _ (changes_set L (i_tabs s) v (Some u) N V)
                    (changes_set L _ w (Some t) N V')) as C.
      eapply changes_same; [exact C|]. rewrite app_nil_r. cbn [app].
      destruct (Nat.eq_dec w v) as [->|D].
      * rewrite bindv_same. rewrite V0 in Wt. injection Wt as <-. rewrite V0. reflexivity.
      * rewrite bindv_other by exact D. rewrite Wt, V0. cbn [okey]. apply Permutation_app_comm.
    + rewrite app_nil_r. reflexivity.
    + exists O. split; [lia|reflexivity].
    + intros id [a [n [r []]]].
    + intros id [a [n [p []]]].
    + intros k [].
  - apply bind_inv in H. destruct H as [t [V0 H]]. apply var_ok in V0.
    apply destroy_ok in H. destruct H as [ev [D0 [_ [D1 [D2 [D3 [D4 [D5 [D6 [_ [D7 D8]]]]]]]]]]].
    cbn [set_tab i_world i_tabs i_trace i_next] in D0, D1, D2, D3.
    exists [], (key t), ev. constructor.
    + assert (V : In v L) by inL. rewrite D1. pose proof (changes_set L (i_tabs s) v None N V) as C. rewrite V0 in C. exact C.
    + exact D3.
    + exact D4.
    + exact D5.
    + exists O. split; [lia|]. cbn [seq flat_map]. rewrite !app_nil_r. rewrite D6. reflexivity.
    + intros id Q. destruct (D7 id Q).
    + exact D8.
    + apply (held_in L (i_tabs s) v); [inL|exact V0].
    + exact D0.
Qed.

(** ** Whole histories *)

(** The invariant: what was allocated is released or held, every identity is gone or held, and objects
    which allocate are gone and release nothing. *)
Record inv (L : list nat) (s : istate) : Prop := Inv {
  iv_dom : forall v t, i_tabs s v = Some t -> In v L;
  iv_blocks : Permutation (allocations ac (i_trace s)) (releases (i_trace s) ++ flat_map blk (held L (i_tabs s)));
  iv_objects : Permutation (ends (i_trace s) ++ flat_map obj (held L (i_tabs s))) (seq 0 (i_next s));
  iv_alloc : forall id, allocating id (i_trace s) ->
     In (EGone id) (i_trace s) /\ ~ deallocating id (i_trace s);
  iv_free : forall id, deallocating id (i_trace s) -> (id < i_next s)%nat
}.

Lemma perm_flat {X Y} (f : X -> list Y) a b : Permutation a b -> Permutation (flat_map f a) (flat_map f b).
Proof. apply Permutation_flat_map. Qed.

Lemma ends_app (a b : list (ievent A W)) : ends (a ++ b) = ends a ++ ends b.
Proof. apply flat_map_app. Qed.
Lemma releases_app (a b : list (ievent A W)) : releases (a ++ b) = releases a ++ releases b.
Proof. apply flat_map_app. Qed.
Lemma allocations_app (a b : list (ievent A W)) : allocations ac (a ++ b) = allocations ac a ++ allocations ac b.
Proof. apply flat_map_app. Qed.

Lemma gone_ends id (tr : list (ievent A W)) : In (EGone id) tr -> In id (ends tr).
Proof. intros H. unfold ends. apply in_flat_map. exists (EGone id). split; [exact H|left; reflexivity]. Qed.

Lemma gone_not_held L (s : istate) id :
  Permutation (ends (i_trace s) ++ flat_map obj (held L (i_tabs s))) (seq 0 (i_next s)) ->
  In (EGone id) (i_trace s) -> ~ In id (flat_map obj (held L (i_tabs s))).
Proof.
  intros P G K.
  assert (ND : NoDup (ends (i_trace s) ++ flat_map obj (held L (i_tabs s)))).
  { eapply Permutation_NoDup; [apply Permutation_sym; exact P|apply seq_NoDup]. }
  apply gone_ends in G. apply in_split in G. destruct G as [q1 [q2 Q]]. rewrite Q in ND. rewrite <- app_assoc in ND.
  cbn [app] in ND. apply NoDup_remove_2 in ND. apply ND. apply in_or_app. right. apply in_or_app. right. exact K.
Qed.

Lemma held_old L (s : istate) id :
  inv L s -> In id (flat_map obj (held L (i_tabs s))) -> (id < i_next s)%nat.
Proof.
  intros I K. assert (Q : In id (seq 0 (i_next s))).
  { eapply Permutation_in; [exact (iv_objects _ _ I)|]. apply in_or_app. right. exact K. }
  apply in_seq in Q. lia.
Qed.

Lemma incl_obj a b : incl a b -> incl (flat_map obj a) (flat_map obj b).
Proof. intros H id K. apply in_flat_map in K. destruct K as [k [K1 K2]]. apply in_flat_map. exists k. auto. Qed.

Lemma inv_step L s s' made ended evs :
  inv L s -> (forall v t, i_tabs s' v = Some t -> In v L) -> effect L s s' made ended evs -> inv L s'.
Proof.
  intros I D E.
  pose proof (perm_flat blk _ _ (ef_tabs _ _ _ _ _ _ E)) as PB. rewrite !flat_map_app in PB.
  pose proof (perm_flat obj _ _ (ef_tabs _ _ _ _ _ _ E)) as PO. rewrite !flat_map_app in PO.
  destruct (ef_ids _ _ _ _ _ _ E) as [n [En Pn]].
  assert (OB : Permutation (ends (i_trace s') ++ flat_map obj (held L (i_tabs s'))) (seq 0 (i_next s'))).
  { rewrite (ef_trace _ _ _ _ _ _ E), En, seq_app, ends_app. cbn [Nat.add].
    rewrite <- (iv_objects _ _ I). apply (Permutation_app_inv_l (flat_map obj ended)).
    rewrite (Permutation_app_comm (flat_map obj ended)). rewrite <- !app_assoc. rewrite PO.
    rewrite (Permutation_app_comm (flat_map obj ended)). rewrite <- !app_assoc. apply Permutation_app_head.
    rewrite (app_assoc (ends evs)), (Permutation_app_comm (ends evs)), <- app_assoc. apply Permutation_app_head.
    rewrite Pn. apply Permutation_app_comm. }
  assert (Wd : forall id, deallocating id evs -> In id (flat_map obj (held L (i_tabs s)))).
  { intros id K. eapply incl_obj; [exact (ef_was _ _ _ _ _ _ E)|]. apply (ef_old _ _ _ _ _ _ E). exact K. }
  constructor.
  - exact D.
  - rewrite (ef_trace _ _ _ _ _ _ E), allocations_app, releases_app.
    rewrite (ef_alloc _ _ _ _ _ _ E), (ef_free _ _ _ _ _ _ E), (iv_blocks _ _ I).
    rewrite <- !app_assoc. apply Permutation_app_head. rewrite <- PB. apply Permutation_app_comm.
  - exact OB.
  - intros id [a [m [r K]]]. rewrite (ef_trace _ _ _ _ _ _ E) in K |- *. apply in_app_or in K. destruct K as [K|K].
    + destruct (iv_alloc _ _ I id) as [G F]; [exists a, m, r; exact K|].
      split; [apply in_or_app; left; exact G|]. intros [x [y [p Q]]]. apply in_app_or in Q. destruct Q as [Q|Q].
      * apply F. exists x, y, p. exact Q.
      * apply (gone_not_held L s id (iv_objects _ _ I) G). apply Wd. exists x, y, p. exact Q.
    + destruct (ef_new _ _ _ _ _ _ E id) as [G F]; [exists a, m, r; exact K|].
      split; [apply in_or_app; right; exact F|]. intros [x [y [p Q]]]. apply in_app_or in Q. destruct Q as [Q|Q].
      * assert (id < i_next s)%nat by (apply (iv_free _ _ I); exists x, y, p; exact Q). lia.
      * assert (id < i_next s)%nat by (apply (held_old L s id I); apply Wd; exists x, y, p; exact Q). lia.
  - intros id [x [y [p Q]]]. rewrite (ef_trace _ _ _ _ _ _ E) in Q. apply in_app_or in Q. rewrite En. destruct Q as [Q|Q].
    + assert (id < i_next s)%nat by (apply (iv_free _ _ I); exists x, y, p; exact Q). lia.
    + assert (id < i_next s)%nat by (apply (held_old L s id I); apply Wd; exists x, y, p; exact Q). lia.
Qed.

(** ** Variables, sizes and requests *)
Definition sized (s : istate) (z : nat -> Z) : Prop := forall v t, i_tabs s v = Some t -> it_size t = z v.
Definition upd {X} (e : nat -> X) v x : nat -> X := fun w => if Nat.eqb w v then x else e w.

Lemma requests_app (a b : list (ievent A W)) : requests (a ++ b) = requests a ++ requests b.
Proof. apply flat_map_app. Qed.

Lemma sized_set s z v t m : sized s z -> it_size t = m -> sized (set_tab s v (Some t)) (upd z v m).
Proof.
  intros S E w x H. cbn [set_tab i_tabs] in H. unfold bindv in H. unfold upd. destruct (Nat.eqb w v).
  - injection H as <-. exact E.
  - apply S. exact H.
Qed.
Lemma sized_tabs s s' z : sized s z -> i_tabs s' = i_tabs s -> sized s' z.
Proof. intros S E v t H. rewrite E in H. apply S. exact H. Qed.

(** What an operation does to the variables of the program, and what it asks for. *)
Definition tells (s s' : istate) (o : iop) : Prop :=
  (forall x, ~ In x (vars_of o) -> i_tabs s' x = i_tabs s x) /\
  (forall u, i_user s' u = given [o] u (i_user s u)) /\
  (forall z os user, (forall u, i_user s u = user u) -> sized s z ->
     exists l z' user', requests (i_trace s') = requests (i_trace s) ++ l /\
       asked h0 (o :: os) user z = l ++ asked h0 os user' z' /\ sized s' z' /\ forall u, i_user s' u = user' u).

Ltac others := intros x0 X0; cbn [set_tab i_tabs]; unfold bindv;
  repeat match goal with |- context [Nat.eqb ?a ?b] =>
    destruct (Nat.eqb_spec a b); [exfalso; apply X0; cbn [vars_of In]; subst; tauto|] end; reflexivity.

Lemma step_tells s o s' : istep s o = Ok s' -> tells s s' o.
Proof.
  intros H. destruct o as [u a|wd|v|v u n|v w|v w|v w|v w|v w|v]; cbn [Instance.istep] in H.
  - injection H as <-. split; [reflexivity|split].
    + intros w. cbn [i_user given]. unfold bindv. destruct (Nat.eqb w u); reflexivity.
    + intros z os user U S. exists [], z, (upd user u (Some a)). rewrite app_nil_r.
      split; [reflexivity|]. split; [reflexivity|]. split; [exact S|].
      intros w. cbn [i_user]. unfold bindv, upd. destruct (Nat.eqb w u); [reflexivity|apply U].
  - injection H as <-. split; [reflexivity|split; [reflexivity|]].
    intros z os user U S. exists [], z, user. unfold log. cbn [i_trace]. rewrite requests_app.
    split; [reflexivity|]. split; [reflexivity|]. split; [exact S|exact U].
  - apply bind_inv in H. destruct H as [x [F H]]. injection H as <-. split; [others|split; [reflexivity|]].
    intros z os user U S. exists [], (upd z v 0), user. rewrite app_nil_r.
    split; [reflexivity|]. split; [reflexivity|]. split; [|exact U].
    apply (sized_set s z v (IT None (Some (In_ (i_next s) h0)) 0) 0 S eq_refl).
  - apply bind_inv in H. destruct H as [x [F H]]. apply bind_inv in H. destruct H as [a [Ua H]]. apply var_ok in Ua.
    destruct (n <? 0); [discriminate|].
    destruct (make_block ac s a n) as [s1 [r i]] eqn:M. apply make_block_eq in M. destruct M as [-> [-> ->]].
    injection H as <-. split; [others|split; [reflexivity|]].
    intros z os user U S. exists [(a, n)], (upd z v n), user. cbn [set_tab i_trace]. rewrite requests_app.
    split; [reflexivity|]. split; [cbn [asked]; rewrite <- U, Ua; reflexivity|]. split; [|exact U].
    apply sized_set; [|reflexivity]. apply (sized_tabs s); [exact S|reflexivity].
  - apply bind_inv in H. destruct H as [x [F H]]. apply bind_inv in H. destruct H as [t [Wt H]]. apply var_ok in Wt.
    apply bind_inv in H. destruct H as [[s1 c] [C H]]. apply copy_table_ok in C.
    destruct C as [evs [_ [C1 [C2 [C3 [C4 [C5 ->]]]]]]]. injection H as <-.
    split.
    { intros x0 X0. cbn [set_tab i_tabs]. rewrite C2. unfold bindv.
      destruct (Nat.eqb_spec x0 v); [exfalso; apply X0; cbn; subst; tauto|reflexivity]. }
    split; [intros y; cbn [set_tab i_user]; rewrite C1; reflexivity|].
    intros z os user U S. exists [(h0, it_size t)], (upd z v (z w)), user. cbn [set_tab i_trace]. rewrite C4, requests_app.
    split; [f_equal; destruct C5 as [->|[p ->]]; reflexivity|].
    split; [cbn [asked]; rewrite <- (S w t Wt); reflexivity|]. split; [|intros y; rewrite <- U, <- C1; reflexivity].
    apply sized_set; [|apply (S w t Wt)]. apply (sized_tabs s); [exact S|exact C2].
  - apply bind_inv in H. destruct H as [x [F H]]. apply bind_inv in H. destruct H as [t [Wt H]]. apply var_ok in Wt.
    injection H as <-. split; [others|split; [reflexivity|]].
    intros z os user U S. exists [], (upd z v (z w)), user. rewrite app_nil_r.
    split; [reflexivity|]. split; [reflexivity|]. split; [|exact U].
    apply sized_set; [|apply (S w t Wt)].
    intros y ty Hy. cbn [set_tab i_tabs] in Hy. unfold bindv in Hy. destruct (Nat.eqb_spec y w) as [->|].
    + injection Hy as <-. apply (S w t Wt).
    + apply S. exact Hy.
  - apply bind_inv in H. destruct H as [t [Wt H]]. apply var_ok in Wt.
    apply bind_inv in H. destruct H as [[s1 c] [C H]]. apply copy_table_ok in C.
    destruct C as [evs [_ [C1 [C2 [C3 [C4 [C5 ->]]]]]]].
    apply bind_inv in H. destruct H as [old [V0 H]]. apply destroy_ok in H.
    destruct H as [ev2 [_ [D0 [D1 [D2 [D3 [_ [_ [_ [D4 _]]]]]]]]]].
    cbn [set_tab i_tabs i_trace i_next i_user] in D0, D1, D2, D3.
    split.
    { intros x0 X0. rewrite D1, C2. unfold bindv.
      destruct (Nat.eqb_spec x0 v); [exfalso; apply X0; cbn; subst; tauto|reflexivity]. }
    split; [intros y; rewrite D0, C1; reflexivity|].
    intros z os user U S. exists [(h0, it_size t)], (upd z v (z w)), user. rewrite D3, C4, !requests_app, D4, app_nil_r.
    split; [f_equal; destruct C5 as [->|[p ->]]; reflexivity|].
    split; [cbn [asked]; rewrite <- (S w t Wt); reflexivity|]. split; [|intros y; rewrite <- U, <- C1, <- D0; reflexivity].
    refine (sized_tabs (set_tab s1 v (Some _)) s' _ _ _); [|cbn [set_tab i_tabs]; exact D1].
    apply sized_set; [|apply (S w t Wt)]. apply (sized_tabs s); [exact S|exact C2].
  - apply bind_inv in H. destruct H as [t [Wt H]]. apply var_ok in Wt. cbv zeta in H.
    apply bind_inv in H. destruct H as [old [V0 H]]. apply var_ok in V0. cbn [set_tab i_tabs] in V0.
    apply bind_inv in H. destruct H as [s3 [R H]].
    apply bind_inv in H. destruct H as [t3 [T3 H]]. apply var_ok in T3.
    apply bind_inv in H. destruct H as [t4 [T4 H]]. apply var_ok in T4. cbn [set_tab i_tabs] in T4.
    injection H as <-.
    assert (X : i_user s3 = i_user s /\ requests (i_trace s3) = requests (i_trace s) /\
        i_tabs s3 = bindv (bindv (i_tabs s) w (Some (IT None (it_alloc t) (it_size t)))) v
                      (Some (IT (it_ptr t) (it_alloc old) (it_size old)))).
    { unfold release in R. destruct (it_ptr old); [destruct (it_alloc old)|]; try discriminate R; injection R as <-.
      - unfold log. cbn [i_user i_trace i_tabs set_tab]. rewrite requests_app, app_nil_r. auto.
      - auto. }
    destruct X as [X1 [X2 X3]].
    assert (G : forall z : istate, i_tabs (end_inst z (it_alloc t4)) = i_tabs z /\ i_user (end_inst z (it_alloc t4)) = i_user z /\
       requests (i_trace (end_inst z (it_alloc t4))) = requests (i_trace z)).
    { intros z. unfold end_inst. destruct (it_alloc t4); [|auto]. unfold log. cbn [i_tabs i_user i_trace].
      rewrite requests_app, app_nil_r. auto. }
    destruct (G (set_tab (set_tab s3 w (Some (IT (it_ptr t3) None (it_size t3)))) v
                  (Some (IT (it_ptr t4) (it_alloc t3) (it_size t))))) as [G1 [G2 G3]].
    split.
    { intros x0 X0. rewrite G1. cbn [set_tab i_tabs]. rewrite X3. unfold bindv.
      destruct (Nat.eqb_spec x0 v); [exfalso; apply X0; cbn; subst; tauto|].
      destruct (Nat.eqb_spec x0 w); [exfalso; apply X0; cbn; subst; tauto|reflexivity]. }
    split; [intros y; rewrite G2; cbn [set_tab i_user]; rewrite X1; reflexivity|].
    intros z os user U S. exists [], (upd z v (z w)), user. rewrite app_nil_r.
    split; [rewrite G3; cbn [set_tab i_trace]; exact X2|]. split; [reflexivity|].
    split; [|intros y; rewrite G2; cbn [set_tab i_user]; rewrite X1; apply U].
    eapply sized_tabs; [|exact G1].
    apply sized_set; [|apply (S w t Wt)].
    intros y ty Hy. cbn [set_tab i_tabs] in Hy. unfold bindv in Hy at 1. destruct (Nat.eqb_spec y w) as [->|Y].
    + injection Hy as <-. cbn [it_size]. rewrite X3 in T3. unfold bindv in T3. rewrite Nat.eqb_refl in T3.
      unfold bindv in V0. destruct (Nat.eqb_spec w v) as [->|].
      * rewrite Nat.eqb_refl in V0. injection V0 as <-. injection T3 as <-. cbn [it_size]. apply (S v t Wt).
      * injection T3 as <-. apply (S w t Wt).
    + rewrite X3 in Hy. unfold bindv in Hy. destruct (Nat.eqb_spec y v) as [->|].
      * injection Hy as <-. cbn [it_size]. unfold bindv in V0. destruct (Nat.eqb_spec v w); [congruence|]. apply S. exact V0.
      * destruct (Nat.eqb_spec y w); [congruence|]. apply S. exact Hy.
  - apply bind_inv in H. destruct H as [t [V0 H]]. apply var_ok in V0.
    apply bind_inv in H. destruct H as [u [Wt H]]. apply var_ok in Wt. injection H as <-.
    split; [others|split; [reflexivity|]].
    intros z os user U S. exists [], (upd (upd z v (z w)) w (z v)), user. rewrite app_nil_r.
    split; [reflexivity|]. split; [reflexivity|]. split; [|exact U].
    apply sized_set; [|apply (S v t V0)]. apply sized_set; [exact S|apply (S w u Wt)].
  - apply bind_inv in H. destruct H as [t [V0 H]]. apply destroy_ok in H.
    destruct H as [ev2 [_ [D0 [D1 [D2 [D3 [_ [_ [_ [D4 _]]]]]]]]]].
    cbn [set_tab i_tabs i_trace i_next i_user] in D0, D1, D2, D3.
    split.
    { intros x0 X0. rewrite D1. unfold bindv.
      destruct (Nat.eqb_spec x0 v); [exfalso; apply X0; cbn; subst; tauto|reflexivity]. }
    split; [intros y; rewrite D0; reflexivity|].
    intros z os user U S. exists [], z, user. rewrite D3, requests_app, D4.
    split; [reflexivity|]. split; [reflexivity|]. split; [|intros y; rewrite <- U, <- D0; reflexivity].
    intros y ty Hy. rewrite D1 in Hy. unfold bindv in Hy. destruct (Nat.eqb_spec y v); [discriminate|].
    apply S. exact Hy.
Qed.

(** ** The theorems *)

Lemma given_app a b u d : given (A:=A) (W:=W) (a ++ b) u d = given b u (given a u d).
Proof. revert d. induction a as [|o a IH]; intros d; [reflexivity|]. destruct o; cbn [app given]; apply IH. Qed.

Lemma runs_user os : forall s s', iruns s os = Ok s' -> forall u, i_user s' u = given os u (i_user s u).
Proof.
  induction os as [|o os IH]; intros s s' H u; cbn [Instance.iruns] in H.
  - injection H as <-. reflexivity.
  - apply bind_inv in H. destruct H as [s1 [H1 H2]]. rewrite (IH _ _ H2 u).
    destruct (step_tells _ _ _ H1) as [_ [U _]]. rewrite U.
    change (o :: os) with ([o] ++ os). rewrite given_app. reflexivity.
Qed.

Lemma runs_requests os : forall s s' user z, iruns s os = Ok s' -> (forall u, i_user s u = user u) -> sized s z ->
  requests (i_trace s') = requests (i_trace s) ++ asked h0 os user z.
Proof.
  induction os as [|o os IH]; intros s s' user z H U S; cbn [Instance.iruns] in H.
  - injection H as <-. cbn [asked]. rewrite app_nil_r. reflexivity.
  - apply bind_inv in H. destruct H as [s1 [H1 H2]]. destruct (step_tells _ _ _ H1) as [_ [_ T]].
    destruct (T z os user U S) as [l [z' [user' [T1 [T2 [T3 T4]]]]]].
    rewrite (IH _ _ user' z' H2 T4 T3), T1, T2, app_assoc. reflexivity.
Qed.

Lemma runs_inv os : forall L s s', NoDup L -> incl (flat_map vars_of os) L -> iruns s os = Ok s' -> inv L s -> inv L s'.
Proof.
  induction os as [|o os IH]; intros L s s' N I H V; cbn [Instance.iruns] in H.
  - injection H as <-. exact V.
  - apply bind_inv in H. destruct H as [s1 [H1 H2]].
    assert (Io : incl (vars_of o) L) by (intros x X; apply I; cbn; apply in_or_app; left; exact X).
    apply (IH L s1 s' N); [intros x X; apply I; cbn; apply in_or_app; right; exact X|exact H2|].
    destruct (step_effect L s o s1 N Io H1) as [made [ended [evs E]]].
    eapply inv_step; [exact V| |exact E].
    intros v t T. destruct (in_dec Nat.eq_dec v (vars_of o)) as [X|X]; [apply Io; exact X|].
    destruct (step_tells _ _ _ H1) as [O _]. rewrite (O v X) in T. apply (iv_dom _ _ V v t T).
Qed.

Lemma inv_init w0 L : inv L (iinit w0).
Proof.
  assert (E : held L (i_tabs (@iinit A W w0)) = []).
  { induction L as [|x L IH]; [reflexivity|exact IH]. }
  constructor.
  - intros v t H. discriminate H.
  - rewrite E. reflexivity.
  - rewrite E. reflexivity.
  - intros id [a [n [r []]]].
  - intros id [a [n [p []]]].
Qed.

Lemma history_inv w0 os s : iruns (iinit w0) os = Ok s -> inv (nodup Nat.eq_dec (flat_map vars_of os)) s.
Proof.
  intros H. apply (runs_inv os _ (iinit w0) s); [apply NoDup_nodup| |exact H|apply inv_init].
  intros x X. apply nodup_In. exact X.
Qed.

Lemma user_untouched_l w0 os s : iruns (iinit w0) os = Ok s -> forall u, i_user s u = given os u None.
Proof. intros H u. apply (runs_user os (iinit w0) s H u). Qed.

Lemma requests_l w0 os s : iruns (iinit w0) os = Ok s -> requests (i_trace s) = asked h0 os (fun _ => None) (fun _ => 0).
Proof.
  intros H. rewrite (runs_requests os (iinit w0) s (fun _ => None) (fun _ => 0) H); [reflexivity|reflexivity|].
  intros v t K. discriminate K.
Qed.

Lemma releases_l w0 os s : iruns (iinit w0) os = Ok s ->
  exists kept, Permutation (allocations ac (i_trace s)) (releases (i_trace s) ++ kept).
Proof. intros H. eexists. exact (iv_blocks _ _ (history_inv w0 os s H)). Qed.

Lemma held_none L e : (forall v, e v = None) -> held L e = [].
Proof. intros H. induction L as [|x L IH]; [reflexivity|]. cbn. rewrite H. exact IH. Qed.

Lemma all_released_l w0 os s : iruns (iinit w0) os = Ok s -> (forall v, i_tabs s v = None) ->
  Permutation (allocations ac (i_trace s)) (releases (i_trace s)) /\
  Permutation (ends (i_trace s)) (seq 0 (i_next s)).
Proof.
  intros H N. pose proof (history_inv w0 os s H) as V.
  pose proof (iv_blocks _ _ V) as B. pose proof (iv_objects _ _ V) as O.
  rewrite (held_none _ _ N) in B, O. cbn [flat_map] in B, O. rewrite app_nil_r in B, O. split; assumption.
Qed.

Lemma NoDup_prefix (a b : list nat) : NoDup (a ++ b) -> NoDup a.
Proof.
  induction a as [|x a IH]; intros H; [constructor|]. inversion H as [|y l N D]; subst. constructor; [|apply IH; exact D].
  intros K. apply N. apply in_or_app. left. exact K.
Qed.

Lemma objects_once_l w0 os s : iruns (iinit w0) os = Ok s -> NoDup (ends (i_trace s)).
Proof.
  intros H. pose proof (iv_objects _ _ (history_inv w0 os s H)) as O.
  assert (ND : NoDup (ends (i_trace s) ++ flat_map obj (held (nodup Nat.eq_dec (flat_map vars_of os)) (i_tabs s)))).
  { eapply Permutation_NoDup; [apply Permutation_sym; exact O|apply seq_NoDup]. }
  apply NoDup_prefix in ND. exact ND.
Qed.

Lemma other_object_l w0 os s : iruns (iinit w0) os = Ok s ->
  forall id, allocating id (i_trace s) -> In (EGone id) (i_trace s) /\ ~ deallocating id (i_trace s).
Proof. intros H id K. exact (iv_alloc _ _ (history_inv w0 os s H) id K). Qed.

Lemma runs_through os : forall s s', iruns s os = Ok s' ->
  exists evs, i_trace s' = i_trace s ++ evs /\ through ac (i_world s) evs (i_world s').
Proof.
  induction os as [|o os IH]; intros s s' H; cbn [Instance.iruns] in H.
  - injection H as <-. exists []. rewrite app_nil_r. split; reflexivity.
  - apply bind_inv in H. destruct H as [s1 [H1 H2]]. destruct (IH _ _ H2) as [e2 [T2 U2]].
    destruct (step_effect (nodup Nat.eq_dec (vars_of o)) s o s1) as [m [d [e1 E]]];
      [apply NoDup_nodup|intros x X; apply nodup_In; exact X|exact H1|].
    exists (e1 ++ e2). split; [rewrite T2, (ef_trace _ _ _ _ _ _ E), app_assoc; reflexivity|].
    eapply through_app; [exact (ef_world _ _ _ _ _ _ E)|exact U2].
Qed.

Lemma worlds_l w0 os s : iruns (iinit w0) os = Ok s -> through ac w0 (i_trace s) (i_world s).
Proof. intros H. destruct (runs_through os _ _ H) as [e [T U]]. rewrite T. exact U. Qed.

(** ** Histories without misuse *)
Definition agree (o : option itable) (k : option (Z * bool)) : Prop :=
  match o, k with
  | None, None => True
  | Some t, Some (n, full) =>
      it_size t = n /\ 0 <= n /\ (0 < n -> (full = true <-> it_ptr t <> None)) /\ (it_ptr t <> None -> it_alloc t <> None)
  | _, _ => False
  end.
Definition agrees (s : istate) (users : nat -> bool) (tabs : names (Z * bool)) : Prop :=
  (forall u, users u = true <-> i_user s u <> None) /\ (forall v, agree (i_tabs s v) (tabs v)).

Lemma agree_set (e : vars itable) tabs v t k : (forall x, agree (e x) (tabs x)) -> agree t k ->
  forall x, agree (bindv e v t x) (name_is tabs v k x).
Proof. intros H K x. unfold bindv, name_is. destruct (Nat.eqb x v); [exact K|apply H]. Qed.

Lemma fresh_is {X} (e : vars X) v : e v = None -> exists x, fresh e v = Ok x.
Proof. intros H. unfold fresh. rewrite H. eauto. Qed.
Lemma var_is {X} (e : vars X) v x : e v = Some x -> var e v = Ok x.
Proof. intros H. unfold var. rewrite H. reflexivity. Qed.

Lemma agree_made (P : provides ac) w a n id : 0 <= n ->
  agree (Some (IT (snd (snd (b_allocate ac w a n))) (Some (In_ id (fst (snd (b_allocate ac w a n))))) n)) (Some (n, true)).
Proof.
  intros N. cbn [agree it_size it_ptr it_alloc]. split; [reflexivity|]. split; [exact N|]. split.
  - intros Z. split; [intros _; apply P; exact Z|reflexivity].
  - discriminate.
Qed.

Lemma agree_gone n a : 0 <= n -> agree (Some (IT None a n)) (Some (n, false)).
Proof.
  intros N. cbn [agree it_size it_ptr it_alloc]. split; [reflexivity|]. split; [exact N|]. split.
  - intros _. split; [discriminate|]. intros H. destruct (H eq_refl).
  - intros H. destruct (H eq_refl).
Qed.

Lemma copy_is (P : provides ac) (s : istate) t n full : agree (Some t) (Some (n, full)) ->
  if full || (n =? 0)
  then exists s1 c, copy_table ac h0 s t = Ok (s1, c) /\ i_user s1 = i_user s /\ i_tabs s1 = i_tabs s /\
         agree (Some c) (Some (n, true))
  else copy_table ac h0 s t = UB.
Proof.
  intros [S [N [F D]]]. unfold copy_table. destruct (make_block ac s h0 (it_size t)) as [s1 [r i]] eqn:M.
  apply make_block_eq in M. destruct M as [-> [-> ->]]. rewrite S.
  destruct (Z.eqb_spec n 0) as [->|Z0].
  - rewrite orb_true_r. eexists _, _. split; [reflexivity|]. split; [reflexivity|]. split; [reflexivity|].
    apply agree_made; [exact P|lia].
  - rewrite orb_false_r. destruct (F ltac:(lia)) as [F1 F2]. destruct full.
    + destruct (it_ptr t) as [p|]; [|destruct (F1 eq_refl eq_refl)].
      eexists _, _. split; [reflexivity|]. split; [reflexivity|]. split; [reflexivity|]. apply agree_made; [exact P|lia].
    + destruct (it_ptr t) as [p|]; [|reflexivity]. discriminate F2. discriminate.
Qed.

Lemma release_is (s : istate) t : (it_ptr t <> None -> it_alloc t <> None) ->
  exists s1, release ac s (it_ptr t) (it_alloc t) = Ok s1 /\ i_user s1 = i_user s /\ i_tabs s1 = i_tabs s.
Proof.
  intros H. unfold release. destruct (it_ptr t) as [p|]; [|eauto].
  destruct (it_alloc t) as [i|]; [|destruct H; [discriminate|reflexivity]]. eexists. split; [reflexivity|]. auto.
Qed.
Lemma end_inst_is (s : istate) a : i_user (end_inst s a) = i_user s /\ i_tabs (end_inst s a) = i_tabs s.
Proof. destruct a; auto. Qed.
Lemma destroy_is (s : istate) t : (it_ptr t <> None -> it_alloc t <> None) ->
  exists s1, destroy ac s t = Ok s1 /\ i_user s1 = i_user s /\ i_tabs s1 = i_tabs s.
Proof.
  intros H. destruct (release_is s t H) as [s1 [R [U T]]]. unfold destroy. rewrite R. cbn [bind].
  destruct (end_inst_is s1 (it_alloc t)) as [U1 T1]. eexists. split; [reflexivity|]. split; congruence.
Qed.

Lemma use_is (P : provides ac) (s : istate) o users tabs : agrees s users tabs ->
  match use o users tabs with
  | Some (users', tabs') => exists s', istep s o = Ok s' /\ agrees s' users' tabs'
  | None => istep s o = UB
  end.
Proof.
  intros [U T].
  assert (TN : forall v, tabs v = None -> i_tabs s v = None).
  { intros v E. specialize (T v). rewrite E in T. destruct (i_tabs s v); [destruct T|reflexivity]. }
  assert (TS : forall v k, tabs v = Some k -> exists t, i_tabs s v = Some t /\ agree (Some t) (Some k)).
  { intros v k E. specialize (T v). rewrite E in T. destruct (i_tabs s v) as [t|]; [eauto|destruct T]. }
  assert (FU : forall v k, tabs v = Some k -> fresh (i_tabs s) v = UB).
  { intros v k E. destruct (TS v k E) as [t [H _]]. unfold fresh. rewrite H. reflexivity. }
  assert (VU : forall v, tabs v = None -> var (i_tabs s) v = UB).
  { intros v E. unfold var. rewrite (TN v E). reflexivity. }
  destruct o as [u a|wd|v|v u n|v w|v w|v w|v w|v w|v]; cbn [use Instance.istep].
  - eexists. split; [reflexivity|]. split; [|exact T]. intros w. cbn [i_user]. unfold bindv.
    destruct (Nat.eqb w u); cbn [orb]; [|apply U]. split; [discriminate|reflexivity].
  - eexists. split; [reflexivity|]. split; [exact U|exact T].
  - destruct (tabs v) as [k|] eqn:E; [rewrite (FU v k E); reflexivity|].
    destruct (fresh_is _ _ (TN v E)) as [x ->]. cbn [bind]. eexists. split; [reflexivity|]. split; [exact U|].
    cbn [i_tabs]. apply agree_set; [exact T|]. cbn. split; [reflexivity|]. split; [lia|]. split; [lia|]. intros H. destruct (H eq_refl).
  - destruct (tabs v) as [k|] eqn:E; [rewrite (FU v k E); reflexivity|].
    destruct (fresh_is _ _ (TN v E)) as [x ->]. rewrite bind_ok. destruct (U u) as [U1 U2].
    destruct (users u) eqn:Eu; cbn [andb].
    + destruct (i_user s u) as [a|] eqn:Ea; [|destruct (U1 eq_refl eq_refl)]. rewrite (var_is _ _ _ Ea), bind_ok.
      destruct (Z.leb_spec 0 n) as [N|N].
      * replace (n <? 0) with false by (symmetry; apply Z.ltb_ge; lia).
        destruct (make_block ac s a n) as [s1 [r i]] eqn:M. apply make_block_eq in M. destruct M as [-> [-> ->]].
        eexists. split; [reflexivity|]. split; [exact U|]. cbn [set_tab i_tabs]. apply agree_set; [exact T|].
        apply agree_made; [exact P|exact N].
      * replace (n <? 0) with true by (symmetry; apply Z.ltb_lt; lia). reflexivity.
    + unfold var. destruct (i_user s u); [|reflexivity]. discriminate U2. discriminate.
  - destruct (tabs v) as [k|] eqn:E; [rewrite (FU v k E); reflexivity|].
    destruct (fresh_is _ _ (TN v E)) as [x ->]. rewrite bind_ok.
    destruct (tabs w) as [[n full]|] eqn:Ew; [|rewrite (VU w Ew); reflexivity].
    destruct (TS w _ Ew) as [t [Tw G]]. rewrite (var_is _ _ _ Tw), bind_ok.
    pose proof (copy_is P s t n full G) as C. destruct (full || (n =? 0)); [|rewrite C; reflexivity].
    destruct C as [s1 [c [-> [C1 [C2 C3]]]]]. rewrite bind_ok. eexists. split; [reflexivity|].
    split; [cbn [set_tab i_user]; rewrite C1; exact U|]. cbn [set_tab i_tabs]. rewrite C2. apply agree_set; assumption.
  - destruct (tabs v) as [k|] eqn:E; [rewrite (FU v k E); reflexivity|].
    destruct (fresh_is _ _ (TN v E)) as [x ->]. rewrite bind_ok.
    destruct (tabs w) as [[n full]|] eqn:Ew; [|rewrite (VU w Ew); reflexivity].
    destruct (TS w _ Ew) as [t [Tw G]]. rewrite (var_is _ _ _ Tw), bind_ok.
    eexists. split; [reflexivity|]. split; [exact U|]. cbn [set_tab i_tabs]. apply agree_set; [|exact G].
    apply agree_set; [exact T|]. destruct G as [G1 [G2 _]]. rewrite G1. apply agree_gone. exact G2.
  - destruct (tabs w) as [[n full]|] eqn:Ew.
    2:{ rewrite (VU w Ew). destruct (tabs v); reflexivity. }
    destruct (TS w _ Ew) as [t [Tw G]]. rewrite (var_is _ _ _ Tw), bind_ok.
    pose proof (copy_is P s t n full G) as C. destruct (full || (n =? 0)).
    + destruct C as [s1 [c [-> [C1 [C2 C3]]]]]. rewrite bind_ok. rewrite C2.
      destruct (tabs v) as [k|] eqn:E; [|rewrite (VU v E); reflexivity].
      destruct (TS v _ E) as [old [Tv Go]]. rewrite (var_is _ _ _ Tv), bind_ok.
      destruct (destroy_is (set_tab s1 v (Some c)) old) as [s2 [D1 [D2 D3]]]; [destruct k; apply Go|].
      exists s2. split; [exact D1|]. split; [rewrite D2; cbn [set_tab i_user]; rewrite C1; exact U|].
      rewrite D3. cbn [set_tab i_tabs]. rewrite C2. apply agree_set; assumption.
    + rewrite C. destruct (tabs v); reflexivity.
  - destruct (tabs w) as [[n full]|] eqn:Ew.
    2:{ rewrite (VU w Ew). destruct (tabs v); reflexivity. }
    destruct (TS w _ Ew) as [t [Tw G]]. rewrite (var_is _ _ _ Tw), bind_ok. cbv zeta.
    destruct (tabs v) as [k|] eqn:E.
    2:{ destruct (Nat.eq_dec v w) as [->|D]; [congruence|]. unfold var. cbn [set_tab i_tabs].
        rewrite bindv_other by exact D. rewrite (TN v E). reflexivity. }
    destruct (TS v _ E) as [old [Tv Go]].
    assert (B0 : exists o, bindv (i_tabs s) w (Some (IT None (it_alloc t) (it_size t))) v = Some o /\
      (it_ptr o <> None -> it_alloc o <> None) /\ (v = w -> o = IT None (it_alloc t) (it_size t))).
    { destruct (Nat.eq_dec v w) as [->|D].
      - rewrite bindv_same. eexists. split; [reflexivity|]. split; [intros H; destruct (H eq_refl)|auto].
      - rewrite bindv_other by exact D. exists old. split; [exact Tv|]. split; [destruct k; apply Go|congruence]. }
    destruct B0 as [o [B0 [Bd Bs]]].
    cbn [set_tab i_tabs]. rewrite (var_is _ _ _ B0), bind_ok.
    destruct (release_is (set_tab (set_tab s w (Some (IT None (it_alloc t) (it_size t)))) v
                (Some (IT (it_ptr t) (it_alloc o) (it_size o)))) o Bd) as [s3 [R1 [R2 R3]]].
    unfold set_tab in R1 |- *. cbn [i_world i_user i_tabs i_next i_trace] in R1 |- *. rewrite R1, bind_ok.
    cbn [set_tab i_tabs] in R3. rewrite R3.
    destruct (Nat.eq_dec v w) as [<-|D].
    + pose proof (Bs eq_refl) as Bo. subst o. cbn [it_ptr it_alloc it_size] in *.
      erewrite var_is; [|apply bindv_same]. rewrite bind_ok. cbv zeta. cbn [it_ptr it_alloc it_size i_tabs].
      erewrite var_is; [|apply bindv_same]. rewrite bind_ok. cbn [it_ptr it_alloc it_size end_inst].
      eexists. split; [reflexivity|]. split; [cbn [i_user]; rewrite R2; exact U|]. cbn [i_tabs].
      intros z. specialize (T z). unfold bindv, name_is. destruct (Nat.eqb z v); [|exact T].
      destruct t; exact G.
    + erewrite var_is; [|rewrite bindv_other by congruence; apply bindv_same]. rewrite bind_ok. cbv zeta.
      cbn [it_ptr it_alloc it_size i_tabs].
      erewrite var_is; [|rewrite bindv_other by congruence; apply bindv_same]. rewrite bind_ok.
      cbn [it_ptr it_alloc it_size].
      eexists. split; [reflexivity|]. match goal with |- agrees (end_inst ?z ?y) _ _ => destruct (end_inst_is z y) as [Z1 Z2] end.
      split; [rewrite Z1; cbn [i_user]; rewrite R2; exact U|]. rewrite Z2. cbn [i_tabs]. intros z. specialize (T z).
      unfold bindv, name_is. destruct (Nat.eqb z v); [destruct t; exact G|]. destruct (Nat.eqb z w); [|exact T].
      destruct G as [G1 [G2 _]]. rewrite G1. apply agree_gone. exact G2.
  - destruct (tabs v) as [k|] eqn:E; [|rewrite (VU v E); reflexivity].
    destruct (TS v _ E) as [t [Tv G]]. rewrite (var_is _ _ _ Tv), bind_ok.
    destruct (tabs w) as [k2|] eqn:Ew; [|rewrite (VU w Ew); reflexivity].
    destruct (TS w _ Ew) as [t2 [Tw G2]]. rewrite (var_is _ _ _ Tw), bind_ok.
    eexists. split; [reflexivity|]. split; [exact U|]. cbn [set_tab i_tabs].
    apply agree_set; [|exact G]. apply agree_set; [exact T|exact G2].
  - destruct (tabs v) as [k|] eqn:E; [|rewrite (VU v E); reflexivity].
    destruct (TS v _ E) as [t [Tv G]]. rewrite (var_is _ _ _ Tv), bind_ok.
    destruct (destroy_is (set_tab s v None) t) as [s2 [D1 [D2 D3]]]; [destruct k; apply G|].
    exists s2. split; [exact D1|]. split; [rewrite D2; exact U|]. rewrite D3. cbn [set_tab i_tabs].
    apply agree_set; [exact T|exact I].
Qed.

Lemma usable_is (P : provides ac) os : forall s users tabs, agrees s users tabs ->
  if usable os users tabs then exists s', iruns s os = Ok s' else iruns s os = UB.
Proof.
  induction os as [|o os IH]; intros s users tabs G; cbn [usable Instance.iruns]; [eauto|].
  pose proof (use_is P s o users tabs G) as H. destruct (use o users tabs) as [[users' tabs']|].
  - destruct H as [s' [-> H]]. rewrite bind_ok. apply IH. exact H.
  - rewrite H. reflexivity.
Qed.

Lemma usable_l w0 os : provides ac ->
  (exists s, iruns (iinit w0) os = Ok s) <-> usable os (fun _ => false) (fun _ => None) = true.
Proof.
  intros P. pose proof (usable_is P os (iinit w0) (fun _ => false) (fun _ => None)) as H.
  destruct (usable os _ _).
  - split; [reflexivity|]. intros _. apply H. split; [|intros v; exact I]. intros u. cbn. split; [discriminate|congruence].
  - split; [|discriminate]. intros [s E]. rewrite H in E; [discriminate|].
    split; [|intros v; exact I]. intros u. cbn. split; [discriminate|congruence].
Qed.
End Proofs.
