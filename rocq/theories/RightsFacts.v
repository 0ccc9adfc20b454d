From Coq Require Import List Bool.
From Verif Require Import Outcome Rights RightsSpec.
Import ListNotations.

Lemma chain_view l : forall st b obj sh, no_copy l -> exists st' obj',
  chain l (Ex (CT View st b) obj sh) = Ok (Ex (CT View st' b) obj' sh).
Proof.
  induction l as [|s l IH]; intros st b obj sh N; [exists st, obj; reflexivity|].
  assert (N' : no_copy l) by (intros H; apply N; right; exact H).
  destruct s; cbn [chain apply_step e_type e_shares t_cat t_static data_const block_of settings_const t_const bind view_on];
    try (apply IH; exact N').
  exfalso. apply N. left. reflexivity.
Qed.

Lemma chain_shares l : forall e e', chain l e = Ok e' -> e_shares e' = true -> e_shares e = true /\ no_copy l.
Proof.
  induction l as [|s l IH]; intros e e' H Hs; [injection H as <-; split; [exact Hs|intros []]|].
  cbn [chain] in H. destruct (apply_step s e) as [e1| | |] eqn:E; try discriminate H. cbn [bind] in H.
  destruct (IH e1 e' H Hs) as [S N].
  assert (s <> TableOf /\ e_shares e = true) as [D S'].
  { destruct s; cbn [apply_step] in E; try (injection E as <-; split; [discriminate|exact S]).
    - destruct (t_cat (e_type e)); [destruct (settings_const (e_type e)); [discriminate|]|]; injection E as <-;
        (split; [discriminate|exact S]).
    - destruct (t_cat (e_type e)); injection E as <-; discriminate S. }
  split; [exact S'|]. intros [K|K]; [congruence|exact (N K)].
Qed.

Lemma view_keeps (st b obj : bool) l : no_copy l ->
  if b then reads_through l (view_named st b obj) else writes_through l (view_named st b obj).
Proof.
  intros N. destruct (chain_view l st b obj true N) as (st' & obj' & E).
  destruct b; (eexists; split; [exact E|split; reflexivity]).
Qed.

Lemma through_view l (st b obj : bool) e : no_copy l -> e_shares e = true -> e_type e = CT View st b -> e_const e = obj ->
  if b then reads_through l e else writes_through l e.
Proof.
  intros N S T O. destruct e as [c o sh]; cbn in *; subst. exact (view_keeps st b obj l N).
Qed.

Lemma step_then s l e e1 : apply_step s e = Ok e1 ->
  (reads_through l e1 -> reads_through (s :: l) e) /\ (writes_through l e1 -> writes_through (s :: l) e).
Proof. intros E. split; intros (e' & C & R); exists e'; (split; [cbn [chain]; rewrite E; exact C|exact R]). Qed.

Definition writing (st b obj : bool) (l : list step) : bool :=
  match first_view l with
  | None => negb (st && (obj || existsb (fun s => match s with Const => true | _ => false end) l))
  | Some (Slice _) | Some Reverse => negb st
  | Some _ => negb b
  end.

Lemma table_rights l : forall st b obj : bool, no_copy l -> (b = true -> first_view l <> Some ViewOf) ->
  if writing st b obj l then writes_through l (table_named st b obj) else reads_through l (table_named st b obj).
Proof.
  induction l as [|s l IH]; intros st b obj N V.
  - unfold writing. cbn [first_view existsb]. rewrite orb_false_r.
    destruct (st && obj) eqn:E; cbn [negb].
    + eexists. split; [reflexivity|]. split; [reflexivity|]. apply andb_true_iff in E as [-> ->]. reflexivity.
    + eexists. split; [reflexivity|]. split; [reflexivity|]. destruct st, obj; try discriminate E; reflexivity.
  - assert (N' : no_copy l) by (intros H; apply N; right; exact H).
    assert (W : forall s0 e1 (w : bool), apply_step s0 (table_named st b obj) = Ok e1 ->
       (if w then writes_through l e1 else reads_through l e1) ->
       if w then writes_through (s0 :: l) (table_named st b obj) else reads_through (s0 :: l) (table_named st b obj)).
    { intros s0 e1 w E H. destruct (step_then s0 l _ _ E) as [A B]. destruct w; auto. }
    assert (G : forall st' c, if negb c then writes_through l (view_on st' c true) else reads_through l (view_on st' c true)).
    { intros st' c. pose proof (view_keeps st' c false l N') as K. destruct c; exact K. }
    destruct s; cbn [writing first_view] in *.
    + unfold writing. cbn [first_view existsb]. rewrite orb_true_r. 
      specialize (IH st b true N' V). unfold writing in IH. cbn [orb] in IH.
      apply (W Const (table_named st b true)); [reflexivity|].
      destruct (first_view l); exact IH.
    + apply (W (Slice st0) (view_on st0 (data_const (CT Table st b) true) true)); [reflexivity|].
      specialize (G st0 (data_const (CT Table st b) true)). unfold writing. cbn [first_view]. destruct st; exact G.
    + apply (W Reverse (view_on st (data_const (CT Table st b) true) true)); [reflexivity|].
      specialize (G st (data_const (CT Table st b) true)). unfold writing. cbn [first_view]. destruct st; exact G.
    + apply (W (Reshape st0) (view_on st0 b true)); [reflexivity|]. exact (G st0 b).
    + apply (W Relabel (view_on st b true)); [reflexivity|]. exact (G st b).
    + destruct b; [exfalso; apply V; reflexivity|].
      apply (W ViewOf (view_on st false true)); [reflexivity|]. exact (G st false).
    + exfalso. apply N. left. reflexivity.
Qed.

Lemma view_read_l : forall st obj l, no_copy l -> reads_through l (view_named st true obj).
Proof. intros st obj l N. exact (view_keeps st true obj l N). Qed.
Lemma view_write_l : forall st obj l, no_copy l -> writes_through l (view_named st false obj).
Proof. intros st obj l N. exact (view_keeps st false obj l N). Qed.

Lemma static_slices_l : forall b obj l s, no_copy l -> first_view l = Some s -> (exists st, s = Slice st) \/ s = Reverse ->
  reads_through l (table_named true b obj).
Proof.
  intros b obj l s N F H. pose proof (table_rights l true b obj N) as K. unfold writing in K. rewrite F in K.
  destruct H as [[st ->] | ->]; apply K; intros _; discriminate.
Qed.

Lemma heap_l : forall obj l, no_copy l -> writes_through l (table_named false false obj).
Proof.
  intros obj l N. pose proof (table_rights l false false obj N) as K. unfold writing in K. cbn [andb negb] in K.
  assert (V : false = true -> first_view l <> Some ViewOf) by discriminate. specialize (K V).
  destruct (first_view l) as [[]|]; exact K.
Qed.

Lemma not_both l e : reads_through l e -> writes_through l e -> False.
Proof. intros (e1 & C1 & _ & A1) (e2 & C2 & _ & A2). congruence. Qed.

Lemma first_view_step l : forall s, first_view l = Some s -> s <> Const /\ In s l.
Proof.
  induction l as [|s0 l IH]; intros s; cbn; [discriminate|]. destruct s0;
    try (intros [= <-]; split; [discriminate|auto]). intros H. destruct (IH s H). auto.
Qed.

Lemma static_const_l : forall l, no_copy l ->
  (writes_through l (table_named true false true) <->
   exists s, first_view l = Some s /\ ((exists st, s = Reshape st) \/ s = Relabel \/ s = ViewOf)).
Proof.
  intros l N. assert (V : false = true -> first_view l <> Some ViewOf) by discriminate.
  pose proof (table_rights l true false true N V) as K. unfold writing in K. cbn [orb andb negb] in K.
  destruct (first_view l) as [s|] eqn:F.
  - destruct (first_view_step l s F) as [D I]. destruct s; split; intros H; try congruence;
      try (exfalso; exact (not_both _ _ K H));
      try (destruct H as (s & [= <-] & [[st' E]|[E|E]]); discriminate E); try exact K;
      try (eexists; split; [reflexivity|]; eauto); exfalso; exact (N I).
  - split; [intros H; exfalso; exact (not_both _ _ K H)|intros (s & E & _); discriminate E].
Qed.

Lemma static_direct_l : forall b, writes_through [] (table_named true b false) /\ reads_through [] (table_named true b true) /\
  reads_through [Const] (table_named true b false).
Proof. intros b. repeat split; eexists; (split; [reflexivity|split; reflexivity]). Qed.

Lemma copy_l : forall l e e', chain l e = Ok e' -> In TableOf l -> e_shares e' = false.
Proof.
  intros l e e' C I. destruct (e_shares e') eqn:S; [|reflexivity]. destruct (chain_shares l e e' C S) as [_ N].
  exfalso. exact (N I).
Qed.

Lemma compiles_l : forall l e, t_cat (e_type e) = View \/ t_const (e_type e) = false -> exists e', chain l e = Ok e'.
Proof.
  induction l as [|s l IH]; intros e H; [exists e; reflexivity|]. cbn [chain].
  assert (exists e1, apply_step s e = Ok e1 /\ (t_cat (e_type e1) = View \/ t_const (e_type e1) = false)) as (e1 & E & H1).
  { destruct e as [[cat st b] obj sh]. cbn in H.
    destruct s; cbn [apply_step e_type t_cat t_static settings_const t_const e_shares].
    1: { eexists; split; [reflexivity|exact H]. }
    1-4: (eexists; split; [reflexivity|left; reflexivity]).
    - destruct cat; [|eexists; split; [reflexivity|left; reflexivity]].
      destruct H as [H|H]; [discriminate|]. subst. eexists; split; [reflexivity|left; reflexivity].
    - destruct cat; eexists; (split; [reflexivity|right; cbn]); [destruct H as [H|H]; [discriminate|exact H]|reflexivity]. }
  rewrite E. cbn [bind]. apply IH. exact H1.
Qed.

Lemma const_source_l : forall obj l, no_copy l ->
  (first_view l = None \/ first_view l = Some Reverse \/ exists st, first_view l = Some (Slice st)) ->
  writes_through l (table_named false true obj).
Proof.
  intros obj l N H. pose proof (table_rights l false true obj N) as K. unfold writing in K. cbn [andb negb] in K.
  destruct H as [E|[E|[st E]]]; rewrite E in K; apply K; intros _; discriminate.
Qed.

Lemma const_source_view_l : forall l st obj, first_view l = Some ViewOf -> chain l (table_named st true obj) = UB.
Proof.
  induction l as [|s l IH]; intros st obj F; [discriminate|]. destruct s; try discriminate F; [|reflexivity].
  cbn [first_view] in F. exact (IH st true F).
Qed.
