From Coq Require Import ZArith List Bool Lia.
From Verif Require Import Outcome CInt CIntFacts Spec SpecFacts ShapeSpec Shape ShapeFacts ShapeFacts2
  ForEach ForEachSpec ForEachFacts Memory MemFacts Container ContainerSpec ContainerFacts ContainerFacts2 ContainerFacts3
  Algo AlgoSpec AlgoFacts AlgoFacts2 AlgoFacts3 AlgoFacts4 Slicer SlicerSpec SlicerFacts SlicerFacts2 SlicerFacts3 Alloc
  Program ProgramSpec ProgramFacts ProgramFacts2 ProgramFacts3 ProgramFacts4.
Import ListNotations.
Open Scope Z_scope.

(** ** Every live cell is accounted for *)
Definition tab_cell (x : tab) (p : ptr) : Prop :=
  exists b o, t_block x = Some b /\ p = Ptr b o /\ 0 <= o < prod (vals (t_shape x)).
Definition accounts {T} (m0 : mem T) (w : world T) : Prop :=
  (forall p, valid (w_mem w) p -> valid m0 p \/ exists t x, w_tabs w t = Some x /\ tab_cell x p) /\
  (forall p, valid m0 p -> valid (w_mem w) p) /\
  (forall t x b o, w_tabs w t = Some x -> t_block x = Some b -> ~ valid m0 (Ptr b o)).

Lemma acc_mem {T} (m0 : mem T) w m : accounts m0 w -> same_cells (w_mem w) m -> accounts m0 (set_mem w m).
Proof.
  intros (A & B & C) Sm. split; [|split; [|exact C]].
  - intros p V. apply A, Sm, V.
  - intros p V. apply Sm, B, V.
Qed.
Lemma acc_view {T} (m0 : mem T) w v a : accounts m0 w -> accounts m0 (set_view w v a).
Proof. intros H. exact H. Qed.

Lemma give_cells {T} (m : mem T) cells m1 b p : give m cells = (m1, b) -> valid m1 p ->
  valid m p \/ exists o, b = Some (length m) /\ p = Ptr (length m) o /\ 0 <= o < Z.of_nat (length cells).
Proof.
  intros G V. destruct (give_spec _ _ _ _ G) as [_ Gb]. destruct b as [n|].
  - destruct Gb as (-> & _ & ->). destruct p as [|b o]; [exfalso; apply V; reflexivity|].
    destruct (Nat.eq_dec b (length m)) as [->|N].
    + right. exists o. split; [reflexivity|]. split; [reflexivity|]. unfold valid in V. cbn [cell] in V. rewrite nth_error_last in V.
      destruct (Z.leb_spec 0 o); [|congruence]. apply nth_error_Some in V. lia.
    + left. unfold valid in *. cbn [cell] in *. destruct (Nat.lt_ge_cases b (length m)) as [L|L].
      * rewrite nth_error_app1 in V by exact L. exact V.
      * rewrite nth_error_app2 in V by exact L. destruct (b - length m)%nat as [|j] eqn:E; [lia|].
        cbn in V. destruct j; cbn in V; congruence.
  - destruct Gb as (-> & _). left. exact V.
Qed.
Lemma take_back_cells {T} (m : mem T) x p : valid (take_back m x) p ->
  valid m p /\ forall b o, t_block x = Some b -> p <> Ptr b o.
Proof.
  unfold take_back. destruct (t_block x) as [n|] eqn:E; [|intros V; split; [exact V|discriminate]].
  destruct p as [|b o]; [intros V; exfalso; apply V; reflexivity|]. unfold valid. cbn [cell].
  destruct (Nat.eq_dec n b) as [->|N].
  - intros V. exfalso. apply V. destruct (nth_error m b) as [z|] eqn:Ez.
    + rewrite set_nth_same by (eapply nth_lt; exact Ez). reflexivity.
    + replace (nth_error (set_nth m b None) b) with (@None (option (list (option T)))); [reflexivity|].
      symmetry. apply nth_error_None. rewrite set_nth_length. apply nth_error_None. exact Ez.
  - rewrite set_nth_other by exact N. intros V. split; [exact V|]. intros b1 o1 E1 E2. congruence.
Qed.

Lemma acc_give {T} (m0 : mem T) w m1 t cells sh st b : accounts m0 w -> w_tabs w t = None -> give (w_mem w) cells = (m1, b) ->
  Z.of_nat (length cells) = prod (vals sh) -> accounts m0 (set_tab w m1 t (Some (Tb sh st b))).
Proof.
  intros (A & B & C) Et G L. destruct (give_spec _ _ _ _ G) as [Vm Gb]. split; [|split]; cbn [set_tab w_mem w_tabs].
  - intros p V. destruct (give_cells _ _ _ _ p G V) as [V1|(o & -> & -> & Ho)].
    + destruct (A p V1) as [V0|(u & x & Eu & Cx)]; [left; exact V0|]. right. exists u, x. split; [|exact Cx].
      rewrite bindv_other; [exact Eu|congruence].
    + right. exists t, (Tb sh st (Some (length (w_mem w)))). rewrite bindv_same. split; [reflexivity|].
      exists (length (w_mem w)), o. cbn [t_block t_shape]. rewrite <- L. auto.
  - intros p V. apply Vm, B, V.
  - intros u x n o Eu En V. destruct (Nat.eq_dec u t) as [->|N].
    + rewrite bindv_same in Eu. injection Eu as <-. cbn [t_block] in En. subst b. destruct Gb as (-> & _).
      pose proof (valid_lt _ _ _ (B _ V)). lia.
    + rewrite bindv_other in Eu by exact N. exact (C u x n o Eu En V).
Qed.
Lemma acc_drop {T} (m0 : mem T) w t x : accounts m0 w -> w_tabs w t = Some x ->
  accounts m0 (set_tab w (take_back (w_mem w) x) t None).
Proof.
  intros (A & B & C) E. split; [|split]; cbn [set_tab w_mem w_tabs].
  - intros p V. destruct (take_back_cells _ _ _ V) as [V1 N]. destruct (A p V1) as [V0|(u & y & Eu & Cy)]; [left; exact V0|].
    right. exists u, y. split; [|exact Cy]. rewrite bindv_other; [exact Eu|]. intros ->. rewrite E in Eu. injection Eu as <-.
    destruct Cy as (b & o & Eb & Ep & _). exact (N b o Eb Ep).
  - intros [|b o] V; [exfalso; apply V; reflexivity|]. apply take_back_valid; [|apply B, V]. intros Eb. exact (C t x b o E Eb V).
  - intros u y n o Eu En V. destruct (Nat.eq_dec u t) as [->|N]; [rewrite bindv_same in Eu; discriminate|].
    rewrite bindv_other in Eu by exact N. exact (C u y n o Eu En V).
Qed.
Lemma acc_assign {T} (m0 : mem T) w m1 t x cells sh st b : accounts m0 w -> owned w -> w_tabs w t = Some x ->
  give (w_mem w) cells = (m1, b) -> Z.of_nat (length cells) = prod (vals sh) ->
  accounts m0 (set_tab w (take_back m1 x) t (Some (Tb sh st b))).
Proof.
  intros (A & B & C) O E G L. destruct (give_spec _ _ _ _ G) as [Vm Gb]. split; [|split]; cbn [set_tab w_mem w_tabs].
  - intros p V0. destruct (take_back_cells _ _ _ V0) as [V N]. destruct (give_cells _ _ _ _ p G V) as [V1|(o & -> & -> & Ho)].
    + destruct (A p V1) as [V2|(u & y & Eu & Cy)]; [left; exact V2|]. right. exists u, y. split; [|exact Cy].
      rewrite bindv_other; [exact Eu|]. intros ->. rewrite E in Eu. injection Eu as <-.
      destruct Cy as (n & o & Eb & Ep & _). exact (N n o Eb Ep).
    + right. exists t, (Tb sh st (Some (length (w_mem w)))). rewrite bindv_same. split; [reflexivity|].
      exists (length (w_mem w)), o. cbn [t_block t_shape]. rewrite <- L. auto.
  - intros [|n o] V; [exfalso; apply V; reflexivity|]. apply take_back_valid; [|apply Vm, B, V]. intros Eb. exact (C t x n o E Eb V).
  - intros u y n o Eu En V. destruct (Nat.eq_dec u t) as [->|N].
    + rewrite bindv_same in Eu. injection Eu as <-. cbn [t_block] in En. subst b. destruct Gb as (-> & _).
      pose proof (valid_lt _ _ _ (B _ V)). lia.
    + rewrite bindv_other in Eu by exact N. exact (C u y n o Eu En V).
Qed.
Lemma acc_swap {T} (m0 : mem T) w t u x y : accounts m0 w -> w_tabs w t = Some x -> w_tabs w u = Some y ->
  accounts m0 (set_tab (set_tab w (w_mem w) t (Some y)) (w_mem w) u (Some x)).
Proof.
  intros (A & B & C) Et Eu. split; [|split; [exact B|]]; cbn [set_tab w_mem w_tabs].
  - intros p V. destruct (A p V) as [V0|(v & z & Ev & Cz)]; [left; exact V0|]. right.
    destruct (Nat.eq_dec v t) as [->|Nt].
    + exists u, x. rewrite bindv_same. split; [reflexivity|]. rewrite Et in Ev. injection Ev as <-. exact Cz.
    + destruct (Nat.eq_dec v u) as [->|Nu].
      * exists t, y. rewrite Eu in Ev. injection Ev as <-. split; [|exact Cz].
        rewrite bindv_other, bindv_same by congruence. reflexivity.
      * exists v, z. split; [|exact Cz]. rewrite !bindv_other by assumption. exact Ev.
  - intros v z b o Ev Eb. destruct (Nat.eq_dec v u) as [->|Nu].
    + rewrite bindv_same in Ev. injection Ev as <-. exact (C t x b o Et Eb).
    + rewrite bindv_other in Ev by exact Nu. destruct (Nat.eq_dec v t) as [->|Nt].
      * rewrite bindv_same in Ev. injection Ev as <-. exact (C u y b o Eu Eb).
      * rewrite bindv_other in Ev by exact Nt. exact (C v z b o Ev Eb).
Qed.
Lemma acc_move {T} (m0 : mem T) w t u x : accounts m0 w -> w_tabs w t = None -> w_tabs w u = Some x ->
  accounts m0 (set_tab (set_tab w (w_mem w) u (Some (Tb (t_shape x) (t_static x) None))) (w_mem w) t (Some x)).
Proof.
  intros (A & B & C) Et Eu. split; [|split; [exact B|]]; cbn [set_tab w_mem w_tabs].
  - intros p V. destruct (A p V) as [V0|(v & z & Ev & Cz)]; [left; exact V0|]. right.
    destruct (Nat.eq_dec v u) as [->|Nu].
    + exists t, x. rewrite bindv_same. split; [reflexivity|]. rewrite Eu in Ev. injection Ev as <-. exact Cz.
    + exists v, z. split; [|exact Cz]. rewrite !bindv_other by congruence. exact Ev.
  - intros v z b o Ev Eb. destruct (Nat.eq_dec v t) as [->|Nt].
    + rewrite bindv_same in Ev. injection Ev as <-. exact (C u x b o Eu Eb).
    + rewrite bindv_other in Ev by exact Nt. destruct (Nat.eq_dec v u) as [->|Nu].
      * rewrite bindv_same in Ev. injection Ev as <-. discriminate.
      * rewrite bindv_other in Ev by exact Nu. exact (C v z b o Ev Eb).
Qed.

Lemma tab_legal {T} (w : world T) k t x : matches w k -> w_tabs w t = Some x -> legal (t_shape x) /\ t_shape x <> [].
Proof.
  intros M E. destruct (match_tab w k t x M E) as (c & _ & (Lg & Ne & _) & Es & _). rewrite Es in *. auto.
Qed.
Lemma named_legal {T} (w : world T) k h a sh p : matches w k -> names w h a -> a_dense a = Some (sh, p) ->
  a = dense sh p /\ legal sh.
Proof.
  intros M N D. destruct (match_get w k h a M N) as (c & _ & R).
  destruct (rep_is_dense c a sh p R D) as (E & (Lg & _) & Es & _). rewrite Es in Lg. auto.
Qed.

Lemma step_accounts {S T} dbg (m0 : mem T) w (o : op S T) w' r k : wstep dbg w o w' r -> matches w k -> owned w ->
  accounts m0 w -> accounts m0 w'.
Proof.
  intros H M O A. destruct H; try exact A.
  - eapply acc_give; [exact A|exact H|exact H2|]. rewrite repeat_length. pose proof (legal_prod _ H0). lia.
  - eapply acc_give; [exact A|exact H|exact H2|]. rewrite map_length.
    destruct (tab_legal w k u x M H0) as [Lg _]. exact (proj1 (contents_dense _ _ _ _ (proj1 (proj2 Lg)) H1)).
  - eapply acc_give; [exact A|exact H|exact H3|]. rewrite map_length.
    destruct (named_legal w k h a sh p M H0 H1) as [-> Lg]. exact (proj1 (contents_dense _ _ _ _ (proj1 (proj2 Lg)) H2)).
  - apply acc_move; assumption.
  - eapply acc_give; [exact A|exact H|exact H3|]. rewrite map_length.
    destruct (tab_legal w k u x M H0) as [Lg _]. exact (proj1 (contents_dense _ _ _ _ (proj1 (proj2 Lg)) H2)).
  - eapply acc_assign; try eassumption. rewrite map_length.
    destruct (named_legal w k h a sh p M H0 H1) as [-> Lg].
    exact (proj1 (contents_dense _ _ _ _ (proj1 (proj2 Lg)) H5)).
  - apply acc_mem; [exact A|]. eapply same_trans; [apply same_write|apply same_none].
  - apply acc_swap; assumption.
  - apply acc_mem; [exact A|]. eapply same_trans; apply same_write.
  - apply acc_drop; assumption.
  - apply acc_mem; [exact A|exact (each_same _ _ _ _ _ _ _ H2)].
  - apply acc_mem; [exact A|exact (each_index_same _ _ _ _ _ _ H1)].
  - apply acc_mem; [exact A|exact (transform_same _ _ _ _ _ H3)].
  - apply acc_mem; [exact A|exact (copy_if_same _ _ _ _ _ H2)].
  - apply acc_mem; [exact A|exact (copy_if_same _ _ _ _ _ H2)].
  - apply acc_mem; [exact A|exact (generate_same _ _ _ _ H1)].
  - apply acc_mem; [exact A|exact (generate_same _ _ _ _ H1)].
  - apply acc_mem; [exact A|exact (transform_same _ _ _ _ _ H1)].
  - apply acc_mem; [exact A|exact (scan_in_same _ _ _ _ _ _ _ _ H2)].
  - apply acc_mem; [exact A|exact (scan_ex_same _ _ _ _ _ _ _ _ H2)].
  - apply acc_mem; [exact A|exact (same_store _ _ _ _ H3)].
Qed.
Lemma runs_accounts {S T} dbg (p : program S T) m0 n w s w' s' : wruns dbg p n w s w' s' ->
  forall k, matches w k -> owned w -> accounts m0 w -> accounts m0 w'.
Proof.
  induction 1 as [w s|n w s E|n w s o w1 r w2 s2 E St _ IH]; intros k M O A; [exact A|exact A|].
  destruct (step_sim dbg w o w1 r k St M O) as (k1 & E1 & M1 & O1).
  exact (IH k1 M1 O1 (step_accounts dbg m0 w o w1 r k St M O A)).
Qed.
Lemma acc_init {T} (m0 : mem T) : accounts m0 (winit m0).
Proof. split; [intros p V; left; exact V|]. split; [auto|]. intros; discriminate. Qed.

(** ** Cells that a call does not write *)
Lemma run_keeps {A S T} (F : A -> S * mem T -> outcome (S * mem T)) q l :
  (forall x s m s' m', In x l -> F x (s, m) = Ok (s', m') -> peek m' q = peek m q) ->
  forall s m s' m', run F l (s, m) = Ok (s', m') -> peek m' q = peek m q.
Proof.
  induction l as [|x l IH]; intros H s m s' m' E; cbn [run] in E; [injection E as _ <-; reflexivity|].
  apply bind_inv in E as ([s1 m1] & E1 & E2). rewrite (IH (fun y s m s' m' I => H y s m s' m' (or_intror I)) _ _ _ _ E2).
  exact (H x _ _ _ _ (or_introl eq_refl) E1).
Qed.
Lemma run_keeps_mem {A T} (F : A -> mem T -> outcome (mem T)) q l :
  (forall x m m', In x l -> F x m = Ok m' -> peek m' q = peek m q) -> forall m m', run F l m = Ok m' -> peek m' q = peek m q.
Proof.
  induction l as [|x l IH]; intros H m m' E; cbn [run] in E; [injection E as <-; reflexivity|].
  apply bind_inv in E as (m1 & E1 & E2). rewrite (IH (fun y m m' I => H y m m' (or_intror I)) _ _ E2).
  exact (H x _ _ (or_introl eq_refl) E1).
Qed.
Lemma store_keeps {T} (m m' : mem T) p q v : store m p v = Ok m' -> p <> q -> peek m' q = peek m q.
Proof. unfold store. destruct (validb m p); [|discriminate]. intros H N. injection H as <-. apply peek_upd_other, N. Qed.
Lemma call_keeps {T S} (e : elem_fun S T) ps q : ~ In q ps -> forall m s' m', call e ps m = Ok (s', m') -> peek m' q = peek m q.
Proof.
  intros N. induction e as [s|i k IH|i v k IH]; intros m s' m' H; cbn [call] in H.
  - injection H as _ <-. reflexivity.
  - destruct (nth_error ps i); [|discriminate]. apply bind_inv in H as (v & _ & H). exact (IH _ _ _ _ H).
  - destruct (nth_error ps i) as [p|] eqn:E; [|discriminate]. apply bind_inv in H as (m1 & E1 & H).
    rewrite (IH _ _ _ H). apply (store_keeps _ _ _ _ _ E1). intros ->. apply N. exact (nth_error_In _ _ E).
Qed.

Definition w_cell (a : array) (p : ptr) : Prop := exists is_, in_box (a_dims a) is_ /\ a_at a is_ = p.

Lemma rep_cells c a p : rep c a -> (cell_of c p <-> w_cell a p).
Proof.
  intros (Ed & _ & _ & _ & El & _). unfold cell_of, w_cell. rewrite <- Ed. split; intros (is_ & B & <-); exists is_;
    (split; [exact B|]); [symmetry|]; apply El, B.
Qed.

Lemma give_keeps {T} (m : mem T) cells m1 b q : give m cells = (m1, b) -> valid m q -> peek m1 q = peek m q.
Proof.
  intros G V. destruct (give_spec _ _ _ _ G) as [_ Gb]. destruct b; [destruct Gb as (_ & _ & ->)|destruct Gb as (-> & _); reflexivity].
  unfold peek. rewrite cell_app by exact V. reflexivity.
Qed.
Lemma take_back_keeps {T} (m : mem T) x q : (forall b o, t_block x = Some b -> q <> Ptr b o) -> peek (take_back m x) q = peek m q.
Proof.
  intros N. unfold take_back. destruct (t_block x) as [n|] eqn:E; [|reflexivity]. destruct q as [|b o]; [reflexivity|].
  unfold peek. cbn [cell]. rewrite set_nth_other; [reflexivity|]. intros ->. exact (N b o eq_refl eq_refl).
Qed.

Lemma posdims ns : Forall (fun n => 0 <= n) ns -> 0 < prod ns -> Forall (fun n => 1 <= n) ns.
Proof.
  induction 1 as [|n ns P F IH]; intros H; [constructor|]. rewrite prod_cons in H.
  assert (0 <= prod ns) by (apply prod_nonneg; exact F). constructor; [nia|apply IH; nia].
Qed.
Lemma tab_cells x p : legal (t_shape x) -> t_shape x <> [] -> (tab_cell x p <-> t_block x <> None /\ w_cell (array_of x) p).
Proof.
  intros Lg Ne. split.
  - intros (b & o & Eb & -> & Ho). split; [congruence|].
    destruct (rank_surj (vals (t_shape x)) o) as (is_ & B & R); [|destruct (t_shape x); [congruence|discriminate]|exact Ho|].
    { apply posdims; [apply Lg|lia]. }
    exists is_. split; [exact B|]. cbn [array_of dense a_at]. unfold base. rewrite Eb, R. reflexivity.
  - intros [Nb (is_ & B & <-)]. destruct (t_block x) as [b|] eqn:Eb; [|congruence]. exists b, (rank (vals (t_shape x)) is_).
    split; [exact Eb|]. split; [|apply rank_range, B]. cbn [array_of dense a_at]. unfold base. rewrite Eb. reflexivity.
Qed.

Lemma stack_is {T} (w : world T) k t x : matches w k -> w_tabs w t = Some x -> stack_table k t = t_static x.
Proof.
  intros M E. destruct (match_tab w k t x M E) as (c & Ec & _ & _ & _ & K). unfold stack_table. unfold var in Ec.
  destruct (k_tabs k t) as [c'|]; [|discriminate]. injection Ec as ->.
  destruct (c_kind c), (t_static x); try reflexivity; exfalso; intuition congruence.
Qed.
Lemma write_keeps {T} (vs : list T) : forall (m : mem T) p q, (forall j, (j < length vs)%nat -> padd p (Z.of_nat j) <> q) ->
  cell (write_at m p vs) q = cell m q.
Proof.
  induction vs as [|v vs IH]; intros m p q N; cbn [write_at]; [reflexivity|]. rewrite IH.
  - apply cell_upd_other. pose proof (N 0%nat ltac:(cbn; lia)) as N0. cbn [Z.of_nat] in N0. rewrite padd_0 in N0. exact N0.
  - intros j Hj. rewrite padd_padd. replace (1 + Z.of_nat j) with (Z.of_nat (Datatypes.S j)) by lia. apply N. cbn. lia.
Qed.

Lemma step_keeps {S T} dbg (m0 : mem T) w (o : op S T) w' r k q : wstep dbg w o w' r -> matches w k -> owned w -> accounts m0 w ->
  valid (w_mem w) q ->
  (forall h a, In h (outs k o) -> names w h a -> ~ w_cell a q) ->
  (forall t x, ends k o t -> w_tabs w t = Some x -> ~ tab_cell x q) ->
  peek (w_mem w') q = peek (w_mem w) q.
Proof.
  intros H M O A V N1 N2.
  assert (Nb : forall t x, w_tabs w t = Some x -> ~ tab_cell x q -> forall b o, t_block x = Some b -> q <> Ptr b o).
  { intros t x Ex Nc b z Eb ->. destruct A as (A & _ & C). destruct (A _ V) as [V0|(u & y & Eu & Cy)]; [exact (C t x b z Ex Eb V0)|].
    pose proof Cy as (b1 & o1 & Eb1 & Ep & _). injection Ep as <- <-. destruct O as [_ O2].
    pose proof (O2 t u x y b Ex Eu Eb Eb1). subst u. rewrite Ex in Eu. injection Eu as <-. exact (Nc Cy). }
  assert (Nw : forall h a is_, In h (outs k o) -> names w h a -> in_box (a_dims a) is_ -> a_at a is_ <> q).
  { intros h a is_ I N B E. apply (N1 h a I N). exists is_. auto. }
  assert (Nt : forall t x, In (Tab t) (outs k o) -> w_tabs w t = Some x -> ~ tab_cell x q).
  { intros t x I Ex Cx. apply (N1 (Tab t) (array_of x) I); [exists x; auto|].
    destruct (tab_legal w k t x M Ex) as [Lg Ne]. apply (tab_cells x q Lg Ne). exact Cx. }
  destruct H; cbn [set_tab set_view set_mem w_mem outs] in *; try reflexivity.
  - exact (give_keeps _ _ _ _ _ H2 V).
  - exact (give_keeps _ _ _ _ _ H2 V).
  - exact (give_keeps _ _ _ _ _ H3 V).
  - exact (give_keeps _ _ _ _ _ H3 V).
  - rewrite take_back_keeps; [exact (give_keeps _ _ _ _ _ H6 V)|]. apply (Nb t x H). apply (N2 t x); [|exact H].
    right. rewrite (stack_is w k t x M H). eauto.
  - rewrite (stack_is w k t x M H), H2 in *.
    destruct (tab_legal w k t x M H) as [Lgx _]. destruct (named_legal w k h a sh p M H0 H1) as [-> Lg].
    pose proof (proj1 (contents_dense _ _ _ _ (proj1 (proj2 Lg)) H6)) as Lv.
    unfold peek. rewrite cell_app by exact (proj1 (same_write vs (w_mem w) (base x) q) V). rewrite write_keeps; [reflexivity|]. intros j Hj Eq.
    refine (Nt t x (or_introl eq_refl) H _). destruct (t_block x) as [b|] eqn:Eb; [|congruence].
    exists b, (Z.of_nat j). split; [exact Eb|]. split; [|rewrite <- H4; lia]. rewrite <- Eq. unfold base. rewrite Eb. reflexivity.
  - rewrite (stack_is w k t x M H), H1 in *.
    destruct (tab_legal w k t x M H) as [Lgx _]. destruct (tab_legal w k u y M H0) as [Lgy _].
    pose proof (proj1 (contents_dense _ _ _ _ (proj1 (proj2 Lgx)) H4)) as Lu.
    pose proof (proj1 (contents_dense _ _ _ _ (proj1 (proj2 Lgy)) H5)) as Lv.
    unfold peek. rewrite !write_keeps; [reflexivity| |].
    + intros j Hj Eq. refine (Nt t x (or_introl eq_refl) H _).
      destruct (t_block x) as [b|] eqn:Eb; [|unfold base in Eq; rewrite Eb in Eq; subst q; exfalso; apply V; reflexivity].
      exists b, (Z.of_nat j). split; [exact Eb|]. split; [|rewrite H3; lia]. rewrite <- Eq. unfold base. rewrite Eb. reflexivity.
    + intros j Hj Eq. refine (Nt u y (or_intror (or_introl eq_refl)) H0 _).
      destruct (t_block y) as [b|] eqn:Eb; [|unfold base in Eq; rewrite Eb in Eq; subst q; exfalso; apply V; reflexivity].
      exists b, (Z.of_nat j). split; [exact Eb|]. split; [|rewrite <- H3; lia]. rewrite <- Eq. unfold base. rewrite Eb. reflexivity.
  - apply take_back_keeps. apply (Nb t x H). apply (N2 t x); [left; reflexivity|exact H].
  - eapply run_keeps; [|exact H2]. intros is_ s1 m1 s2 m2 I E. cbn [fst snd] in E. refine (call_keeps _ _ _ _ _ _ _ E).
    rewrite in_map_iff. intros (b & Eb & Ib). apply box_In in I. rewrite Forall_forall in H1. destruct (proj1 (H1 b Ib) is_ I) as [B _].
    destruct Ib as [<-|Ib]; [exact (Nw h a is_ (or_introl eq_refl) H B Eb)|].
    assert (X : exists h', In h' hs /\ names w h' b).
    { clear - H0 Ib. induction H0 as [|h' b' hs as_ Nm _ IH]; [contradiction|]. destruct Ib as [<-|Ib].
      - exists h'. split; [left; reflexivity|exact Nm].
      - destruct (IH Ib) as (h2 & I2 & N2). exists h2. split; [right; exact I2|exact N2]. }
    destruct X as (h' & I' & N'). exact (Nw h' b is_ (or_intror I') N' B Eb).
  - eapply run_keeps; [|exact H1]. intros is_ s1 m1 s2 m2 I E. cbn [fst snd] in E. refine (call_keeps _ _ _ _ _ _ _ E).
    apply box_In in I. intros [Eb|[]]. exact (Nw h a is_ (or_introl eq_refl) H I Eb).
  - eapply run_keeps_mem; [|exact H3]. intros is_ m1 m2 I E. apply bind_inv in E as (vs & _ & E). apply box_In in I.
    exact (store_keeps _ _ _ _ _ E (Nw out o is_ (or_introl eq_refl) H I)).
  - eapply run_keeps_mem; [|exact H2]. intros is_ m1 m2 I E. apply bind_inv in E as (vs & _ & E). apply box_In in I.
    exact (store_keeps _ _ _ _ _ E (Nw out o is_ (or_introl eq_refl) H I)).
  - eapply run_keeps_mem; [|exact H2]. intros is_ m1 m2 I E. apply bind_inv in E as (vs & _ & E). apply box_In in I.
    destruct (f vs); [|injection E as <-; reflexivity]. exact (store_keeps _ _ _ _ _ E (Nw out o is_ (or_introl eq_refl) H I)).
  - eapply run_keeps_mem; [|exact H1]. intros is_ m1 m2 I E. apply box_In in I.
    exact (store_keeps _ _ _ _ _ E (Nw out o is_ (or_introl eq_refl) H I)).
  - eapply run_keeps_mem; [|exact H1]. intros is_ m1 m2 I E. apply box_In in I.
    exact (store_keeps _ _ _ _ _ E (Nw out o is_ (or_introl eq_refl) H I)).
  - eapply run_keeps_mem; [|exact H1]. intros is_ m1 m2 I E. apply bind_inv in E as (vs & _ & E). apply box_In in I.
    exact (store_keeps _ _ _ _ _ E (Nw out o is_ (or_introl eq_refl) H I)).
  - eapply run_keeps; [|exact H2]. intros is_ s1 m1 s2 m2 I E. cbn [fst snd] in E. apply bind_inv in E as (vs & _ & E).
    apply bind_inv in E as (m3 & E1 & E). injection E as _ <-. apply box_In in I.
    inversion H1 as [|? ? _ H1']; subst. inversion H1' as [|? ? Ro _]; subst. destruct (proj1 Ro is_ I) as [B _].
    exact (store_keeps _ _ _ _ _ E1 (Nw out o is_ (or_introl eq_refl) H0 B)).
  - eapply run_keeps; [|exact H2]. intros is_ s1 m1 s2 m2 I E. cbn [fst snd] in E. apply bind_inv in E as (m3 & E1 & E).
    apply bind_inv in E as (vs & _ & E). injection E as _ <-. apply box_In in I.
    inversion H1 as [|? ? _ H1']; subst. inversion H1' as [|? ? Ro _]; subst. destruct (proj1 Ro is_ I) as [B _].
    exact (store_keeps _ _ _ _ _ E1 (Nw out o is_ (or_introl eq_refl) H0 B)).
  - exact (store_keeps _ _ _ _ _ H3 (Nw h a (vals is_) (or_introl eq_refl) H H1)).
Qed.

(** ** In terms of the program *)
Lemma tab_back {T} (w : world T) k t c : matches w k -> k_tabs k t = Some c -> exists x, w_tabs w t = Some x /\ rep_tab c x.
Proof.
  intros (_ & Mt & _) E. specialize (Mt t). rewrite E in Mt. destruct (w_tabs w t) as [x|]; [|contradiction]. eauto.
Qed.
Lemma get_back {T} (w : world T) k h c : matches w k -> kget k h = Ok c -> exists a, names w h a /\ rep c a.
Proof.
  intros M E. destruct h as [t|v]; cbn [kget names] in *; unfold var in E.
  - destruct (k_tabs k t) as [c'|] eqn:Et; [|discriminate]. injection E as ->. destruct (tab_back w k t c M Et) as (x & Ex & R).
    exists (array_of x). split; [eauto|apply rep_of_tab, R].
  - destruct M as (_ & _ & Mv). specialize (Mv v). destruct (k_views k v) as [c'|]; [|discriminate]. injection E as ->.
    destruct (w_views w v) as [a|]; [|contradiction]. eauto.
Qed.
Lemma tab_cell_of c x p : rep_tab c x -> (tab_cell x p <-> t_block x <> None /\ cell_of c p).
Proof.
  intros R. pose proof (rep_of_tab _ _ R) as Ra. rewrite (rep_cells c _ p Ra). destruct R as ((Lg & Ne & _) & Es & _). rewrite Es in *.
  apply tab_cells; assumption.
Qed.

Lemma programs_l {S T} dbg (p : program S T) n m0 s w s' : wruns dbg p n (winit m0) s w s' ->
  exists k, kruns dbg p n (kinit m0) s = Ok (k, s') /\ agrees w k.
Proof.
  intros H. destruct (init_sim m0) as [M O]. destruct (runs_sim dbg p n _ _ _ _ H _ M O) as (k & E & M1 & _).
  exists k. split; [exact E|apply agrees_l, M1].
Qed.

Lemma reached {S T} dbg (p : program S T) n m0 s w s' k : wruns dbg p n (winit m0) s w s' ->
  kruns dbg p n (kinit m0) s = Ok (k, s') -> matches w k /\ owned w /\ accounts m0 w.
Proof.
  intros H E. destruct (init_sim m0) as [M O]. destruct (runs_sim dbg p n _ _ _ _ H _ M O) as (k1 & E1 & M1 & O1).
  rewrite E in E1. injection E1 as <-. split; [exact M1|]. split; [exact O1|].
  exact (runs_accounts dbg p m0 n _ _ _ _ H _ M O (acc_init m0)).
Qed.

Lemma separate_l {S T} dbg (p : program S T) n m0 s w s' k : wruns dbg p n (winit m0) s w s' ->
  kruns dbg p n (kinit m0) s = Ok (k, s') ->
  forall t c, k_tabs k t = Some c ->
    (c_data c <> Null -> forall q, cell_of c q -> valid (k_mem k) q /\ ~ valid m0 q) /\
    (forall u d q, u <> t -> k_tabs k u = Some d -> c_data c <> Null -> cell_of c q -> ~ cell_of d q).
Proof.
  intros H E t c Et. destruct (reached dbg p n m0 s w s' k H E) as (M & O & A). pose proof M as (Em & _).
  destruct (tab_back w k t c M Et) as (x & Ex & R). pose proof R as (_ & _ & Ed & _).
  assert (Nb : c_data c <> Null -> t_block x <> None).
  { intros Nn C. apply Nn. rewrite Ed. unfold base. rewrite C. reflexivity. }
  split.
  - intros Nn q Cq. pose proof (proj2 (tab_cell_of c x q R) (conj (Nb Nn) Cq)) as (b & o & Eb & -> & Ho). rewrite Em.
    split; [exact (proj2 (proj1 O t x b Ex Eb) o Ho)|exact (proj2 (proj2 A) t x b o Ex Eb)].
  - intros u d q Nu Eu Nn Cq Cd. pose proof (proj2 (tab_cell_of c x q R) (conj (Nb Nn) Cq)) as (b & o & Eb & -> & Ho).
    destruct (tab_back w k u d M Eu) as (y & Ey & Ry). apply (rep_cells d _ _ (rep_of_tab _ _ Ry)) in Cd.
    destruct Cd as (js & B & Ej). cbn [array_of dense a_at] in Ej. unfold base in Ej.
    destruct (t_block y) as [b'|] eqn:Eb'; [|discriminate]. cbn [padd] in Ej. injection Ej as -> _.
    apply Nu. exact (proj2 O u t y x b Ey Ex Eb' Eb).
Qed.

Lemma accounted_l {S T} dbg (p : program S T) n m0 s w s' k : wruns dbg p n (winit m0) s w s' ->
  kruns dbg p n (kinit m0) s = Ok (k, s') ->
  forall q, valid (k_mem k) q <-> valid m0 q \/ exists t c, k_tabs k t = Some c /\ c_data c <> Null /\ cell_of c q.
Proof.
  intros H E q. destruct (reached dbg p n m0 s w s' k H E) as (M & O & A). pose proof M as (Em & _). rewrite Em. split.
  - intros V. destruct (proj1 A q V) as [V0|(t & x & Ex & Cx)]; [left; exact V0|]. right.
    destruct (match_tab w k t x M Ex) as (c & Ec & R). exists t, c. unfold var in Ec. destruct (k_tabs k t) as [c'|]; [|discriminate].
    injection Ec as ->. split; [reflexivity|]. apply (tab_cell_of c x q R) in Cx. destruct Cx as [Nb Cq]. split; [|exact Cq].
    destruct R as (_ & _ & -> & _). unfold base. destruct (t_block x); [discriminate|congruence].
  - intros [V0|(t & c & Et & Nn & Cq)]; [exact (proj1 (proj2 A) q V0)|].
    rewrite <- Em. exact (proj1 (proj1 (separate_l dbg p n m0 s w s' k H E t c Et) Nn q Cq)).
Qed.

Lemma frame_l {S T} dbg (p : program S T) n m0 s w s' k (o : op S T) w' r : wruns dbg p n (winit m0) s w s' ->
  kruns dbg p n (kinit m0) s = Ok (k, s') -> wstep dbg w o w' r ->
  exists k', kstep dbg k o = Ok (k', r) /\
    forall q, valid (k_mem k) q -> ~ written k o q -> ~ ended k o q -> peek (k_mem k') q = peek (k_mem k) q.
Proof.
  intros H E St. destruct (reached dbg p n m0 s w s' k H E) as (M & O & A).
  destruct (step_sim dbg w o w' r k St M O) as (k' & E' & M' & _). exists k'. split; [exact E'|].
  intros q V Nw Ne. pose proof M as (Em & _). pose proof M' as (Em' & _). rewrite Em, Em' in *.
  apply (step_keeps dbg m0 w o w' r k q St M O A V).
  - intros h a I N C. destruct (match_get w k h a M N) as (c & Ec & R). apply Nw. exists h, c. split; [exact I|]. split; [exact Ec|].
    apply (rep_cells c a q R). exact C.
  - intros t x Ho Ex Cx. destruct (match_tab w k t x M Ex) as (c & Ec & R). apply Ne. exists t, c. split; [exact Ho|].
    unfold var in Ec. destruct (k_tabs k t) as [c'|]; [|discriminate]. injection Ec as ->. split; [reflexivity|].
    apply (tab_cell_of c x q R). exact Cx.
Qed.

Lemma ended_l {S T} dbg (p : program S T) n m0 s w s' k (o : op S T) w' r : wruns dbg p n (winit m0) s w s' ->
  kruns dbg p n (kinit m0) s = Ok (k, s') -> wstep dbg w o w' r ->
  forall t c, ends k o t -> k_tabs k t = Some c ->
  exists k', kstep dbg k o = Ok (k', r) /\ k_views k' = k_views k /\
    forall q, c_data c <> Null -> cell_of c q -> ~ valid (k_mem k') q.
Proof.
  intros H E St t c Ho Et. destruct (reached dbg p n m0 s w s' k H E) as (M & O & A).
  destruct (step_sim dbg w o w' r k St M O) as (k' & E' & M' & _). exists k'. split; [exact E'|].
  destruct (tab_back w k t c M Et) as (x & Ex & R). pose proof R as (_ & _ & Ed & _). split.
  - destruct Ho as [->|(Hs & h & ->)]; cbn [kstep] in E'; unfold var in E'; rewrite Et in E'; cbn [bind] in E'.
    + apply bind_inv in E' as (m1 & _ & E'). injection E' as <- _. reflexivity.
    + apply bind_inv in E' as (c1 & _ & E'). apply bind_inv in E' as ([m1 d1] & _ & E'). injection E' as <- _. reflexivity.
  - intros q Nn Cq V. pose proof M' as (Em' & _). rewrite Em' in V.
    assert (Nb : t_block x <> None) by (intros C; apply Nn; rewrite Ed; unfold base; rewrite C; reflexivity).
    pose proof (proj2 (tab_cell_of c x q R) (conj Nb Cq)) as (b & z & Eb & -> & _).
    destruct Ho as [->|(Hs & h & ->)].
    + remember (ODrop t) as o eqn:Eo. destruct St; try discriminate. injection Eo as ->. rewrite Ex in H0. injection H0 as <-.
      destruct (take_back_cells _ _ _ V) as [_ N]. exact (N b z Eb eq_refl).
    + rewrite (stack_is w k t x M Ex) in Hs. remember (OAssign t h) as o eqn:Eo. destruct St; try discriminate; injection Eo as -> ->;
        rewrite Ex in H0; injection H0 as <-; [|congruence].
      destruct (take_back_cells _ _ _ V) as [_ N]. exact (N b z Eb eq_refl).
Qed.

(** Values after assignments. *)
Lemma write_values {T} (vs : list T) : forall (m : mem T) b o, (forall j, (j < length vs)%nat -> valid m (Ptr b (o + Z.of_nat j))) ->
  at_ (write_at m (Ptr b o) vs) (Ptr b o) vs.
Proof.
  induction vs as [|v vs IH]; intros m b o V; [intros [|k]; discriminate|]. cbn [write_at padd].
  assert (A : at_ (write_at (upd m (Ptr b o) v) (Ptr b (o + 1)) vs) (Ptr b (o + 1)) vs).
  { apply IH. intros j Hj. apply valid_upd. replace (o + 1 + Z.of_nat j) with (o + Z.of_nat (Datatypes.S j)) by lia. apply V. cbn. lia. }
  intros [|k] x Hk.
  - cbn in Hk. injection Hk as <-. cbn [padd Z.of_nat]. rewrite Z.add_0_r. unfold peek.
    rewrite write_keeps; [|intros j _ E; cbn [padd] in E; injection E as E; lia].
    rewrite cell_upd_same; [reflexivity|]. pose proof (V 0%nat ltac:(cbn; lia)) as V0. cbn [Z.of_nat] in V0. rewrite Z.add_0_r in V0. exact V0.
  - specialize (A k x Hk). cbn [padd] in *. replace (o + Z.of_nat (Datatypes.S k)) with (o + 1 + Z.of_nat k) by lia. exact A.
Qed.
Lemma dense_contents {T} (m : mem T) sh p vs : nonnegs (vals sh) -> Z.of_nat (length vs) = prod (vals sh) -> at_ m p vs ->
  contents m (dense sh p) vs.
Proof. intros N L A. unfold contents. cbn [dense a_dims a_at]. apply rank_values; assumption. Qed.
Lemma contents_at {T} (m : mem T) a vs : contents m a vs -> forall (m' : mem T) a', a_dims a' = a_dims a -> contents m' a' vs ->
  forall is_, in_box (a_dims a) is_ -> peek m' (a_at a' is_) = peek m (a_at a is_).
Proof.
  unfold contents. intros H m' a' E G is_ B. rewrite E in G. apply box_In in B. revert B H G.
  generalize (box (a_dims a)) as l. intros l I H. revert I. revert H. revert vs.
  induction l as [|x l IH]; intros vs H I G; [contradiction|]. inversion H; subst. inversion G; subst.
  destruct I as [<-|I]; [congruence|]. eapply IH; eassumption.
Qed.

Lemma assign_values {S T} dbg (w : world T) t h w' (r : res S T) k : wstep dbg w (OAssign t h) w' r -> matches w k -> owned w ->
  exists a x', names w h a /\ w_tabs w' t = Some x' /\ a_dims (array_of x') = a_dims a /\
    (forall is_, in_box (a_dims a) is_ -> peek (w_mem w') (a_at (array_of x') is_) = peek (w_mem w) (a_at a is_)) /\
    (stack_table k t = true -> w_tabs w t = Some x').
Proof.
  intros St M O. remember (OAssign t h) as o eqn:Eo. destruct St; try discriminate; injection Eo as -> ->.
  - destruct (named_legal w k h a sh p M H0 H1) as [-> Lg].
    pose proof (proj1 (contents_dense _ _ _ _ (proj1 (proj2 Lg)) H5)) as Lv.
    exists (dense sh p), (Tb sh false b). split; [exact H0|]. cbn [set_tab w_tabs w_mem]. rewrite bindv_same. split; [reflexivity|].
    split; [reflexivity|]. split; [|rewrite (stack_is w k t x M H), H2; discriminate].
    apply (contents_at _ _ vs H5); [reflexivity|]. apply dense_contents; [apply (proj1 (proj2 Lg))|exact Lv|].
    intros j v Hj. destruct (give_spec _ _ _ _ H6) as [_ Gb]. destruct b as [n|].
    + destruct Gb as (-> & _ & ->). cbn [t_block base]. rewrite take_back_keeps.
      * unfold peek, base. cbn [t_block padd cell]. rewrite nth_error_last. destruct (Z.leb_spec 0 (0 + Z.of_nat j)) as [_|]; [|lia].
        replace (Z.to_nat (0 + Z.of_nat j)) with j by lia. rewrite nth_error_map, Hj. reflexivity.
      * intros n o En E. unfold base in E. cbn [t_block padd] in E. injection E as E _.
        pose proof (owned_lt w t x n O H En). lia.
    + destruct Gb as (_ & E). destruct vs; [destruct j; discriminate|discriminate].
  - destruct (named_legal w k h a sh p M H0 H1) as [-> Lg].
    pose proof (proj1 (contents_dense _ _ _ _ (proj1 (proj2 Lg)) H6)) as Lv. destruct (tab_legal w k t x M H) as [Lgx _].
    exists (dense sh p), x. split; [exact H0|]. split; [exact H|]. split; [cbn; symmetry; exact H4|]. split; [|auto].
    apply (contents_at _ _ vs H6); [cbn; symmetry; exact H4|]. cbn [set_mem w_mem]. unfold array_of.
    apply dense_contents; [apply (proj1 (proj2 Lgx))|rewrite <- H4; exact Lv|]. apply at_app.
    destruct (t_block x) as [b|] eqn:Eb; [|congruence]. unfold base. rewrite Eb. apply write_values.
    intros j Hj. apply (proj1 O t x b H Eb). rewrite <- H4. lia.
Qed.
Lemma assign_values_l {S T} dbg (p : program S T) n m0 s w s' k t h w' (r : res S T) : wruns dbg p n (winit m0) s w s' ->
  kruns dbg p n (kinit m0) s = Ok (k, s') -> wstep dbg w (OAssign t h) w' r ->
  exists k' c c', kstep dbg k (OAssign t h) = Ok (k', r) /\ kget k h = Ok c /\ k_tabs k' t = Some c' /\ dims c' = dims c /\
    (forall is_, in_box (dims c) is_ -> peek (k_mem k') (elem c' is_) = peek (k_mem k) (elem c is_)) /\
    (stack_table k t = true -> k_tabs k t = Some c').
Proof.
  intros H E St. destruct (reached dbg p n m0 s w s' k H E) as (M & O & A).
  destruct (step_sim dbg w _ w' r k St M O) as (k' & E' & M' & _).
  destruct (assign_values dbg w t h w' r k St M O) as (a & x' & Na & Ex' & Ed & Pv & Sx).
  destruct (match_get w k h a M Na) as (c & Ec & R). destruct (match_tab w' k' t x' M' Ex') as (c' & Ec' & R').
  exists k', c, c'. split; [exact E'|]. split; [exact Ec|]. unfold var in Ec'. destruct (k_tabs k' t) as [c1|] eqn:Et'; [|discriminate]. injection Ec' as ->.
  split; [reflexivity|]. pose proof (rep_of_tab _ _ R') as (Ed' & _ & _ & _ & El' & _). pose proof R as (Edc & _ & _ & _ & El & _).
  assert (Edd : dims c' = dims c) by congruence. split; [exact Edd|]. split.
  - intros is_ B. rewrite El by exact B. rewrite El' by (rewrite Edd; exact B).
    destruct M as (-> & _). destruct M' as (-> & _). apply Pv. rewrite <- Edc. exact B.
  - intros Hs. pose proof (Sx Hs) as Ex. destruct (match_tab w k t x' M Ex) as (c0 & Ec0 & R0). unfold var in Ec0.
    destruct (k_tabs k t) as [c1|] eqn:Et; [|discriminate]. injection Ec0 as ->. f_equal.
    cbn [kstep] in E'. unfold var in E'. rewrite Et in E'. cbn [bind] in E'. rewrite Ec in E'. cbn [bind] in E'.
    apply bind_inv in E' as ([m1 d1] & Ea & E'). injection E' as <- _. cbn [with_table k_tabs] in Et'. rewrite bindv_same in Et'. injection Et' as ->.
    unfold stack_table in Hs. rewrite Et in Hs. destruct (c_kind c0) eqn:Ek; try discriminate.
    unfold assign_stack_table in Ea. apply bind_inv in Ea as ([m2 l] & _ & Ea). apply bind_inv in Ea as ([[m3 d3] l3] & Es & Ea).
    apply bind_inv in Ea as (m4 & _ & Ea). injection Ea as _ <-. unfold swap_stack in Es. apply bind_inv in Es as (z & _ & Es).
    apply bind_inv in Es as (m5 & _ & Es). unfold swap_accessors in Es. rewrite Ek in Es. injection Es as _ <- _.
    destruct c0. cbn in *. subst. reflexivity.
Qed.

(** ** Checking by computation *)
Fixpoint all_some {A} (l : list (option A)) : option (list A) :=
  match l with
  | [] => Some []
  | Some x :: l => option_map (cons x) (all_some l)
  | None :: _ => None
  end.
Lemma contents_by {T} (m : mem T) a vs : all_some (map (fun is_ => peek m (a_at a is_)) (box (a_dims a))) = Some vs -> contents m a vs.
Proof.
  unfold contents. generalize (box (a_dims a)) as l. intros l. revert vs. induction l as [|is_ l IH]; intros vs H; cbn [map all_some] in H.
  - injection H as <-. constructor.
  - destruct (peek m (a_at a is_)) as [v|] eqn:E; [|discriminate].
    destruct (all_some (map (fun is_ => peek m (a_at a is_)) l)) as [us|]; [|discriminate]. cbn in H. injection H as <-.
    constructor; [exact E|apply IH; reflexivity].
Qed.
Lemma reaches_by {T} (m : mem T) o a :
  forallb (fun is_ => in_boxb (a_dims a) is_ && validb m (a_at a is_)) (box (a_dims o)) && implb (a_back a) (a_signed o) = true ->
  reaches m o a.
Proof.
  intros H. apply andb_true_iff in H as [H Hb]. split.
  - intros is_ B. rewrite forallb_forall in H. apply box_In in B. specialize (H is_ B). apply andb_true_iff in H as [H1 H2].
    split; [apply in_boxb_ok, H1|apply validb_true, H2].
  - intros E. rewrite E in Hb. exact Hb.
Qed.

(** The first and the last coordinate with a property, by looking at all of them. *)
Definition is_at {T} (m : mem T) (a : array) (f : T -> bool) (is_ : list Z) : bool :=
  match peek m (a_at a is_) with Some v => f v | None => false end.
Lemma find_split {A} (f : A -> bool) l : match List.find f l with
  | Some x => exists l1 l2, l = l1 ++ x :: l2 /\ f x = true /\ forall y, In y l1 -> f y = false
  | None => forall y, In y l -> f y = false end.
Proof.
  induction l as [|x l IH]; cbn [List.find]; [contradiction|]. destruct (f x) eqn:E.
  - exists [], l. split; [reflexivity|]. split; [exact E|contradiction].
  - destruct (List.find f l) as [y|].
    + destruct IH as (l1 & l2 & -> & Fy & N). exists (x :: l1), l2. split; [reflexivity|]. split; [exact Fy|].
      intros z [<-|I]; [exact E|exact (N z I)].
    + intros z [<-|I]; [exact E|exact (IH z I)].
Qed.
Lemma is_at_true {T} (m : mem T) a f is_ : is_at m a f is_ = true -> exists v, peek m (a_at a is_) = Some v /\ f v = true.
Proof. unfold is_at. destruct (peek m (a_at a is_)); [eauto|discriminate]. Qed.
Lemma is_at_false {T} (m : mem T) a f is_ v : is_at m a f is_ = false -> peek m (a_at a is_) = Some v -> f v = false.
Proof. unfold is_at. intros H E. rewrite E in H. exact H. Qed.
Lemma first_by {T} (m : mem T) a f r : List.find (is_at m a f) (box (a_dims a)) = r -> first_where m a f r.
Proof.
  intros <-. pose proof (find_split (is_at m a f) (box (a_dims a))) as H. destruct (List.find _ _) as [is_|]; cbn [first_where].
  - destruct H as (l1 & l2 & E & Fi & N). split; [apply box_In; rewrite E; apply in_or_app; right; left; reflexivity|].
    split; [exact (is_at_true _ _ _ _ Fi)|]. intros js v B L P. apply (is_at_false m a f js v); [|exact P]. apply N.
    apply (OverlapFacts.lex_before _ _ _ _ js E). auto.
  - intros js v B P. apply (is_at_false m a f js v); [|exact P]. apply H, box_In, B.
Qed.
Lemma last_by {T} (m : mem T) a f r : List.find (is_at m a f) (rev (box (a_dims a))) = r -> last_where m a f r.
Proof.
  intros <-. pose proof (find_split (is_at m a f) (rev (box (a_dims a)))) as H. destruct (List.find _ _) as [is_|]; cbn [last_where].
  - destruct H as (l1 & l2 & E & Fi & N). apply (f_equal (@rev _)) in E. rewrite rev_involutive, rev_app_distr in E. cbn [rev] in E.
    rewrite <- app_assoc in E. cbn [app] in E.
    assert (B0 : in_box (a_dims a) is_) by (apply box_In; rewrite E; apply in_or_app; right; left; reflexivity).
    split; [exact B0|]. split; [exact (is_at_true _ _ _ _ Fi)|].
    intros js v B L P. apply (is_at_false m a f js v); [|exact P]. apply N. apply in_rev.
    pose proof (proj2 (box_In _ _) B) as I. rewrite E in I. apply in_app_or in I. destruct I as [I|[<-|I]]; [exfalso|exfalso|exact I].
    + apply (OverlapFacts.lex_before _ _ _ _ js E) in I as [_ L']. exact (lex_asym _ _ L' L).
    + exact (lex_asym _ _ L L).
  - intros js v B P. apply (is_at_false m a f js v); [|exact P]. apply H. apply -> in_rev. apply box_In, B.
Qed.
