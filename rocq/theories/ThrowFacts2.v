From Coq Require Import Arith List Bool Lia.
From Verif Require Import Outcome Memory MemFacts ForEachSpec ForEachFacts Alloc AllocSpec Lifetime LifetimeSpec LifetimeFacts
  FailSpec Throw ThrowSpec ThrowFacts.
Import ListNotations.

(** Rewriting up to the name of the type of the storage. *)
Ltac use E :=
  match type of E with ?l = _ =>
    match l with
    | t_default _ _ _ _ _ => match goal with |- context [t_default ?f ?c ?n ?b ?s] => change (t_default f c n b s) with l end
    | t_from _ _ _ _ _ _ => match goal with |- context [t_from ?f ?c ?n ?g ?b ?s] => change (t_from f c n g b s) with l end
    | t_move _ _ _ _ _ _ => match goal with |- context [t_move ?f ?c ?n ?g ?b ?s] => change (t_move f c n g b s) with l end
    | _ => idtac
    end
  end; rewrite E.

Section Histories.
  Context {T : Type} (fails : ekind -> nat -> bool) (tc : tclass T) (n : nat).
  Notation ec := (t_class tc).
  Implicit Types (s : sstate T) (e : nat -> option (list T)).

  Lemma hold_none' s e v : tables_hold n s e -> s_vars s v = None -> e v = None.
  Proof. intros (H & _) E. specialize (H v). rewrite E in H. destruct (e v); [contradiction|reflexivity]. Qed.

  (** A new block without objects. *)
  Lemma hold_ghost s e h' : tables_hold n s e -> same_but [length (s_slots s)] (s_slots s) h' ->
    nth_error h' (length (s_slots s)) = Some (repeat None n) ->
    tables_hold n (SS h' (s_vars s)) e /\ as_before s (SS h' (s_vars s)).
  Proof.
    intros H S B. assert (K : forall v b, s_vars s v = Some b -> nth_error h' b = nth_error (s_slots s) b).
    { intros v b E. apply S. pose proof (hold_lt n s e v b H E). simpl. lia. }
    split; [|split; [reflexivity|exact K]]. apply (hold_change n s e); [exact H| |].
    - intros w. destruct (s_vars s w) as [b|] eqn:E; [|exact (hold_none' s e w H E)].
      destruct (hold_var n s e w b H E) as (l & A & L & D). exists l. rewrite (K w b E). auto.
    - intros b. destruct (Nat.eq_dec b (length (s_slots s))) as [->|N]; [right; right; exists n; exact B|].
      left. apply S. simpl. intuition.
  Qed.

  (** A new table. *)
  Lemma hold_made s e h' v l : tables_hold n s e -> e v = None -> same_but [length (s_slots s)] (s_slots s) h' ->
    nth_error h' (length (s_slots s)) = Some (map Some l) -> length l = n ->
    tables_hold n (SS h' (bindv (s_vars s) v (Some (length (s_slots s))))) (set e v (Some l)).
  Proof.
    intros H V S B L. apply (hold_new n s e _ h' v l); try assumption.
    - exact (hold_none n s e v H V).
    - apply set_eq.
    - intros w N. rewrite set_ne by exact N. destruct (s_vars s w) as [b|] eqn:E; [|exact (hold_none' s e w H E)].
      apply (hold_keep n s e h' [length (s_slots s)]); try assumption. pose proof (hold_lt n s e w b H E). simpl. lia.
    - intros b N. left. apply S. simpl. intuition.
  Qed.

  (** One table changes. *)
  Lemma hold_one s e h' v b l : tables_hold n s e -> s_vars s v = Some b -> same_but [b] (s_slots s) h' ->
    nth_error h' b = Some (map Some l) -> length l = n -> tables_hold n (SS h' (s_vars s)) (set e v (Some l)).
  Proof.
    intros H V S B L. pose proof H as (_ & H2 & _). apply (hold_change n s e); [exact H| |].
    - intros w. destruct (s_vars s w) as [d|] eqn:E.
      + destruct (Nat.eq_dec w v) as [->|N].
        * rewrite set_eq. exists l. replace d with b by congruence. auto.
        * rewrite set_ne by exact N. apply (hold_keep n s e h' [b]); try assumption. simpl. intros [->|[]]. apply N. eapply H2; eassumption.
      + destruct (Nat.eq_dec w v) as [->|N]; [congruence|]. rewrite set_ne by exact N. exact (hold_none' s e w H E).
    - intros d. destruct (Nat.eq_dec d b) as [->|N]; [right; left; exists v; exact V|]. left. apply S. simpl. intuition.
  Qed.

  (** Two tables change. *)
  Lemma hold_two s e h' v w b c l l' : tables_hold n s e -> v <> w -> s_vars s v = Some b -> s_vars s w = Some c ->
    same_but [b; c] (s_slots s) h' -> nth_error h' b = Some (map Some l) -> length l = n ->
    nth_error h' c = Some (map Some l') -> length l' = n ->
    tables_hold n (SS h' (s_vars s)) (set (set e w (Some l')) v (Some l)).
  Proof.
    intros H Nvw V W S B L C L'. pose proof H as (_ & H2 & _). apply (hold_change n s e); [exact H| |].
    - intros u. destruct (s_vars s u) as [d|] eqn:E.
      + destruct (Nat.eq_dec u v) as [->|N].
        * rewrite set_eq. exists l. replace d with b by congruence. auto.
        * rewrite set_ne by exact N. destruct (Nat.eq_dec u w) as [->|Nw].
          -- rewrite set_eq. exists l'. replace d with c by congruence. auto.
          -- rewrite set_ne by exact Nw. apply (hold_keep n s e h' [b; c]); try assumption.
             simpl. intros [->|[->|[]]]; [apply N|apply Nw]; eapply H2; eassumption.
      + destruct (Nat.eq_dec u v) as [->|N]; [congruence|]. rewrite set_ne by exact N.
        destruct (Nat.eq_dec u w) as [->|Nw]; [congruence|]. rewrite set_ne by exact Nw. exact (hold_none' s e u H E).
    - intros d. destruct (Nat.eq_dec d b) as [->|N]; [right; left; exists v; exact V|].
      destruct (Nat.eq_dec d c) as [->|N']; [right; left; exists w; exact W|]. left. apply S. simpl. intuition.
  Qed.

  Lemma hold_ext s e e' : tables_hold n s e -> (forall v, e' v = e v) -> tables_hold n s e'.
  Proof. intros (H1 & H2 & H3) E. split; [|split; assumption]. intros v. rewrite E. apply H1. Qed.

  Definition step_says s t (o : xop T) (r : verdict ((nat -> option (list T)) * nat * bool)) : Prop :=
    match r with
    | Goes (e', t', x) => exists s', xstep fails tc n s t o = Ok (s', t', x) /\ tables_hold n s' e' /\
                            (x = true -> all_or_nothing o = true -> as_before s s')
    | Ends => xstep fails tc n s t o = Abort
    | Undefined => xstep fails tc n s t o = UB
    end.

  Lemma xstep_ok s e t o : tables_hold n s e -> step_says s t o (xtable_step fails tc n e t o).
  Proof.
    intros H. pose proof H as (H1 & H2 & H3). set (h := s_slots s). set (L := length h).
    assert (FreshL : forall w b, s_vars s w = Some b -> b <> L) by (intros w b E; pose proof (hold_lt n s e w b H E); unfold L, h; lia).
    assert (Sb : forall h' b, same_but [L] h h' -> b <> L -> nth_error h' b = nth_error h b) by (intros h' b S N; apply S; simpl; intuition).
    assert (Taken : forall v l, e v = Some l -> fresh (s_vars s) v = UB).
    { intros v l Ev. destruct (hold_some n s e v l H Ev) as (b & Eb & _). unfold fresh. rewrite Eb. reflexivity. }
    assert (Free : forall v, e v = None -> fresh (s_vars s) v = Ok tt).
    { intros v Ev. unfold fresh. rewrite (hold_none n s e v H Ev). reflexivity. }
    assert (Lacks : forall v, e v = None -> var (s_vars s) v = UB).
    { intros v Ev. unfold var. rewrite (hold_none n s e v H Ev). reflexivity. }
    assert (Blk : nth_error (h ++ [repeat None n]) L = Some (@repeat (option T) None n)) by apply new_blk.
    assert (SB0 : same_but [L] h (h ++ [repeat None n])) by (intros c N; apply app_blk; simpl in N; unfold L in N; intuition).
    destruct o as [v|[v|v xs|v w|v w|v w|v w|v w|v i x|v]]; cbn [xtable_step].
    - (* from settings *)
      destruct (e v) as [l|] eqn:Ev; [unfold step_says; unfold xstep, new_slots; fold h; cbv beta iota zeta; rewrite (Taken v l Ev); reflexivity|].
      unfold planned. cbn [table_step]. rewrite Ev. destruct (t_default_ok fails tc n h t) as (h' & B & S & E).
      unfold plan_new. rewrite repeat_length. fold (plan_new n).
      destruct (first_throw fails (plan_new n) t) as [k|]; unfold step_says, xstep, new_slots; fold h; cbv beta iota zeta; rewrite (Free v Ev); use E; cbn [bind].
      + eexists. split; [reflexivity|]. destruct (hold_ghost s e _ H SB0 Blk) as (A & A'). split; [exact A|]. intros _ _. exact A'.
      + eexists. split; [reflexivity|]. split; [|discriminate]. apply hold_made; try assumption. apply repeat_length.
    - (* default *)
      destruct (e v) as [l|] eqn:Ev; [unfold step_says; unfold xstep, new_slots; fold h; cbv beta iota zeta; rewrite (Taken v l Ev); reflexivity|].
      unfold planned. cbn [table_step]. rewrite Ev. destruct (t_default_ok fails tc n h t) as (h' & B & S & E).
      unfold plan_new. rewrite repeat_length. fold (plan_new n).
      destruct (first_throw fails (plan_new n) t) as [k|]; unfold step_says, xstep, new_slots; fold h; cbv beta iota zeta; rewrite (Free v Ev); use E; cbn [bind t_noexcept].
      + reflexivity.
      + eexists. split; [reflexivity|]. split; [|discriminate]. apply hold_made; try assumption. apply repeat_length.
    - (* from a source *)
      destruct (e v) as [l|] eqn:Ev; [unfold step_says; unfold xstep, new_slots; fold h; cbv beta iota zeta; rewrite (Taken v l Ev); reflexivity|].
      unfold planned. cbn [table_step]. rewrite Ev.
      pose (m := Nat.min n (length xs)). pose (l := firstn n xs ++ repeat (e_default ec) (n - m)).
      assert (Lf : length (firstn n xs) = m) by (apply firstn_length).
      assert (Ll : length l = n) by (unfold l; rewrite app_length, Lf, repeat_length; unfold m; lia).
      assert (Hn : forall k, k < m -> nth_error l k = nth_error xs k).
      { intros k K. unfold l. rewrite nth_error_app1 by lia. rewrite <- (firstn_skipn n xs) at 2. rewrite nth_error_app1 by lia. reflexivity. }
      destruct (t_from_ok fails tc n h l (from_list xs) m t Ll ltac:(unfold m; lia)) as (h' & bad & B & S & Bad & E).
      { intros h' k x _ K Ex. unfold from_list. rewrite <- Hn by exact K. rewrite Ex. reflexivity. }
      { intros Hm h'. unfold from_list. rewrite (proj2 (nth_error_None xs m)) by (unfold m in *; lia). reflexivity. }
      assert (Pl : plan_from n m = plan_from n (length xs)) by (unfold plan_from; do 2 f_equal; unfold m; lia). rewrite Pl in E.
      destruct (first_throw fails (plan_from n (length xs)) t) as [k|]; unfold step_says.
      + unfold xstep, new_slots; fold h; cbv beta iota zeta; rewrite (Free v Ev); use E; cbn [bind]. eexists. split; [reflexivity|].
        destruct (Bad k) as (Bk & Sk). destruct (hold_ghost s e _ H Sk Bk) as (A & A'). split; [exact A|]. intros _ _. exact A'.
      + destruct (Nat.leb_spec n (length xs)) as [Hl|Hl].
        * unfold xstep, new_slots; fold h; cbv beta iota zeta; rewrite (Free v Ev); use E. cbn [bind]. rewrite (proj2 (Nat.eqb_eq m n)) by (unfold m; lia). cbn [bind].
          eexists. split; [unfold plan_from; rewrite app_length, !repeat_length, Nat.min_l by exact Hl; reflexivity|].
          split; [|discriminate]. assert (El : l = firstn n xs) by (unfold l; replace (n - m) with 0 by (unfold m; lia); apply app_nil_r).
          rewrite <- El. apply hold_made; assumption.
        * unfold xstep, new_slots; fold h; cbv beta iota zeta; rewrite (Free v Ev); use E. cbn [bind].
          rewrite (proj2 (Nat.eqb_neq m n)) by (unfold m; lia). reflexivity.
    - (* copy *)
      destruct (e v) as [l0|] eqn:Ev; [unfold step_says; unfold xstep, new_slots; fold h; cbv beta iota zeta; rewrite (Taken v l0 Ev); reflexivity|].
      destruct (e w) as [l|] eqn:Ew; [|unfold step_says, xstep, new_slots; fold h; cbv beta iota zeta; rewrite (Free v Ev), (Lacks w Ew); reflexivity].
      unfold planned. cbn [table_step]. rewrite Ev, Ew.
      destruct (hold_some n s e w l H Ew) as (c & Ec & Ll & C). fold h in C.
      destruct (t_from_ok fails tc n h l (fun h i => look h c i) n t Ll (le_n n)) as (h' & bad & B & S & Bad & E).
      { intros h' k x S K Ex. unfold look, slot. rewrite (Sb _ _ S (FreshL w c Ec)), C. rewrite (nth_map_Some _ _ _ Ex). reflexivity. }
      { lia. }
      rewrite Nat.eqb_refl in E.
      destruct (first_throw fails (plan_from n n) t) as [k|]; unfold step_says, xstep, new_slots, var; fold h; cbv beta iota zeta; rewrite (Free v Ev), Ec; cbn [bind]; use E; cbn [bind].
      + eexists. split; [reflexivity|].
        destruct (Bad k) as (Bk & Sk). destruct (hold_ghost s e _ H Sk Bk) as (A & A'). split; [exact A|]. intros _ _. exact A'.
      + eexists. split; [unfold plan_from; rewrite app_length, !repeat_length, Nat.min_id; reflexivity|].
        split; [|discriminate]. apply hold_made; assumption.
    - (* move *)
      destruct (e v) as [l0|] eqn:Ev; [unfold step_says; unfold xstep, new_slots; fold h; cbv beta iota zeta; rewrite (Taken v l0 Ev); reflexivity|].
      destruct (e w) as [l|] eqn:Ew; [|unfold step_says, xstep, new_slots; fold h; cbv beta iota zeta; rewrite (Free v Ev), (Lacks w Ew); reflexivity].
      unfold planned. cbn [table_step]. rewrite Ev, Ew.
      destruct (hold_some n s e w l H Ew) as (c & Ec & Ll & C). fold h in C. pose proof (FreshL w c Ec) as Nc.
      destruct (t_move_ok fails tc n h c l t C Ll) as (h' & bad & B & C' & S & Bad & E).
      destruct (first_throw fails (plan_move n) t) as [k|] eqn:F; unfold step_says, xstep, new_slots, var; fold h; cbv beta iota zeta; rewrite (Free v Ev), Ec; cbn [bind]; use E; cbn [bind].
      + eexists. split; [reflexivity|]. split; [|discriminate].
        apply first_lt in F. unfold plan_move in F. rewrite repeat_length in F. destruct (Bad k F) as (Bk & Ck & Sk).
        apply (hold_change n s e); [exact H| |].
        * intros u. destruct (s_vars s u) as [d|] eqn:Eu.
          -- destruct (Nat.eq_dec u w) as [->|Nu].
             ++ rewrite set_eq. eexists. split; [reflexivity|]. rewrite until_len. replace d with c by congruence. auto.
             ++ rewrite set_ne by exact Nu. apply (hold_keep n s e _ [L; c]); try assumption. simpl. pose proof (FreshL u d Eu).
                intros [|[Hc|[]]]; [congruence|]. subst d. apply Nu. eapply H2; eassumption.
          -- destruct (Nat.eq_dec u w) as [->|Nu]; [congruence|]. rewrite set_ne by exact Nu. exact (hold_none' s e u H Eu).
        * intros d. destruct (Nat.eq_dec d L) as [->|Nd]; [right; right; exists n; exact Bk|].
          destruct (Nat.eq_dec d c) as [->|Ndc]; [right; left; exists w; exact Ec|]. left. apply Sk. simpl. unfold L in Nd. intuition.
      + eexists. split; [unfold plan_move; rewrite repeat_length; reflexivity|]. split; [|discriminate].
        apply (hold_new n s e _ h' v l); try assumption.
        * exact (hold_none n s e v H Ev).
        * apply set_eq.
        * intros u N. rewrite set_ne by exact N. destruct (s_vars s u) as [b|] eqn:Eu.
          -- destruct (Nat.eq_dec u w) as [->|Nu].
             ++ rewrite set_eq. exists (map (e_moved ec) l). rewrite map_length. replace b with c by congruence. auto.
             ++ rewrite set_ne by exact Nu. apply (hold_keep n s e h' [L; c]); try assumption. simpl. pose proof (FreshL u b Eu).
                intros [|[Hc|[]]]; [congruence|]. subst b. apply Nu. eapply H2; eassumption.
          -- destruct (Nat.eq_dec u w) as [->|Nu]; [congruence|]. rewrite set_ne by exact Nu. exact (hold_none' s e u H Eu).
        * intros b N. destruct (Nat.eq_dec b c) as [->|Nbc]; [right; exists w; exact Ec|].
          left. apply S. simpl. unfold L, h in *. intuition.
    - (* copy assignment *)
      destruct (e v) as [l0|] eqn:Ev; [|unfold step_says, xstep, new_slots; fold h; cbv beta iota zeta; rewrite (Lacks v Ev); reflexivity].
      destruct (hold_some n s e v l0 H Ev) as (b & Eb & Ll0 & B). fold h in B.
      destruct (e w) as [l|] eqn:Ew; [|unfold step_says, xstep, new_slots; fold h; cbv beta iota zeta; unfold var at 1; rewrite Eb; cbn [bind]; rewrite (Lacks w Ew); reflexivity].
      destruct (hold_some n s e w l H Ew) as (c & Ec & Ll & C). fold h in C.
      unfold planned. cbn [table_step]. rewrite Ev, Ew. rewrite first_app.
      destruct (t_from_ok fails tc n h l (fun h i => look h c i) n t Ll (le_n n)) as (h1 & bad & B1 & S1 & Bad & E).
      { intros h' k x S K Ex. unfold look, slot. rewrite (Sb _ _ S (FreshL w c Ec)), C. rewrite (nth_map_Some _ _ _ Ex). reflexivity. }
      { lia. }
      rewrite Nat.eqb_refl in E. pose proof (FreshL v b Eb) as Nb.
      assert (Lp : length (plan_from n n) = n + n) by (unfold plan_from; rewrite app_length, !repeat_length, Nat.min_id; reflexivity).
      destruct (first_throw fails (plan_from n n) t) as [k|] eqn:F.
      + apply first_lt in F. destruct (Nat.ltb_spec k (length (plan_from n n))); [|lia].
        unfold step_says, xstep, new_slots, var; fold h; cbv beta iota zeta; rewrite Eb, Ec; cbn [bind]; use E; cbn [bind].
        eexists. split; [reflexivity|].
        destruct (Bad k) as (Bk & Sk). destruct (hold_ghost s e _ H Sk Bk) as (A & A'). split; [exact A|]. intros _ _. exact A'.
      + destruct (swap_ok ec n h1 b L l0 l Nb) as (h2 & Es & B2 & B3 & S2); try assumption; [rewrite (Sb _ _ S1 Nb); exact B|].
        pose proof (t_swap_ok fails tc n h1 b L h2 (t + (n + n)) Es) as G. rewrite Lp.
        destruct (first_throw fails (plan_swap n) (t + (n + n))) as [k|] eqn:F2; cbn [option_map].
        * destruct (Nat.ltb_spec (n + n + k) (n + n)); [lia|].
          unfold step_says, xstep, new_slots, var; fold h; cbv beta iota zeta; rewrite Eb, Ec; cbn [bind]; use E; cbn [bind]. fold L. rewrite G. reflexivity.
        * unfold step_says, xstep, new_slots, var; fold h; cbv beta iota zeta; rewrite Eb, Ec; cbn [bind]; use E; cbn [bind]. fold L. rewrite G. cbn [bind].
          rewrite (destroy_ok n h2 L l0 B3 Ll0), bind_ok. eexists. split.
          { unfold plan_swap. rewrite app_length, Lp, repeat_length. do 3 f_equal. lia. }
          split; [|discriminate].
          apply (hold_change n s e); [exact H| |].
          -- intros u. destruct (s_vars s u) as [d|] eqn:Eu.
             ++ pose proof (FreshL u d Eu) as Nd. destruct (Nat.eq_dec u v) as [->|Nu].
                ** rewrite set_eq. exists l. replace d with b by congruence. rewrite set_nth_other by auto. auto.
                ** rewrite set_ne by exact Nu. destruct (hold_var n s e u d H Eu) as (l' & E' & Ll' & D). exists l'.
                   rewrite set_nth_other by auto. assert (Nd' : d <> b) by (intros ->; apply Nu; eapply H2; eassumption).
                   rewrite S2 by (simpl; intuition). rewrite (Sb _ _ S1 Nd). auto.
             ++ destruct (Nat.eq_dec u v) as [->|Nu]; [congruence|]. rewrite set_ne by exact Nu. exact (hold_none' s e u H Eu).
          -- intros d. destruct (Nat.eq_dec d L) as [->|Nd].
             ++ right. right. exists n. apply set_nth_same. eapply blk_lt; exact B3.
             ++ destruct (Nat.eq_dec d b) as [->|Ndb]; [right; left; exists v; exact Eb|].
                left. rewrite set_nth_other by auto. rewrite S2 by (simpl; intuition). apply (Sb _ _ S1 Nd).
    - (* move assignment *)
      destruct (e v) as [l0|] eqn:Ev; [|unfold step_says, xstep, new_slots; fold h; cbv beta iota zeta; rewrite (Lacks v Ev); reflexivity].
      destruct (hold_some n s e v l0 H Ev) as (b & Eb & Ll0 & B). fold h in B.
      destruct (e w) as [l|] eqn:Ew; [|unfold step_says, xstep, new_slots; fold h; cbv beta iota zeta; unfold var at 1; rewrite Eb; cbn [bind]; rewrite (Lacks w Ew); reflexivity].
      destruct (hold_some n s e w l H Ew) as (c & Ec & Ll & C). fold h in C.
      unfold planned. cbn [table_step]. rewrite Ev, Ew.
      destruct (Nat.eqb_spec v w) as [->|Nvw].
      + assert (l0 = l) by congruence. subst l0. assert (c = b) by congruence. subst c.
        pose proof (t_self_ok fails tc n h b l t B Ll) as E.
        destruct (first_throw fails (plan_move n) t) as [k|] eqn:F; unfold step_says, xstep, new_slots, var; fold h; cbv beta iota zeta; rewrite Eb; cbn [bind]; use E; cbn [bind].
        * eexists. split; [reflexivity|]. split; [|discriminate]. apply (hold_one s e _ w b); try assumption; [apply same_set| |rewrite until_len; exact Ll].
          apply set_nth_same. eapply blk_lt; exact B.
        * eexists. split; [unfold plan_move; rewrite repeat_length; reflexivity|]. split; [|discriminate].
          apply (hold_one s e _ w b); try assumption; [apply same_set| |rewrite map_length; exact Ll].
          apply set_nth_same. eapply blk_lt; exact B.
      + assert (Nbc : b <> c) by (intros ->; apply Nvw; eapply H2; eassumption).
        destruct (t_massign_ok fails tc n h b c l0 l t Nbc B C Ll0 Ll) as (h' & bad & B' & C' & S & Bad & E).
        destruct (first_throw fails (plan_move n) t) as [k|] eqn:F; unfold step_says, xstep, new_slots, var; fold h; cbv beta iota zeta; rewrite Eb, Ec; cbn [bind]; use E; cbn [bind].
        * apply first_lt in F. unfold plan_move in F. rewrite repeat_length in F. destruct (Bad k F) as (Bk & Ck & Sk).
          eexists. split; [reflexivity|]. split; [|discriminate].
          apply (hold_two s e _ v w b c); try assumption; [rewrite half_len; lia|rewrite until_len; exact Ll].
        * eexists. split; [unfold plan_move; rewrite repeat_length; reflexivity|]. split; [|discriminate].
          apply (hold_two s e _ v w b c); try assumption. rewrite map_length; exact Ll.
    - (* swap *)
      destruct (e v) as [l0|] eqn:Ev; [|unfold step_says, xstep, new_slots; fold h; cbv beta iota zeta; rewrite (Lacks v Ev); reflexivity].
      destruct (hold_some n s e v l0 H Ev) as (b & Eb & Ll0 & B). fold h in B.
      destruct (e w) as [l|] eqn:Ew; [|unfold step_says, xstep, new_slots; fold h; cbv beta iota zeta; unfold var at 1; rewrite Eb; cbn [bind]; rewrite (Lacks w Ew); reflexivity].
      destruct (hold_some n s e w l H Ew) as (c & Ec & Ll & C). fold h in C.
      assert (G : exists h', stack_swap ec n b c h = Ok h' /\ tables_hold n (SS h' (s_vars s)) (set (set e v (Some l)) w (Some l0))).
      { destruct (Nat.eq_dec v w) as [->|Nvw].
        - assert (l0 = l) by congruence. subst l0. assert (c = b) by congruence. subst c. exists h.
          split; [exact (self_swap_ok ec n h b l B Ll)|]. apply (hold_ext _ (set e w (Some l))).
          + apply (hold_one s e h w b); try assumption. intros d _. reflexivity.
          + intros u. destruct (Nat.eq_dec u w) as [->|N]; [rewrite !set_eq; reflexivity|]. rewrite !set_ne by exact N. reflexivity.
        - assert (Nbc : b <> c) by (intros ->; apply Nvw; eapply H2; eassumption).
          destruct (swap_ok ec n h b c l0 l Nbc B C Ll0 Ll) as (h' & E & B' & C' & S). exists h'. split; [exact E|].
          apply (hold_two s e h' w v c b); try assumption; [congruence|]. intros d Hd. apply S. simpl in *. intuition. }
      destruct G as (h' & Es & A). pose proof (t_swap_ok fails tc n h b c h' t Es) as G.
      unfold planned. cbn [table_step]. rewrite Ev, Ew.
      destruct (first_throw fails (plan_swap n) t) as [k|]; unfold step_says, xstep, new_slots, var; fold h; cbv beta iota zeta; rewrite Eb, Ec; cbn [bind]; rewrite G; cbn [bind]; [reflexivity|].
      eexists. split; [unfold plan_swap; rewrite repeat_length; reflexivity|]. split; [exact A|discriminate].
    - (* write *)
      destruct (e v) as [l|] eqn:Ev; [|unfold step_says, xstep, new_slots; fold h; cbv beta iota zeta; rewrite (Lacks v Ev); reflexivity].
      destruct (hold_some n s e v l H Ev) as (b & Eb & Ll & B). fold h in B.
      assert (Es : forall (y : T) (l : list T) i, i < length l -> set_nth (map Some l) i (Some y) = map Some (firstn i l ++ y :: skipn (S i) l)).
      { clear. intros y. induction l as [|z l IH]; intros [|i] Hi; simpl in *; try lia; [reflexivity|]. f_equal. apply IH. lia. }
      destruct (Nat.ltb_spec i (length l)) as [Hi|Hi].
      + destruct (nth_exists l i Hi) as (y & Ey). unfold planned. cbn [table_step first_throw]. rewrite Ev. rewrite (proj2 (Nat.ltb_lt i (length l)) Hi).
        assert (Hl : forall z, length (firstn i l ++ z :: skipn (S i) l) = n).
        { intros z. rewrite app_length. cbn [length]. rewrite firstn_length, skipn_length. lia. }
        assert (Sk : skipn i l = y :: skipn (S i) l).
        { clear -Ey. revert i Ey. induction l as [|z l IH]; intros [|i] E; try discriminate; [injection E as ->; reflexivity|]. simpl in *. apply IH. exact E. }
        assert (Step : xstep fails tc n s t (XOp (SWrite v i x)) =
          Ok (SS (set_nth h b (map Some (firstn i l ++ (if fails KCopy t then t_broken tc y x else x) :: skipn (S i) l))) (s_vars s), S t, fails KCopy t)).
        { unfold xstep, new_slots, var; fold h; cbv beta iota zeta; rewrite Eb; cbn [bind]. unfold t_assign, look, slot, put_slot. rewrite B.
          rewrite (nth_map_Some _ _ _ Ey), bind_ok. rewrite !Es by exact Hi. destruct (fails KCopy t); reflexivity. }
        unfold step_says. destruct (fails KCopy t); cbn [option_map]; rewrite Step.
        * eexists. split; [do 3 f_equal; lia|]. split; [|discriminate]. rewrite Sk.
          apply (hold_one s e _ v b); try assumption; [apply same_set| |apply Hl]. apply set_nth_same. eapply blk_lt; exact B.
        * eexists. split; [cbn [length]; do 3 f_equal; lia|]. split; [|discriminate].
          apply (hold_one s e _ v b); try assumption; [apply same_set| |apply Hl]. apply set_nth_same. eapply blk_lt; exact B.
      + unfold step_says, xstep, new_slots, var; fold h; cbv beta iota zeta; rewrite Eb; cbn [bind]. unfold t_assign, look, slot. rewrite B.
        rewrite (proj2 (nth_error_None (map Some l) i)) by (rewrite map_length; exact Hi). reflexivity.
    - (* destroy *)
      unfold planned. cbn [first_throw table_step].
      destruct (e v) as [l|] eqn:Ev; [|unfold step_says, xstep, new_slots; fold h; cbv beta iota zeta; rewrite (Lacks v Ev); reflexivity].
      pose proof (step_ok ec n s e (SDestroy v) H) as G. cbn [table_step sstep] in G. rewrite Ev in G. destruct G as (s' & E & A).
      unfold step_says, xstep, new_slots; fold h. fold h in E. destruct (var (s_vars s) v) as [b| | |]; try discriminate. rewrite bind_ok in E |- *.
      destruct (stack_destroy n b h) as [h1| | |]; try discriminate. rewrite bind_ok in E |- *. injection E as <-.
      eexists. split; [cbn [length]; rewrite Nat.add_0_r; reflexivity|]. split; [exact A|discriminate].
  Qed.

  Lemma xruns_ok os : forall s e t, tables_hold n s e ->
    match xtable_runs fails tc n e t os with
    | Goes (e', t', xs) => exists s', xruns fails tc n s t os = Ok (s', t', xs) /\ tables_hold n s' e'
    | Ends => xruns fails tc n s t os = Abort
    | Undefined => xruns fails tc n s t os = UB
    end.
  Proof.
    induction os as [|o os IH]; intros s e t H; cbn [xtable_runs xruns]; [eauto|].
    pose proof (xstep_ok s e t o H) as G. unfold step_says in G. destruct (xtable_step fails tc n e t o) as [[[e1 t1] x]| |].
    - destruct G as (s1 & -> & H1 & _). rewrite bind_ok. specialize (IH s1 e1 t1 H1).
      destruct (xtable_runs fails tc n e1 t1 os) as [[[e2 t2] xs]| |].
      + destruct IH as (s2 & -> & H2). rewrite bind_ok. eauto.
      + rewrite IH. reflexivity.
      + rewrite IH. reflexivity.
    - rewrite G. reflexivity.
    - rewrite G. reflexivity.
  Qed.

  Lemma throwing_tables_l os :
    match xtable_runs fails tc n (fun _ => None) 0 os with
    | Goes (e, t, xs) => exists s, xruns fails tc n sinit 0 os = Ok (s, t, xs) /\ tables_hold n s e
    | Ends => xruns fails tc n sinit 0 os = Abort
    | Undefined => xruns fails tc n sinit 0 os = UB
    end.
  Proof. apply xruns_ok, init_hold. Qed.

  Lemma reached os s t xs : xruns fails tc n sinit 0 os = Ok (s, t, xs) -> exists e, tables_hold n s e.
  Proof.
    intros E. pose proof (throwing_tables_l os) as G. destruct (xtable_runs fails tc n (fun _ => None) 0 os) as [[[e t'] xs']| |]; [|congruence|congruence].
    destruct G as (s' & E' & H). exists e. congruence.
  Qed.

  Lemma throwing_end_l os s t xs : xruns fails tc n sinit 0 os = Ok (s, t, xs) -> (forall v, s_vars s v = None) ->
    forall b i x, slot (s_slots s) b i <> Some (Some x).
  Proof.
    intros E V b i x Hx. destruct (reached os s t xs E) as (e & (_ & _ & H3)).
    destruct (H3 b i x Hx) as (v & Ev). rewrite V in Ev. discriminate.
  Qed.

  Lemma strong_l os s t xs o s' t' : xruns fails tc n sinit 0 os = Ok (s, t, xs) ->
    all_or_nothing o = true -> xstep fails tc n s t o = Ok (s', t', true) -> as_before s s'.
  Proof.
    intros E A X. destruct (reached os s t xs E) as (e & H). pose proof (xstep_ok s e t o H) as G. unfold step_says in G.
    destruct (xtable_step fails tc n e t o) as [[[e1 t1] x]| |]; [|congruence|congruence].
    destruct G as (s1 & E1 & _ & B). assert (s1 = s' /\ x = true) as (-> & ->) by (split; congruence). auto.
  Qed.

  (** Moves that do not throw. *)
  Lemma no_throw_moves k t : (forall t, fails KMove t = false) -> first_throw fails (repeat KMove k) t = None.
  Proof.
    intros M. revert t. induction k as [|k IH]; intros t; [reflexivity|]. cbn [repeat first_throw]. rewrite M, IH. reflexivity.
  Qed.

  Lemma xstep_moves e t o : (forall t, fails KMove t = false) ->
    match xtable_step fails tc n e t o with
    | Goes (e', _, true) => (exists v i x, o = XOp (SWrite v i x)) \/ all_or_nothing o = true
    | Ends => default_construction o = true
    | _ => True
    end.
  Proof.
    intros M.
    destruct o as [v|[v|v xs|v w|v w|v w|v w|v w|v i x|v]]; cbn [xtable_step default_construction all_or_nothing]; unfold planned.
    - destruct (e v); [exact I|]. destruct (first_throw fails (plan_new n) t); [right; reflexivity|]. destruct (table_step ec n e (SDefault v)); exact I.
    - destruct (e v); [exact I|]. destruct (first_throw fails (plan_new n) t); [reflexivity|]. destruct (table_step ec n e (SDefault v)); exact I.
    - destruct (e v); [exact I|]. destruct (first_throw fails (plan_from n (length xs)) t); [right; reflexivity|]. destruct (table_step ec n e (SFrom v xs)); exact I.
    - destruct (e v); [exact I|]. destruct (e w); [|exact I]. destruct (first_throw fails (plan_from n n) t); [right; reflexivity|]. destruct (table_step ec n e (SCopy v w)); exact I.
    - destruct (e v); [exact I|]. destruct (e w); [|exact I]. unfold plan_move. rewrite (no_throw_moves n t M). destruct (table_step ec n e (SMove v w)); exact I.
    - destruct (e v); [|exact I]. destruct (e w); [|exact I]. rewrite first_app. unfold plan_swap. rewrite (no_throw_moves _ _ M). cbn [option_map].
      destruct (first_throw fails (plan_from n n) t) as [k|] eqn:F.
      + apply first_lt in F. destruct (Nat.ltb_spec k (length (plan_from n n))); [right; reflexivity|lia].
      + destruct (table_step ec n e (SCopyAssign v w)); exact I.
    - destruct (e v); [|exact I]. destruct (e w); [|exact I]. unfold plan_move. rewrite (no_throw_moves n t M). destruct (table_step ec n e (SMoveAssign v w)); exact I.
    - destruct (e v); [|exact I]. destruct (e w); [|exact I]. unfold plan_swap. rewrite (no_throw_moves _ t M). destruct (table_step ec n e (SSwap v w)); exact I.
    - destruct (e v); [|exact I]. destruct (i <? length l); [|exact I]. destruct (first_throw fails [KCopy] t); [left; eauto|].
      destruct (table_step ec n e (SWrite v i x)); exact I.
    - cbn [first_throw]. destruct (table_step ec n e (SDestroy v)); exact I.
  Qed.

  Lemma safe_moves_l os s t xs o : (forall t, fails KMove t = false) -> xruns fails tc n sinit 0 os = Ok (s, t, xs) ->
    (xstep fails tc n s t o = Abort -> default_construction o = true) /\
    (forall s' t', xstep fails tc n s t o = Ok (s', t', true) -> (exists v i x, o = XOp (SWrite v i x)) \/ as_before s s').
  Proof.
    intros M E. destruct (reached os s t xs E) as (e & H). pose proof (xstep_ok s e t o H) as G. unfold step_says in G.
    pose proof (xstep_moves e t o M) as K. destruct (xtable_step fails tc n e t o) as [[[e1 t1] x]| |].
    - destruct G as (s1 & E1 & _ & B). split; [congruence|]. intros s' t' X. assert (s1 = s' /\ x = true) as (-> & ->) by (split; congruence).
      destruct K as [K|K]; [left; exact K|right; auto].
    - split; [intros _; exact K|]. congruence.
    - split; congruence.
  Qed.

  (** Moves that throw. *)
  Lemma moved_values_lost_l os s t xs v w l k : xruns fails tc n sinit 0 os = Ok (s, t, xs) -> s_vars s v = None ->
    (exists b, s_vars s w = Some b /\ nth_error (s_slots s) b = Some (map Some l)) ->
    first_throw fails (repeat KMove n) t = Some k ->
    exists s' t' b, xstep fails tc n s t (XOp (SMove v w)) = Ok (s', t', true) /\ s_vars s' v = None /\ s_vars s' w = Some b /\
      nth_error (s_slots s') b = Some (map Some (until (e_moved ec) (t_left tc) k l)).
  Proof.
    intros E V (b & W & B) F. destruct (reached os s t xs E) as (e & H). pose proof (xstep_ok s e t (XOp (SMove v w)) H) as G.
    unfold step_says in G. cbn [xtable_step] in G. rewrite (hold_none' s e v H V) in G.
    destruct (hold_var n s e w b H W) as (l' & Ew & Ll & B'). rewrite Ew in G.
    assert (l' = l).
    { assert (Q : map (@Some T) l' = map Some l) by congruence. clear -Q. revert l Q.
      induction l' as [|x l' IH]; intros [|y l] Q; try discriminate; [reflexivity|]. cbn in Q. injection Q as -> Q. f_equal. auto. }
    subst l'. unfold planned, plan_move in G. rewrite F in G. destruct G as (s' & E' & (A1 & _ & _) & _).
    assert (Nvw : v <> w) by congruence.
    pose proof (A1 w) as Aw. rewrite set_eq in Aw. destruct (s_vars s' w) as [b'|] eqn:W'; [|contradiction].
    pose proof (A1 v) as Av. rewrite set_ne in Av by exact Nvw. rewrite (hold_none' s e v H V) in Av.
    destruct (s_vars s' v) as [d|] eqn:V'; [contradiction|]. exists s', (t + k + 1), b'. tauto.
  Qed.

  Lemma swap_ends_l os s t xs v w k : xruns fails tc n sinit 0 os = Ok (s, t, xs) ->
    s_vars s v <> None -> s_vars s w <> None -> first_throw fails (repeat KMove (3 * n)) t = Some k ->
    xstep fails tc n s t (XOp (SSwap v w)) = Abort.
  Proof.
    intros E V W F. destruct (reached os s t xs E) as (e & H). pose proof (xstep_ok s e t (XOp (SSwap v w)) H) as G.
    unfold step_says in G. cbn [xtable_step] in G.
    destruct (s_vars s v) as [b|] eqn:Eb; [|congruence]. destruct (s_vars s w) as [c|] eqn:Ec; [|congruence].
    destruct (hold_var n s e v b H Eb) as (l & Ev & _). destruct (hold_var n s e w c H Ec) as (l' & Ew & _). rewrite Ev, Ew in G.
    unfold planned, plan_swap in G. rewrite F in G. exact G.
  Qed.

  Lemma copy_assign_ends_l os s t xs v w k : xruns fails tc n sinit 0 os = Ok (s, t, xs) ->
    s_vars s v <> None -> s_vars s w <> None -> first_throw fails (repeat KDefault n ++ repeat KCopy n) t = None ->
    first_throw fails (repeat KMove (3 * n)) (t + (n + n)) = Some k ->
    xstep fails tc n s t (XOp (SCopyAssign v w)) = Abort.
  Proof.
    intros E V W F F2. destruct (reached os s t xs E) as (e & H). pose proof (xstep_ok s e t (XOp (SCopyAssign v w)) H) as G.
    unfold step_says in G. cbn [xtable_step] in G.
    destruct (s_vars s v) as [b|] eqn:Eb; [|congruence]. destruct (s_vars s w) as [c|] eqn:Ec; [|congruence].
    destruct (hold_var n s e v b H Eb) as (l & Ev & _). destruct (hold_var n s e w c H Ec) as (l' & Ew & _). rewrite Ev, Ew in G.
    unfold planned in G. rewrite first_app in G. unfold plan_from at 1 in G. rewrite Nat.min_id, F in G.
    unfold plan_from in G. rewrite Nat.min_id, app_length, !repeat_length in G.
    unfold plan_swap in G. rewrite F2 in G. cbn [option_map] in G. destruct (Nat.ltb_spec (n + n + k) (n + n)); [lia|]. exact G.
  Qed.
End Histories.

(** Without exceptions, Lifetime.v. *)
Lemma never_first plan : forall t, first_throw (fun _ _ => false) plan t = None.
Proof. induction plan as [|k plan IH]; intros t; [reflexivity|]. cbn. rewrite IH. reflexivity. Qed.

Section Never.
  Context {T : Type} (tc : tclass T) (n : nat).
  Notation never := (fun (_ : ekind) (_ : nat) => false).

  Lemma never_step e t o : 
    match table_step (t_class tc) n e o, xtable_step never tc n e t (XOp o) with
    | Some e', Goes (e'', _, x) => e' = e'' /\ x = false
    | None, Undefined => True
    | _, _ => False
    end.
  Proof.
    destruct o as [v|v xs|v w|v w|v w|v w|v w|v i x|v]; cbn [xtable_step]; unfold planned; rewrite ?never_first; cbn [table_step].
    - destruct (e v); auto.
    - destruct (e v); auto. destruct (n <=? length xs); auto.
    - destruct (e v), (e w); auto.
    - destruct (e v), (e w); auto.
    - destruct (e v), (e w); auto.
    - destruct (e v), (e w); auto.
    - destruct (e v), (e w); auto.
    - destruct (e v); auto. destruct (i <? length l); auto.
    - destruct (e v); auto.
  Qed.

  Lemma never_runs os : forall e t,
    match table_runs (t_class tc) n e os, xtable_runs never tc n e t (map XOp os) with
    | Some e', Goes (e'', _, xs) => e' = e'' /\ xs = map (fun _ => false) os
    | None, Undefined => True
    | _, _ => False
    end.
  Proof.
    induction os as [|o os IH]; intros e t; cbn [table_runs xtable_runs map]; [auto|].
    pose proof (never_step e t o) as G. destruct (table_step (t_class tc) n e o) as [e1|], (xtable_step never tc n e t (XOp o)) as [[[e2 t2] x]| |]; try contradiction; try exact I.
    destruct G as (<- & ->). specialize (IH e1 t2). destruct (table_runs (t_class tc) n e1 os) as [e3|], (xtable_runs never tc n e1 t2 (map XOp os)) as [[[e4 t4] ys]| |]; try contradiction; try exact I.
    destruct IH as (<- & ->). auto.
  Qed.

  Lemma never_l os :
    match table_runs (t_class tc) n (fun _ => None) os with
    | Some e => exists s t, xruns never tc n sinit 0 (map XOp os) = Ok (s, t, map (fun _ => false) os) /\ tables_hold n s e
    | None => xruns never tc n sinit 0 (map XOp os) = UB
    end.
  Proof.
    pose proof (never_runs os (fun _ => None) 0) as G. pose proof (throwing_tables_l never tc n (map XOp os)) as K.
    destruct (table_runs (t_class tc) n (fun _ => None) os) as [e|], (xtable_runs never tc n (fun _ => None) 0 (map XOp os)) as [[[e2 t2] xs]| |]; try contradiction.
    - destruct G as (<- & ->). destruct K as (s & E & H). eauto.
    - exact K.
  Qed.
End Never.
