From Coq Require Import ZArith List Bool Lia PeanoNat.
From Verif Require Import Outcome Memory MemFacts Alloc AllocSpec AllocFacts AllocFacts2 AllocFacts3 Fail FailSpec FailFacts.
Import ListNotations.
Open Scope Z_scope.

(** ** An exception leaves everything as it was *)
Lemma untouched_refl s : untouched s s.
Proof. split; [reflexivity|]. exists []. rewrite app_nil_r. split; [reflexivity|contradiction]. Qed.

Lemma hallocate_untouched zero s k n : untouched s (fst (hallocate zero s k n)).
Proof.
  unfold hallocate. destruct ((n =? 0) && _); [apply untouched_refl|]. split; [reflexivity|].
  exists [Alloc k (h_next s) n]. split; [reflexivity|]. intros e [<-|[]]. exact Logic.I.
Qed.

Lemma fnew_throw throws zero f s k n s1 : fnew throws zero f s k n = (s1, None) -> untouched s s1.
Proof.
  destruct f; cbn [fnew].
  - destruct (hnew zero s k n). discriminate.
  - destruct (negb (Nat.eqb k 0) && throws k); intros E; [|discriminate]. injection E as <-. apply untouched_refl.
  - intros E. injection E as <-. apply hallocate_untouched.
  - destruct (hnew zero s k n). discriminate.
Qed.

Lemma next_fresh lost s x : SInv lost s x -> forall k n, ~ In (Alloc k (h_next s) n) (h_trace s).
Proof. intros (_ & F & _) k n H. specialize (F _ _ _ H). lia. Qed.

Lemma fcopy_throw lost throws zero f s t s1 : SInv lost s None -> fcopy throws zero f s t = Ok (s1, None) -> untouched s s1.
Proof.
  intros I. unfold fcopy. destruct (fnew throws zero f s 0 (ht_size t)) as [s0 [x|]] eqn:E.
  - destruct (ht_size t =? 0) eqn:Z0; [discriminate|]. destruct (hb_ptr (ht_blk t)) as [b|]; [|discriminate].
    destruct (hb_ptr x) as [p|] eqn:Hp; [|discriminate]. destruct f as [| | |j]; try discriminate.
    destruct ((0 <=? j) && (j <? ht_size t)); [|discriminate]. intros H. apply bind_inv in H as (s2 & D & H).
    injection H as <-. cbn [fnew] in E. unfold hnew, hallocate in E. rewrite Z0 in E. cbn [andb] in E.
    injection E as <- <-. cbn in Hp. injection Hp as <-. unfold hdestroy, hdelete in D. cbn in D. injection D as <-.
    split; [reflexivity|]. eexists. split; [cbn; rewrite <- !app_assoc; reflexivity|].
    intros e [<-|[<-|[<-|[]]]]; [exact Logic.I|exact Logic.I|]. exact (next_fresh _ _ _ I).
  - intros H. injection H as <-. exact (fnew_throw _ _ _ _ _ _ _ E).
Qed.

Lemma strong_l throws zero os s xs f o s' : fruns throws zero hinit os = Ok (s, xs) ->
  fstep throws zero f s o = Ok (s', true) -> untouched s s'.
Proof.
  intros R. destruct (fruns_inv throws zero os [] hinit s xs hinit_inv (NoDup_nil _) R) as (lost & I & _).
  destruct o as [v|v k n|v w|v w|v w|v w|v w|v]; cbn [fstep]; intros E.
  - destruct f; try (apply bind_inv in E as (? & _ & E); discriminate).
  - apply bind_inv in E as (? & _ & E). destruct (n <? 0); [discriminate|].
    destruct (fnew throws zero f s k n) as [s1 [y|]] eqn:N; [discriminate|]. injection E as <-. exact (fnew_throw _ _ _ _ _ _ _ N).
  - apply bind_inv in E as (? & _ & E). apply bind_inv in E as (t & _ & E). apply bind_inv in E as ([s1 [t1|]] & C & E); [discriminate|].
    injection E as <-. exact (fcopy_throw _ _ _ _ _ _ _ I C).
  - apply bind_inv in E as (? & _ & E). discriminate.
  - apply bind_inv in E as (t & _ & E). apply bind_inv in E as (? & _ & E). apply bind_inv in E as ([s1 [t1|]] & C & E).
    + apply bind_inv in E as (? & _ & E). discriminate.
    + injection E as <-. exact (fcopy_throw _ _ _ _ _ _ _ I C).
  - apply bind_inv in E as (? & _ & E). discriminate.
  - apply bind_inv in E as (? & _ & E). discriminate.
  - apply bind_inv in E as (? & _ & E). discriminate.
Qed.

(** ** What a program sees *)
Lemma fresh_none {X} (e : vars X) v : e v = None -> fresh e v = Ok tt.
Proof. unfold fresh. intros ->. reflexivity. Qed.
Lemma var_some {X} (e : vars X) v x : e v = Some x -> var e v = Ok x.
Proof. unfold var. intros ->. reflexivity. Qed.

(** Without failure. *)
Lemma fcopy_fine throws zero f s t : (match f with Fine => True | BadCopy j => (0 <=? j) && (j <? ht_size t) = false | _ => False end) ->
  fcopy throws zero f s t = ' (s1, t1) <- hcopy zero s t ;; Ok (s1, Some t1).
Proof.
  unfold fcopy, hcopy. destruct f as [| | |j]; intros H; try contradiction; cbn [fnew];
    destruct (hnew zero s 0 (ht_size t)) as [s1 x] eqn:N;
    (destruct (ht_size t =? 0) eqn:Z0; [reflexivity|]); (destruct (hb_ptr (ht_blk t)); [|reflexivity]).
  - destruct (hb_ptr x) eqn:Hp; [reflexivity|]. unfold hnew, hallocate in N. rewrite Z0 in N. cbn [andb] in N.
    injection N as <- <-. discriminate.
  - destruct (hb_ptr x) eqn:Hp; [rewrite H; reflexivity|]. unfold hnew, hallocate in N. rewrite Z0 in N. cbn [andb] in N.
    injection N as <- <-. discriminate.
Qed.

Definition copy_source (o : hop) : option nat := match o with TCopy _ w | TCopyAssign _ w => Some w | _ => None end.

(** The steps in which nothing happens to fail. *)
Definition quiet (s : hstate) (o : hop) (f : fate) : Prop :=
  match o, f with
  | _, Fine => True
  | (TMove _ _ | TMoveAssign _ _ | TSwap _ _ | TDestroy _), _ => True
  | TDefault _, NoDeleter => False
  | TDefault _, _ => True
  | TNew _ _ _, BadCopy _ => True
  | (TCopy _ w | TCopyAssign _ w), BadCopy j =>
      forall t, h_tabs s w = Some t -> (0 <=? j) && (j <? ht_size t) = false
  | _, _ => False
  end.

Lemma quiet_step throws zero f s o r : quiet s o f -> (fstep throws zero f s o = Ok r <-> exists s', r = (s', false) /\ hstep zero s o = Ok s').
Proof.
  intros Q.
  assert (A : forall s' : hstate, s' = s' /\ false = false) by auto.
  assert (Same : forall e : outcome hstate, (s1 <- e ;; Ok (s1, false)) = Ok r <-> exists s', r = (s', false) /\ e = Ok s').
  { intros e. split.
    - intros E. apply bind_inv in E as (s1 & -> & E). injection E as <-. eauto.
    - intros (s' & -> & ->). reflexivity. }
  destruct o as [v|v k n|v w|v w|v w|v w|v w|v]; cbn [fstep]; try apply Same.
  - destruct f; try apply Same. contradiction.
  - assert (N : fnew throws zero f s k n = let '(s1, x) := hnew zero s k n in (s1, Some x)) by (destruct f; try contradiction; reflexivity).
    rewrite <- Same. cbn [hstep]. rewrite bind_assoc. destruct (fresh (h_tabs s) v); cbn [bind]; try reflexivity.
    destruct (n <? 0); [reflexivity|]. rewrite N. destruct (hnew zero s k n). reflexivity.
  - rewrite <- Same. cbn [hstep]. rewrite bind_assoc. destruct (fresh (h_tabs s) v); cbn [bind]; try reflexivity.
    rewrite bind_assoc. unfold var. destruct (h_tabs s w) as [t|] eqn:Hw; cbn [bind]; [|reflexivity].
    rewrite fcopy_fine; [|destruct f; cbn in Q; try exact Logic.I; try contradiction; exact (Q t Hw)].
    destruct (hcopy zero s t) as [[s1 t1]| | |]; reflexivity.
  - rewrite <- Same. cbn [hstep]. rewrite bind_assoc. unfold var at 1 3. destruct (h_tabs s w) as [t|] eqn:Hw; cbn [bind]; [|reflexivity].
    assert (C := fcopy_fine throws zero f s t). rewrite bind_assoc.
    unfold var at 1. destruct (h_tabs s v) as [old|] eqn:Hv; cbn [bind].
    + rewrite C; [|destruct f; cbn in Q; try exact Logic.I; try contradiction; exact (Q t Hw)].
      destruct (hcopy zero s t) as [[s1 t1]| | |] eqn:Hc; cbn [bind]; try reflexivity.
      rewrite (copy_tabs _ _ _ _ _ Hc). unfold var. rewrite Hv. reflexivity.
    + split; [discriminate|]. destruct (hcopy zero s t) as [[s1 t1]| | |] eqn:Hc; cbn [bind]; try discriminate.
      rewrite (copy_tabs _ _ _ _ _ Hc). unfold var. rewrite Hv. discriminate.
Qed.

Lemma quiet_sees lost zero s e o : SInv lost s None -> sees s e ->
  match size_step e o with
  | Some e' => exists s', hstep zero s o = Ok s' /\ sees s' e'
  | None => forall s', hstep zero s o <> Ok s'
  end.
Proof.
  intros I H. destruct (size_step e o) as [e1|] eqn:S.
  - destruct (proj2 (hstep_inv lost zero s o I) (size_step_allowed s e o e1 H S)) as (s1 & E1).
    destruct (step_sees zero s o s1 e H E1) as (e2 & S2 & H2). rewrite S in S2. injection S2 as <-. eauto.
  - intros s' E. destruct (step_sees zero s o s' e H E) as (e2 & S2 & _). congruence.
Qed.

Lemma filled_sees s e v : sees s e -> filled e v = option_map (fun t => (ht_size t, false)) (h_tabs s v).
Proof. intros H. unfold filled. rewrite (sees_at s e v H). destruct (h_tabs s v); reflexivity. Qed.

Lemma sees_untouched s s' e : untouched s s' -> sees s e -> sees s' e.
Proof. intros [T _] H. apply (sees_ext s s' e e H T). reflexivity. Qed.

(** Nothing but the end of the program by default construction is neither defined nor undefined. *)
Definition settled {X} (x : outcome X) : Prop := match x with Ok _ | UB => True | _ => False end.
Lemma settled_bind {X Y} (x : outcome X) (f : X -> outcome Y) : settled x -> (forall a, settled (f a)) -> settled (bind x f).
Proof. destruct x; cbn; intros H G; auto. Qed.
Lemma settled_fresh {X} (e : vars X) v : settled (fresh e v). Proof. unfold fresh. destruct (e v); exact Logic.I. Qed.
Lemma settled_var {X} (e : vars X) v : settled (var e v). Proof. unfold var. destruct (e v); exact Logic.I. Qed.
Lemma settled_delete s o b : settled (hdelete s o b).
Proof. unfold hdelete. destruct o; exact Logic.I. Qed.
Lemma settled_destroy s x : settled (hdestroy s x).
Proof. unfold hdestroy. destruct (hb_ptr x); [apply settled_delete|exact Logic.I]. Qed.
Lemma settled_hcopy zero s t : settled (hcopy zero s t).
Proof.
  unfold hcopy. destruct (hnew zero s 0 (ht_size t)) as [s1 x]. destruct (ht_size t =? 0); [exact Logic.I|].
  destruct (hb_ptr (ht_blk t)); exact Logic.I.
Qed.
Ltac settle := repeat first [apply settled_bind; [|intros ?] | apply settled_fresh | apply settled_var | apply settled_destroy
  | apply settled_delete | apply settled_hcopy | exact Logic.I
  | match goal with |- settled (match ?x with _ => _ end) => destruct x end
  | match goal with |- settled (if ?x then _ else _) => destruct x end].
Lemma settled_hstep zero s o : settled (hstep zero s o).
Proof. destruct o; cbn [hstep]; settle. Qed.
Lemma settled_fcopy throws zero f s t : settled (fcopy throws zero f s t).
Proof. unfold fcopy. destruct (fnew throws zero f s 0 (ht_size t)) as [s1 [x|]]; settle. Qed.
Lemma settled_fstep throws zero f s o : must_end o f = false -> settled (fstep throws zero f s o).
Proof.
  intros M. destruct o; cbn [fstep]; try (apply settled_bind; [apply settled_hstep|intros ?; exact Logic.I]).
  - destruct f; try discriminate; (apply settled_bind; [apply settled_hstep|intros ?; exact Logic.I]).
  - settle.
  - apply settled_bind; [apply settled_fresh|intros _]. apply settled_bind; [apply settled_var|intros t].
    apply settled_bind; [apply settled_fcopy|intros [s1 [t1|]]]; exact Logic.I.
  - apply settled_bind; [apply settled_var|intros t]. apply settled_bind; [apply settled_var|intros old].
    apply settled_bind; [apply settled_fcopy|intros [s1 [t1|]]]; [|exact Logic.I].
    apply settled_bind; [apply settled_destroy|intros ?; exact Logic.I].
Qed.
Lemma settled_not {X} (x : outcome X) : settled x -> (forall r, x <> Ok r) -> x = UB.
Proof. destruct x; cbn; intros H N; try contradiction; [exfalso; exact (N a eq_refl)|reflexivity]. Qed.

Lemma fstep_sees lost throws zero s e o f : SInv lost s None -> sees s e -> must_end o f = false ->
  match fsize_step throws e o f with
  | Some (e', x) => exists s', fstep throws zero f s o = Ok (s', x) /\ sees s' e'
  | None => forall r, fstep throws zero f s o <> Ok r
  end.
Proof.
  intros I H M.
  assert (Quiet : quiet s o f -> match size_step e o with
    | Some e' => exists s', fstep throws zero f s o = Ok (s', false) /\ sees s' e'
    | None => forall r, fstep throws zero f s o <> Ok r end).
  { intros Q. pose proof (quiet_sees lost zero s e o I H) as P. destruct (size_step e o) as [e1|].
    - destruct P as (s1 & E1 & H1). exists s1. split; [|exact H1]. apply (quiet_step throws zero f s o _ Q). eauto.
    - intros r E. apply (quiet_step throws zero f s o _ Q) in E as (s' & -> & E). exact (P s' E). }
  unfold fsize_step. destruct o as [v|v k n|v w|v w|v w|v w|v w|v]; cbn [must_throw].
  - (* TDefault *) destruct f; try (specialize (Quiet Logic.I); destruct (size_step e (TDefault v)); exact Quiet).
    discriminate M.
  - (* TNew *) destruct f.
    + specialize (Quiet Logic.I). destruct (size_step e (TNew v k n)); exact Quiet.
    + cbn [size_step fstep fnew]. unfold reports. rewrite (sees_at s e v H).
      destruct (negb (Nat.eqb k 0) && throws k); cbn [andb]; (destruct (n <? 0);
        [intros r Q; apply bind_inv in Q as (? & _ & Q); discriminate|]); (destruct (h_tabs s v) eqn:Hv; cbn [option_map];
        [intros r; unfold fresh; rewrite Hv; discriminate|]); rewrite (fresh_none _ _ Hv); cbn [bind]; [eauto|].
      eexists. split; [reflexivity|]. exact (sees_set s e v (Some (HT (HB None (Some k)) n)) H).
    + cbn [size_step fstep fnew]. rewrite (filled_sees s e v H).
      destruct (n <? 0); [intros r Q; apply bind_inv in Q as (? & _ & Q); discriminate|].
      destruct (h_tabs s v) eqn:Hv; cbn [option_map]; [intros r; unfold fresh; rewrite Hv; discriminate|].
      rewrite (fresh_none _ _ Hv). cbn [bind]. eexists. split; [reflexivity|].
      exact (sees_untouched _ _ _ (hallocate_untouched zero s k n) H).
    + specialize (Quiet Logic.I). destruct (size_step e (TNew v k n)); exact Quiet.
  - (* TCopy *) destruct f.
    + specialize (Quiet Logic.I). destruct (size_step e (TCopy v w)); exact Quiet.
    + cbn [size_step fstep]. rewrite (sees_at s e w H), (sees_at s e v H). destruct (h_tabs s w) as [t|] eqn:Hw; cbn [option_map].
      2: { intros r Q. apply bind_inv in Q as (? & _ & Q). unfold var in Q. rewrite Hw in Q. discriminate. }
      destruct (seen t) as [n m] eqn:St. assert (Hn : n = ht_size t) by (unfold seen in St; congruence). subst n.
      destruct (Z.eqb_spec (ht_size t) 0) as [Z0|Z0].
      * assert (m = false) as -> by (unfold seen in St; rewrite Z0 in St; destruct (hb_ptr (ht_blk t)); cbn in St; congruence).
        destruct (h_tabs s v) eqn:Hv; cbn [option_map]; [intros r; unfold fresh; rewrite Hv; discriminate|].
        rewrite (fresh_none _ _ Hv), (var_some _ _ _ Hw). cbn [bind]. unfold fcopy. cbn [fnew]. rewrite Z0. cbn.
        eexists. split; [reflexivity|].
        exact (sees_set s e v (Some (HT (HB None (Some 0%nat)) 0)) H).
      * assert (Un : forall r, fstep throws zero NoMemory s (TCopy v w) <> Ok r).
        { intros r Q. cbn [fstep] in Q. apply bind_inv in Q as (? & _ & Q). rewrite (var_some _ _ _ Hw) in Q. cbn [bind] in Q.
          unfold fcopy in Q. cbn [fnew] in Q. apply Z.eqb_neq in Z0. rewrite Z0 in Q. cbn in Q.
          destruct (hb_ptr (ht_blk t)); discriminate. }
        destruct m; [exact Un|]. destruct (h_tabs s v); exact Un.
    + cbn [size_step fstep]. rewrite (filled_sees s e w H), (filled_sees s e v H).
      destruct (h_tabs s w) as [t|] eqn:Hw; cbn [option_map].
      2: { intros r Q. apply bind_inv in Q as (? & _ & Q). unfold var in Q. rewrite Hw in Q. discriminate. }
      destruct (h_tabs s v) eqn:Hv; cbn [option_map]; [intros r; unfold fresh; rewrite Hv; discriminate|].
      rewrite (fresh_none _ _ Hv), (var_some _ _ _ Hw). cbn [bind]. unfold fcopy. cbn [fnew bind]. eexists. split; [reflexivity|].
      exact (sees_untouched _ _ _ (hallocate_untouched zero s 0 (ht_size t)) H).
    + rewrite (sees_at s e w H). destruct (h_tabs s w) as [t|] eqn:Hw; cbn [option_map].
      * unfold seen at 1. destruct ((0 <=? j) && (j <? ht_size t)) eqn:R.
        2: { assert (Q : quiet s (TCopy v w) (BadCopy j)) by (cbn; intros t' Ht'; rewrite Hw in Ht'; injection Ht' as <-; exact R).
             specialize (Quiet Q). destruct (size_step e (TCopy v w)); exact Quiet. }
        assert (Z0 : ht_size t <> 0) by (apply andb_true_iff in R as [R1 R2]; apply Z.leb_le in R1; apply Z.ltb_lt in R2; lia).
        cbn [size_step fstep]. rewrite (sees_at s e w H), (sees_at s e v H), Hw. cbn [option_map]. unfold seen at 1.
        rewrite (var_some _ _ _ Hw).
        assert (Cp : hb_ptr (ht_blk t) = None -> fcopy throws zero (BadCopy j) s t = UB).
        { intros Hp. unfold fcopy. cbn [fnew]. destruct (hnew zero s 0 (ht_size t)). apply Z.eqb_neq in Z0. rewrite Z0, Hp. reflexivity. }
        destruct (hb_ptr (ht_blk t)) as [b|] eqn:Hp.
        -- destruct (h_tabs s v) eqn:Hv; cbn [option_map]; [intros r; unfold fresh; rewrite Hv; discriminate|].
           rewrite (fresh_none _ _ Hv). cbn [bind].
           assert (Q : exists s1, fcopy throws zero (BadCopy j) s t = Ok (s1, None)).
           { unfold fcopy. cbn [fnew]. unfold hnew, hallocate. apply Z.eqb_neq in Z0. rewrite Z0. cbn [andb]. rewrite Hp. cbn [hb_ptr].
             rewrite R. cbn. eauto. }
           destruct Q as (s1 & Q). rewrite Q. cbn [bind]. exists s1. split; [reflexivity|].
           exact (sees_untouched _ _ _ (fcopy_throw _ _ _ _ _ _ _ I Q) H).
        -- apply Z.eqb_neq in Z0. rewrite Z0. cbn [negb]. intros r Q. apply bind_inv in Q as (? & _ & Q).
           cbn [bind] in Q. rewrite (Cp eq_refl) in Q. discriminate.
      * assert (Q : quiet s (TCopy v w) (BadCopy j)) by (cbn; intros t' Ht'; rewrite Hw in Ht'; discriminate Ht').
        specialize (Quiet Q). destruct (size_step e (TCopy v w)); exact Quiet.
  - specialize (Quiet ltac:(destruct f; exact Logic.I)). destruct f; destruct (size_step e (TMove v w)); exact Quiet.
  - (* TCopyAssign *) destruct f.
    + specialize (Quiet Logic.I). destruct (size_step e (TCopyAssign v w)); exact Quiet.
    + cbn [size_step fstep]. rewrite (sees_at s e w H), (sees_at s e v H). destruct (h_tabs s w) as [t|] eqn:Hw; cbn [option_map].
      2: { assert (Un : forall r, (t <- var (h_tabs s) w ;; old <- var (h_tabs s) v ;; ' (s1, r) <- fcopy throws zero NoMemory s t ;;
             match r with Some local => s2 <- hdestroy (with_tab s1 v (Some local)) (ht_blk old) ;; Ok (s2, false) | None => Ok (s1, true) end) <> Ok r)
             by (intros r; unfold var at 1; rewrite Hw; discriminate).
           destruct (h_tabs s v); exact Un. }
      rewrite (var_some _ _ _ Hw). cbn [bind].
      destruct (seen t) as [n m] eqn:St. assert (Hn : n = ht_size t) by (unfold seen in St; congruence). subst n.
      destruct (h_tabs s v) as [old|] eqn:Hv; cbn [option_map]; [|intros r; unfold var; rewrite Hv; discriminate].
      rewrite (var_some _ _ _ Hv). cbn [bind].
      destruct (Z.eqb_spec (ht_size t) 0) as [Z0|Z0].
      * assert (m = false) as -> by (unfold seen in St; rewrite Z0 in St; destruct (hb_ptr (ht_blk t)); cbn in St; congruence).
        unfold fcopy. cbn [fnew]. rewrite Z0. cbn -[hdestroy].
        destruct (fcopy_inv lost throws zero NoMemory s w t s (Some (HT (HB None (Some 0%nat)) 0)) I Hw) as (T & lost' & _ & I1 & _);
          [unfold fcopy; cbn [fnew]; rewrite Z0; reflexivity|].
        destruct (hdestroy_inv lost' _ _ (put_old _ _ _ _ _ _ I1 T Hv)) as (s2 & E2 & _ & T2). rewrite E2. cbn [bind].
        eexists. split; [reflexivity|]. apply (destroy_sees _ _ _ _ (sees_set s e v (Some (HT (HB None (Some 0%nat)) 0)) H) E2).
      * assert (Un : fcopy throws zero NoMemory s t = UB).
        { unfold fcopy. cbn [fnew]. apply Z.eqb_neq in Z0. rewrite Z0. cbn. destruct (hb_ptr (ht_blk t)); reflexivity. }
        rewrite Un. destruct m; intros r; discriminate.
    + cbn [size_step fstep]. rewrite (filled_sees s e w H), (filled_sees s e v H).
      destruct (h_tabs s v) as [old|] eqn:Hv; cbn [option_map].
      2: { intros r Q. apply bind_inv in Q as (? & _ & Q). unfold var in Q. rewrite Hv in Q. discriminate. }
      destruct (h_tabs s w) as [t|] eqn:Hw; cbn [option_map]; [|intros r; unfold var at 1; rewrite Hw; discriminate].
      rewrite (var_some _ _ _ Hw), (var_some _ _ _ Hv). cbn [bind]. unfold fcopy. cbn [fnew bind]. eexists. split; [reflexivity|].
      exact (sees_untouched _ _ _ (hallocate_untouched zero s 0 (ht_size t)) H).
    + rewrite (sees_at s e w H). destruct (h_tabs s w) as [t|] eqn:Hw; cbn [option_map].
      * unfold seen at 1. destruct ((0 <=? j) && (j <? ht_size t)) eqn:R.
        2: { assert (Q : quiet s (TCopyAssign v w) (BadCopy j)) by (cbn; intros t' Ht'; rewrite Hw in Ht'; injection Ht' as <-; exact R).
             specialize (Quiet Q). destruct (size_step e (TCopyAssign v w)); exact Quiet. }
        assert (Z0 : ht_size t <> 0) by (apply andb_true_iff in R as [R1 R2]; apply Z.leb_le in R1; apply Z.ltb_lt in R2; lia).
        cbn [size_step fstep]. rewrite (sees_at s e w H), (sees_at s e v H), Hw. cbn [option_map]. unfold seen at 2.
        rewrite (var_some _ _ _ Hw). cbn [bind].
        destruct (h_tabs s v) as [old|] eqn:Hv; cbn [option_map]; [|intros r; unfold var; rewrite Hv; discriminate].
        rewrite (var_some _ _ _ Hv). cbn [bind].
        destruct (hb_ptr (ht_blk t)) as [b|] eqn:Hp.
        -- assert (Q : exists s1, fcopy throws zero (BadCopy j) s t = Ok (s1, None)).
           { unfold fcopy. cbn [fnew]. unfold hnew, hallocate. apply Z.eqb_neq in Z0. rewrite Z0. cbn [andb]. rewrite Hp. cbn [hb_ptr].
             rewrite R. cbn. eauto. }
           destruct Q as (s1 & Q). rewrite Q. cbn [bind]. exists s1. split; [reflexivity|].
           exact (sees_untouched _ _ _ (fcopy_throw _ _ _ _ _ _ _ I Q) H).
        -- assert (Un : fcopy throws zero (BadCopy j) s t = UB).
           { unfold fcopy. cbn [fnew]. destruct (hnew zero s 0 (ht_size t)). apply Z.eqb_neq in Z0. rewrite Z0, Hp. reflexivity. }
           rewrite Un. apply Z.eqb_neq in Z0. rewrite Z0. cbn [negb]. intros r; discriminate.
      * assert (Q : quiet s (TCopyAssign v w) (BadCopy j)) by (cbn; intros t' Ht'; rewrite Hw in Ht'; discriminate Ht').
        specialize (Quiet Q). destruct (size_step e (TCopyAssign v w)); exact Quiet.
  - specialize (Quiet ltac:(destruct f; exact Logic.I)). destruct f; destruct (size_step e (TMoveAssign v w)); exact Quiet.
  - specialize (Quiet ltac:(destruct f; exact Logic.I)). destruct f; destruct (size_step e (TSwap v w)); exact Quiet.
  - specialize (Quiet ltac:(destruct f; exact Logic.I)). destruct f; destruct (size_step e (TDestroy v)); exact Quiet.
Qed.

Lemma fstep_end throws zero s e o f : sees s e -> must_end o f = true ->
  fstep throws zero f s o = match fsize_step throws e o f with Some _ => Abort | None => UB end.
Proof.
  intros H M. destruct o as [v| | | | | | |], f; try discriminate. unfold fsize_step. cbn [must_throw size_step fstep].
  rewrite (filled_sees s e v H). unfold fresh. destruct (h_tabs s v); reflexivity.
Qed.

Lemma fruns_sees throws zero os : forall lost s e, SInv lost s None -> sees s e ->
  match fsize_runs throws e os with
  | Goes (e', xs) => exists s', fruns throws zero s os = Ok (s', xs) /\ sees s' e'
  | Ends => fruns throws zero s os = Abort
  | Undefined => fruns throws zero s os = UB
  end.
Proof.
  induction os as [|[o f] os IH]; intros lost s e I H; cbn [fsize_runs fruns]; [eauto|].
  destruct (must_end o f) eqn:M.
  - rewrite (fstep_end throws zero s e o f H M). destruct (fsize_step throws e o f) as [[e1 x]|]; reflexivity.
  - pose proof (fstep_sees lost throws zero s e o f I H M) as P. destruct (fsize_step throws e o f) as [[e1 x]|].
    + destruct P as (s1 & E1 & H1). rewrite E1. cbn [bind]. destruct (fstep_inv _ _ _ _ _ _ _ _ I E1) as (lost1 & _ & I1).
      specialize (IH lost1 s1 e1 I1 H1). destruct (fsize_runs throws e1 os) as [[e2 xs]| |].
      * destruct IH as (s2 & -> & H2). cbn [bind]. eauto.
      * rewrite IH. reflexivity.
      * rewrite IH. reflexivity.
    + rewrite (settled_not _ (settled_fstep throws zero f s o M) P). reflexivity.
Qed.

Lemma fail_sizes_l throws zero os :
  match fsize_runs throws (fun _ => None) os with
  | Goes (e, xs) => exists s, fruns throws zero hinit os = Ok (s, xs) /\ sees s e
  | Ends => fruns throws zero hinit os = Abort
  | Undefined => fruns throws zero hinit os = UB
  end.
Proof. apply (fruns_sees throws zero os []); [exact hinit_inv|]. intros v. reflexivity. Qed.

Lemma null_table_l throws zero s v k n : h_tabs s v = None -> 0 < n -> k = 0%nat \/ throws k = false ->
  exists s' t, fstep throws zero NoMemory s (TNew v k n) = Ok (s', false) /\ h_trace s' = h_trace s /\
    h_tabs s' v = Some t /\ ht_size t = n /\ hollow t.
Proof.
  intros Hv Hn Hk. cbn [fstep]. rewrite (fresh_none _ _ Hv). cbn [bind]. destruct (Z.ltb_spec n 0); [lia|]. cbn [fnew].
  assert (negb (Nat.eqb k 0) && throws k = false) as ->.
  { destruct Hk as [->| ->]; [reflexivity|]. apply andb_false_r. }
  do 2 eexists. split; [reflexivity|]. split; [reflexivity|]. split; [cbn; apply bindv_same|]. split; [reflexivity|].
  split; [cbn; lia|reflexivity].
Qed.

Lemma null_copy_l throws zero s v w t : h_tabs s w = Some t -> ht_size t <> 0 ->
  (h_tabs s v = None -> fstep throws zero NoMemory s (TCopy v w) = UB) /\
  (h_tabs s v <> None -> fstep throws zero NoMemory s (TCopyAssign v w) = UB).
Proof.
  intros Hw Hn. apply Z.eqb_neq in Hn. cbn [fstep].
  assert (Un : fcopy throws zero NoMemory s t = UB).
  { unfold fcopy. cbn [fnew]. rewrite Hn. cbn. destruct (hb_ptr (ht_blk t)); reflexivity. }
  split; intros Hv.
  - rewrite (fresh_none _ _ Hv), (var_some _ _ _ Hw). cbn [bind]. rewrite Un. reflexivity.
  - destruct (h_tabs s v) as [old|] eqn:E; [|congruence]. rewrite (var_some _ _ _ Hw), (var_some _ _ _ E). cbn [bind].
    rewrite Un. reflexivity.
Qed.

Lemma default_ends_l throws zero s v : h_tabs s v = None -> fstep throws zero NoDeleter s (TDefault v) = Abort.
Proof. intros Hv. cbn [fstep]. rewrite (fresh_none _ _ Hv). reflexivity. Qed.
