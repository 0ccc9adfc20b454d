From Coq Require Import ZArith List Bool Lia Sorted.
From Verif Require Import Outcome CInt CIntFacts Spec SpecFacts ShapeSpec Shape ShapeFacts ShapeFacts2 ForEach ForEachSpec ForEachFacts
  Memory MemFacts Container ContainerSpec ContainerFacts ContainerFacts2 ContainerFacts3 Algo AlgoSpec AlgoFacts AlgoFacts2 AlgoFacts3 AlgoFacts4
  Slicer SlicerSpec LawFacts SplitSpec SplitFacts OverlapSpec.
Import ListNotations.
Open Scope Z_scope.

(** Coordinates before and after one of the list. *)
Lemma SS_split {A} (R : A -> A -> Prop) pre x post : StronglySorted R (pre ++ x :: post) ->
  (forall a, In a pre -> R a x) /\ (forall a, In a post -> R x a).
Proof.
  induction pre as [|y pre IH]; cbn; intros H.
  - apply StronglySorted_inv in H. destruct H as [_ F]. rewrite Forall_forall in F. split; [contradiction|exact F].
  - apply StronglySorted_inv in H. destruct H as [H F]. destruct (IH H) as [A1 A2]. split; [|exact A2].
    intros a [<-|I]; [|apply A1, I]. rewrite Forall_forall in F. apply F. apply in_elt.
Qed.
Lemma lex_irrefl a : ~ lex a a.
Proof. induction a; intros H; inversion H; subst; [lia|auto]. Qed.
Lemma lex_asym a b : lex a b -> lex b a -> False.
Proof. induction 1; intros H2; inversion H2; subst; try lia; auto. Qed.
Lemma lex_before ns pre is_ post a : box ns = pre ++ is_ :: post -> (In a pre <-> in_box ns a /\ lex a is_).
Proof.
  intros E. pose proof (box_sorted ns) as S. rewrite E in S. destruct (SS_split _ _ _ _ S) as [P Q]. split.
  - intros I. split; [apply box_In; rewrite E; apply in_or_app; auto|exact (P a I)].
  - intros [B L]. apply box_In in B. rewrite E in B. apply in_app_or in B. destruct B as [B|[->|B]]; [exact B| |].
    + destruct (lex_irrefl _ L).
    + destruct (lex_asym _ _ L (Q a B)).
Qed.

(** The memory after a prefix of the coordinates. *)
Section Run.
  Context {T : Type} (out : container) (cs : list container) (g : list T -> option T) (m : mem T).
  Definition look (m1 : mem T) (is_ : list Z) : option T :=
    match mapM (load m1) (map (fun c => elem c is_) cs) with Ok vs => g vs | _ => None end.
  Definition put (m1 : mem T) (is_ : list Z) : mem T :=
    match look m1 is_ with Some v => upd m1 (elem out is_) v | None => m1 end.
  Definition rmem (pre : list (list Z)) : mem T := fold_left put pre m.
  Definition rval (pre : list (list Z)) (is_ : list Z) : option T := look (rmem pre) is_.

  Lemma rmem_snoc pre x : rmem (pre ++ [x]) = put (rmem pre) x.
  Proof. unfold rmem. rewrite fold_left_app. reflexivity. Qed.
  Lemma rmem_pmem pre : rmem pre = pmem out rval m pre.
  Proof.
    induction pre as [|x pre IH] using rev_ind; [reflexivity|].
    rewrite pmem_step, <- IH. unfold rmem at 1. rewrite fold_left_app. cbn [fold_left]. reflexivity.
  Qed.
  Lemma rmem_later pre rest p : (forall c, In c rest -> p <> elem out c) -> cell (rmem (pre ++ rest)) p = cell (rmem pre) p.
  Proof.
    induction rest as [|x rest IH] using rev_ind; [rewrite app_nil_r; reflexivity|].
    intros H. rewrite app_assoc. unfold rmem at 1. rewrite fold_left_app. cbn [fold_left]. fold (rmem (pre ++ rest)). unfold put.
    rewrite <- IH by (intros c I; apply H; apply in_or_app; auto).
    destruct (look _ _); [|reflexivity]. apply cell_upd_other. intros E. apply (H x); [apply in_or_app; right; left; reflexivity|congruence].
  Qed.
  Lemma rmem_valued pre p v : peek m p = Some v -> exists w, peek (rmem pre) p = Some w.
  Proof.
    intros H. induction pre as [|x pre IH] using rev_ind; [exists v; exact H|].
    unfold rmem. rewrite fold_left_app. cbn [fold_left]. fold (rmem pre). unfold put. destruct IH as (w & Hw).
    destruct (look _ _) as [u|]; [|eauto]. destruct (ptr_eq_dec (elem out x) p) as [<-|N].
    - exists u. apply peek_upd_same. eapply peek_valid. exact Hw.
    - exists w. rewrite peek_upd_other by exact N. exact Hw.
  Qed.
End Run.

Lemma overlap_loop {T} out cs (m : mem T) (g : list T -> option T) body :
  can_write m out out -> Forall (can_read m out) cs ->
  (forall is_ m' vs, in_box (dims out) is_ -> same_cells m m' ->
     Forall2 (fun c v => value m' c is_ v) cs vs ->
     body (map (fun c => elem c is_) (out :: cs)) (tt, m') =
     Ok (tt, match g vs with Some v => upd m' (elem out is_) v | None => m' end)) ->
  exists m', run_map (map_containers body out cs (tt, m)) = Ok m' /\ frame out out m m' /\
    forall b, in_box (dims out) b -> exists vs, Forall2 (fun c v => sees m m' out c b v) cs vs /\
      match g vs with Some v => value m' out b v | None => cell m' (elem out b) = cell m (elem out b) end.
Proof.
  intros CW CR Hb. pose proof CW as (_ & _ & D & V).
  destruct (live_wf m out (can_write_live _ _ _ CW)) as [_ Nn].
  pose proof (pmem_result out (rval out cs g m) out m Nn D V) as (R & F). cbv zeta in R, F.
  rewrite <- rmem_pmem in F. set (m' := rmem out cs g m (box (dims out))) in *. exists m'.
  assert (L : forall pre b post, box (dims out) = pre ++ b :: post ->
            exists vs, Forall2 (fun c v => value (rmem out cs g m pre) c b v) cs vs).
  { intros pre b post E. assert (B : in_box (dims out) b) by (apply box_In; rewrite E; apply in_elt).
    clear Hb F R m'. generalize (rmem out cs g m pre) (rmem_valued out cs g m pre). intros m1 H1.
    induction CR as [|c l (_ & _ & C) CR IH]; [exists []; constructor|]. destruct IH as (vs & IH).
    destruct (C b B) as (v & Hv). destruct (H1 _ v Hv) as (w & Hw). exists (w :: vs). constructor; assumption. }
  assert (K : forall pre b post vs, box (dims out) = pre ++ b :: post ->
            Forall2 (fun c v => value (rmem out cs g m pre) c b v) cs vs -> look cs g (rmem out cs g m pre) b = g vs).
  { intros pre b post vs E H. unfold look. rewrite (mapM_load_unique _ _ _ _ H). reflexivity. }
  split; [|split; [exact F|]].
  - unfold run_map. change (tt, m) with (tt, rmem out cs g m []).
    rewrite (map_containers_inv body out cs m (fun pre => (tt, rmem out cs g m pre))).
    + reflexivity.
    + apply can_write_live. exact CW.
    + eapply Forall_impl; [|exact CR]. intros c. apply can_read_live.
    + intros pre. cbn [snd]. rewrite rmem_pmem. apply pmem_same.
    + intros pre b post E. destruct (L pre b post E) as (vs & Hv).
      rewrite (Hb b _ vs); [|apply box_In; rewrite E; apply in_elt|rewrite rmem_pmem; apply pmem_same|exact Hv].
      rewrite rmem_snoc. unfold put.
      rewrite (K pre b post vs E Hv). reflexivity.
  - intros b B. destruct (box_split _ _ B) as (pre & post & E). destruct (L pre b post E) as (vs & Hv).
    exists vs. split.
    + assert (A : forall a, In a pre -> cell (rmem out cs g m pre) (elem out a) = cell m' (elem out a)).
      { intros a I. unfold m'. rewrite E. symmetry. apply rmem_later. intros c Ic Eq.
        apply (lex_before _ _ _ _ a E) in I. destruct I as [Ba La].
        assert (Bc : in_box (dims out) c) by (apply box_In; rewrite E; apply in_or_app; right; exact Ic).
        apply D in Eq; [|assumption..]. subst c.
        destruct Ic as [->|Ic]; [exact (lex_irrefl _ La)|].
        pose proof (box_sorted (dims out)) as S. rewrite E in S. destruct (SS_split _ _ _ _ S) as [_ Q].
        exact (lex_asym _ _ La (Q a Ic)). }
      assert (N : forall p, (forall a, In a pre -> p <> elem out a) -> cell (rmem out cs g m pre) p = cell m p).
      { intros p H. rewrite rmem_pmem. apply pmem_other. exact H. }
      assert (G : forall c v, value (rmem out cs g m pre) c b v -> sees m m' out c b v).
      { intros c v Hc. destruct (in_dec ptr_eq_dec (elem c b) (map (elem out) pre)) as [I|I].
        - left. apply in_map_iff in I. destruct I as (a & Ea & Ia). exists a.
          pose proof (proj1 (lex_before _ _ _ _ a E) Ia) as [Ba La]. split; [exact Ba|]. split; [exact La|]. split; [congruence|].
          unfold value, peek in *. rewrite <- (A a Ia), Ea. exact Hc.
        - right. split.
          + intros a Ba La Eq. apply I. apply in_map_iff. exists a. split; [congruence|]. apply (lex_before _ _ _ _ a E). auto.
          + unfold value, peek in *. rewrite <- (N (elem c b)); [exact Hc|]. intros a Ia Eq. apply I, in_map_iff. exists a. auto. }
      clear -G Hv. induction Hv; constructor; auto.
    + specialize (R pre b post E). rewrite <- rmem_pmem in R. fold m' in R. unfold rval in R. rewrite (K pre b post vs E Hv) in R. exact R.
Qed.

Lemma transform_overlap_l {T} f out c0 cs (m : mem T) : can_write m out out -> Forall (can_read m out) (c0 :: cs) ->
  exists m', transform f out c0 cs m = Ok m' /\ frame out out m m' /\
    forall b, in_box (dims out) b -> exists vs, Forall2 (fun c v => sees m m' out c b v) (c0 :: cs) vs /\ value m' out b (f vs).
Proof.
  intros CW CR. unfold transform.
  apply (overlap_loop out (c0 :: cs) m (fun vs => Some (f vs))); try assumption.
  intros is_ m' vs B S Hv. cbn [map fst snd].
  pose proof (mapM_load_unique m' is_ (c0 :: cs) vs Hv) as G. cbn [map] in G. rewrite G, bind_ok.
  eapply assign_valid; eassumption.
Qed.
Lemma copy_overlap_l {T} out c (m : mem T) : can_write m out out -> can_read m out c ->
  exists m', copy out c m = Ok m' /\ frame out out m m' /\
    forall b, in_box (dims out) b -> exists v, sees m m' out c b v /\ value m' out b v.
Proof.
  intros CW CR. unfold copy.
  destruct (overlap_loop out [c] m (fun vs => match vs with v :: _ => Some v | [] => None end)
    (fun ps sm => match ps with [o; i] => v <- load (snd sm) i ;; assign o v sm | _ => UB end)) as (m' & E & F & R); try assumption.
  - constructor; [exact CR|constructor].
  - intros is_ m' vs B S Hv. destruct (Forall2_1 _ _ _ Hv) as (v & -> & Hv1). cbn [map snd].
    rewrite (load_peek _ _ _ Hv1), bind_ok. eapply assign_valid; eassumption.
  - exists m'. split; [exact E|]. split; [exact F|]. intros b B. destruct (R b B) as (vs & H & V).
    destruct (Forall2_1 _ _ _ H) as (v & -> & Hv). exists v. auto.
Qed.

Lemma sees_ahead {T} (m m' : mem T) out c b v : reads_ahead out c -> in_box (dims out) b -> sees m m' out c b v -> value m c b v.
Proof. intros A B [(a & Ba & L & E & _)|[_ H]]; [destruct (A a b Ba B L E)|exact H]. Qed.

Lemma Forall2_unique {A B} (P : A -> B -> Prop) l : (forall x y z, P x y -> P x z -> y = z) -> forall u v,
  Forall2 P l u -> Forall2 P l v -> u = v.
Proof.
  intros U u v H. revert v. induction H; intros v' H'; inversion H'; subst; [reflexivity|]. f_equal; eauto.
Qed.

Lemma transform_ahead_l {T} f out c0 cs (m : mem T) : can_write m out out -> Forall (can_read m out) (c0 :: cs) ->
  Forall (reads_ahead out) (c0 :: cs) ->
  exists m', transform f out c0 cs m = Ok m' /\
    (forall is_ vs, in_box (dims out) is_ -> Forall2 (fun c v => value m c is_ v) (c0 :: cs) vs -> value m' out is_ (f vs)) /\
    frame out out m m'.
Proof.
  intros CW CR RA. destruct (transform_overlap_l f out c0 cs m CW CR) as (m' & E & F & R). exists m'.
  split; [exact E|]. split; [|exact F]. intros b vs B Hv. destruct (R b B) as (ws & Hw & V).
  assert (X : Forall2 (fun c v => value m c b v) (c0 :: cs) ws).
  { clear -RA Hw B. induction Hw as [|c v l ws H _ IH]; [constructor|]. inversion RA; subst.
    constructor; [eapply sees_ahead; eassumption|apply IH; assumption]. }
  rewrite (Forall2_unique _ _ (fun c x y (H : value m c b x) (K : value m c b y) => ltac:(unfold value in *; congruence)) vs ws Hv X). exact V.
Qed.
Lemma copy_ahead_l {T} out c (m : mem T) : can_write m out out -> can_read m out c -> reads_ahead out c ->
  exists m', copy out c m = Ok m' /\
    (forall is_ v, in_box (dims out) is_ -> value m c is_ v -> value m' out is_ v) /\ frame out out m m'.
Proof.
  intros CW CR RA. destruct (copy_overlap_l out c m CW CR) as (m' & E & F & R). exists m'.
  split; [exact E|]. split; [|exact F]. intros b v B Hv. destruct (R b B) as (w & Hw & V).
  apply sees_ahead in Hw; [|assumption..]. assert (v = w) by (unfold value in *; congruence). subst w. exact V.
Qed.
