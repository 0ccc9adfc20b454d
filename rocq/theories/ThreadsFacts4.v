From Coq Require Import ZArith List Bool Lia Permutation.
From Verif Require Import Outcome CInt CIntFacts Spec SpecFacts ShapeSpec Shape ShapeFacts ShapeFacts2 Memory MemFacts
  Container ContainerSpec ContainerFacts ContainerFacts2 ContainerFacts3 EndRatio Slicer SlicerSpec AlgoSpec Algo AlgoFacts AlgoFacts2 AlgoFacts3 AlgoFacts4
  SplitSpec SplitFacts OverlapSpec OverlapFacts Program Threads ThreadsSpec ThreadsFacts ThreadsFacts2 ThreadsFacts3.
Import ListNotations.
Open Scope Z_scope.

(** ** Threads that only read *)
Lemma only_reads {T A} R (x : act T A) : touches R nothing x -> forall m a m', alone x m = Ok (a, m') -> m' = m.
Proof.
  induction 1 as [o|p k H IH|p k Hp H IH|p v k Hp H IH]; intros m a m' E; cbn [alone] in E.
  - destruct o; cbn [bind] in E; congruence.
  - destruct (validb m p); [eauto|discriminate].
  - apply bind_inv in E as (v & _ & E). eauto.
  - destruct Hp.
Qed.

Lemma readers_l {T A} (ths : list (act T A)) m rs R : Forall2 (fun x r => exists m', alone x m = Ok (r, m')) ths rs ->
  Forall (touches R nothing) ths ->
  threads_give ths m (fun rs' m' => rs' = rs /\ forall p, cell m' p = cell m p).
Proof.
  intros H F. rewrite Forall_forall in F.
  pose proof (together_l ths m (map (fun r => (r, m)) rs) (fun _ => R) (fun _ => nothing)) as G.
  eapply threads_imp; [|apply G].
  - intros rs' m' [-> (_ & _ & O)]. rewrite map_map, map_id. split; [reflexivity|]. intros p. destruct (O p) as [E|(i & _ & [])]. exact E.
  - clear G. induction H as [|x r ths rs (m' & E) H IH]; [constructor|]. cbn [map]. constructor.
    + rewrite E. rewrite (only_reads R x (F x (or_introl eq_refl)) m r m' E). reflexivity.
    + apply IH. intros y Hy. apply F. right. exact Hy.
  - intros i x E. apply F. eapply nth_error_In. exact E.
  - intros i j p _ _ _ [].
Qed.

(** ** A call on every tile of a container, each in a thread of its own *)
Definition reach_of (vs : list container) (i : nat) (p : ptr) : Prop :=
  match nth_error vs i with Some v => elements v v p | None => False end.

Lemma tiles_reach {T} (m : mem T) dbg a b c ps vs : default_layout c -> Forall (is_part dbg c) ps -> writable m c ->
  Forall2 (fun p v => slice_container dbg a b c (cuts p) = Ok v) ps vs -> Forall (fun v => in_reach v v) vs.
Proof.
  intros D F W H. induction H as [|p v ps vs Ev H IH]; [constructor|]. inversion F as [|? ? P F']; subst. constructor; [|apply IH; exact F'].
  destruct (part_write m dbg a b c p v D P Ev W) as (A & C & _). split; assumption.
Qed.

Lemma tiles_separate {T} (m : mem T) dbg a b c ps vs : default_layout c -> Forall (is_part dbg c) ps -> tiling c ps -> writable m c ->
  Forall2 (fun p v => slice_container dbg a b c (cuts p) = Ok v) ps vs -> forall n, separate n (fun _ => nothing) (reach_of vs).
Proof.
  intros D F Ti W H n i j q _ _ Nq Wi. split; [intros []|]. intros Wj. unfold reach_of in *.
  destruct (nth_error vs i) as [v|] eqn:Ei; [|exact Wi]. destruct (nth_error vs j) as [w|] eqn:Ej; [|exact Wj].
  destruct Wi as (x & Bx & ->). destruct Wj as (y & By & Ey). destruct (Forall2_nth_l _ _ _ H) as [L Hn].
  destruct (nth_ex vs ps i v ltac:(lia) Ei) as (p & Pi). destruct (nth_ex vs ps j w ltac:(lia) Ej) as (p' & Pj).
  exact (tiles_disjoint m dbg a b c ps i j p p' v w D F Ti W Pi Pj Nq (Hn i p v Pi Ei) (Hn j p' w Pj Ej) x y Bx By Ey).
Qed.

Lemma reach_of_nth vs i v : nth_error vs i = Some v -> forall p, elements v v p -> reach_of vs i p.
Proof. intros E p H. unfold reach_of. rewrite E. exact H. Qed.

Lemma on_tiles {T} (m : mem T) dbg a b c ps vs (g : container -> act T unit) (each : container -> mem T -> outcome (mem T)) (all : list container -> mem T -> outcome (mem T)) m1 :
  default_layout c -> Forall (is_part dbg c) ps -> tiling c ps -> writable m c ->
  Forall2 (fun p v => slice_container dbg a b c (cuts p) = Ok v) ps vs ->
  (forall v, in_reach v v -> touches nothing (elements v v) (g v)) -> (forall v m, alone (g v) m = units (each v m)) ->
  (forall m, all [] m = Ok m) -> (forall v vs m, all (v :: vs) m = (m' <- each v m ;; all vs m')) ->
  (forall v, In v vs -> exists m', each v m = Ok m') -> all vs m = Ok m1 ->
  threads_give (map g vs) m (fun _ m' => forall p, cell m' p = cell m1 p).
Proof.
  intros D F Ti W H Tg Al A0 A1 Ok1 E.
  assert (Outs : exists outs, Forall2 (fun x o => alone x m = Ok o) (map g vs) outs).
  { clear -Al Ok1. induction vs as [|v vs IH]; [exists []; constructor|]. destruct (Ok1 v (or_introl eq_refl)) as (m' & Em).
    destruct IH as (outs & Ho); [intros w Hw; apply Ok1; right; exact Hw|]. exists ((tt, m') :: outs). constructor; [|exact Ho].
    rewrite Al, Em. reflexivity. }
  destruct Outs as (outs & Ho). pose proof (tiles_reach m dbg a b c ps vs D F W H) as Re.
  destruct (same_as_one_by_one_l (map g vs) m outs (fun _ => nothing) (reach_of vs) Ho) as (m' & Eo & Tg').
  - intros i x Ex. rewrite nth_error_map in Ex. destruct (nth_error vs i) as [v|] eqn:Ev; [|discriminate]. injection Ex as <-.
    eapply touches_weaken; [| |apply Tg]; [intros p []|apply reach_of_nth; exact Ev|]. rewrite Forall_forall in Re. apply Re.
    eapply nth_error_In. exact Ev.
  - eapply tiles_separate; eassumption.
  - assert (G : forall vs m, one_by_one (map g vs) m = (m' <- all vs m ;; Ok (map (fun _ => tt) vs, m'))).
    { clear -Al A0 A1. induction vs as [|v vs IH]; intros m; cbn [one_by_one map]; [rewrite A0; reflexivity|]. rewrite Al, A1. unfold units.
      destruct (each v m) as [m0| | |]; cbn [bind]; try reflexivity. rewrite IH. destruct (all vs m0); reflexivity. }
    rewrite G, E in Eo. cbn [bind] in Eo. injection Eo as _ <-.
    eapply threads_imp; [|exact Tg']. intros rs m2 [_ Hc]. exact Hc.
Qed.

Lemma threads_transform_l {T} (m : mem T) dbg a b c ps f : default_layout c -> Forall (is_part dbg c) ps -> tiling c ps -> readable m c ->
  exists vs m2, slices dbg a b c ps = Ok vs /\ transform f c c [] m = Ok m2 /\
    threads_give (map (fun v => a_transform f v v []) vs) m (fun _ m' => forall p, cell m' p = cell m2 p).
Proof.
  intros D F Ti R. destruct (transform_tiles m dbg a b c ps f D F Ti R) as (vs & m1 & m2 & E & E1 & E2 & Eq).
  destruct (slices_ok dbg a b c ps D F) as (vs' & E' & Hv). rewrite E in E'. injection E' as <-.
  exists vs, m2. split; [exact E|]. split; [exact E2|].
  pose proof (readable_writable m c R) as W.
  eapply threads_imp; [|apply (on_tiles m dbg a b c ps vs _ (fun v => transform f v v []) (transform_each f) m1); try assumption].
  - cbn beta. intros _ m' H p. rewrite H. apply Eq.
  - intros v H. eapply touches_weaken; [| |apply ft_transform]; [|auto|repeat (apply Forall_cons; [assumption|]); apply Forall_nil].
    intros p (c' & [<-|[]] & X). right. exact X.
  - intros. apply al_transform.
  - reflexivity.
  - reflexivity.
  - intros v Iv. apply In_nth_error in Iv as (i & Ei). destruct (Forall2_nth_l _ _ _ Hv) as [L Hn].
    destruct (nth_ex vs ps i v ltac:(lia) Ei) as (p & Pi). rewrite Forall_forall in F.
    assert (P : is_part dbg c p) by (apply F; eapply nth_error_In; exact Pi).
    destruct (part_transform m dbg a b c p v f D P (Hn i p v Pi Ei) R) as (m3 & E3 & _). exists m3. exact E3.
Qed.

Lemma threads_fill_l {T} (m : mem T) dbg a b c ps x : default_layout c -> Forall (is_part dbg c) ps -> tiling c ps -> writable m c ->
  exists vs m2, slices dbg a b c ps = Ok vs /\ fill c x m = Ok m2 /\
    threads_give (map (fun v => a_fill v x) vs) m (fun _ m' => forall p, cell m' p = cell m2 p).
Proof.
  intros D F Ti W. destruct (fill_tiles m dbg a b c ps x D F Ti W) as (vs & m1 & m2 & E & E1 & E2 & Eq).
  destruct (slices_ok dbg a b c ps D F) as (vs' & E' & Hv). rewrite E in E'. injection E' as <-.
  exists vs, m2. split; [exact E|]. split; [exact E2|].
  eapply threads_imp; [|apply (on_tiles m dbg a b c ps vs _ (fun v => fill v x) (fun vs => fill_each vs x) m1); try assumption].
  - cbn beta. intros _ m' H p. rewrite H. apply Eq.
  - intros v H. apply ft_fill. exact H.
  - intros. apply al_fill.
  - reflexivity.
  - reflexivity.
  - intros v Iv. apply In_nth_error in Iv as (i & Ei). destruct (Forall2_nth_l _ _ _ Hv) as [L Hn].
    destruct (nth_ex vs ps i v ltac:(lia) Ei) as (p & Pi). rewrite Forall_forall in F.
    assert (P : is_part dbg c p) by (apply F; eapply nth_error_In; exact Pi).
    destruct (part_fill m dbg a b c p v x D P (Hn i p v Pi Ei) W) as (m3 & E3 & _). exists m3. exact E3.
Qed.

(** Partial results of the threads, combined afterwards. *)
Lemma threads_count_l {T} (m : mem T) dbg a b c ps (f : T -> bool) : default_layout c -> Forall (is_part dbg c) ps -> tiling c ps -> readable m c ->
  exists vs total, slices dbg a b c ps = Ok vs /\ count_if c f m = Ok (total, m) /\
    threads_give (map (fun v => a_reduce v (fun a e => size_add a (f e)) 0) vs) m
      (fun ns m' => fold_right Z.add 0 ns = total /\ forall p, cell m' p = cell m p).
Proof.
  intros D F Ti R. destruct (count_tiles m dbg a b c ps f D F Ti R) as (vs & ns & E & H & Ec).
  destruct (slices_ok dbg a b c ps D F) as (vs' & E' & Hv). rewrite E in E'. injection E' as <-.
  exists vs, (fold_right Z.add 0 ns). split; [exact E|]. split; [exact Ec|].
  pose proof (tiles_reach m dbg a b c ps vs D F (readable_writable m c R) Hv) as Re.
  eapply threads_imp; [|apply (readers_l _ m ns (fun p => exists v, In v vs /\ elements v v p))].
  - intros rs m' [-> Hm]. auto.
  - clear -H. induction H as [|v n vs ns Hn H IH]; [constructor|]. cbn [map]. constructor; [|exact IH]. exists m. rewrite al_reduce. exact Hn.
  - apply Forall_forall. intros x Hx. apply in_map_iff in Hx as (v & <- & Iv). rewrite Forall_forall in Re.
    eapply touches_weaken; [| |apply ft_reduce, Re, Iv]; [|auto]. intros p Hp. left. exists v. auto.
Qed.

Lemma fold_monoid {T} (f : T -> T -> T) e : (forall x y z, f (f x y) z = f x (f y z)) -> (forall x, f e x = x) -> (forall x, f x e = x) ->
  forall l a, fold_left f l a = f a (fold_left f l e).
Proof.
  intros As Le Ri. induction l as [|x l IH]; intros a; cbn [fold_left]; [symmetry; apply Ri|].
  rewrite (IH (f a x)), (IH (f e x)), As, Le. reflexivity.
Qed.
Lemma threads_reduce_l {T} (m : mem T) dbg a b c n rest l (f : T -> T -> T) e :
  (forall x y z, f (f x y) z = f x (f y z)) -> (forall x, f e x = x) -> (forall x, f x e = x) ->
  default_layout c -> c_shape c = n :: rest -> Forall (fun n => 0 < cval n) rest -> consecutive n rest 0 l ->
  (dbg = true -> Forall wide (map fst l)) -> readable m c ->
  exists vs r, slices dbg a b c (blocks rest 0 l) = Ok vs /\ reduce c f e m = Ok (r, m) /\
    threads_give (map (fun v => a_reduce v f e) vs) m (fun rs m' => fold_left f rs e = r /\ forall p, cell m' p = cell m p).
Proof.
  intros As Le Ri D Sh Po C Wd R. destruct (blocks_values m dbg a b c n rest l D Sh Po C Wd R) as (vs & us & wss & E & U & H & ->).
  destruct (blocks_tiling dbg c n rest l D Sh Po C Wd) as [F Ti].
  destruct (slices_ok dbg a b c _ D F) as (vs' & E' & Hv). rewrite E in E'. injection E' as <-.
  exists vs, (fold_left f (concat wss) e). split; [exact E|].
  split; [apply reduce_l; [apply default_can_read; auto|exact U]|].
  pose proof (tiles_reach m dbg a b c _ vs D F (readable_writable m c R) Hv) as Re.
  eapply threads_imp; [|apply (readers_l _ m (map (fun ws => fold_left f ws e) wss) (fun p => exists v, In v vs /\ elements v v p))].
  - intros rs m' [-> Hm]. split; [|exact Hm]. clear -As Le Ri. induction wss as [|ws wss IH]; [reflexivity|]. cbn [map concat].
    rewrite fold_left_app. cbn [fold_left]. rewrite (fold_monoid f e As Le Ri), (fold_monoid f e As Le Ri (concat wss)), IH, Le. reflexivity.
  - clear -H. induction H as [|v ws vs wss [Cr V] H IH]; [constructor|]. cbn [map]. constructor; [|exact IH]. exists m. rewrite al_reduce.
    apply reduce_l; assumption.
  - apply Forall_forall. intros x Hx. apply in_map_iff in Hx as (v & <- & Iv). rewrite Forall_forall in Re.
    eapply touches_weaken; [| |apply ft_reduce, Re, Iv]; [|auto]. intros p Hp. left. exists v. auto.
Qed.

(** ** Other ways to be apart, and given orders *)
Lemma padd_block p q a b : ~ same_block p q -> p <> Null -> padd p a <> padd q b.
Proof. destruct p as [|b1 o1], q as [|b2 o2]; cbn; intros H N E; try congruence. Qed.
Lemma other_block_l c0 c d0 d p : c_data c <> Null -> ~ same_block (c_data c) (c_data d) -> elements c0 c p -> ~ elements d0 d p.
Proof. intros N H (x & _ & ->) (y & _ & E). unfold elem in E. exact (padd_block _ _ _ _ H N E). Qed.
Lemma play_turns {T A} l : forall (s s' : state T A), play l s = Some s' -> turns (length l) s s'.
Proof.
  assert (G : forall l (s0 s s' : state T A) n, turns n s0 s -> play l s = Some s' -> turns (length l + n) s0 s').
  { clear l. induction l as [|i l IH]; intros s0 [ths m] s' n H E; cbn [play fst snd] in E; [injection E as <-; exact H|].
    destruct (nth_error ths i) as [x|] eqn:Ei; [|discriminate]. destruct (advance x m) as [[[x' m']| | |]|] eqn:Ad; try discriminate.
    cbn [length]. replace (S (length l) + n)%nat with (length l + S n)%nat by lia. eapply IH; [|exact E]. econstructor; [exact H|].
    econstructor; eassumption. }
  intros s s' E. rewrite <- (Nat.add_0_r (length l)). eapply G; [constructor|exact E].
Qed.
