From Coq Require Import ZArith List Bool Lia.
From Verif Require Import Outcome CInt CIntFacts Spec SpecFacts ShapeSpec Shape ShapeFacts Memory MemFacts Container ContainerSpec
  AlgoSpec AlgoFacts Program Threads ThreadsSpec.
Import ListNotations.

(** ** Bind *)
Lemma alone_bind {T A B} (x : act T A) (f : A -> act T B) : forall m,
  alone (abind x f) m = (am <- alone x m ;; alone (f (fst am)) (snd am)).
Proof.
  induction x as [o|p k IH|p k IH|p v k IH]; intros m; cbn [abind alone].
  - destruct o; reflexivity.
  - destruct (validb m p); [apply IH|reflexivity].
  - destruct (load m p); cbn [bind]; auto.
  - destruct (store m p v); cbn [bind]; auto.
Qed.
Lemma touches_bind {T A B} R W (x : act T A) (f : A -> act T B) : touches R W x -> (forall a, touches R W (f a)) ->
  touches R W (abind x f).
Proof.
  intros H F. induction H; cbn [abind]; [destruct o; auto; constructor|constructor; auto..].
Qed.
Lemma touches_weaken {T A} (R W R' W' : ptr -> Prop) (x : act T A) : (forall p, R p -> R' p \/ W' p) -> (forall p, W p -> W' p) ->
  touches R W x -> touches R' W' x.
Proof.
  intros Hr Hw H. induction H; constructor; auto. destruct H; [apply Hr; assumption|right; auto].
Qed.

(** ** Cells *)
Lemma load_cell {T} (m m' : mem T) p : cell m p = cell m' p -> load m p = load m' p.
Proof. unfold load. intros ->. reflexivity. Qed.
Lemma validb_same {T} (m m' : mem T) p : same_cells m m' -> validb m p = validb m' p.
Proof.
  intros Sm. specialize (Sm p). unfold valid in Sm. unfold validb.
  destruct (cell m p), (cell m' p); try reflexivity; exfalso; intuition congruence.
Qed.
Lemma same_sym {T} (m m' : mem T) : same_cells m m' -> same_cells m' m.
Proof. intros H p. symmetry. apply H. Qed.
Lemma same_tr {T} (a b c : mem T) : same_cells a b -> same_cells b c -> same_cells a c.
Proof. intros H G p. rewrite (H p). apply G. Qed.
Lemma same_upd {T} (m : mem T) p v : same_cells m (upd m p v).
Proof. intros q. unfold valid. rewrite valid_upd. reflexivity. Qed.
Lemma store_inv {T} (m m' : mem T) p v : store m p v = Ok m' -> cell m p <> None /\ m' = upd m p v.
Proof. unfold store. destruct (validb m p) eqn:E; intros H; inversion H. split; [apply validb_true; exact E|reflexivity]. Qed.
Lemma cell_upd {T} (m m' : mem T) p q v : cell m p <> None -> cell m' p <> None -> cell m q = cell m' q ->
  cell (upd m p v) q = cell (upd m' p v) q.
Proof.
  intros V V' E. destruct (ptr_eq_dec p q) as [->|N]; [rewrite !cell_upd_same by assumption; reflexivity|].
  rewrite !cell_upd_other by assumption. exact E.
Qed.

(** ** The number of accesses left to a thread that is alone *)
Fixpoint len {T A} (x : act T A) (m : mem T) : nat :=
  match x with
  | Stop _ => 0
  | Mk _ k => S (len k m)
  | Ld p k => match load m p with Ok v => S (len (k v) m) | _ => 1 end
  | St p v k => match store m p v with Ok m' => S (len k m') | _ => 1 end
  end.
Fixpoint total {T A} (l : list (act T A)) (ms : nat -> mem T) : nat :=
  match l with [] => O | x :: r => (len x (ms O) + total r (fun i => ms (S i)))%nat end.
Definition set_at {X} (f : nat -> X) (i : nat) (x : X) (j : nat) : X := if Nat.eqb i j then x else f j.

Lemma total_ext {T A} (l : list (act T A)) : forall ms ms', (forall i, ms i = ms' i) -> total l ms = total l ms'.
Proof. induction l as [|x l IH]; intros ms ms' E; simpl; [reflexivity|]. rewrite E. f_equal. apply IH. intros. apply E. Qed.
Lemma total_set {T A} (l : list (act T A)) : forall ms i x x' m', nth_error l i = Some x ->
  (total (set_nth l i x') (set_at ms i m') + len x (ms i) = total l ms + len x' m')%nat.
Proof.
  induction l as [|y l IH]; intros ms [|i] x x' m' H; try discriminate; cbn [nth_error set_nth total] in *.
  - injection H as ->. unfold set_at at 1. cbn [Nat.eqb]. rewrite (total_ext l _ (fun i => ms (S i))) by reflexivity. lia.
  - specialize (IH (fun j => ms (S j)) i x x' m' H). unfold set_at at 1. cbn [Nat.eqb].
    rewrite (total_ext _ (fun j => set_at ms (S i) m' (S j)) (set_at (fun j => ms (S j)) i m')) by reflexivity. lia.
Qed.
Lemma total_zero {T A} (l : list (act T A)) : forall ms, total l ms = 0%nat -> forall i x, nth_error l i = Some x -> len x (ms i) = 0%nat.
Proof.
  induction l as [|y l IH]; intros ms E [|i] x H; try discriminate; cbn [total nth_error] in *.
  - injection H as ->. lia.
  - apply (IH (fun j => ms (S j))); [lia|exact H].
Qed.
Lemma total_pos {T A} (l : list (act T A)) : forall ms, (0 < total l ms)%nat -> exists i x, nth_error l i = Some x /\ (0 < len x (ms i))%nat.
Proof.
  induction l as [|y l IH]; intros ms E; cbn [total] in E; [lia|].
  destruct (Nat.eq_dec (len y (ms 0%nat)) 0) as [Z|N].
  - destruct (IH (fun j => ms (S j))) as (i & x & H & G); [lia|]. exists (S i), x. split; assumption.
  - exists 0%nat, y. split; [reflexivity|lia].
Qed.

(** ** One access, here and in the memory of the thread alone *)
Lemma advance_agree {T A} (R W : ptr -> Prop) (x : act T A) (m m' : mem T) o : touches R W x -> same_cells m m' ->
  (forall p, R p \/ W p -> cell m p = cell m' p) -> alone x m = Ok o ->
  match advance x m' with
  | None => (exists a, x = Stop (Ok a)) /\ len x m = 0%nat
  | Some (Ok (x', m1')) =>
      touches R W x' /\ exists m1, alone x' m1 = Ok o /\ len x m = S (len x' m1) /\ same_cells m m1 /\ same_cells m' m1' /\
        (forall p, R p \/ W p -> cell m1 p = cell m1' p) /\
        (forall p, cell m1 p = cell m p \/ W p) /\ (forall p, cell m1' p = cell m' p \/ W p) /\
        (forall q, ~ W q -> cell m1' q = cell m' q)
  | Some _ => False
  end.
Proof.
  intros H Sm Ag E. destruct H as [o'|p k Hk|p k Hp Hk|p v k Hp Hk]; cbn [advance alone len] in *.
  - destruct o'; cbn [bind] in E; try discriminate. split; [eexists; reflexivity|reflexivity].
  - rewrite <- (validb_same m m' p Sm). destruct (validb m p); [|discriminate].
    split; [exact Hk|]. exists m. repeat split; auto using same_refl; tauto.
  - rewrite <- (load_cell m m' p (Ag p Hp)). destruct (load m p) as [v| | |]; cbn [bind] in *; try discriminate.
    split; [apply Hk|]. exists m. repeat split; auto using same_refl; tauto.
  - destruct (store m p v) as [m1| | |] eqn:Es; cbn [bind] in *; try discriminate.
    apply store_inv in Es as [V ->]. assert (V' : cell m' p <> None) by (apply Sm; exact V).
    rewrite (store_valid m' p v V'). cbn [bind]. split; [exact Hk|]. exists (upd m p v).
    split; [exact E|]. split; [reflexivity|]. split; [apply same_upd|]. split; [apply same_upd|].
    assert (O : forall (n : mem T) q, cell (upd n p v) q = cell n q \/ W q).
    { intros n q. destruct (ptr_eq_dec p q) as [->|N]; [right; exact Hp|left; apply cell_upd_other; exact N]. }
    split; [intros q Hq; apply cell_upd; auto|]. split; [apply O|]. split; [apply O|].
    intros q Nq. destruct (O m' q); tauto.
Qed.

Section Together.
  Context {T A : Type} (ths : list (act T A)) (m : mem T) (outs : list (A * mem T)) (R W : nat -> ptr -> Prop).
  Hypothesis Al : Forall2 (fun x o => alone x m = Ok o) ths outs.
  Hypothesis To : forall i x, nth_error ths i = Some x -> touches (R i) (W i) x.
  Hypothesis Sp : separate (length ths) R W.

  Definition good (s : state T A) (ms : nat -> mem T) : Prop :=
    length (fst s) = length ths /\ same_cells m (snd s) /\
    (forall i x o, nth_error (fst s) i = Some x -> nth_error outs i = Some o ->
       touches (R i) (W i) x /\ alone x (ms i) = Ok o /\ same_cells m (ms i) /\
       (forall p, R i p \/ W i p -> cell (ms i) p = cell (snd s) p)) /\
    (forall p, cell (snd s) p = cell m p \/ exists i, (i < length ths)%nat /\ W i p).

  Lemma Forall2_nth_l {X Y} (P : X -> Y -> Prop) l l' : Forall2 P l l' -> length l = length l' /\
    forall i x y, nth_error l i = Some x -> nth_error l' i = Some y -> P x y.
  Proof.
    induction 1 as [|x y l l' H _ [L IH]]; split; try reflexivity; simpl; try congruence.
    - intros [|i] ? ? E; discriminate.
    - intros [|i] a b E F; simpl in *; [congruence|eauto].
  Qed.
  Lemma nth_ex {X Y} (l : list X) (l' : list Y) i x : length l = length l' -> nth_error l i = Some x -> exists y, nth_error l' i = Some y.
  Proof.
    intros L E. destruct (nth_error l' i) as [y|] eqn:F; [eauto|]. apply nth_error_None in F.
    assert (i < length l)%nat by (apply nth_error_Some; congruence). lia.
  Qed.

  Lemma good_start : good (ths, m) (fun _ => m).
  Proof using Al To.
    destruct (Forall2_nth_l _ _ _ Al) as [L H].
    split; [reflexivity|]. split; [apply same_refl|]. split; [|left; reflexivity].
    intros i x o E F. split; [apply To; exact E|]. split; [eapply H; eauto|]. split; [apply same_refl|reflexivity].
  Qed.

  Lemma good_turn s s' ms : good s ms -> turn s s' -> exists ms', good s' ms' /\ S (total (fst s') ms') = total (fst s) ms.
  Proof using Sp Al.
    intros (L & Sm & G & O) Tn. destruct Tn as [i l m1 x x' m1' Ei Ad]. cbn [fst snd] in *.
    destruct (Forall2_nth_l _ _ _ Al) as [Lo _]. destruct (nth_ex l outs i x ltac:(lia) Ei) as (o & Fo).
    destruct (G i x o Ei Fo) as (Tx & Ax & Sx & Cx).
    pose proof (advance_agree (R i) (W i) x (ms i) m1 o Tx (same_tr _ _ _ (same_sym _ _ Sx) Sm) Cx Ax) as H.
    rewrite Ad in H. destruct H as (Tx' & m2 & Ax' & Ln & S2 & S1 & C2 & W2 & W1 & NW).
    assert (Li : (i < length ths)%nat) by (rewrite <- L; apply nth_error_Some; congruence).
    exists (set_at ms i m2). split.
    - unfold good; cbn [fst snd]. split; [rewrite set_nth_length; exact L|]. split; [exact (same_tr _ _ _ Sm S1)|]. split.
      + intros j y oj Ey Fj. destruct (Nat.eq_dec i j) as [<-|N].
        * rewrite set_nth_same in Ey by lia. injection Ey as <-. rewrite Fj in Fo. injection Fo as ->.
          unfold set_at. rewrite Nat.eqb_refl. split; [exact Tx'|]. split; [exact Ax'|]. split; [exact (same_tr _ _ _ Sx S2)|exact C2].
        * rewrite set_nth_other in Ey by exact N. unfold set_at. destruct (Nat.eqb_spec i j) as [|_]; [contradiction|].
          destruct (G j y oj Ey Fj) as (Ty & Ay & Sy & Cy). split; [exact Ty|]. split; [exact Ay|]. split; [exact Sy|].
          intros p Hp. rewrite (Cy p Hp). symmetry. apply NW. intros Wp.
          assert (Lj : (j < length ths)%nat) by (rewrite <- L; apply nth_error_Some; congruence).
          destruct (Sp i j p Li Lj N Wp). tauto.
      + intros p. destruct (W1 p) as [E|E]; [|right; exists i; split; assumption]. rewrite E. apply O.
    - pose proof (total_set l ms i x x' m2 Ei). lia.
  Qed.

  Lemma good_turns n s : turns n (ths, m) s -> exists ms, good s ms /\ (n + total (fst s) ms = total ths (fun _ => m))%nat.
  Proof using Sp To Al.
    intros H. remember (ths, m) as s0 eqn:E0. induction H as [s|n s s' s'' H IH Tn]; subst.
    - exists (fun _ => m). split; [apply good_start|reflexivity].
    - destruct (IH eq_refl) as (ms & G & E). destruct (good_turn _ _ _ G Tn) as (ms' & G' & E'). exists ms'. split; [exact G'|]. lia.
  Qed.

  Lemma good_next s ms i x : good s ms -> nth_error (fst s) i = Some x -> match advance x (snd s) with
    | None => (exists a, x = Stop (Ok a)) /\ len x (ms i) = 0%nat | Some (Ok _) => True | Some _ => False end.
  Proof using Al.
    intros (L & Sm & G & O) Ei. destruct (Forall2_nth_l _ _ _ Al) as [Lo _].
    destruct (nth_ex (fst s) outs i x ltac:(lia) Ei) as (o & Fo). destruct (G i x o Ei Fo) as (Tx & Ax & Sx & Cx).
    pose proof (advance_agree (R i) (W i) x (ms i) (snd s) o Tx (same_tr _ _ _ (same_sym _ _ Sx) Sm) Cx Ax) as H.
    destruct (advance x (snd s)) as [[[? ?]| | |]|]; auto.
  Qed.

  Lemma good_undefined s ms : good s ms -> ~ undefined s.
  Proof using Al.
    intros G (i & x & o & E & Ad & N). pose proof (good_next s ms i x G E) as H. rewrite Ad in H.
    destruct o; try contradiction. exact (N a eq_refl).
  Qed.

  Lemma good_race s ms : good s ms -> ~ race s.
  Proof using Sp Al.
    intros (L & Sm & G & O) (i & j & x & y & p & N & Ei & Ej & (v & k & ->) & Y).
    destruct (Forall2_nth_l _ _ _ Al) as [Lo _].
    destruct (nth_ex (fst s) outs i _ ltac:(lia) Ei) as (oi & Fi). destruct (nth_ex (fst s) outs j _ ltac:(lia) Ej) as (oj & Fj).
    destruct (G i _ oi Ei Fi) as (Tx & _). destruct (G j _ oj Ej Fj) as (Ty & _).
    inversion Tx; subst.
    assert (Li : (i < length ths)%nat) by (rewrite <- L; apply nth_error_Some; congruence).
    assert (Lj : (j < length ths)%nat) by (rewrite <- L; apply nth_error_Some; congruence).
    destruct (Sp i j p Li Lj N ltac:(assumption)) as [NR NW].
    destruct Y as [(k' & ->)|(v' & k' & ->)]; inversion Ty; subst; tauto.
  Qed.

  Lemma good_end s ms : good s ms -> total (fst s) ms = 0%nat -> returned s (map fst outs) /\ merged W m outs (snd s).
  Proof using Al.
    intros G E. pose proof G as (L & Sm & Gi & O). destruct (Forall2_nth_l _ _ _ Al) as [Lo _].
    assert (F : forall i x o, nth_error (fst s) i = Some x -> nth_error outs i = Some o -> x = Stop (Ok (fst o)) /\ ms i = snd o).
    { intros i x o Ei Fo. destruct (Gi i x o Ei Fo) as (Tx & Ax & _). pose proof (total_zero _ _ E i x Ei) as Z.
      destruct x as [r|p k|p k|p v k]; cbn [len] in Z; try discriminate.
      - cbn [alone] in Ax. destruct r; cbn [bind] in Ax; try discriminate. injection Ax as <-. split; reflexivity.
      - destruct (load (ms i) p); discriminate.
      - destruct (store (ms i) p v); discriminate. }
    split.
    - unfold returned. assert (Le : length (fst s) = length outs) by lia. revert F Le. generalize (fst s) outs ms. clear.
      induction l as [|x l IH]; intros [|o os] ms F Le; try discriminate; constructor.
      + apply (F 0%nat x o); reflexivity.
      + apply (IH os (fun i => ms (S i))); [|simpl in Le; lia]. intros i y o' E1 E2. apply (F (S i)); assumption.
    - split; [exact Sm|]. split.
      + intros i o p Fo Wp. destruct (nth_ex outs (fst s) i o ltac:(lia) Fo) as (x & Ei).
        destruct (F i x o Ei Fo) as [_ <-]. destruct (Gi i x o Ei Fo) as (_ & _ & _ & C). symmetry. apply C. right. exact Wp.
      + intros p. rewrite <- Lo. apply O.
  Qed.

  Lemma together_l : threads_give ths m (fun rs m' => rs = map fst outs /\ merged W m outs m').
  Proof using Sp To Al.
    exists (total ths (fun _ => m)). intros n s H. destruct (good_turns n s H) as (ms & G & E).
    split; [eapply good_race; eauto|]. split; [eapply good_undefined; eauto|]. split; [lia|]. split.
    - intros Lt. destruct (total_pos (fst s) ms) as (i & x & Ei & Px); [lia|].
      pose proof (good_next s ms i x G Ei) as Nx. destruct (advance x (snd s)) as [[[x' m']| | |]|] eqn:Ad; try contradiction.
      + destruct s as [l m1]. eexists. eapply turn_of; eauto.
      + destruct Nx. lia.
    - intros ->. exists (map fst outs). destruct (good_end s ms G) as [Rt Mg]; [lia|]. auto.
  Qed.
End Together.

(** ** One after the other *)
Lemma merged_unique {T A} W (m : mem T) (outs : list (A * mem T)) a b : merged W m outs a -> merged W m outs b ->
  forall p, cell a p = cell b p.
Proof.
  intros (_ & Ia & Oa) (_ & Ib & Ob) p.
  assert (H : (exists i, (i < length outs)%nat /\ W i p) -> cell a p = cell b p).
  { intros (i & Hi & Wp). destruct (nth_error outs i) as [o|] eqn:E; [|apply nth_error_None in E; lia].
    rewrite (Ia i o p E Wp), (Ib i o p E Wp). reflexivity. }
  destruct (Oa p) as [Ea|X]; [|exact (H X)]. destruct (Ob p) as [Eb|X]; [|exact (H X)]. congruence.
Qed.

(** A thread alone is a sequence of turns of that thread. *)
Lemma turns_trans {T A} a b (s s' s'' : state T A) : turns a s s' -> turns b s' s'' -> turns (b + a) s s''.
Proof. intros H G. induction G; [exact H|]. simpl. econstructor; eauto. Qed.

Lemma set_set {X} (l : list X) i x y : set_nth (set_nth l i x) i y = set_nth l i y.
Proof. revert i. induction l as [|z l IH]; intros [|i]; simpl; congruence. Qed.

Lemma alone_turns {T A} (x : act T A) : forall m a m' ths i, alone x m = Ok (a, m') -> nth_error ths i = Some x ->
  exists n, turns n (ths, m) (set_nth ths i (Stop (Ok a)), m').
Proof.
  induction x as [o|p k IH|p k IH|p v k IH]; intros m a m' ths i E H; cbn [alone] in E.
  - destruct o; cbn [bind] in E; try discriminate. injection E as -> ->. exists 0%nat.
    replace (set_nth ths i (Stop (Ok a))) with ths; [constructor|].
    revert i H. induction ths as [|y ths IH]; intros [|i] H; try discriminate; simpl in *; [congruence|].
    f_equal. apply IH. exact H.
  - destruct (validb m p) eqn:V; [|discriminate].
    destruct (IH m a m' (set_nth ths i k) i E) as (n & Tn); [apply set_nth_same; eapply nth_lt; exact H|].
    rewrite set_set in Tn. exists (n + 1)%nat. eapply turns_trans; [|exact Tn]. econstructor; [constructor|].
    econstructor; [exact H|]. cbn [advance]. rewrite V. reflexivity.
  - apply bind_inv in E as (v & Lv & E).
    destruct (IH v m a m' (set_nth ths i (k v)) i E) as (n & Tn); [apply set_nth_same; eapply nth_lt; exact H|].
    rewrite set_set in Tn. exists (n + 1)%nat. eapply turns_trans; [|exact Tn]. econstructor; [constructor|].
    econstructor; [exact H|]. cbn [advance]. rewrite Lv. reflexivity.
  - apply bind_inv in E as (m1 & Sv & E).
    destruct (IH m1 a m' (set_nth ths i k) i E) as (n & Tn); [apply set_nth_same; eapply nth_lt; exact H|].
    rewrite set_set in Tn. exists (n + 1)%nat. eapply turns_trans; [|exact Tn]. econstructor; [constructor|].
    econstructor; [exact H|]. cbn [advance]. rewrite Sv. reflexivity.
Qed.

Lemma one_by_one_turns {T A} (r : list (act T A)) : forall pre m rs m', one_by_one r m = Ok (rs, m') ->
  exists n, turns n (pre ++ r, m) (pre ++ map (fun a => Stop (Ok a)) rs, m').
Proof.
  induction r as [|x r IH]; intros pre m rs m' E; cbn [one_by_one] in E.
  - injection E as <- <-. exists 0%nat. constructor.
  - apply bind_inv in E as ([a m1] & E1 & E). apply bind_inv in E as ([rs' m2] & E2 & E). injection E as <- <-.
    destruct (alone_turns x m a m1 (pre ++ x :: r) (length pre) E1) as (n1 & T1).
    { rewrite nth_error_app2 by lia. rewrite Nat.sub_diag. reflexivity. }
    destruct (IH (pre ++ [Stop (Ok a)]) m1 rs' m2 E2) as (n2 & T2). exists (n2 + n1)%nat.
    rewrite <- !app_assoc in T2. cbn [app] in T2. cbn [map]. eapply turns_trans; [|exact T2].
    replace (set_nth (pre ++ x :: r) (length pre) (Stop (Ok a))) with (pre ++ Stop (Ok a) :: r) in T1; [exact T1|].
    clear. induction pre as [|y pre IH]; simpl; congruence.
Qed.

Lemma alone_agree {T A} (R W : ptr -> Prop) (x : act T A) : forall m m' a m1, touches R W x -> same_cells m m' ->
  (forall p, R p \/ W p -> cell m p = cell m' p) -> alone x m = Ok (a, m1) ->
  exists m1', alone x m' = Ok (a, m1') /\ same_cells m' m1' /\
    (forall p, R p \/ W p -> cell m1 p = cell m1' p) /\ (forall p, ~ W p -> cell m1' p = cell m' p).
Proof.
  induction x as [o|p k IH|p k IH|p v k IH]; intros m m' a m1 H Sm Ag E; cbn [alone] in E; inversion H; subst.
  - destruct o; cbn [bind] in E; try discriminate. injection E as -> ->. exists m'. split; [reflexivity|].
    split; [apply same_refl|]. split; auto.
  - cbn [alone]. rewrite <- (validb_same m m' p Sm). destruct (validb m p); [|discriminate]. eapply IH; eauto.
  - cbn [alone]. match goal with Hp : R p \/ W p |- _ => rewrite <- (load_cell m m' p (Ag p Hp)) end.
    apply bind_inv in E as (v & -> & E). cbn [bind]. eapply IH; eauto.
  - apply bind_inv in E as (m2 & Es & E). apply store_inv in Es as [V ->].
    assert (V' : cell m' p <> None) by (apply Sm; exact V). cbn [alone]. rewrite (store_valid m' p v V'). cbn [bind].
    destruct (IH (upd m p v) (upd m' p v) a m1) as (m1' & E' & S' & A' & N'); auto.
    + intros q. unfold valid. rewrite !valid_upd. apply Sm.
    + intros q Hq. apply cell_upd; auto.
    + exists m1'. split; [exact E'|]. split; [eapply same_tr; [apply same_upd|exact S']|]. split; [exact A'|].
      intros q Nq. rewrite (N' q Nq). apply cell_upd_other. intros ->. contradiction.
Qed.

Lemma one_by_one_ok {T A} (ths : list (act T A)) : forall (m m' : mem T) (outs : list (A * mem T)) (R W : nat -> ptr -> Prop),
  Forall2 (fun x o => alone x m = Ok o) ths outs -> (forall i x, nth_error ths i = Some x -> touches (R i) (W i) x) ->
  separate (length ths) R W -> same_cells m m' ->
  (forall i p, (i < length ths)%nat -> R i p \/ W i p -> cell m p = cell m' p) ->
  exists m'', one_by_one ths m' = Ok (map fst outs, m'').
Proof.
  induction ths as [|x r IH]; intros m m' outs R W Al To Sp Sm Ag; inversion Al as [|? [a m1] ? outs' E Al']; subst; cbn [one_by_one map fst].
  - exists m'. reflexivity.
  - destruct (alone_agree (R 0%nat) (W 0%nat) x m m' a m1) as (m1' & E1 & S1 & _ & N1); auto.
    { intros p. apply Ag. simpl. lia. }
    rewrite E1. cbn [bind].
    destruct (IH m m1' outs' (fun i => R (S i)) (fun i => W (S i)) Al') as (m2 & E2).
    + intros i y Hy. apply (To (S i) y). exact Hy.
    + intros i j p Hi Hj N. apply (Sp (S i) (S j)); simpl; lia.
    + eapply same_tr; eauto.
    + intros i p Hi Hp. rewrite N1; [apply (Ag (S i)); [simpl; lia|exact Hp]|].
      intros Wp. destruct (Sp 0%nat (S i) p ltac:(simpl; lia) ltac:(simpl; lia) ltac:(discriminate) Wp). tauto.
    + rewrite E2. cbn [bind]. exists m2. reflexivity.
Qed.

Lemma threads_imp {T A} (ths : list (act T A)) m (Q Q' : list A -> mem T -> Prop) : (forall rs m', Q rs m' -> Q' rs m') ->
  threads_give ths m Q -> threads_give ths m Q'.
Proof.
  intros H (N & F). exists N. intros n s Tn. destruct (F n s Tn) as (A1 & A2 & A3 & A4 & A5).
  split; [exact A1|]. split; [exact A2|]. split; [exact A3|]. split; [exact A4|].
  intros E. destruct (A5 E) as (rs & B1 & B2). exists rs. auto.
Qed.

Lemma returned_fun {T A} (s : state T A) rs rs' : returned s rs -> returned s rs' -> rs = rs'.
Proof.
  unfold returned. generalize (fst s). intros l H. revert rs'. induction H as [|x r l rs Hx H IH]; intros rs' H'; inversion H'; subst; [reflexivity|].
  f_equal; [congruence|auto].
Qed.

Lemma same_as_one_by_one_l {T A} (ths : list (act T A)) m (outs : list (A * mem T)) R W :
  Forall2 (fun x o => alone x m = Ok o) ths outs -> (forall i x, nth_error ths i = Some x -> touches (R i) (W i) x) ->
  separate (length ths) R W ->
  exists m', one_by_one ths m = Ok (map fst outs, m') /\
    threads_give ths m (fun rs m1 => rs = map fst outs /\ forall p, cell m1 p = cell m' p).
Proof.
  intros Al To Sp. pose proof (together_l ths m outs R W Al To Sp) as Tg.
  destruct (one_by_one_ok ths m m outs R W Al To Sp (same_refl m) ltac:(reflexivity)) as (m' & E). exists m'. split; [exact E|].
  assert (Mg : merged W m outs m').
  { destruct Tg as (N & H). destruct (one_by_one_turns ths [] m _ _ E) as (n & Tn). cbn [app] in Tn.
    destruct (H n _ Tn) as (_ & _ & Ln & F2 & F1). destruct (Nat.eq_dec n N) as [En|Nn].
    - destruct (F1 En) as (rs & _ & _ & Mg). exact Mg.
    - destruct F2 as (s' & X); [lia|]. exfalso. inversion X as [i l mm x x' mm' Ei Ad]; subst. rewrite nth_error_map in Ei.
      destruct (nth_error (map fst outs) i); [|discriminate]. injection Ei as <-. discriminate. }
  eapply threads_imp; [|exact Tg]. intros rs m1 [-> Mg1]. split; [reflexivity|]. apply (merged_unique W m outs); assumption.
Qed.
