From Coq Require Import ZArith List Bool Lia.
From Verif Require Import Outcome CInt CIntFacts Spec SpecFacts ShapeSpec Shape ShapeFacts Memory MemFacts Container ContainerSpec
  AlgoSpec AlgoFacts Program Threads ThreadsSpec ThreadsFacts ThreadTables ThreadTablesSpec.
Import ListNotations.
Open Scope Z_scope.

(** ** Blocks *)
Lemma place_block {T} (m : mem T) b n : nth_error (place m b n) b = Some (Some (repeat None (Z.to_nat n))).
Proof. unfold place. apply set_nth_same. rewrite app_length, repeat_length. lia. Qed.
Lemma cell_place_new {T} (m : mem T) b n o : cell (place m b n) (Ptr b o) = if (0 <=? o) && (o <? n) then Some None else None.
Proof.
  unfold cell. rewrite place_block. destruct (Z.leb_spec 0 o); [|reflexivity]. cbn [andb].
  destruct (Z.ltb_spec o n) as [L|L]; [apply nth_error_repeat'; lia|]. apply nth_error_None. rewrite repeat_length. lia.
Qed.
Lemma cell_place_other {T} (m : mem T) b n p : ~ owned [b] p -> cell (place m b n) p = cell m p.
Proof.
  destruct p as [|b' o]; [reflexivity|]. intros N. assert (Nb : b <> b') by (intros E; apply N; left; exact E).
  unfold cell, place. rewrite set_nth_other by exact Nb. destruct (le_lt_dec (length m) b') as [L|L].
  - rewrite nth_error_app2 by exact L. replace (nth_error m b') with (@None (option (list (option T)))) by (symmetry; apply nth_error_None; exact L).
    destruct (nth_error (repeat None (S b - length m)) (b' - length m)) as [x|] eqn:E; [|reflexivity].
    apply nth_error_In, repeat_spec in E. subst x. reflexivity.
  - rewrite nth_error_app1 by exact L. reflexivity.
Qed.
Lemma cell_drop_same {T} (m : mem T) b o : cell (set_nth m b None) (Ptr b o) = None.
Proof.
  unfold cell. destruct (le_lt_dec (length m) b) as [L|L].
  - replace (nth_error (set_nth m b None) b) with (@None (option (list (option T)))); [reflexivity|].
    symmetry. apply nth_error_None. rewrite set_nth_length. exact L.
  - rewrite set_nth_same by exact L. reflexivity.
Qed.
Lemma cell_drop_other {T} (m : mem T) b p : ~ owned [b] p -> cell (set_nth m b None) p = cell m p.
Proof.
  destruct p as [|b' o]; [reflexivity|]. intros N. unfold cell. rewrite set_nth_other; [reflexivity|]. intros ->. apply N. left. reflexivity.
Qed.
Lemma cell_new_same {T} (g : mem T) n o : cell (fst (alloc g n)) (Ptr (length g) o) = if (0 <=? o) && (o <? n) then Some None else None.
Proof.
  unfold alloc, cell. cbn [fst]. rewrite nth_error_app2 by lia. rewrite Nat.sub_diag. cbn [nth_error].
  destruct (Z.leb_spec 0 o); [|reflexivity]. cbn [andb].
  destruct (Z.ltb_spec o n) as [L|L]; [apply nth_error_repeat'; lia|]. apply nth_error_None. rewrite repeat_length. lia.
Qed.
Lemma cell_new_other {T} (g : mem T) n p : ~ owned [length g] p -> cell (fst (alloc g n)) p = cell g p.
Proof.
  destruct p as [|b o]; [reflexivity|]. intros N. assert (Nb : length g <> b) by (intros E; apply N; left; exact E).
  unfold alloc, cell. cbn [fst]. destruct (le_lt_dec (length g) b) as [L|L].
  - rewrite nth_error_app2 by exact L. replace (nth_error g b) with (@None (option (list (option T)))) by (symmetry; apply nth_error_None; exact L).
    destruct (b - length g)%nat as [|d] eqn:E; [lia|]. cbn [nth_error]. destruct d; reflexivity.
  - rewrite nth_error_app1 by exact L. reflexivity.
Qed.
Lemma owned_cons b B p : owned (b :: B) p <-> owned [b] p \/ owned B p.
Proof. destruct p as [|c o]; cbn [owned within In]; tauto. Qed.
Lemma owned_dec b p : {owned [b] p} + {~ owned [b] p}.
Proof.
  destruct p as [|c o]; [right; intros []|]. destruct (Nat.eq_dec b c) as [->|N]; [left; left; reflexivity|]. right. intros [E|[]]. auto.
Qed.
Lemma owned_remove b B p : owned (remove Nat.eq_dec b B) p <-> owned B p /\ ~ owned [b] p.
Proof.
  destruct p as [|c o]; cbn [owned within]; [tauto|]. split.
  - intros H. apply in_remove in H as [H N]. split; [exact H|]. intros [E|[]]. auto.
  - intros [H N]. apply in_in_remove; [|exact H]. intros E. apply N. left. auto.
Qed.
Lemma upd_length {T} (m : mem T) p v : length (upd m p v) = length m.
Proof.
  destruct p as [|b o]; [reflexivity|]. unfold upd. destruct (nth_error m b) as [[cs|]|]; try reflexivity.
  destruct (0 <=? o); [apply set_nth_length|reflexivity].
Qed.
Lemma alive_upd {T} (m : mem T) p v b : alive (upd m p v) b -> alive m b.
Proof.
  unfold alive. destruct p as [|c o]; [auto|]. unfold upd. destruct (nth_error m c) as [[cs|]|] eqn:E; auto.
  destruct (0 <=? o); [|auto]. intros (ds & H). destruct (Nat.eq_dec c b) as [<-|N]; [eauto|].
  rewrite set_nth_other in H by exact N. eauto.
Qed.
Lemma release_alive {T} (m : mem T) b : alive m b -> release m (Ptr b 0) = Ok (set_nth m b None).
Proof. intros (cs & E). cbn [release]. rewrite E. reflexivity. Qed.
Lemma valid_alive {T} (m : mem T) b o : valid m (Ptr b o) -> alive m b.
Proof. unfold valid, cell, alive. destruct (nth_error m b) as [[cs|]|]; [eauto|congruence..]. Qed.

(** ** One step of a thread in the memory as it knows it *)
Definition known (T A : Type) := (tact T A * list nat * mem T)%type.
Inductive lstep {T A} (Sh : nat -> Prop) : known T A -> known T A -> Prop :=
| lform p k B m : lstep Sh (k, B, m) (Form p k, B, m)
| lload p k B m v : peek m p = Some v -> lstep Sh (k v, B, m) (Load p k, B, m)
| lstore p v k B m : lstep Sh (k, B, upd m p v) (Store p v k, B, m)
| lnew n k B m b : ~ Sh b -> ~ In b B -> lstep Sh (k (Ptr b 0), b :: B, place m b n) (New n k, B, m)
| ldelete b k B m : lstep Sh (k, remove Nat.eq_dec b B, set_nth m b None) (Delete (Ptr b 0) k, B, m).
Definition safe_known {T A} Sh R W Q (s : known T A) : Prop := safe Sh R W Q (fst (fst s)) (snd (fst s)) (snd s).
Lemma lstep_safe {T A} Sh R W Q (s s' : known T A) : safe_known Sh R W Q s -> lstep Sh s' s -> safe_known Sh R W Q s'.
Proof.
  unfold safe_known. intros H L. destruct L; cbn [fst snd] in *; inversion H; subst; auto.
  replace v with v0 by congruence. assumption.
Qed.
Lemma safe_acc {T A} Sh R W Q x B (m : mem T) : safe Sh R W Q x B m -> Acc (@lstep T A Sh) (x, B, m).
Proof.
  intros H. induction H; constructor; intros y L; inversion L; subst; auto. replace v0 with v by congruence. assumption.
Qed.

(** ** One step of one of several threads *)
Definition knowns (T A : Type) := (list (tact T A) * (nat -> list nat) * (nat -> mem T))%type.
Definition one {T A} (Sh : nat -> Prop) (s' s : knowns T A) : Prop :=
  exists i x x' B' m', nth_error (fst (fst s)) i = Some x /\ lstep Sh (x', B', m') (x, snd (fst s) i, snd s i) /\
    s' = (set_nth (fst (fst s)) i x', set_at (snd (fst s)) i B', set_at (snd s) i m').
Lemma acc_cons {T A} Sh (t : known T A) : Acc (lstep Sh) t -> forall (s : knowns T A), Acc (one Sh) s ->
  forall x l Bs ms, t = (x, Bs 0%nat, ms 0%nat) -> s = (l, fun i => Bs (S i), fun i => ms (S i)) -> Acc (one Sh) (x :: l, Bs, ms).
Proof.
  intros At. induction At as [t _ IHt]. intros s As. induction As as [s As' IHs]. intros x l Bs ms Et Es.
  constructor. intros s' (i & y & y' & B' & m' & Ei & L & ->). destruct i as [|i]; cbn [fst snd nth_error set_nth] in *.
  - injection Ei as <-. apply (IHt (y', B', m')) with (s := s); [rewrite Et; exact L|constructor; exact As'| reflexivity|].
    rewrite Es. reflexivity.
  - apply (IHs (set_nth l i y', fun j => set_at Bs (S i) B' (S j), fun j => set_at ms (S i) m' (S j)));
      [|rewrite Et; reflexivity|reflexivity].
    rewrite Es. exists i, y, y', B', m'. split; [exact Ei|]. split; [exact L|reflexivity].
Qed.
Lemma acc_all {T A} Sh (l : list (tact T A)) : forall Bs ms, (forall i x, nth_error l i = Some x -> Acc (lstep Sh) (x, Bs i, ms i)) ->
  Acc (one Sh) (l, Bs, ms).
Proof.
  induction l as [|x l IH]; intros Bs ms H.
  - constructor. intros s' ([|i] & y & y' & B' & m' & Ei & _); discriminate.
  - eapply (acc_cons Sh (x, Bs 0%nat, ms 0%nat)); [apply (H 0%nat); reflexivity| |reflexivity..].
    apply IH. intros i y E. exact (H (S i) y E).
Qed.

(** ** Turns from the front *)
Lemma tturns_cons {T A} n (s s2 : tstate T A) : tturns (S n) s s2 -> exists s1, tturn s s1 /\ tturns n s1 s2.
Proof.
  revert s2. induction n as [|n IH]; intros s2 H; inversion H as [|? ? s' ? H1 H2]; subst.
  - inversion H1; subst. exists s2. split; [exact H2|constructor].
  - destruct (IH _ H1) as (s1 & E1 & E2). exists s1. split; [exact E1|]. econstructor; eassumption.
Qed.
Lemma finite_choice (P : nat -> nat -> Prop) n : (forall i a b, (a <= b)%nat -> P i a -> P i b) ->
  (forall i, (i < n)%nat -> exists a, P i a) -> exists a, forall i, (i < n)%nat -> P i a.
Proof.
  intros Mo. induction n as [|n IH]; intros H; [exists 0%nat; intros; lia|].
  destruct IH as (a & Ha); [intros; apply H; lia|]. destruct (H n ltac:(lia)) as (b & Hb). exists (Nat.max a b).
  intros i Hi. destruct (Nat.eq_dec i n) as [->|N]; [apply (Mo n b); [lia|exact Hb]|apply (Mo i a); [lia|apply Ha; lia]].
Qed.
