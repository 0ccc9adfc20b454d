From Coq Require Import ZArith List Bool Lia PeanoNat.
From Verif Require Import Outcome Memory MemFacts Alloc AllocSpec AllocFacts.
Import ListNotations.
Open Scope Z_scope.

(** Owners: the variables, and one temporary ([None]). *)
Definition owners := option nat -> option htable.
Definition ext (e : vars htable) (x : option htable) : owners := fun i => match i with None => x | Some v => e v end.

(** [lost]: blocks that belong to nobody. *)
Definition Inv (lost : list nat) (tr : list event) (nx : nat) (e : owners) : Prop :=
  well_released tr /\
  (forall k b n, In (Alloc k b n) tr -> (b < nx)%nat) /\
  (forall i t b, e i = Some t -> hb_ptr (ht_blk t) = Some b ->
     exists k n, hb_alloc (ht_blk t) = Some k /\ In (Alloc k b n) tr /\ ht_size t <= n /\
       forall k', ~ In (Free k' b) tr) /\
  (forall i j t u b, e i = Some t -> e j = Some u ->
     hb_ptr (ht_blk t) = Some b -> hb_ptr (ht_blk u) = Some b -> i = j) /\
  (forall k b n, In (Alloc k b n) tr -> In (Free k b) tr \/ (exists i t, e i = Some t /\ hb_ptr (ht_blk t) = Some b) \/ In b lost) /\
  (forall b, In b lost -> (exists k n, In (Alloc k b n) tr) /\ (forall k', ~ In (Free k' b) tr) /\
     forall i t, e i = Some t -> hb_ptr (ht_blk t) <> Some b).

Lemma app_one {X} (l l1 l2 : list X) x y : l ++ [x] = l1 ++ y :: l2 ->
  (l2 = [] /\ l1 = l /\ x = y) \/ (exists l2', l2 = l2' ++ [x] /\ l = l1 ++ y :: l2').
Proof.
  destruct l2 as [|z l2] using rev_ind; intros H.
  - apply app_inj_tail in H as [-> ->]. left; auto.
  - right. clear IHl2. rewrite app_comm_cons, app_assoc in H. apply app_inj_tail in H as [H ->]. exists l2. auto.
Qed.

Lemma in_one {X} (l : list X) x y : In y (l ++ [x]) <-> In y l \/ x = y.
Proof. rewrite in_app_iff. simpl. intuition. Qed.

Lemma inv_rearr lost tr nx (e e' : owners) (f : option nat -> option nat) : Inv lost tr nx e ->
  (forall i j, f i = f j -> i = j) ->
  (forall i t b, e' i = Some t -> hb_ptr (ht_blk t) = Some b ->
     exists t0, e (f i) = Some t0 /\ ht_blk t0 = ht_blk t /\ ht_size t <= ht_size t0) ->
  (forall j t b, e j = Some t -> hb_ptr (ht_blk t) = Some b -> exists i t', e' i = Some t' /\ hb_ptr (ht_blk t') = Some b) ->
  Inv lost tr nx e'.
Proof.
  intros (W & F & O & D & L & X) Fi To From. split; [exact W|]. split; [exact F|]. split; [|split; [|split]].
  - intros i t b Hi Hb. destruct (To i t b Hi Hb) as (t0 & H0 & Eb & Es). rewrite <- Eb in Hb.
    destruct (O _ _ _ H0 Hb) as (k & n & Ha & Hn & Hs & Hf). exists k, n. rewrite <- Eb.
    split; [exact Ha|]. split; [exact Hn|]. split; [lia|exact Hf].
  - intros i j t u b Hi Hj Hb Hb'. destruct (To _ _ _ Hi Hb) as (t0 & H0 & Eb & _).
    destruct (To _ _ _ Hj Hb') as (u0 & H0' & Eb' & _). rewrite <- Eb in Hb. rewrite <- Eb' in Hb'.
    apply Fi. eapply D; eassumption.
  - intros k b n Hn. destruct (L k b n Hn) as [Hf|[(i & t & Hi & Hb)|Hx]]; [left; exact Hf|right; left|right; right; exact Hx].
    eapply From; eassumption.
  - intros b Hb. destruct (X b Hb) as (X1 & X2 & X3). split; [exact X1|]. split; [exact X2|].
    intros i t Hi Hp. destruct (To _ _ _ Hi Hp) as (t0 & H0 & Eb & _). rewrite <- Eb in Hp. exact (X3 _ _ H0 Hp).
Qed.

(** Exchange of the contents of two owners; pointers of the new contents are those of the old ones. *)
Definition flip (a b i : option nat) : option nat :=
  if (match i, a with None, None => true | Some x, Some y => Nat.eqb x y | _, _ => false end) then b
  else if (match i, b with None, None => true | Some x, Some y => Nat.eqb x y | _, _ => false end) then a else i.
Lemma onat_dec (a b : option nat) : {a = b} + {a <> b}.
Proof. decide equality. apply Nat.eq_dec. Qed.
Lemma flip_l a b : flip a b a = b.
Proof. unfold flip. destruct a; rewrite ?Nat.eqb_refl; reflexivity. Qed.
Lemma oeqb i a : (match i, a with None, None => true | Some x, Some y => Nat.eqb x y | _, _ => false end) = true <-> i = a.
Proof.
  destruct i as [x|], a as [y|]; try (split; congruence). rewrite Nat.eqb_eq. split; congruence.
Qed.
Lemma flip_r a b : flip a b b = a.
Proof.
  unfold flip. destruct (match b, a with None, None => true | Some x, Some y => Nat.eqb x y | _, _ => false end) eqn:E.
  - apply oeqb in E. congruence.
  - destruct b; rewrite ?Nat.eqb_refl; reflexivity.
Qed.
Lemma flip_o a b i : i <> a -> i <> b -> flip a b i = i.
Proof.
  intros Ha Hb. unfold flip.
  destruct (match i, a with None, None => true | Some x, Some y => Nat.eqb x y | _, _ => false end) eqn:E; [apply oeqb in E; contradiction|].
  destruct (match i, b with None, None => true | Some x, Some y => Nat.eqb x y | _, _ => false end) eqn:E'; [apply oeqb in E'; contradiction|].
  reflexivity.
Qed.
Lemma flip_flip a b i : flip a b (flip a b i) = i.
Proof.
  destruct (onat_dec i a) as [->|Na]; [rewrite flip_l; apply flip_r|].
  destruct (onat_dec i b) as [->|Nb]; [rewrite flip_r; apply flip_l|]. rewrite (flip_o a b i) by assumption. apply flip_o; assumption.
Qed.

Definition same_or_void (x y : option htable) : Prop :=
  x = y \/ ((forall t, x = Some t -> hb_ptr (ht_blk t) = None) /\ (forall t, y = Some t -> hb_ptr (ht_blk t) = None)).

Lemma inv_flip lost tr nx (e e' : owners) a b : Inv lost tr nx e -> (forall i, same_or_void (e' i) (e (flip a b i))) -> Inv lost tr nx e'.
Proof.
  intros I H. apply (inv_rearr lost tr nx e e' (flip a b) I).
  - intros i j E. rewrite <- (flip_flip a b i), <- (flip_flip a b j), E. reflexivity.
  - intros i t q Hi Hq. destruct (H i) as [E|[V _]].
    + exists t. rewrite <- E. split; [exact Hi|]. split; [reflexivity|lia].
    + rewrite (V t Hi) in Hq. discriminate.
  - intros j t q Hj Hq. exists (flip a b j), t. destruct (H (flip a b j)) as [E|[_ V]]; rewrite flip_flip in *.
    + rewrite E. auto.
    + rewrite (V t Hj) in Hq. discriminate.
Qed.
Lemma inv_same lost tr nx (e e' : owners) : Inv lost tr nx e -> (forall i, same_or_void (e' i) (e i)) -> Inv lost tr nx e'.
Proof.
  intros I H. apply (inv_flip lost tr nx e e' None None I). intros i.
  replace (flip None None i) with i; [apply H|]. destruct i; reflexivity.
Qed.

Lemma inv_alloc lost tr nx (e e' : owners) i k n : Inv lost tr nx e -> (forall t, e i = Some t -> hb_ptr (ht_blk t) = None) ->
  e' i = Some (HT (HB (Some nx) (Some k)) n) -> (forall j, j <> i -> e' j = e j) ->
  Inv lost (tr ++ [Alloc k nx n]) (S nx) e'.
Proof.
  intros (W & F & O & D & L & X) Vi Hi Ho.
  assert (NF : forall k', ~ In (Free k' nx) tr).
  { intros k' Hf. apply in_split in Hf as (l1 & l2 & ->).
    destruct (proj1 W l1 k' nx l2 eq_refl) as ((n' & Hn) & _).
    specialize (F k' nx n' ltac:(apply in_app_iff; left; exact Hn)). lia. }
  assert (Old : forall j t b, e j = Some t -> hb_ptr (ht_blk t) = Some b -> (b < nx)%nat).
  { intros j t b Hj Hb. destruct (O _ _ _ Hj Hb) as (k' & n' & _ & Hn & _). exact (F _ _ _ Hn). }
  destruct W as (W1 & W2 & W3). split; [split; [|split]|split; [|split; [|split; [|split]]]].
  - intros l1 k' b l2 E. apply app_one in E as [(_ & _ & E)|(l2' & -> & E)]; [discriminate|]. exact (W1 _ _ _ _ E).
  - intros l1 b n' l2 E. apply app_one in E as [(_ & _ & E)|(l2' & -> & E)]; [discriminate|]. exact (W2 _ _ _ _ E).
  - intros l1 k' b n' l2 E k2 n2 Hin. apply app_one in E as [(_ & -> & E)|(l2' & -> & E)].
    + injection E as _ <- _. specialize (F _ _ _ Hin). lia.
    + exact (W3 _ _ _ _ _ E k2 n2 Hin).
  - intros k' b n' Hin. apply in_one in Hin as [Hin|E]; [specialize (F _ _ _ Hin); lia|]. injection E as _ <- _. lia.
  - intros j t b Hj Hb. destruct (onat_dec j i) as [->|N].
    + rewrite Hi in Hj. injection Hj as <-. cbn in Hb. injection Hb as <-. exists k, n.
      split; [reflexivity|]. split; [apply in_one; right; reflexivity|]. split; [cbn; lia|].
      intros k' Hf. apply in_one in Hf as [Hf|Hf]; [exact (NF k' Hf)|discriminate].
    + rewrite Ho in Hj by exact N. destruct (O _ _ _ Hj Hb) as (k' & n' & Ha & Hn & Hs & Hf). exists k', n'.
      split; [exact Ha|]. split; [apply in_one; left; exact Hn|]. split; [exact Hs|].
      intros k2 Hk. apply in_one in Hk as [Hk|Hk]; [exact (Hf k2 Hk)|discriminate].
  - intros j l t u b Hj Hl Hb Hb'.
    destruct (onat_dec j i) as [->|N]; destruct (onat_dec l i) as [->|N']; [reflexivity| | |].
    + rewrite Hi in Hj. injection Hj as <-. injection Hb as <-. rewrite Ho in Hl by assumption.
      specialize (Old _ _ _ Hl Hb'). lia.
    + rewrite Hi in Hl. injection Hl as <-. injection Hb' as <-. rewrite Ho in Hj by assumption.
      specialize (Old _ _ _ Hj Hb). lia.
    + rewrite Ho in Hj, Hl by assumption. eapply D; eassumption.
  - intros k' b n' Hin. apply in_one in Hin as [Hin|E].
    + destruct (L _ _ _ Hin) as [Hf|[(j & t & Hj & Hb)|Hx]]; [left; apply in_one; left; exact Hf| |right; right; exact Hx].
      right. left. exists j, t. rewrite Ho; [auto|]. intros ->. rewrite (Vi t Hj) in Hb. discriminate.
    + injection E as <- <- <-. right. left. exists i. eexists. split; [exact Hi|reflexivity].
  - intros b Hb. destruct (X b Hb) as ((k1 & n1 & X1) & X2 & X3). split; [|split].
    + exists k1, n1. apply in_one. left. exact X1.
    + intros k' Hf. apply in_one in Hf as [Hf|Hf]; [exact (X2 k' Hf)|discriminate].
    + intros j t Hj Hp. destruct (onat_dec j i) as [->|N].
      * rewrite Hi in Hj. injection Hj as <-. injection Hp as <-. specialize (F _ _ _ X1). lia.
      * rewrite Ho in Hj by exact N. exact (X3 _ _ Hj Hp).
Qed.

Lemma inv_read lost tr nx (e : owners) i t b m : Inv lost tr nx e -> e i = Some t -> hb_ptr (ht_blk t) = Some b ->
  m <= ht_size t -> Inv lost (tr ++ [Read b m]) nx e.
Proof.
  intros (W & F & O & D & L & X) Hi Hb Hm. destruct W as (W1 & W2 & W3). split; [split; [|split]|split; [|split; [|split; [|split]]]].
  - intros l1 k' b' l2 E. apply app_one in E as [(_ & _ & E)|(l2' & -> & E)]; [discriminate|]. exact (W1 _ _ _ _ E).
  - intros l1 b' n' l2 E. apply app_one in E as [(_ & -> & E)|(l2' & -> & E)]; [|exact (W2 _ _ _ _ E)].
    injection E as <- <-. destruct (O _ _ _ Hi Hb) as (k & n & _ & Hn & Hs & Hf). split; [|exact Hf].
    exists k, n. split; [exact Hn|lia].
  - intros l1 k' b' n' l2 E. apply app_one in E as [(_ & _ & E)|(l2' & -> & E)]; [discriminate|]. exact (W3 _ _ _ _ _ E).
  - intros k' b' n' Hin. apply in_one in Hin as [Hin|E]; [exact (F _ _ _ Hin)|discriminate].
  - intros j u b' Hj Hb'. destruct (O _ _ _ Hj Hb') as (k & n & Ha & Hn & Hs & Hf). exists k, n.
    split; [exact Ha|]. split; [apply in_one; left; exact Hn|]. split; [exact Hs|].
    intros k' Hk. apply in_one in Hk as [Hk|Hk]; [exact (Hf k' Hk)|discriminate].
  - exact D.
  - intros k b' n Hin. apply in_one in Hin as [Hin|E]; [|discriminate].
    destruct (L _ _ _ Hin) as [Hf|Ho]; [left; apply in_one; left; exact Hf|right; exact Ho].
  - intros b' Hb'. destruct (X b' Hb') as ((k1 & n1 & X1) & X2 & X3). split; [|split; [|exact X3]].
    + exists k1, n1. apply in_one. left. exact X1.
    + intros k' Hf. apply in_one in Hf as [Hf|Hf]; [exact (X2 k' Hf)|discriminate].
Qed.

Lemma inv_free lost tr nx (e e' : owners) i t b k : Inv lost tr nx e -> e i = Some t -> hb_ptr (ht_blk t) = Some b ->
  hb_alloc (ht_blk t) = Some k -> (forall u, e' i = Some u -> hb_ptr (ht_blk u) = None) -> (forall j, j <> i -> e' j = e j) ->
  Inv lost (tr ++ [Free k b]) nx e'.
Proof.
  intros (W & F & O & D & L & X) Hi Hb Ha Vi Ho. destruct W as (W1 & W2 & W3).
  destruct (O _ _ _ Hi Hb) as (k0 & n0 & Ha0 & Hn0 & Hs0 & Hf0). rewrite Ha in Ha0. injection Ha0 as <-.
  assert (Uniq : forall k' n', In (Alloc k' b n') tr -> k' = k).
  { intros k' n' Hin. apply in_split in Hin as (l1 & l2 & E). rewrite E in Hn0. apply in_app_iff in Hn0 as [H|[H|H]].
    - exfalso. exact (W3 _ _ _ _ _ E _ _ H).
    - congruence.
    - apply in_split in H as (m1 & m2 & ->). exfalso. rewrite app_comm_cons, app_assoc in E.
      apply (W3 _ _ _ _ _ E k' n'). apply in_app_iff. right. left. reflexivity. }
  split; [split; [|split]|split; [|split; [|split; [|split]]]].
  - intros l1 k' b' l2 E. apply app_one in E as [(_ & -> & E)|(l2' & -> & E)]; [|exact (W1 _ _ _ _ E)].
    injection E as <- <-. split; [eauto|exact Hf0].
  - intros l1 b' n' l2 E. apply app_one in E as [(_ & _ & E)|(l2' & -> & E)]; [discriminate|]. exact (W2 _ _ _ _ E).
  - intros l1 k' b' n' l2 E. apply app_one in E as [(_ & _ & E)|(l2' & -> & E)]; [discriminate|]. exact (W3 _ _ _ _ _ E).
  - intros k' b' n' Hin. apply in_one in Hin as [Hin|E]; [exact (F _ _ _ Hin)|discriminate].
  - intros j u b' Hj Hb'. destruct (onat_dec j i) as [->|N]; [rewrite (Vi u Hj) in Hb'; discriminate|].
    rewrite Ho in Hj by exact N. destruct (O _ _ _ Hj Hb') as (k' & n & Ha' & Hn & Hs & Hf). exists k', n.
    split; [exact Ha'|]. split; [apply in_one; left; exact Hn|]. split; [exact Hs|].
    intros k2 Hk. apply in_one in Hk as [Hk|Hk]; [exact (Hf k2 Hk)|].
    injection Hk as <- <-. apply N. eapply D; eassumption.
  - intros j l u u' b' Hj Hl Hb1 Hb2.
    destruct (onat_dec j i) as [->|N]; [rewrite (Vi u Hj) in Hb1; discriminate|].
    destruct (onat_dec l i) as [->|N']; [rewrite (Vi u' Hl) in Hb2; discriminate|].
    rewrite Ho in Hj, Hl by assumption. eapply D; eassumption.
  - intros k' b' n Hin. apply in_one in Hin as [Hin|E]; [|discriminate].
    destruct (L _ _ _ Hin) as [Hf|[(j & u & Hj & Hb')|Hx]]; [left; apply in_one; left; exact Hf| |right; right; exact Hx].
    destruct (onat_dec j i) as [->|N].
    + rewrite Hi in Hj. injection Hj as <-. rewrite Hb in Hb'. injection Hb' as <-. left. apply in_one. right.
      rewrite (Uniq _ _ Hin). reflexivity.
    + right. left. exists j, u. rewrite Ho by exact N. auto.
  - intros b' Hb'. destruct (X b' Hb') as ((k1 & n1 & X1) & X2 & X3). split; [|split].
    + exists k1, n1. apply in_one. left. exact X1.
    + intros k' Hf. apply in_one in Hf as [Hf|Hf]; [exact (X2 k' Hf)|]. injection Hf as _ <-. exact (X3 _ _ Hi Hb).
    + intros j u Hj Hp. destruct (onat_dec j i) as [->|N]; [rewrite (Vi u Hj) in Hp; discriminate|].
      rewrite Ho in Hj by exact N. exact (X3 _ _ Hj Hp).
Qed.

(** ** The operations *)
Definition SInv (lost : list nat) (s : hstate) (x : option htable) : Prop := Inv lost (h_trace s) (h_next s) (ext (h_tabs s) x).

Lemma hnew_inv lost zero s k n : SInv lost s None -> let '(s1, x) := hnew zero s k n in
  SInv lost s1 (Some (HT x n)) /\ h_tabs s1 = h_tabs s /\ hb_alloc x = Some k.
Proof.
  intros I. unfold hnew, hallocate. destruct ((n =? 0) && (Nat.eqb k 0 || negb (zero k))).
  - split; [|split; reflexivity]. unfold SInv. apply (inv_same _ _ _ _ _ I). intros [v|]; [left; reflexivity|].
    right. split; [intros t E; injection E as <-; reflexivity|discriminate].
  - split; [|split; reflexivity]. unfold SInv. cbn [h_trace h_next h_tabs].
    apply (inv_alloc _ _ _ _ _ None k n I); [discriminate|reflexivity|]. intros [v|] H; [reflexivity|congruence].
Qed.

Lemma hcopy_inv lost zero s w t s1 t1 : SInv lost s None -> h_tabs s w = Some t -> hcopy zero s t = Ok (s1, t1) ->
  SInv lost s1 (Some t1) /\ h_tabs s1 = h_tabs s.
Proof.
  intros I Hw. unfold hcopy. pose proof (hnew_inv lost zero s 0 (ht_size t) I) as N.
  destruct (hnew zero s 0 (ht_size t)) as [s0 x]. destruct N as (I0 & T0 & _).
  destruct (ht_size t =? 0); [intros E; injection E as <- <-; auto|].
  destruct (hb_ptr (ht_blk t)) as [b|] eqn:Eb; [|discriminate]. intros E. injection E as <- <-.
  split; [|exact T0]. unfold SInv. cbn [h_trace h_next h_tabs].
  apply (inv_read _ _ _ _ (Some w) t b _ I0); [cbn; rewrite T0; exact Hw|exact Eb|lia].
Qed.

Lemma hcopy_ok zero s t : ~ hollow t -> exists s1 t1, hcopy zero s t = Ok (s1, t1).
Proof.
  intros Nh. unfold hcopy. destruct (hnew zero s 0 (ht_size t)) as [s0 x].
  destruct (Z.eqb_spec (ht_size t) 0) as [|N]; [eauto|]. destruct (hb_ptr (ht_blk t)) eqn:E; [eauto|].
  exfalso. apply Nh. split; assumption.
Qed.

(** Destroying the temporary. *)
Lemma hdestroy_inv lost s t : SInv lost s (Some t) -> exists s', hdestroy s (ht_blk t) = Ok s' /\ SInv lost s' None /\ h_tabs s' = h_tabs s.
Proof.
  intros I. unfold hdestroy. destruct (hb_ptr (ht_blk t)) as [b|] eqn:Eb.
  - destruct I as (W & F & O & D & L & X). destruct (O None t b eq_refl Eb) as (k & n & Ha & _). unfold hdelete. rewrite Ha.
    eexists. split; [reflexivity|]. split; [|reflexivity]. unfold SInv. cbn [h_trace h_next h_tabs].
    apply (inv_free _ _ _ (ext (h_tabs s) (Some t)) _ None t b k (conj W (conj F (conj O (conj D (conj L X)))))); auto; [discriminate|].
    intros [v|] H; [reflexivity|congruence].
  - exists s. split; [reflexivity|]. split; [|reflexivity]. apply (inv_same _ _ _ _ _ I). intros [v|]; [left; reflexivity|].
    right. split; [discriminate|]. intros u E. injection E as <-. exact Eb.
Qed.

Lemma sinv_flip lost s s' x x' a b : SInv lost s x -> h_trace s' = h_trace s -> h_next s' = h_next s ->
  (forall i, same_or_void (ext (h_tabs s') x' i) (ext (h_tabs s) x (flip a b i))) -> SInv lost s' x'.
Proof. intros I Et En H. unfold SInv. rewrite Et, En. exact (inv_flip _ _ _ _ _ _ _ I H). Qed.

Ltac flips := intros i; try (match goal with |- context [flip ?a ?b i] =>
  destruct (onat_dec i a) as [->|?]; [rewrite flip_l|
  destruct (onat_dec i b) as [->|?]; [rewrite flip_r|rewrite (flip_o a b i) by assumption]] end).
Ltac voids := right; split; [intros ? E; cbn in E; try rewrite E in *; (discriminate E || (injection E as <-; (reflexivity || assumption)))
                            |intros ? E; cbn in E; try rewrite E in *; (discriminate E || (injection E as <-; (reflexivity || assumption)))].

Lemma hstep_inv lost zero s o : SInv lost s None ->
  (forall s', hstep zero s o = Ok s' -> SInv lost s' None) /\ (allowed s o -> exists s', hstep zero s o = Ok s').
Proof.
  intros I. destruct o; cbn [hstep]; unfold fresh, var, allowed.
  - (* TDefault *) destruct (h_tabs s v) as [t|] eqn:Ev; [split; [discriminate|intros H; discriminate H]|]. cbn [bind]. split; [|eauto].
    intros s' E. injection E as <-. eapply (sinv_flip lost s) with (a := None) (b := None); [exact I|reflexivity|reflexivity|].
    intros i. replace (flip None None i) with i by (destruct i; reflexivity). destruct i as [u|]; [|left; reflexivity].
    cbn. at_var u v; [|left; reflexivity]. rewrite Ev. voids.
  - (* TNew *) destruct (h_tabs s v) as [t|] eqn:Ev; [split; [discriminate|intros [H _]; discriminate H]|]. cbn [bind].
    destruct (Z.ltb_spec n 0) as [Hn|Hn]; [split; [discriminate|intros [_ H]; lia]|].
    pose proof (hnew_inv lost zero s k n I) as N. destruct (hnew zero s k n) as [s1 x]. destruct N as (I1 & T1 & _).
    split; [|eauto]. intros s' E. injection E as <-.
    eapply (sinv_flip lost s1) with (a := None) (b := (Some v)); [exact I1|reflexivity|reflexivity|]. flips.
    + left. cbn. rewrite T1, Ev. reflexivity.
    + left. cbn. apply bindv_same.
    + left. destruct i as [u|]; [|congruence]. cbn. apply bindv_other. congruence.
  - (* TCopy *) destruct (h_tabs s v) as [t|] eqn:Ev; [split; [discriminate|intros [H _]; discriminate H]|]. cbn [bind].
    destruct (h_tabs s w) as [t|] eqn:Ew; [|split; [discriminate|intros (_ & t & H & _); congruence]]. cbn [bind].
    split.
    + intros s' E. destruct (hcopy zero s t) as [[s1 t1]| | |] eqn:Ec; try discriminate. cbn [bind] in E. injection E as <-.
      destruct (hcopy_inv _ _ _ _ _ _ _ I Ew Ec) as (I1 & T1).
      eapply (sinv_flip lost s1) with (a := None) (b := (Some v)); [exact I1|reflexivity|reflexivity|]. flips.
      * left. cbn. rewrite T1, Ev. reflexivity.
      * left. cbn. apply bindv_same.
      * left. destruct i as [u|]; [|congruence]. cbn. apply bindv_other. congruence.
    + intros (_ & t' & H & Nh). injection H as <-. destruct (hcopy_ok zero s t Nh) as (s1 & t1 & ->). cbn [bind]. eauto.
  - (* TMove *) destruct (h_tabs s v) as [t|] eqn:Ev; [split; [discriminate|intros [H _]; discriminate H]|]. cbn [bind].
    destruct (h_tabs s w) as [t|] eqn:Ew; [|split; [discriminate|intros [_ H]; congruence]]. cbn [bind]. split; [|eauto].
    assert (N : w <> v) by congruence.
    intros s' E. injection E as <-. eapply (sinv_flip lost s) with (a := (Some v)) (b := (Some w)); [exact I|reflexivity|reflexivity|]. flips.
    + left. cbn. rewrite bindv_same. congruence.
    + cbn. rewrite bindv_other, bindv_same by exact N. rewrite Ev. voids.
    + left. destruct i as [u|]; [|reflexivity]. cbn. rewrite !bindv_other by congruence. reflexivity.
  - (* TCopyAssign *) destruct (h_tabs s w) as [t|] eqn:Ew; [|split; [discriminate|intros (_ & t & H & _); congruence]]. cbn [bind].
    assert (Go : forall s1 t1 old, hcopy zero s t = Ok (s1, t1) -> h_tabs s1 v = Some old ->
      exists s', hdestroy (with_tab s1 v (Some t1)) (ht_blk old) = Ok s' /\ SInv lost s' None).
    { intros s1 t1 old Ec Ho. destruct (hcopy_inv _ _ _ _ _ _ _ I Ew Ec) as (I1 & T1).
      destruct (hdestroy_inv lost (with_tab s1 v (Some t1)) old) as (s' & E & I' & _); [|eauto].
      eapply (sinv_flip lost s1) with (a := None) (b := (Some v)); [exact I1|reflexivity|reflexivity|]. flips.
      - left. cbn. congruence.
      - left. cbn. apply bindv_same.
      - left. destruct i as [u|]; [|congruence]. cbn. apply bindv_other. congruence. }
    split.
    + intros s' E. destruct (hcopy zero s t) as [[s1 t1]| | |] eqn:Ec; try discriminate. cbn [bind] in E.
      destruct (h_tabs s1 v) as [old|] eqn:Eo; [|discriminate]. cbn [bind] in E.
      destruct (Go _ _ _ eq_refl Eo) as (s2 & E2 & I2). rewrite E in E2. injection E2 as <-. exact I2.
    + intros (Hv & t' & H & Nh). injection H as <-. destruct (hcopy_ok zero s t Nh) as (s1 & t1 & Ec). rewrite Ec. cbn [bind].
      destruct (hcopy_inv _ _ _ _ _ _ _ I Ew Ec) as (_ & T1). destruct (h_tabs s1 v) as [old|] eqn:Eo; [|congruence]. cbn [bind].
      destruct (Go _ _ _ Ec Eo) as (s2 & E2 & _). eauto.
  - (* TMoveAssign *) destruct (h_tabs s w) as [t|] eqn:Ew; [|split; [discriminate|intros (_ & H); congruence]]. cbn [bind].
    destruct (Nat.eq_dec v w) as [->|N].
    + cbn [h_tabs with_tab]. rewrite bindv_same. cbn [bind ht_blk]. unfold hdestroy. cbn [hb_ptr bind h_tabs with_tab].
      rewrite bindv_same. cbn [bind h_tabs with_tab]. rewrite bindv_same. cbn [bind ht_blk hb_ptr hb_alloc]. split; [|eauto].
      intros s' E. injection E as <-. eapply (sinv_flip lost s) with (a := None) (b := None); [exact I|reflexivity|reflexivity|].
      intros i. replace (flip None None i) with i by (destruct i; reflexivity). left. destruct i as [u|]; [|reflexivity].
      cbn. at_var u w; [|reflexivity]. rewrite Ew. destruct t as [[p a] n]. reflexivity.
    + cbn [h_tabs with_tab]. rewrite bindv_other by exact N.
      destruct (h_tabs s v) as [old|] eqn:Ev; [|split; [discriminate|intros (H & _); congruence]]. cbn [bind].
      set (s2 := with_tab (with_tab s w _) v _).
      (* the old contents of v become the temporary *)
      pose (sx := with_tab (with_tab s w (Some (HT (HB None None) (ht_size t)))) v (Some t)).
      assert (Ix : SInv lost sx (Some old)).
      { assert (I1 : SInv lost (with_tab s v None) (Some old)).
        { eapply (sinv_flip lost s) with (a := None) (b := (Some v)); [exact I|reflexivity|reflexivity|]. flips.
          - left. cbn. congruence.
          - left. cbn. apply bindv_same.
          - left. destruct i as [u|]; [|congruence]. cbn. apply bindv_other. congruence. }
        eapply (sinv_flip lost _) with (a := (Some v)) (b := (Some w)); [exact I1|reflexivity|reflexivity|]. flips.
        - left. cbn. rewrite bindv_same, bindv_other by congruence. congruence.
        - cbn. rewrite bindv_other, !bindv_same by congruence. voids.
        - left. destruct i as [u|]; [|reflexivity]. cbn. rewrite !bindv_other by congruence. reflexivity. }
      (* destroying it does not look at the variables *)
      assert (Hd : exists tr', hdestroy s2 (ht_blk old) = Ok (HS tr' (h_next s) (h_tabs s2)) /\ Inv lost tr' (h_next s) (ext (h_tabs sx) None)).
      { destruct (hdestroy_inv lost sx old Ix) as (s' & E & I' & T'). unfold hdestroy, hdelete in *.
        destruct (hb_ptr (ht_blk old)) as [b|].
        - destruct (hb_alloc (ht_blk old)) as [k|]; [|discriminate]. injection E as <-. eexists. split; [reflexivity|exact I'].
        - injection E as <-. exists (h_trace s). split; [reflexivity|exact I']. }
      destruct Hd as (tr' & -> & I'). cbn [bind h_tabs]. unfold s2. cbn [h_tabs with_tab h_trace h_next].
      rewrite (bindv_other _ v w), bindv_same by congruence. cbn [bind ht_blk hb_ptr hb_alloc h_tabs with_tab].
      rewrite (bindv_other _ w v), bindv_same by congruence. cbn [bind ht_blk hb_ptr hb_alloc]. split; [|eauto].
      intros s' E. injection E as <-. unfold SInv. cbn [h_tabs h_trace h_next with_tab].
      apply (inv_same _ _ _ _ _ I'). intros i. left. destruct i as [u|]; [|reflexivity]. cbn.
      at_var u v; [destruct t as [[p a] n]; reflexivity|]. at_var u w; [reflexivity|]. rewrite !bindv_other by assumption. reflexivity.
  - (* TSwap *) destruct (h_tabs s v) as [t|] eqn:Ev; [|split; [discriminate|intros (H & _); congruence]]. cbn [bind].
    destruct (h_tabs s w) as [u|] eqn:Ew; [|split; [discriminate|intros (_ & H); congruence]]. cbn [bind]. split; [|eauto].
    intros s' E. injection E as <-. eapply (sinv_flip lost s) with (a := (Some v)) (b := (Some w)); [exact I|reflexivity|reflexivity|]. flips.
    + left. cbn. at_var v w; [congruence|]. rewrite bindv_same. congruence.
    + left. cbn. rewrite bindv_same. congruence.
    + left. destruct i as [x|]; [|reflexivity]. cbn. rewrite !bindv_other by congruence. reflexivity.
  - (* TDestroy *) destruct (h_tabs s v) as [t|] eqn:Ev; [|split; [discriminate|intros H; congruence]]. cbn [bind].
    destruct (hdestroy_inv lost (with_tab s v None) t) as (s' & E & I' & _).
    + eapply (sinv_flip lost s) with (a := None) (b := (Some v)); [exact I|reflexivity|reflexivity|]. flips.
      * left. cbn. congruence.
      * left. cbn. apply bindv_same.
      * left. destruct i as [u|]; [|congruence]. cbn. apply bindv_other. congruence.
    + rewrite E. split; [|eauto]. intros s2 E2. injection E2 as <-. exact I'.
Qed.

Lemma hinit_inv : SInv [] hinit None.
Proof.
  split; [split; [|split]|split; [|split; [|split; [|split]]]]; cbn.
  - intros [|? ?] ? ? ? E; discriminate.
  - intros [|? ?] ? ? ? E; discriminate.
  - intros [|? ?] ? ? ? ? E; discriminate.
  - contradiction.
  - intros [?|] ? ? E; discriminate.
  - intros [?|] ? ? ? ? E; discriminate.
  - contradiction.
  - contradiction.
Qed.

Lemma hruns_inv lost zero os : forall s s', SInv lost s None -> hruns zero s os = Ok s' -> SInv lost s' None.
Proof.
  induction os as [|o os IH]; cbn [hruns]; intros s s' I E; [injection E as <-; exact I|].
  destruct (hstep zero s o) as [s1| | |] eqn:E1; try discriminate. cbn [bind] in E.
  apply (IH s1); [|exact E]. apply (proj1 (hstep_inv lost zero s o I)). exact E1.
Qed.

Lemma histories_l zero os s : hruns zero hinit os = Ok s -> well_released (h_trace s) /\ well_owned s /\ no_leak s.
Proof.
  intros E. destruct (hruns_inv [] zero os _ _ hinit_inv E) as (W & F & O & D & L & X). split; [exact W|]. split; [split|].
  - intros v t b Hv Hb. exact (O (Some v) t b Hv Hb).
  - intros v w t u b Hv Hw Hb Hb'. specialize (D (Some v) (Some w) t u b Hv Hw Hb Hb'). congruence.
  - intros k b n Hn. destruct (L k b n Hn) as [H|[(i & t & Hi & Hb)|[]]]; [left; exact H|right].
    destruct i as [v|]; [exists v, t; auto|discriminate].
Qed.

Lemma histories_end_l zero os s : hruns zero hinit os = Ok s -> (forall v, h_tabs s v = None) ->
  forall k b n, In (Alloc k b n) (h_trace s) -> In (Free k b) (h_trace s).
Proof.
  intros E H k b n Hn. destruct (histories_l zero os s E) as (_ & _ & L). destruct (L k b n Hn) as [Hf|(v & t & Hv & _)]; [exact Hf|].
  rewrite H in Hv. discriminate.
Qed.

Lemma histories_progress_l zero os s o : hruns zero hinit os = Ok s -> allowed s o -> exists s', hstep zero s o = Ok s'.
Proof. intros E. apply (proj2 (hstep_inv [] zero s o (hruns_inv [] zero os _ _ hinit_inv E))). Qed.

Lemma copy_hollow_l zero s v w t : h_tabs s v = None -> h_tabs s w = Some t -> hollow t -> hstep zero s (TCopy v w) = UB.
Proof.
  intros Hv Hw (N & Hp). cbn [hstep]. unfold fresh, var. rewrite Hv, Hw. cbn [bind]. unfold hcopy.
  destruct (hnew zero s 0 (ht_size t)). apply Z.eqb_neq in N. rewrite N, Hp. reflexivity.
Qed.
