From Coq Require Import ZArith List Bool Lia PeanoNat.
From Verif Require Import Outcome Memory MemFacts Alloc AllocSpec AllocFacts AllocFacts2 AllocFacts3 Fail FailSpec.
Import ListNotations.
Open Scope Z_scope.

(** ** A block whose owner forgets it *)
Lemma inv_abandon lost tr nx (e e' : owners) i t b : Inv lost tr nx e -> e i = Some t -> hb_ptr (ht_blk t) = Some b ->
  (forall u, e' i = Some u -> hb_ptr (ht_blk u) = None) -> (forall j, j <> i -> e' j = e j) ->
  Inv (b :: lost) tr nx e'.
Proof.
  intros (W & F & O & D & L & X) Hi Hb Vi Ho. split; [exact W|]. split; [exact F|]. split; [|split; [|split]].
  - intros j u b' Hj Hb'. destruct (onat_dec j i) as [->|N]; [rewrite (Vi u Hj) in Hb'; discriminate|].
    rewrite Ho in Hj by exact N. exact (O _ _ _ Hj Hb').
  - intros j l u u' b' Hj Hl Hb1 Hb2.
    destruct (onat_dec j i) as [->|N]; [rewrite (Vi u Hj) in Hb1; discriminate|].
    destruct (onat_dec l i) as [->|N']; [rewrite (Vi u' Hl) in Hb2; discriminate|].
    rewrite Ho in Hj, Hl by assumption. eapply D; eassumption.
  - intros k b' n Hin. destruct (L _ _ _ Hin) as [Hf|[(j & u & Hj & Hb')|Hx]]; [left; exact Hf| |right; right; right; exact Hx].
    destruct (onat_dec j i) as [->|N].
    + rewrite Hi in Hj. injection Hj as <-. rewrite Hb in Hb'. injection Hb' as <-. right. right. left. reflexivity.
    + right. left. exists j, u. rewrite Ho by exact N. auto.
  - intros b' [<-|Hb'].
    + destruct (O _ _ _ Hi Hb) as (k & n & _ & Hn & _ & Hf). split; [eauto|]. split; [exact Hf|].
      intros j u Hj Hp. destruct (onat_dec j i) as [->|N]; [rewrite (Vi u Hj) in Hp; discriminate|].
      rewrite Ho in Hj by exact N. apply N. eapply D; eassumption.
    + destruct (X b' Hb') as (X1 & X2 & X3). split; [exact X1|]. split; [exact X2|].
      intros j u Hj Hp. destruct (onat_dec j i) as [->|N]; [rewrite (Vi u Hj) in Hp; discriminate|].
      rewrite Ho in Hj by exact N. exact (X3 _ _ Hj Hp).
Qed.

Lemma lost_old lost s x b : SInv lost s x -> In b lost -> (b < h_next s)%nat.
Proof. intros (_ & F & _ & _ & _ & X) Hb. destruct (X b Hb) as ((k & n & Hn) & _). exact (F _ _ _ Hn). Qed.

Definition gained (o : bool) (s : hstate) (lost lost' : list nat) : Prop :=
  lost' = lost \/ (o = true /\ lost' = h_next s :: lost).

Definition is_nodeleter (f : fate) : bool := match f with NoDeleter => true | _ => false end.

Lemma hallocate_tabs zero s k n : h_tabs (fst (hallocate zero s k n)) = h_tabs s.
Proof. unfold hallocate. destruct ((n =? 0) && _); reflexivity. Qed.

Lemma fnew_inv lost throws zero f s k n s1 ox : SInv lost s None -> fnew throws zero f s k n = (s1, ox) ->
  h_tabs s1 = h_tabs s /\
  exists lost', gained (is_nodeleter f) s lost lost' /\
    match ox with
    | Some x => SInv lost' s1 (Some (HT x n)) /\ hb_alloc x = Some k /\ lost' = lost
    | None => SInv lost' s1 None
    end.
Proof.
  intros I. destruct f; cbn [fnew is_nodeleter].
  - pose proof (hnew_inv lost zero s k n I) as N. destruct (hnew zero s k n) as [s0 x]. destruct N as (I1 & T & A).
    intros [= <- <-]. split; [exact T|]. exists lost. split; [left; reflexivity|auto].
  - destruct (negb (Nat.eqb k 0) && throws k); intros [= <- <-]; (split; [reflexivity|]); exists lost;
      (split; [left; reflexivity|]); [exact I|]. split; [|auto]. unfold SInv. apply (inv_same _ _ _ _ _ I).
    intros [v|]; [left; reflexivity|]. right. split; [intros t E; injection E as <-; reflexivity|discriminate].
  - intros [= <- <-]. split; [apply hallocate_tabs|]. pose proof (hnew_inv lost zero s k n I) as N.
    unfold hnew, hallocate in *. destruct ((n =? 0) && _); cbn [fst] in *; destruct N as (I1 & _).
    + exists lost. split; [left; reflexivity|]. exact I.
    + exists (h_next s :: lost). split; [right; split; reflexivity|]. unfold SInv in *. cbn [h_trace h_next h_tabs] in *.
      apply (inv_abandon _ _ _ _ _ None _ (h_next s) I1 eq_refl eq_refl); [discriminate|].
      intros [v|] H; [reflexivity|congruence].
  - pose proof (hnew_inv lost zero s k n I) as N. destruct (hnew zero s k n) as [s0 x]. destruct N as (I1 & T & A).
    intros [= <- <-]. split; [exact T|]. exists lost. split; [left; reflexivity|auto].
Qed.

Lemma fcopy_inv lost throws zero f s w t s1 r : SInv lost s None -> h_tabs s w = Some t ->
  fcopy throws zero f s t = Ok (s1, r) ->
  h_tabs s1 = h_tabs s /\
  exists lost', gained (is_nodeleter f) s lost lost' /\ SInv lost' s1 r /\ (r <> None -> lost' = lost) /\
    match r with Some t1 => ht_size t1 = ht_size t | None => True end.
Proof.
  intros I Hw. unfold fcopy. destruct (fnew throws zero f s 0 (ht_size t)) as [s0 ox] eqn:E.
  destruct (fnew_inv _ _ _ _ _ _ _ _ _ I E) as (T0 & lost' & G & H). destruct ox as [x|].
  - destruct H as (I1 & A & ->).
    assert (Go : forall m, m <= ht_size t -> hb_ptr (ht_blk t) <> None -> forall b, hb_ptr (ht_blk t) = Some b ->
      SInv lost (HS (h_trace s0 ++ [Read b m]) (h_next s0) (h_tabs s0)) (Some (HT x (ht_size t)))).
    { intros m Hm _ b Hb. unfold SInv. cbn [h_trace h_next h_tabs].
      apply (inv_read _ _ _ _ (Some w) t b m I1); [cbn; rewrite T0; exact Hw|exact Hb|exact Hm]. }
    destruct (ht_size t =? 0) eqn:Z0.
    + intros [= <- <-]. split; [exact T0|]. exists lost. split; [exact G|]. split; [exact I1|]. auto.
    + destruct (hb_ptr (ht_blk t)) as [b|] eqn:Hb; [|discriminate]. destruct (hb_ptr x) eqn:Hx; [|discriminate].
      assert (Full : Ok (HS (h_trace s0 ++ [Read b (ht_size t)]) (h_next s0) (h_tabs s0), Some (HT x (ht_size t))) = Ok (s1, r) ->
        h_tabs s1 = h_tabs s /\
        exists lost', gained (is_nodeleter f) s lost lost' /\ SInv lost' s1 r /\ (r <> None -> lost' = lost) /\
          match r with Some t1 => ht_size t1 = ht_size t | None => True end).
      { intros [= <- <-]. split; [exact T0|]. exists lost. split; [exact G|].
        split; [apply Go; [lia|discriminate|reflexivity]|]. auto. }
      destruct f; [exact Full|exact Full|exact Full|].
      destruct ((0 <=? j) && (j <? ht_size t)) eqn:R; [|exact Full]. clear Full.
      apply andb_true_iff in R as [R1 R2]. apply Z.leb_le in R1. apply Z.ltb_lt in R2.
      destruct (hdestroy_inv lost _ _ (Go (j + 1) ltac:(lia) ltac:(discriminate) b eq_refl)) as (s2 & E2 & I2 & T2).
      cbn [ht_blk] in E2. rewrite E2. cbn [bind]. intros [= <- <-]. split; [rewrite T2; exact T0|].
      exists lost. split; [exact G|]. split; [exact I2|]. split; [congruence|exact Logic.I].
  - intros [= <- <-]. split; [exact T0|]. exists lost'. split; [exact G|]. split; [exact H|]. split; [congruence|exact Logic.I].
Qed.

Lemma put_new lost s1 s v t1 : SInv lost s1 (Some t1) -> h_tabs s1 = h_tabs s -> h_tabs s v = None ->
  SInv lost (with_tab s1 v (Some t1)) None.
Proof.
  intros I1 T1 Ev. eapply (sinv_flip lost s1) with (a := None) (b := (Some v)); [exact I1|reflexivity|reflexivity|]. flips.
  - left. cbn. rewrite T1, Ev. reflexivity.
  - left. cbn. apply bindv_same.
  - left. destruct i as [u|]; [|congruence]. cbn. apply bindv_other. congruence.
Qed.

Lemma put_old lost s1 s v t1 old : SInv lost s1 (Some t1) -> h_tabs s1 = h_tabs s -> h_tabs s v = Some old ->
  SInv lost (with_tab s1 v (Some t1)) (Some old).
Proof.
  intros I1 T1 Ev. eapply (sinv_flip lost s1) with (a := None) (b := (Some v)); [exact I1|reflexivity|reflexivity|]. flips.
  - left. cbn. rewrite T1. congruence.
  - left. cbn. apply bindv_same.
  - left. destruct i as [u|]; [|congruence]. cbn. apply bindv_other. congruence.
Qed.

Lemma fstep_inv lost throws zero f s o s' x : SInv lost s None -> fstep throws zero f s o = Ok (s', x) ->
  exists lost', gained (Nat.eqb (lost_in o f) 1) s lost lost' /\ SInv lost' s' None.
Proof.
  intros I. destruct o as [v|v k n|v w|v w|v w|v w|v w|v]; cbn [fstep].
  2: { intros E. apply bind_inv in E as (u & Fv & E). apply fresh_inv in Fv. destruct (n <? 0); [discriminate|].
       destruct (fnew throws zero f s k n) as [s1 ox] eqn:N.
       destruct (fnew_inv _ _ _ _ _ _ _ _ _ I N) as (T & lost' & G & H).
       exists lost'. split; [destruct f; exact G|]. destruct ox as [y|].
       - destruct H as (I1 & A & ->). injection E as <- <-. exact (put_new _ _ _ _ _ I1 T Fv).
       - injection E as <- <-. exact H. }
  2: { intros E. apply bind_inv in E as (u & Fv & E). apply fresh_inv in Fv.
       apply bind_inv in E as (t & V & E). apply var_inv in V. apply bind_inv in E as ([s1 r] & C & E).
       destruct (fcopy_inv _ _ _ _ _ _ _ _ _ I V C) as (T & lost' & G & H & _).
       exists lost'. split; [destruct f; exact G|]. destruct r as [t1|]; injection E as <- <-; [|exact H].
       exact (put_new _ _ _ _ _ H T Fv). }
  3: { intros E. apply bind_inv in E as (t & V & E). apply var_inv in V.
       apply bind_inv in E as (old & O & E). apply var_inv in O. apply bind_inv in E as ([s1 r] & C & E).
       destruct (fcopy_inv _ _ _ _ _ _ _ _ _ I V C) as (T & lost' & G & H & _).
       exists lost'. split; [destruct f; exact G|]. destruct r as [t1|]; [|injection E as <- <-; exact H].
       destruct (hdestroy_inv lost' _ _ (put_old _ _ _ _ _ _ H T O)) as (s2 & E2 & I2 & _).
       rewrite E2 in E. injection E as <- <-. exact I2. }
  1: { destruct f; try (intros E; apply bind_inv in E as (s1 & E1 & E); injection E as <- <-;
         exists lost; split; [left; reflexivity|]; exact (proj1 (hstep_inv lost zero s _ I) _ E1)).
       intros E. apply bind_inv in E as (u & Fv & E). discriminate. }
  all: intros E; apply bind_inv in E as (s1 & E1 & E); injection E as <- <-;
         exists lost; split; [left; reflexivity|]; exact (proj1 (hstep_inv lost zero s _ I) _ E1).
Qed.

Definition losses (os : list (hop * fate)) : nat := list_sum (map (fun p => lost_in (fst p) (snd p)) os).

Lemma lost_in_le o f : (lost_in o f <= 1)%nat.
Proof. destruct o, f; cbn; lia. Qed.

Lemma fruns_inv throws zero os : forall lost s s' xs, SInv lost s None -> NoDup lost ->
  fruns throws zero s os = Ok (s', xs) ->
  exists lost', SInv lost' s' None /\ NoDup lost' /\ incl lost lost' /\ (length lost' <= length lost + losses os)%nat.
Proof.
  induction os as [|[o f] os IH]; cbn [fruns]; intros lost s s' xs I ND E.
  - injection E as <- <-. exists lost. split; [exact I|]. split; [exact ND|]. split; [apply incl_refl|cbn; lia].
  - apply bind_inv in E as ([s1 x] & E1 & E). apply bind_inv in E as ([s2 ys] & E2 & E). injection E as <- <-.
    destruct (fstep_inv _ _ _ _ _ _ _ _ I E1) as (lost1 & G & I1).
    assert (H : NoDup lost1 /\ incl lost lost1 /\ (length lost1 <= length lost + lost_in o f)%nat).
    { destruct G as [->|[Q ->]].
      - split; [exact ND|]. split; [apply incl_refl|lia].
      - split; [|split].
        + constructor; [|exact ND]. intros Hb. pose proof (lost_old _ _ _ _ I Hb). lia.
        + apply incl_tl, incl_refl.
        + apply Nat.eqb_eq in Q. cbn. lia. }
    destruct H as (ND1 & In1 & Le1). destruct (IH _ _ _ _ I1 ND1 E2) as (lost2 & I2 & ND2 & In2 & Le2).
    exists lost2. split; [exact I2|]. split; [exact ND2|]. split; [eapply incl_tran; eassumption|].
    unfold losses in *. cbn [map list_sum fst snd]. simpl. lia.
Qed.

Lemma leaked_lost lost s b : SInv lost s None -> (In b lost <-> leaked s b).
Proof.
  intros (W & F & O & D & L & X). split.
  - intros Hb. destruct (X b Hb) as (X1 & X2 & X3). split; [exact X1|]. split; [exact X2|].
    intros v t Hv. exact (X3 (Some v) t Hv).
  - intros ((k & n & Hn) & Nf & No). destruct (L _ _ _ Hn) as [Hf|[(i & t & Hi & Hb)|Hx]]; [| |exact Hx].
    + exfalso. exact (Nf k Hf).
    + destruct i as [v|]; [|discriminate]. exfalso. exact (No v t Hi Hb).
Qed.

Lemma fail_histories_l throws zero os s xs : fruns throws zero hinit os = Ok (s, xs) ->
  well_released (h_trace s) /\ well_owned s /\
  exists lost, NoDup lost /\ (forall b, In b lost <-> leaked s b) /\ (length lost <= losses os)%nat.
Proof.
  intros E. destruct (fruns_inv throws zero os [] hinit s xs hinit_inv (NoDup_nil _) E) as (lost & I & ND & _ & Le).
  pose proof I as (W & F & O & D & L & X). split; [exact W|]. split; [split|].
  - intros v t b Hv Hb. exact (O (Some v) t b Hv Hb).
  - intros v w t u b Hv Hw Hb Hb'. specialize (D (Some v) (Some w) t u b Hv Hw Hb Hb'). congruence.
  - exists lost. split; [exact ND|]. split; [intros b; apply leaked_lost; exact I|]. cbn in Le. exact Le.
Qed.

Lemma losses_none os : (forall o, ~ In (o, NoDeleter) os) -> losses os = 0%nat.
Proof.
  induction os as [|[o f] os IH]; intros H; [reflexivity|]. unfold losses in *. cbn [map list_sum fst snd]. simpl.
  rewrite IH; [|intros o' Ho; exact (H o' (or_intror Ho))].
  destruct f; try (destruct o; reflexivity). exfalso. exact (H o (or_introl eq_refl)).
Qed.

Lemma fail_no_leak_l throws zero os s xs : fruns throws zero hinit os = Ok (s, xs) ->
  (forall o, ~ In (o, NoDeleter) os) -> no_leak s.
Proof.
  intros E H. destruct (fruns_inv throws zero os [] hinit s xs hinit_inv (NoDup_nil _) E) as (lost & I & ND & _ & Le).
  rewrite (losses_none os H) in Le. destruct lost; [|cbn in Le; lia].
  destruct I as (W & F & O & D & L & X). intros k b n Hn.
  destruct (L k b n Hn) as [Q|[(i & t & Hi & Hb)|[]]]; [left; exact Q|right].
  destruct i as [v|]; [exists v, t; auto|discriminate].
Qed.

(** A leaked block stays leaked. *)
Lemma fruns_app throws zero os1 : forall os2 s, fruns throws zero s (os1 ++ os2) =
  ' (s1, x1) <- fruns throws zero s os1 ;; ' (s2, x2) <- fruns throws zero s1 os2 ;; Ok (s2, x1 ++ x2).
Proof.
  induction os1 as [|[o f] os1 IH]; intros os2 s; cbn [app fruns].
  - cbn [bind]. destruct (fruns throws zero s os2) as [[s2 x2]| | |]; reflexivity.
  - destruct (fstep throws zero f s o) as [[s1 x]| | |]; cbn [bind]; try reflexivity. rewrite IH.
    destruct (fruns throws zero s1 os1) as [[s2 x2]| | |]; cbn [bind]; try reflexivity.
    destruct (fruns throws zero s2 os2) as [[s3 x3]| | |]; reflexivity.
Qed.

Lemma leak_forever_l throws zero os1 os2 s1 x1 s2 x2 b :
  fruns throws zero hinit os1 = Ok (s1, x1) -> leaked s1 b -> fruns throws zero s1 os2 = Ok (s2, x2) -> leaked s2 b.
Proof.
  intros E1 Lk E2. destruct (fruns_inv throws zero os1 [] hinit s1 x1 hinit_inv (NoDup_nil _) E1) as (lost & I & ND & _).
  destruct (fruns_inv throws zero os2 lost s1 s2 x2 I ND E2) as (lost2 & I2 & _ & Inc & _).
  apply (leaked_lost lost2 s2 b I2), Inc, (leaked_lost lost s1 b I), Lk.
Qed.

(** A deleter that cannot be made leaks the block. *)
Lemma fail_leaks_l throws zero os s xs o s' x : fruns throws zero hinit os = Ok (s, xs) ->
  fstep throws zero NoDeleter s o = Ok (s', x) ->
  match o with
  | TNew _ _ n => n <> 0
  | TCopy _ w | TCopyAssign _ w => exists t, h_tabs s w = Some t /\ ht_size t <> 0
  | _ => False
  end ->
  x = true /\ exists b, leaked s' b /\ ~ leaked s b.
Proof.
  intros E. destruct (fruns_inv throws zero os [] hinit s xs hinit_inv (NoDup_nil _) E) as (lost & I & ND & _).
  assert (Key : forall k n, n <> 0 -> leaked (fst (hallocate zero s k n)) (h_next s) /\ ~ leaked s (h_next s)).
  { intros k n Hn. destruct (fnew_inv lost throws zero NoDeleter s k n _ _ I eq_refl) as (_ & lost' & G & H). cbn in H.
    split.
    - split; [|split].
      + exists k, n. unfold hallocate. apply Z.eqb_neq in Hn. rewrite Hn. cbn. apply in_one. right. reflexivity.
      + unfold hallocate. apply Z.eqb_neq in Hn. rewrite Hn. cbn. intros k' Hf. apply in_one in Hf as [Hf|Hf]; [|discriminate].
        destruct I as ((W1 & _) & F & _). apply in_split in Hf as (l1 & l2 & El).
        destruct (W1 _ _ _ _ El) as ((n' & Hn') & _).
        specialize (F k' (h_next s) n' ltac:(rewrite El; apply in_app_iff; left; exact Hn')). lia.
      + rewrite hallocate_tabs. intros v t Hv Hb. destruct I as (_ & F & O & _).
        destruct (O (Some v) t _ Hv Hb) as (k' & n' & _ & Hin & _). specialize (F _ _ _ Hin). lia.
    - intros ((k' & n' & Hin) & _). destruct I as (_ & F & _). specialize (F _ _ _ Hin). lia. }
  destruct o as [v|v k n|v w|v w|v w|v w|v w|v]; intros St H; try contradiction; cbn [fstep] in St.
  - apply bind_inv in St as (u & _ & St). destruct (n <? 0); [discriminate|]. cbn [fnew] in St. injection St as <- <-.
    split; [reflexivity|]. exists (h_next s). apply Key. exact H.
  - destruct H as (t & Hw & Hn). apply bind_inv in St as (u & _ & St).
    apply bind_inv in St as (t' & V & St). apply var_inv in V. rewrite Hw in V. injection V as <-.
    unfold fcopy in St. cbn [fnew bind] in St. injection St as <- <-. split; [reflexivity|]. exists (h_next s). apply Key. exact Hn.
  - destruct H as (t & Hw & Hn). apply bind_inv in St as (t' & V & St). apply var_inv in V. rewrite Hw in V. injection V as <-.
    apply bind_inv in St as (old & _ & St).
    unfold fcopy in St. cbn [fnew bind] in St. injection St as <- <-. split; [reflexivity|]. exists (h_next s). apply Key. exact Hn.
Qed.
