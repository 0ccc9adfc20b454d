From Coq Require Import ZArith List Bool Lia.
From Verif Require Import Outcome CInt CIntFacts Spec SpecFacts ShapeSpec Shape ShapeFacts Memory MemFacts Container ContainerSpec
  AlgoSpec AlgoFacts Program Threads ThreadsSpec ThreadsFacts ThreadTables ThreadTablesSpec ThreadTablesFacts.
Import ListNotations.
Open Scope Z_scope.

Lemma set_at_same {X} (f : nat -> X) i x : set_at f i x i = x.
Proof. unfold set_at. rewrite Nat.eqb_refl. reflexivity. Qed.
Lemma set_at_other {X} (f : nat -> X) i j x : i <> j -> set_at f i x j = f j.
Proof. intros N. unfold set_at. destruct (Nat.eqb_spec i j); [contradiction|reflexivity]. Qed.

(** ** One thread changes its blocks and the memory *)
Lemma arranged_step {T} n Sh R W Bs ms (g : mem T) i B' m' g' : (i < n)%nat -> arranged n Sh R W Bs ms g ->
  (forall j p, (j < n)%nat -> i <> j -> within Sh p \/ owned (Bs j) p -> (valid g p <-> valid g' p)) ->
  (forall j p, (j < n)%nat -> i <> j -> R j p \/ W j p \/ owned (Bs j) p -> cell g' p = cell g p) ->
  (length g <= length g')%nat ->
  (forall b, In b B' -> ~ Sh b /\ (forall j, (j < n)%nat -> i <> j -> ~ In b (Bs j)) /\ (b < length g')%nat) ->
  (forall b, alive g' b -> In b B' \/ (alive g b /\ ~ In b (Bs i))) ->
  (forall p, valid m' p -> within Sh p \/ owned B' p) ->
  (forall p, within Sh p \/ owned B' p -> (valid m' p <-> valid g' p)) ->
  (forall p, R i p \/ W i p \/ owned B' p -> cell m' p = cell g' p) ->
  arranged n Sh R W (set_at Bs i B') (set_at ms i m') g'.
Proof.
  intros Hi (Sp & InS & BS & BB & LS & LB & Al & Lo & Va & Ce) Ov Oc Le HB HA Lo' Va' Ce'.
  split; [exact Sp|]. split; [exact InS|]. repeat apply conj.
  - intros j b Hj Hb. destruct (Nat.eq_dec i j) as [<-|N]; [rewrite set_at_same in Hb; apply HB; exact Hb|].
    rewrite set_at_other in Hb by exact N. eapply BS; eassumption.
  - intros j k b Hj Hk N Hb Hc. destruct (Nat.eq_dec i j) as [<-|N1].
    + rewrite set_at_same in Hb. rewrite set_at_other in Hc by exact N. destruct (HB b Hb) as (_ & G & _). exact (G k Hk N Hc).
    + rewrite set_at_other in Hb by exact N1. destruct (Nat.eq_dec i k) as [<-|N2].
      * rewrite set_at_same in Hc. destruct (HB b Hc) as (_ & G & _). exact (G j Hj N1 Hb).
      * rewrite set_at_other in Hc by exact N2. exact (BB j k b Hj Hk N Hb Hc).
  - intros b Hb. specialize (LS b Hb). lia.
  - intros j b Hj Hb. destruct (Nat.eq_dec i j) as [<-|N]; [rewrite set_at_same in Hb; apply HB; exact Hb|].
    rewrite set_at_other in Hb by exact N. specialize (LB j b Hj Hb). lia.
  - intros b Hb. destruct (HA b Hb) as [H|[H NB]]; [right; exists i; rewrite set_at_same; auto|].
    destruct (Al b H) as [|(j & Hj & Hjb)]; [left; assumption|]. right. exists j. split; [exact Hj|].
    rewrite set_at_other; [exact Hjb|]. intros <-. contradiction.
  - intros j p Hj V. destruct (Nat.eq_dec i j) as [<-|N].
    + rewrite set_at_same in V. rewrite set_at_same. auto.
    + rewrite set_at_other in V by exact N. rewrite set_at_other by exact N. eauto.
  - intros j p Hj H. destruct (Nat.eq_dec i j) as [<-|N].
    + rewrite set_at_same in H. rewrite set_at_same. auto.
    + rewrite set_at_other in H by exact N. rewrite set_at_other by exact N. rewrite (Va j p Hj H). eapply Ov; eauto.
  - intros j p Hj H. destruct (Nat.eq_dec i j) as [<-|N].
    + rewrite set_at_same in H. rewrite set_at_same. auto.
    + rewrite set_at_other in H by exact N. rewrite set_at_other by exact N. rewrite (Ce j p Hj H). symmetry. eapply Oc; eauto.
Qed.

Section Together.
  Context {T A : Type} (n : nat) (Sh : nat -> Prop) (R W : nat -> ptr -> Prop) (Q : nat -> A -> list nat -> mem T -> Prop) (g0 : mem T).

  Definition inv (s : tstate T A) (Bs : nat -> list nat) (ms : nat -> mem T) : Prop :=
    length (fst s) = n /\ arranged n Sh R W Bs ms (snd s) /\
    (forall i x, nth_error (fst s) i = Some x -> safe Sh (R i) (W i) (Q i) x (Bs i) (ms i)) /\
    (forall p, within Sh p -> cell (snd s) p = cell g0 p \/ exists i, (i < n)%nat /\ W i p).

  Lemma inv_next l g Bs ms i x : inv (l, g) Bs ms -> nth_error l i = Some x ->
    match tadvance x g with
    | None => exists a, x = End (Ok a) /\ Q i a (Bs i) (ms i)
    | Some (Ok (x', g')) => exists B' m', lstep Sh (x', B', m') (x, Bs i, ms i) /\
        inv (set_nth l i x', g') (set_at Bs i B') (set_at ms i m')
    | Some _ => False
    end.
  Proof.
    intros (L & Ar & Sf & Kp) Ei. cbn [fst snd] in *.
    assert (Hi : (i < n)%nat) by (rewrite <- L; apply nth_error_Some; congruence).
    pose proof Ar as (Sp & InS & BS & BB & LS & LB & Al & Lo & Va & Ce).
    assert (Next : forall x' B' m' g', lstep Sh (x', B', m') (x, Bs i, ms i) ->
      arranged n Sh R W (set_at Bs i B') (set_at ms i m') g' ->
      (forall p, within Sh p -> cell g' p = cell g p \/ W i p) ->
      exists B' m', lstep Sh (x', B', m') (x, Bs i, ms i) /\ inv (set_nth l i x', g') (set_at Bs i B') (set_at ms i m')).
    { intros x' B' m' g' Ls Ar' Kp'. exists B', m'. split; [exact Ls|]. split; [cbn [fst]; rewrite set_nth_length; exact L|].
      split; [exact Ar'|]. split.
      - cbn [fst snd]. intros j y Ej. destruct (Nat.eq_dec i j) as [<-|N].
        + rewrite set_nth_same in Ej by lia. injection Ej as <-. rewrite !set_at_same.
          exact (lstep_safe Sh (R i) (W i) (Q i) (x, Bs i, ms i) (x', B', m') (Sf i x Ei) Ls).
        + rewrite set_nth_other in Ej by exact N. rewrite !set_at_other by exact N. apply Sf. exact Ej.
      - cbn [snd]. intros p Hp. destruct (Kp' p Hp) as [E|Wp]; [|right; eauto]. rewrite E. apply Kp. exact Hp. }
    assert (Same : forall x', lstep Sh (x', Bs i, ms i) (x, Bs i, ms i) ->
      exists B' m', lstep Sh (x', B', m') (x, Bs i, ms i) /\ inv (set_nth l i x', g) (set_at Bs i B') (set_at ms i m')).
    { intros x' Ls. apply (Next x' (Bs i) (ms i) g Ls); [|auto].
      apply (arranged_step n Sh R W Bs ms g i (Bs i) (ms i) g Hi Ar).
      - intros; split; auto.
      - intros; reflexivity.
      - lia.
      - intros b Hb. split; [exact (BS i b Hi Hb)|]. split; [|exact (LB i b Hi Hb)]. intros j Hj N. exact (BB i j b Hi Hj N Hb).
      - intros b Hb. destruct (in_dec Nat.eq_dec b (Bs i)); auto.
      - intros p V. exact (Lo i p Hi V).
      - intros p H. exact (Va i p Hi H).
      - intros p H. exact (Ce i p Hi H). }
    pose proof (Sf i x Ei) as S0. remember (Bs i) as B eqn:EB. remember (ms i) as m eqn:Em.
    assert (Own : forall b, In b B -> ~ Sh b /\ (forall j, (j < n)%nat -> i <> j -> ~ In b (Bs j)) /\ (b < length g)%nat).
    { subst B. intros b Hb. split; [exact (BS i b Hi Hb)|]. split; [|exact (LB i b Hi Hb)]. intros j Hj N. exact (BB i j b Hi Hj N Hb). }
    assert (Mine : forall p, W i p \/ owned B p -> forall j, (j < n)%nat -> i <> j -> R j p \/ W j p \/ owned (Bs j) p -> False).
    { intros [|b o] Hp j Hj N Hq.
      - destruct Hp as [Hp|[]]. destruct (InS i Null Hi (or_intror Hp)).
      - destruct Hp as [Wp|Op].
        + destruct (Sp i j _ Hi Hj N Wp) as [NR NW]. destruct Hq as [Hq|[Hq|Hq]]; [tauto..|].
          exact (BS j b Hj Hq (InS i (Ptr b o) Hi (or_intror Wp))).
        + destruct (Own b Op) as (NS & NB & _). destruct Hq as [Hq|[Hq|Hq]].
          * exact (NS (InS j (Ptr b o) Hj (or_introl Hq))).
          * exact (NS (InS j (Ptr b o) Hj (or_intror Hq))).
          * exact (NB j Hj N Hq). }
    assert (Home : forall p, R i p \/ W i p \/ owned B p -> within Sh p \/ owned B p).
    { intros p [H|[H|H]]; [left; apply (InS i); auto..|right; exact H]. }
    destruct S0 as [a B m Hq|p k B m V Sk|p k B m v Hp Pk Sk|p v k B m Hp V Sk|sz k B m Hs Sk|b k B m Hb V Sk]; cbn [tadvance].
    - exists a. subst. auto.
    - assert (Vg : valid g p) by (subst; apply (Va i p Hi); [apply (Lo i p Hi V)|exact V]).
      replace (validb g p) with true by (symmetry; apply validb_true; exact Vg). apply Same. subst. constructor.
    - assert (Cg : cell m p = cell g p) by (subst; apply (Ce i p Hi Hp)).
      unfold load. rewrite <- Cg. unfold peek in Pk. destruct (cell m p) as [[w|]|] eqn:Ec; try discriminate.
      cbn [bind]. injection Pk as ->. apply Same. apply lload. unfold peek. rewrite Ec. reflexivity.
    - assert (Hp' : R i p \/ W i p \/ owned B p) by tauto.
      assert (Vg : valid g p) by (subst; apply (Va i p Hi); [apply Home; exact Hp'|exact V]).
      rewrite (store_valid g p v Vg). cbn [bind]. apply (Next k B (upd m p v) (upd g p v)); [subst; constructor| |].
      + apply (arranged_step n Sh R W Bs ms g i B (upd m p v) (upd g p v) Hi Ar).
        * intros j q _ _ _. unfold valid. rewrite valid_upd. reflexivity.
        * intros j q Hj N Hq. apply cell_upd_other. intros ->. exact (Mine q Hp j Hj N Hq).
        * rewrite upd_length. lia.
        * intros b Hb. rewrite upd_length. auto.
        * intros b Hb. apply alive_upd in Hb. subst. destruct (in_dec Nat.eq_dec b (Bs i)); auto.
        * intros q Vq. apply valid_upd in Vq. subst. eauto.
        * intros q Hq. unfold valid. rewrite !valid_upd. subst. apply (Va i q Hi Hq).
        * intros q Hq. apply cell_upd; [exact V|exact Vg|]. subst. apply (Ce i q Hi Hq).
      + intros q Hq. destruct (ptr_eq_dec p q) as [<-|N]; [|left; apply cell_upd_other; exact N].
        destruct Hp as [Hp|Hp]; [right; exact Hp|]. destruct p as [|b o]; [destruct Hp|]. destruct (Own b Hp) as (NS & _). contradiction.
    - assert (Fr : ~ Sh (length g)) by (intros H; apply LS in H; lia).
      assert (FB : forall j, (j < n)%nat -> ~ In (length g) (Bs j)) by (intros j Hj H; apply (LB j) in H; [lia|exact Hj]).
      unfold alloc. fold (fst (alloc g sz)). change (g ++ [Some (repeat None (Z.to_nat sz))]) with (fst (alloc g sz)).
      assert (Far : forall q, within Sh q \/ (exists j, (j < n)%nat /\ owned (Bs j) q) -> ~ owned [length g] q).
      { intros [|b o] H; [auto|]. intros [E|[]]. subst b. destruct H as [H|(j & Hj & H)]; [contradiction|exact (FB j Hj H)]. }
      apply (Next _ (length g :: B) (place m (length g) sz)).
      + constructor; [exact Fr|]. subst. apply FB. exact Hi.
      + apply (arranged_step n Sh R W Bs ms g i _ _ _ Hi Ar).
        * intros j q Hj N Hq. unfold valid. rewrite cell_new_other; [reflexivity|]. apply Far. destruct Hq; [auto|right; eauto].
        * intros j q Hj N Hq. apply cell_new_other. apply Far. destruct Hq as [Hq|[Hq|Hq]]; [left; apply (InS j); auto..|right; eauto].
        * unfold alloc. cbn [fst]. rewrite app_length. lia.
        * assert (Ln : (length g < length (fst (alloc g sz)))%nat) by (unfold alloc; cbn [fst]; rewrite app_length; simpl; lia).
          intros b [<-|Hb]; [split; [exact Fr|]; split; [intros j Hj _; apply FB; exact Hj|exact Ln]|].
          destruct (Own b Hb) as (H1 & H2 & H3). split; [exact H1|]. split; [exact H2|]. lia.
        * intros b (cs & Hb). destruct (Nat.eq_dec b (length g)) as [->|N]; [left; left; reflexivity|].
          unfold alloc in Hb. cbn [fst] in Hb. assert (Lb : (b < length g)%nat).
          { apply nth_lt in Hb. rewrite app_length in Hb. simpl in Hb. lia. }
          rewrite nth_error_app1 in Hb by exact Lb. subst B. destruct (in_dec Nat.eq_dec b (Bs i)); [left; right; assumption|].
          right. split; [exists cs; exact Hb|assumption].
        * intros q Vq. destruct (owned_dec (length g) q) as [O|O]; [right; apply owned_cons; left; exact O|].
          unfold valid in Vq. rewrite cell_place_other in Vq by exact O. subst. destruct (Lo i q Hi Vq); [auto|].
          right. apply owned_cons. auto.
        * intros q Hq. unfold valid. destruct (owned_dec (length g) q) as [O|O].
          -- destruct q as [|b o]; [destruct O|]. destruct O as [E|[]]. subst b. rewrite cell_place_new, cell_new_same. reflexivity.
          -- rewrite cell_place_other, cell_new_other by exact O. subst. apply (Va i q Hi).
             destruct Hq as [Hq|Hq]; [auto|]. apply owned_cons in Hq. tauto.
        * intros q Hq. destruct (owned_dec (length g) q) as [O|O].
          -- destruct q as [|b o]; [destruct O|]. destruct O as [E|[]]. subst b. rewrite cell_place_new, cell_new_same. reflexivity.
          -- rewrite cell_place_other, cell_new_other by exact O. subst. apply (Ce i q Hi). rewrite owned_cons in Hq. tauto.
      + intros q Hq. left. apply cell_new_other. apply Far. auto.
    - assert (Vg : valid g (Ptr b 0)) by (subst; apply (Va i _ Hi); [right; exact Hb|exact V]).
      rewrite (release_alive g b (valid_alive g b 0 Vg)). cbn [bind]. destruct (Own b Hb) as (NS & NB & Lb).
      assert (Far : forall q, within Sh q \/ (exists j, (j < n)%nat /\ i <> j /\ owned (Bs j) q) -> ~ owned [b] q).
      { intros [|c o] H; [auto|]. intros [E|[]]. subst c. destruct H as [H|(j & Hj & N & H)]; [contradiction|exact (NB j Hj N H)]. }
      apply (Next _ (remove Nat.eq_dec b B) (set_nth m b None)); [constructor| |].
      + apply (arranged_step n Sh R W Bs ms g i _ _ _ Hi Ar).
        * intros j q Hj N Hq. unfold valid. rewrite cell_drop_other; [reflexivity|]. apply Far. destruct Hq; [auto|right; eauto].
        * intros j q Hj N Hq. apply cell_drop_other. apply Far. destruct Hq as [Hq|[Hq|Hq]]; [left; apply (InS j); auto..|right; eauto].
        * rewrite set_nth_length. lia.
        * rewrite set_nth_length. intros c Hc. apply in_remove in Hc as [Hc _]. auto.
        * intros c (cs & Hc). destruct (Nat.eq_dec b c) as [<-|N].
          { rewrite set_nth_same in Hc by exact Lb. discriminate. }
          rewrite set_nth_other in Hc by exact N. destruct (in_dec Nat.eq_dec c B) as [I|I].
          { left. apply in_in_remove; auto. }
          right. split; [exists cs; exact Hc|subst B; exact I].
        * intros q Vq. destruct (owned_dec b q) as [O|O].
          { destruct q as [|c o]; [destruct O|]. destruct O as [E|[]]. subst c. unfold valid in Vq. rewrite cell_drop_same in Vq. congruence. }
          unfold valid in Vq. rewrite cell_drop_other in Vq by exact O. rewrite owned_remove. subst. destruct (Lo i q Hi Vq); auto.
        * intros q Hq. rewrite owned_remove in Hq. assert (O : ~ owned [b] q) by (destruct Hq as [Hq|Hq]; [apply Far; auto|tauto]).
          unfold valid. rewrite !cell_drop_other by exact O. subst. apply (Va i q Hi). tauto.
        * intros q Hq. rewrite owned_remove in Hq. assert (O : ~ owned [b] q).
          { destruct Hq as [Hq|[Hq|Hq]]; [apply Far; left; apply (InS i); auto..|tauto]. }
          rewrite !cell_drop_other by exact O. subst. apply (Ce i q Hi). tauto.
      + intros q Hq. left. apply cell_drop_other. apply Far. auto.
  Qed.

  Lemma inv_undefined s Bs ms : inv s Bs ms -> ~ tundefined s.
  Proof.
    intros G (i & x & o & E & Ad & N). destruct s as [l g]. pose proof (inv_next l g Bs ms i x G E) as H. cbn [snd] in Ad. rewrite Ad in H.
    destruct o; try contradiction. exact (N _ eq_refl).
  Qed.

  Lemma inv_race s Bs ms : inv s Bs ms -> ~ tables_race s.
  Proof.
    intros (L & Ar & Sf & _) (i & j & x & y & p & q & N & Ei & Ej & C).
    pose proof Ar as (Sp & InS & BS & BB & LS & LB & Al & Lo & Va & Ce).
    assert (Hi : (i < n)%nat) by (rewrite <- L; apply nth_error_Some; congruence).
    assert (Hj : (j < n)%nat) by (rewrite <- L; apply nth_error_Some; congruence).
    pose proof (Sf i x Ei) as Sx. pose proof (Sf j y Ej) as Sy.
    destruct C as [((v & k & ->) & -> & Y)|((k & ->) & Sb & U)].
    - assert (Hq : R j q \/ W j q \/ owned (Bs j) q).
      { destruct Y as [(k' & ->)|(v' & k' & ->)]; inversion Sy; subst; tauto. }
      assert (Hp : W i q \/ owned (Bs i) q) by (inversion Sx; subst; assumption).
      destruct q as [|b o].
      + destruct Hp as [Hp|[]]. destruct (InS i Null Hi (or_intror Hp)).
      + destruct Hp as [Wp|Op].
        * destruct (Sp i j _ Hi Hj N Wp) as [NR NW]. destruct Hq as [Hq|[Hq|Hq]]; [tauto..|].
          exact (BS j b Hj Hq (InS i (Ptr b o) Hi (or_intror Wp))).
        * destruct Hq as [Hq|[Hq|Hq]].
          -- exact (BS i b Hi Op (InS j (Ptr b o) Hj (or_introl Hq))).
          -- exact (BS i b Hi Op (InS j (Ptr b o) Hj (or_intror Hq))).
          -- exact (BB i j b Hi Hj N Op Hq).
    - inversion Sx as [| | | | |b' k' B' m' Hb V Sk]; subst. destruct q as [|b o]; [destruct Sb|]. cbn [same_block] in Sb. subst b'.
      assert (Hq : within Sh (Ptr b o) \/ owned (Bs j) (Ptr b o)).
      { destruct U as [(k' & ->)|[(k' & ->)|[(v' & k' & ->)|(k' & ->)]]]; inversion Sy; subst.
        - apply (Lo j); assumption.
        - match goal with H : _ \/ _ \/ _ |- _ => destruct H as [?|[?|?]] end; [left; apply (InS j); auto..|auto].
        - match goal with H : W j _ \/ _ |- _ => destruct H as [?|?] end; [left; apply (InS j); auto|auto].
        - right. assumption. }
      destruct Hq as [Hq|Hq]; [exact (BS i b Hi Hb Hq)|exact (BB i j b Hi Hj N Hb Hq)].
  Qed.

  Lemma inv_turn s s' Bs ms : inv s Bs ms -> tturn s s' -> exists Bs' ms', inv s' Bs' ms' /\ one Sh (fst s', Bs', ms') (fst s, Bs, ms).
  Proof.
    intros G Tn. destruct Tn as [i l g x x' g' Ei Ad]. pose proof (inv_next l g Bs ms i x G Ei) as H. rewrite Ad in H.
    destruct H as (B' & m' & Ls & Iv). eexists _, _. split; [exact Iv|]. exists i, x, x', B', m'. auto.
  Qed.
  Lemma inv_turns k s s' Bs ms : inv s Bs ms -> tturns k s s' -> exists Bs' ms', inv s' Bs' ms'.
  Proof.
    intros G H. induction H as [|k s s1 s2 H IH Tn]; [eauto|]. destruct (IH G) as (Bs1 & ms1 & G1).
    destruct (inv_turn _ _ _ _ G1 Tn) as (Bs2 & ms2 & G2 & _). eauto.
  Qed.

  Lemma inv_bound t : Acc (one Sh) t -> forall s Bs ms, t = (fst s, Bs, ms) -> inv s Bs ms ->
    exists N, forall k s', tturns k s s' -> (k <= N)%nat.
  Proof.
    intros Ac. induction Ac as [t _ IH]. intros [l g] Bs ms -> G. cbn [fst] in *.
    destruct (finite_choice (fun i N => forall x x' g', nth_error l i = Some x -> tadvance x g = Some (Ok (x', g')) ->
      forall k s', tturns k (set_nth l i x', g') s' -> (k <= N)%nat) n) as (N & HN).
    - intros i a b Hab P x x' g' E1 E2 k s' H. specialize (P x x' g' E1 E2 k s' H). lia.
    - intros i Hi. destruct (nth_error l i) as [x|] eqn:Ei; [|exists 0%nat; intros; discriminate].
      pose proof (inv_next l g Bs ms i x G Ei) as H. destruct (tadvance x g) as [[[x' g']| | |]|] eqn:Ad; try contradiction.
      + destruct H as (B' & m' & Ls & Iv).
        destruct (IH (set_nth l i x', set_at Bs i B', set_at ms i m')) with (s := (set_nth l i x', g')) (Bs := set_at Bs i B') (ms := set_at ms i m')
          as (N & HN); [exists i, x, x', B', m'; auto|reflexivity|exact Iv|].
        exists N. intros y y' h E1 E2. injection E1 as <-. rewrite Ad in E2. injection E2 as <- <-. exact HN.
      + exists 0%nat. intros y y' h E1 E2. injection E1 as <-. congruence.
    - exists (S N). intros [|k] s' H; [lia|]. apply tturns_cons in H as (s1 & Tn & H). inversion Tn as [i l0 g1 x x' g' Ei Ad]; subst.
      assert (Hi : (i < n)%nat) by (destruct G as (L & _); cbn [fst] in L; rewrite <- L; apply nth_error_Some; congruence).
      specialize (HN i Hi x x' g' Ei Ad k s' H). lia.
  Qed.

  Lemma inv_end s Bs ms : inv s Bs ms -> (exists s', tturn s s') \/
    exists rs, treturned s rs /\ length rs = n /\ forall i r, nth_error rs i = Some r -> Q i r (Bs i) (ms i).
  Proof.
    destruct s as [l g]. intros G. pose proof G as (L & _). cbn [fst] in L.
    assert (H : (exists s', tturn (l, g) s') \/ forall i x, nth_error l i = Some x -> exists a, x = End (Ok a) /\ Q i a (Bs i) (ms i)).
    { assert (D : forall k, (k <= length l)%nat -> (exists s', tturn (l, g) s') \/
        forall i x, (i < k)%nat -> nth_error l i = Some x -> exists a, x = End (Ok a) /\ Q i a (Bs i) (ms i)).
      { induction k as [|k IH]; intros Hk; [right; intros; lia|]. destruct IH as [|IH]; [lia|left; assumption|].
        destruct (nth_error l k) as [x|] eqn:Ek; [|apply nth_error_None in Ek; lia].
        pose proof (inv_next l g Bs ms k x G Ek) as Nx. destruct (tadvance x g) as [[[x' g']| | |]|] eqn:Ad; try contradiction.
        - left. eexists. eapply tturn_of; eassumption.
        - right. intros i y Hi Ei. destruct (Nat.eq_dec i k) as [->|]; [|apply IH; [lia|exact Ei]]. rewrite Ek in Ei. injection Ei as <-. exact Nx. }
      destruct (D (length l) (le_n _)) as [|D']; [left; assumption|right]. intros i x E. apply D'; [|exact E]. apply nth_error_Some. congruence. }
    destruct H as [|H]; [left; assumption|right]. unfold treturned. cbn [fst]. rewrite <- L. clear - H. revert Bs ms H. generalize Q as q.
    induction l as [|x l IH]; intros q Bs ms H.
    - exists []. split; [constructor|]. split; [reflexivity|]. intros [|i] r E; discriminate.
    - destruct (IH (fun i => q (S i)) (fun i => Bs (S i)) (fun i => ms (S i))) as (rs & F & Ln & G); [intros i y E; exact (H (S i) y E)|].
      destruct (H 0%nat x eq_refl) as (a & -> & Ha). exists (a :: rs). split; [constructor; auto|]. split; [simpl; congruence|].
      intros [|i] r E; [injection E as <-; exact Ha|exact (G i r E)].
  Qed.
End Together.

Lemma tables_threads_l {T A} (ths : list (tact T A)) g Sh R W (Q : nat -> A -> list nat -> mem T -> Prop) Bs ms :
  arranged (length ths) Sh R W Bs ms g ->
  (forall i x, nth_error ths i = Some x -> safe Sh (R i) (W i) (Q i) x (Bs i) (ms i)) ->
  threads_end ths g (fun rs g' => exists Bs' ms', arranged (length ths) Sh R W Bs' ms' g' /\ length rs = length ths /\
    (forall i r, nth_error rs i = Some r -> Q i r (Bs' i) (ms' i)) /\
    (forall p, within Sh p -> cell g' p = cell g p \/ exists i, (i < length ths)%nat /\ W i p)).
Proof.
  intros Ar Sf. assert (G : inv (length ths) Sh R W Q g (ths, g) Bs ms) by (split; [reflexivity|]; split; [exact Ar|]; split; [exact Sf|left; reflexivity]).
  destruct (inv_bound (length ths) Sh R W Q g (ths, Bs, ms)) with (s := (ths, g)) (Bs := Bs) (ms := ms) as (N & HN).
  - apply acc_all. intros i x E. eapply safe_acc. apply Sf. exact E.
  - reflexivity.
  - exact G.
  - exists N. intros k s H. destruct (inv_turns (length ths) Sh R W Q g k _ s Bs ms G H) as (Bs' & ms' & G').
    split; [eapply inv_race; exact G'|]. split; [eapply inv_undefined; exact G'|]. split; [eapply HN; exact H|].
    destruct (inv_end _ _ _ _ _ _ s Bs' ms' G') as [|(rs & Rt & Ln & HQ)]; [left; assumption|right].
    exists rs. split; [exact Rt|]. exists Bs', ms'. destruct G' as (_ & Ar' & _ & Kp). auto.
Qed.
