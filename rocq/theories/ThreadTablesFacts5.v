(** Threads that return the tables they make. *)
From Coq Require Import ZArith List Bool Lia Arith.
From Verif Require Import Outcome CInt CIntFacts Spec SpecFacts ShapeSpec Shape ShapeFacts ShapeFacts2 Memory MemFacts
  Container ContainerSpec ContainerFacts ContainerFacts2 ContainerFacts3 AlgoSpec Algo AlgoFacts Threads ThreadsSpec ThreadsFacts
  ThreadTables ThreadTablesSpec ThreadTablesFacts ThreadTablesFacts2 ThreadTablesFacts3 ThreadTablesFacts4.
Import ListNotations.
Open Scope Z_scope.

Lemma safe_maker {T} Sh R W (Q : container -> list nat -> mem T -> Prop) f c B m vs : default_layout c -> values m c c vs ->
  (forall p, elements c c p -> R p \/ W p \/ owned B p) -> (forall p, R p \/ W p -> within Sh p) ->
  (forall t m', c_shape t = c_shape c -> default_layout t -> values m' t t (map (fun v => f [v]) vs) ->
     (forall p, elements t t p -> owned (table_blocks t) p) -> Q t (table_blocks t ++ B) m') ->
  safe Sh R W Q (maker f c) B m.
Proof.
  intros D V Ac Hs HQ. unfold maker. apply safe_then. apply safe_copy_l; [exact D|exact (values_readable m c vs V)|exact Ac|exact Hs|].
  intros t B1 m1 Es _ (Dt & EB & Fr & Rl & Wr & Ow & F) Vt. assert (Ed : dims t = dims c) by (unfold dims; rewrite Es; reflexivity).
  pose proof (values_map m m1 c t (fun v => v) vs V Ed Vt) as V1. rewrite map_id in V1.
  apply safe_then. eapply safe_transform; [exact Dt|exact V1| |].
  - intros p Hp. specialize (Ow p Hp). destruct p as [|b o]; [exact Ow|]. subst B1. apply in_or_app. left. exact Ow.
  - intros m2 V2 Sm F2. constructor. subst B1. apply HQ; assumption.
Qed.

Lemma makers_l {T} (g : mem T) (js : list ((list T -> T) * container)) (vs : nat -> list T) :
  (forall i f c, nth_error js i = Some (f, c) -> default_layout c /\ values g c c (vs i)) ->
  threads_end (map (fun j => maker (fst j) (snd j)) js) g (fun ts g' =>
    length ts = length js /\
    (forall i f c t, nth_error js i = Some (f, c) -> nth_error ts i = Some t ->
       c_shape t = c_shape c /\ default_layout t /\ values g' t t (map (fun v => f [v]) (vs i)) /\
       forall p, elements t t p -> ~ valid g p) /\
    (forall i j t u p, i <> j -> nth_error ts i = Some t -> nth_error ts j = Some u -> elements t t p -> ~ elements u u p) /\
    forall p, valid g p -> cell g' p = cell g p).
Proof.
  intros J. pose (R := fun (i : nat) (p : ptr) => valid g p).
  pose (ths := map (fun j => maker (fst j) (snd j)) js). fold ths.
  assert (Lt : length ths = length js) by apply map_length.
  destruct (tables_threads_l ths g (start_shared g) R (fun _ => nothing)
    (fun i t B m => exists f c, nth_error js i = Some (f, c) /\ c_shape t = c_shape c /\ default_layout t /\
       values m t t (map (fun v => f [v]) (vs i)) /\ forall p, elements t t p -> owned B p) (fun _ => []) (fun _ => g)) as (N & HN).
  - apply arranged_start; [intros i j p _ _ _ []|]. intros i p _ [V|[]]. apply valid_shared. exact V.
  - intros i x E. unfold ths in E. rewrite nth_error_map in E. destruct (nth_error js i) as [[f c]|] eqn:Ej; [|discriminate].
    injection E as <-. destruct (J i f c Ej) as [D V].
    eapply safe_maker; [exact D|exact V| | |].
    + intros p (is_ & Bx & ->). left. exact (readable_writable g c (values_readable g c _ V) is_ Bx).
    + intros p [H|[]]. apply valid_shared. exact H.
    + intros t m' Es Dt Vt Ow. exists f, c. split; [reflexivity|]. split; [exact Es|]. split; [exact Dt|]. split; [exact Vt|]. intros p Hp. rewrite app_nil_r. exact (Ow p Hp).
  - exists N. intros n s Tn. destruct (HN n s Tn) as (H1 & H2 & H3 & H4). do 3 (split; [assumption|]).
    destruct H4 as [H4|(ts & Rt & Bs & ms & Ar & Ln & HQ & Kp)]; [left; exact H4|right]. exists ts. split; [exact Rt|].
    destruct Ar as (_ & _ & A3 & A4 & _ & _ & _ & _ & _ & A10).
    assert (Lts : forall i t, nth_error ts i = Some t -> (i < length ths)%nat) by (intros i t E; apply nth_lt in E; lia).
    split; [lia|]. repeat apply conj.
    + intros i f c t Ej Et. destruct (HQ i t Et) as (f' & c' & Ej' & Es & Dt & Vt & Ow). rewrite Ej in Ej'. injection Ej' as <- <-.
      do 2 (split; [assumption|]). split.
      * rewrite <- (map_id (map _ _)). apply (values_map (ms i) (snd s) t t (fun v => v) _ Vt eq_refl).
        intros is_ v Bx Hv. unfold value, peek in *. rewrite <- (A10 i); [exact Hv|eapply Lts; exact Et|]. right. right. apply Ow. exists is_. auto.
      * intros p Hp Hv. apply valid_shared in Hv. specialize (Ow p Hp). destruct p as [|b o]; [exact Ow|].
        exact (A3 i b (Lts i t Et) Ow Hv).
    + intros i j t u p Nij Et Eu Hp Hq. destruct (HQ i t Et) as (? & ? & _ & _ & _ & _ & O1). destruct (HQ j u Eu) as (? & ? & _ & _ & _ & _ & O2).
      specialize (O1 p Hp). specialize (O2 p Hq). destruct p as [|b o]; [exact O1|].
      exact (A4 i j b (Lts i t Et) (Lts j u Eu) Nij O1 O2).
    + intros p Hv. destruct (Kp p (valid_shared g p Hv)) as [E|(i & _ & [])]. exact E.
Qed.

(** ** Orders of the turns given one by one *)
Lemma tturns_first {T A} n : forall (s1 s2 s3 : tstate T A), tturn s1 s2 -> tturns n s2 s3 -> tturns (S n) s1 s3.
Proof.
  intros s1 s2 s3 H1 H2. induction H2 as [s|n s s' s'' H IH Hs].
  - econstructor; [constructor|exact H1].
  - econstructor; [exact (IH H1)|exact Hs].
Qed.
Lemma tplay_turns {T A} l : forall (s s' : tstate T A), tplay l s = Some s' -> tturns (length l) s s'.
Proof.
  induction l as [|i l IH]; intros s s' H; cbn [tplay length] in *.
  - injection H as <-. constructor.
  - destruct (nth_error (fst s) i) as [x|] eqn:E; [|discriminate]. destruct (tadvance x (snd s)) as [[[x' m']| | |]|] eqn:Ea; try discriminate.
    apply IH in H. destruct s as [ths m]. cbn [fst snd] in *. eapply tturns_first; [econstructor; eassumption|exact H].
Qed.
Lemma not_together {T A} (ths : list (tact T A)) m l s Q : tplay l (ths, m) = Some s -> tables_race s \/ tundefined s -> ~ threads_end ths m Q.
Proof.
  intros P H (N & HN). destruct (HN _ s (tplay_turns l _ s P)) as (H1 & H2 & _). destruct H; auto.
Qed.
