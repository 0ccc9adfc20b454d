From Coq Require Import ZArith List Bool Permutation Lia.
From Verif Require Import Outcome CInt CIntFacts Spec SpecFacts ShapeSpec Shape ShapeFacts ShapeFacts2
  ForEach ForEachSpec ForEachFacts Memory MemFacts Container ContainerSpec ContainerFacts ContainerFacts2
  ContainerFacts3 Algo AlgoSpec AlgoFacts AlgoFacts2 AlgoFacts3 Context ContextSpec.
Import ListNotations.
Open Scope Z_scope.

(** ** Orders *)
Lemma same_coord ds a b : map cty a = map cty ds -> map cty b = map cty ds -> vals a = vals b -> a = b.
Proof.
  intros Ha Hb. rewrite <- Hb in Ha. clear Hb ds. revert b Ha. induction a as [|x a IH]; intros [|y b] H V;
    try discriminate; [reflexivity|]. simpl in H, V. injection H as Ht H. injection V as Hv V.
  f_equal; [destruct x, y; simpl in *; congruence|apply IH; assumption].
Qed.

Lemma each_once_perm ds l : nonnegs (vals ds) -> each_once ds l -> Permutation l (tbox ds).
Proof.
  intros Nn (I & Nd & Ty). pose proof (tbox_types ds) as TT. rewrite Forall_forall in Ty, TT.
  apply NoDup_Permutation.
  - apply NoDup_map_inv with (f := vals). exact Nd.
  - apply NoDup_map_inv with (f := vals). rewrite tbox_vals. apply box_NoDup. exact Nn.
  - intros x. split; intros Hx.
    + assert (B : In (vals x) (map vals (tbox ds))) by (rewrite tbox_vals; apply box_In, I, in_map; exact Hx).
      apply in_map_iff in B. destruct B as (y & E & Hy).
      rewrite (same_coord ds x y); auto.
    + assert (B : In (vals x) (map vals l)) by (apply I, box_In; rewrite <- tbox_vals; apply in_map; exact Hx).
      apply in_map_iff in B. destruct B as (y & E & Hy).
      rewrite (same_coord ds x y); auto.
Qed.

Lemma each_once_tbox ds : nonnegs (vals ds) -> each_once ds (tbox ds).
Proof. intros Nn. destruct (tbox_visits ds Nn) as (A & B & _ & _ & C). split; [exact A|]. split; assumption. Qed.

Lemma perm_each_once ds l : nonnegs (vals ds) -> Permutation l (tbox ds) -> each_once ds l.
Proof.
  intros Nn P. destruct (each_once_tbox ds Nn) as (A & B & C). split; [|split].
  - intros c. rewrite <- A. split; apply Permutation_in; [|apply Permutation_sym]; apply Permutation_map; exact P.
  - eapply Permutation_NoDup; [|exact B]. apply Permutation_sym, Permutation_map. exact P.
  - eapply Permutation_Forall; [apply Permutation_sym; exact P|exact C].
Qed.

Lemma run_perm {A S} (Q : A -> Prop) (I : S -> Prop) (f : A -> S -> outcome S) l l' :
  (forall a s s', Q a -> I s -> f a s = Ok s' -> I s') ->
  (forall a b s, Q a -> Q b -> a <> b -> I s -> (s1 <- f a s ;; f b s1) = (s1 <- f b s ;; f a s1)) ->
  Permutation l l' -> NoDup l -> Forall Q l -> forall s, I s -> run f l s = run f l' s.
Proof.
  intros Hi Hc P. induction P as [|x l l' P IH|x y l|l l' l'' P1 IH1 P2 IH2]; intros Nd F s Is.
  - reflexivity.
  - inversion Nd; subst. inversion F; subst. cbn [run]. destruct (f x s) as [s'| | |] eqn:E; try reflexivity.
    rewrite !bind_ok. apply IH; eauto.
  - inversion Nd as [|? ? N1 Nd1]; subst. inversion F as [|? ? Fy F1]; subst. inversion F1 as [|? ? Fx F2]; subst.
    cbn [run]. rewrite <- !bind_assoc. f_equal. apply Hc; try assumption. intros ->. apply N1. left. reflexivity.
  - rewrite IH1 by assumption. apply IH2; [eapply Permutation_NoDup; eassumption| |exact Is].
    eapply Permutation_Forall; eassumption.
Qed.

Lemma visit_cpu {S} cx ds (f : list cint -> S -> outcome S) (I : S -> Prop) s : fair cx -> wfs ds -> nonnegs (vals ds) ->
  (forall a s s', In a (tbox ds) -> I s -> f a s = Ok s' -> I s') ->
  (forall a b s, In a (tbox ds) -> In b (tbox ds) -> a <> b -> I s ->
     (s1 <- f a s ;; f b s1) = (s1 <- f b s ;; f a s1)) ->
  I s -> visit cx S ds f s = for_each ds f s.
Proof.
  intros Fc W Nn Hi Hc Is. destruct (Fc S ds f s W Nn) as (l & El & ->). rewrite for_each_run by assumption.
  pose proof (each_once_perm ds l Nn El) as P. destruct El as (_ & Nd & _).
  apply (run_perm (fun a => In a (tbox ds)) I); try assumption.
  - apply NoDup_map_inv with (f := vals). exact Nd.
  - apply Forall_forall. intros x. apply Permutation_in. exact P.
Qed.

Lemma tbox_mem ds c : wfs ds -> In c (tbox ds) -> wfs c /\ in_box (vals ds) (vals c) /\ map cty c = map cty ds.
Proof.
  intros W I. apply in_split in I. destruct I as (a & b & E). destruct (tbox_at ds a c b W E) as (H1 & H2 & H3 & _). auto.
Qed.

Lemma tbox_neq ds a b : In a (tbox ds) -> In b (tbox ds) -> a <> b -> vals a <> vals b.
Proof.
  intros Ha Hb N E. apply N. pose proof (tbox_types ds) as TT. rewrite Forall_forall in TT.
  apply (same_coord ds); auto.
Qed.

(** ** Writes commute *)
Lemma set_nth_comm {A} (l : list A) : forall i j x y, i <> j -> set_nth (set_nth l i x) j y = set_nth (set_nth l j y) i x.
Proof.
  induction l as [|z l IH]; intros [|i] [|j] x y N; simpl; try reflexivity; [congruence|].
  f_equal. apply IH. congruence.
Qed.

Lemma set_nth_twice {A} (l : list A) : forall i x y, set_nth (set_nth l i x) i y = set_nth l i y.
Proof. induction l as [|z l IH]; intros [|i] x y; simpl; try reflexivity. f_equal. apply IH. Qed.

Lemma upd_comm {T} (m : mem T) p q v w : p <> q -> upd (upd m p v) q w = upd (upd m q w) p v.
Proof.
  intros N. destruct p as [|b o], q as [|b' o']; try reflexivity.
  destruct (Nat.eq_dec b b') as [<-|Nb].
  - unfold upd. destruct (nth_error m b) as [[cs|]|] eqn:E; try (rewrite E; reflexivity).
    pose proof (nth_lt _ _ _ E) as L.
    destruct (Z.leb_spec 0 o), (Z.leb_spec 0 o'); rewrite ?set_nth_same, ?E by exact L;
      repeat match goal with |- context [0 <=? ?z] => destruct (Z.leb_spec 0 z); try lia end; try reflexivity.
    rewrite !set_nth_twice. do 2 f_equal. apply set_nth_comm. intros G. apply N. f_equal. lia.
  - unfold upd.
    assert (E1 : forall (x : option (list (option T))), nth_error (set_nth m b x) b' = nth_error m b')
      by (intros x; apply set_nth_other; congruence).
    assert (E2 : forall (x : option (list (option T))), nth_error (set_nth m b' x) b = nth_error m b)
      by (intros x; apply set_nth_other; congruence).
    destruct (nth_error m b) as [[cs|]|] eqn:Eb; destruct (nth_error m b') as [[cs'|]|] eqn:Eb';
      destruct (0 <=? o) eqn:Zo; destruct (0 <=? o') eqn:Zo';
      rewrite ?E1, ?E2, ?Eb, ?Eb', ?Zo, ?Zo'; try reflexivity.
    apply set_nth_comm. congruence.
Qed.

(** ** Loops that write the elements of a container *)
Definition keeps {T} (m0 : mem T) out rs (m : mem T) : Prop :=
  same_cells m0 m /\ Forall (fun c => forall is_, in_box (dims out) is_ -> exists v, value m c is_ v) rs.

Lemma keeps_upd {T} (m0 : mem T) out rs m p v : keeps m0 out rs m -> keeps m0 out rs (upd m p v).
Proof.
  intros (S & F). split.
  - intros q. etransitivity; [apply S|]. unfold valid. symmetry. apply valid_upd.
  - eapply Forall_impl; [|exact F]. intros c H is_ B. destruct (H is_ B) as (x & Hx). unfold value in *.
    destruct (ptr_eq_dec p (elem c is_)) as [->|N].
    + exists v. apply peek_upd_same. eapply peek_valid; exact Hx.
    + exists x. rewrite peek_upd_other by exact N. exact Hx.
Qed.

Lemma keeps_vals {T} (m0 : mem T) out rs m is_ : keeps m0 out rs m -> in_box (dims out) is_ ->
  exists vs, Forall2 (fun c v => value m c is_ v) rs vs.
Proof.
  intros (_ & F) B. induction F as [|c rs H _ (vs & IH)]; [exists []; constructor|].
  destruct (H is_ B) as (v & Hv). exists (v :: vs). constructor; assumption.
Qed.

Lemma value_upd_out {T} out rs (m : mem T) a b v vs : Forall (fun i => no_cross_alias out i out) rs ->
  in_box (dims out) a -> in_box (dims out) b -> a <> b ->
  Forall2 (fun c v => value m c b v) rs vs ->
  Forall2 (fun c w => value (upd m (elem out a) v) c b w) rs vs.
Proof.
  intros NA Ba Bb N H. induction H as [|c w rs vs Hc _ IH]; [constructor|]. inversion NA; subst.
  constructor; [|apply IH; assumption]. unfold value. rewrite peek_upd_other; [exact Hc|].
  apply not_eq_sym. apply H1; auto.
Qed.

(** A step that writes at most the element of [out] at its coordinate, from the values of [rs] there. *)
Lemma write_any {T} (step : list cint -> unit * mem T -> outcome (unit * mem T)) cx out rs (m : mem T)
    (g : list T -> list cint -> option T) :
  fair cx -> can_write m out out -> Forall (can_read m out) rs ->
  Forall (fun i => no_cross_alias out i out) rs ->
  (forall tis m' vs, wfs tis -> map cty tis = ctypes out -> in_box (dims out) (vals tis) -> same_cells m m' ->
     Forall2 (fun c v => value m' c (vals tis) v) rs vs ->
     step tis (tt, m') = Ok (tt, match g vs tis with Some v => upd m' (elem out (vals tis)) v | None => m' end)) ->
  visit cx _ (c_shape out) step (tt, m) = for_each (c_shape out) step (tt, m).
Proof.
  intros Fc CW CR NA Hs. destruct (live_wf m out (can_write_live _ _ _ CW)) as [W Nn].
  pose proof CW as (_ & _ & D & V).
  apply (visit_cpu cx _ step (fun sm => keeps m out rs (snd sm))); try assumption.
  - intros a [[] m'] s' Ha K E. cbn [snd] in *. destruct (tbox_mem _ _ W Ha) as (Wa & Ba & Ta).
    destruct (keeps_vals m out rs m' (vals a) K Ba) as (vs & Hv).
    rewrite (Hs a m' vs Wa Ta Ba (proj1 K) Hv) in E. injection E as <-. cbn [snd].
    destruct (g vs a); [apply keeps_upd|]; exact K.
  - intros a b [[] m'] Ha Hb N K. cbn [snd] in *.
    destruct (tbox_mem _ _ W Ha) as (Wa & Ba & Ta). destruct (tbox_mem _ _ W Hb) as (Wb & Bb & Tb).
    pose proof (tbox_neq _ _ _ Ha Hb N) as Nv.
    destruct (keeps_vals m out rs m' _ K Ba) as (va & Hva). destruct (keeps_vals m out rs m' _ K Bb) as (vb & Hvb).
    rewrite (Hs a m' va Wa Ta Ba (proj1 K) Hva), (Hs b m' vb Wb Tb Bb (proj1 K) Hvb), !bind_ok.
    assert (Ka : keeps m out rs (match g va a with Some v => upd m' (elem out (vals a)) v | None => m' end))
      by (destruct (g va a); [apply keeps_upd|]; exact K).
    assert (Kb : keeps m out rs (match g vb b with Some v => upd m' (elem out (vals b)) v | None => m' end))
      by (destruct (g vb b); [apply keeps_upd|]; exact K).
    rewrite (Hs b _ vb Wb Tb Bb (proj1 Ka)).
    2:{ destruct (g va a); [apply value_upd_out; auto|exact Hvb]. }
    rewrite (Hs a _ va Wa Ta Ba (proj1 Kb)).
    2:{ destruct (g vb b); [apply value_upd_out; auto|exact Hva]. }
    do 2 f_equal. destruct (g va a), (g vb b); try reflexivity. apply upd_comm.
    intros E. apply Nv. apply D; assumption.
  - cbn [snd]. split; [apply same_refl|]. eapply Forall_impl; [|exact CR]. intros c (_ & _ & R). exact R.
Qed.

Lemma write_any_containers {T} cx out cs rs (m : mem T) (g : list T -> option T) body :
  fair cx -> can_write m out out -> Forall (live m out) cs -> Forall (can_read m out) rs ->
  Forall (fun i => no_cross_alias out i out) rs ->
  (forall is_ m' vs, in_box (dims out) is_ -> same_cells m m' ->
     Forall2 (fun c v => value m' c is_ v) rs vs ->
     body (map (fun c => elem c is_) (out :: cs)) (tt, m') =
     Ok (tt, match g vs with Some v => upd m' (elem out is_) v | None => m' end)) ->
  run_map (map_containers_on cx body out cs (tt, m)) = run_map (map_containers body out cs (tt, m)).
Proof.
  intros Fc CW L CR NA Hb. f_equal. unfold map_containers_on, map_containers.
  apply (write_any _ cx out rs m (fun vs _ => g vs)); try assumption.
  intros tis m' vs Wt Tt Bt S Hv. cbn [snd].
  rewrite (mapM_refs m m' out (out :: cs) tis); try assumption.
  - rewrite bind_ok. apply Hb; assumption.
  - constructor; [apply can_write_live; exact CW|exact L].
Qed.

Lemma transform_any {T} cx f out c0 cs (m : mem T) : fair cx -> can_write m out out ->
  Forall (can_read m out) (c0 :: cs) -> Forall (fun i => no_cross_alias out i out) (c0 :: cs) ->
  transform_on cx f out c0 cs m = transform f out c0 cs m.
Proof.
  intros Fc CW CR NA. unfold transform_on, transform.
  apply (write_any_containers cx out (c0 :: cs) (c0 :: cs) m (fun vs => Some (f vs))); try assumption.
  - eapply Forall_impl; [|exact CR]. intros c. apply can_read_live.
  - intros is_ m' vs B S Hv. cbn [map fst snd].
    pose proof (mapM_load_unique m' is_ (c0 :: cs) vs Hv) as G. cbn [map] in G. rewrite G, bind_ok.
    eapply assign_valid; eassumption.
Qed.

Lemma copy_any {T} cx out in_ (m : mem T) : fair cx -> can_write m out out -> can_read m out in_ ->
  no_cross_alias out in_ out -> copy_on cx out in_ m = copy out in_ m.
Proof.
  intros Fc CW CR NA. unfold copy_on, copy.
  apply (write_any_containers cx out [in_] [in_] m (fun vs => match vs with v :: _ => Some v | [] => None end));
    try assumption; try (constructor; [|constructor]); try assumption.
  - apply can_read_live. exact CR.
  - intros is_ m' vs B S Hv. destruct (Forall2_1 _ _ _ Hv) as (v & -> & Hv1). cbn [map snd].
    rewrite (load_peek _ _ _ Hv1), bind_ok. eapply assign_valid; eassumption.
Qed.

Lemma copy_if_any {T} cx f out in_ (m : mem T) : fair cx -> can_write m out out -> can_read m out in_ ->
  no_cross_alias out in_ out -> copy_if_on cx f out in_ m = copy_if f out in_ m.
Proof.
  intros Fc CW CR NA. unfold copy_if_on, copy_if.
  apply (write_any_containers cx out [in_] [in_] m
    (fun vs => match vs with v :: _ => if f v then Some v else None | [] => None end));
    try assumption; try (constructor; [|constructor]); try assumption.
  - apply can_read_live. exact CR.
  - intros is_ m' vs B S Hv. destruct (Forall2_1 _ _ _ Hv) as (v & -> & Hv1). cbn [map snd].
    rewrite (load_peek _ _ _ Hv1), bind_ok. destruct (f v); [|reflexivity]. eapply assign_valid; eassumption.
Qed.

Lemma fill_any {T} cx out (v : T) m : fair cx -> can_write m out out -> fill_on cx out v m = fill out v m.
Proof.
  intros Fc CW. unfold fill_on, fill.
  apply (write_any_containers cx out [] [] m (fun _ => Some v)); try assumption; try constructor.
  intros is_ m' vs B S Hv. cbn [map]. eapply assign_valid; eassumption.
Qed.

Lemma generate_any {T} cx (f : list cint -> T) out m : fair cx -> can_write m out out ->
  generate_on cx f out m = generate f out m.
Proof.
  intros Fc CW. unfold generate_on, generate. f_equal. unfold map_index_on, map_index.
  apply (write_any _ cx out [] m (fun _ tis => Some (f tis))); try assumption; try constructor.
  intros tis m' vs Wt Tt Bt S Hv. cbn [snd].
  rewrite (ref_at m m' out out tis); try assumption; [|apply can_write_live; exact CW].
  rewrite bind_ok. eapply assign_valid; eassumption.
Qed.

Lemma replace_if_any {T} cx out f (v : T) m : fair cx -> can_write m out out -> can_read m out out ->
  replace_if_on cx out f v m = replace_if out f v m.
Proof.
  intros Fc CW CR. unfold replace_if_on, replace_if. assert (D : distinct_on out out) by apply CW.
  apply (write_any_containers cx out [] [out] m
    (fun vs => match vs with x :: _ => if f x then Some v else None | [] => None end)); try assumption.
  - constructor.
  - constructor; [exact CR|constructor].
  - constructor; [apply distinct_no_cross; exact D|constructor].
  - intros is_ m' vs B S Hv. destruct (Forall2_1 _ _ _ Hv) as (x & -> & Hx). cbn [map snd].
    rewrite (load_peek _ _ _ Hx), bind_ok. destruct (f x); [|reflexivity]. eapply assign_valid; eassumption.
Qed.

(** ** Reductions *)
Lemma reduce_any_order {T A} cx c (f : A -> T -> A) init m : fair cx -> can_read m c c ->
  exists vs vs', values m c c vs /\ Permutation vs vs' /\ reduce_on cx c f init m = Ok (fold_left f vs' init, m).
Proof.
  intros Fc CR. destruct (live_wf m c (can_read_live _ _ _ CR)) as [W Nn].
  destruct (values_exist m c c CR) as (vs & V).
  unfold reduce_on, map_containers_on.
  match goal with |- context [visit cx _ _ ?st _] => set (step := st) end.
  destruct (Fc _ (c_shape c) step (init, m) W Nn) as (l & El & ->).
  pose proof (each_once_perm _ l Nn El) as P.
  (* the value at each coordinate *)
  assert (G : forall l, Forall (fun t => In t (tbox (c_shape c))) l ->
     exists ws, Forall2 (fun t w => value m c (vals t) w) l ws /\
       forall a, run step l (a, m) = Ok (fold_left f ws a, m)).
  { clear -CR W. induction 1 as [|t l Ht _ (ws & F & IH)]; [exists []; split; [constructor|reflexivity]|].
    destruct (tbox_mem _ _ W Ht) as (Wt & Bt & Tt). destruct (proj2 (proj2 CR) (vals t) Bt) as (w & Hw).
    exists (w :: ws). split; [constructor; assumption|]. intros a. cbn [run].
    replace (step t (a, m)) with (Ok (f a w, m)); [rewrite bind_ok; apply IH|].
    unfold step. cbn [snd fst]. rewrite (mapM_refs m m c [c] t); try assumption.
    - rewrite bind_ok. cbn [map]. rewrite (load_peek _ _ _ Hw), bind_ok. reflexivity.
    - constructor; [apply can_read_live; exact CR|constructor].
    - apply same_refl. }
  destruct (G l) as (ws & F & E).
  { apply Forall_forall. intros x. apply Permutation_in. exact P. }
  exists vs, ws. split; [exact V|]. split; [|apply E].
  (* both are the values along permuted coordinates *)
  clear -V F P. pose (val := fun is_ => peek m (elem c is_)).
  assert (E1 : map Some vs = map val (box (dims c))).
  { unfold values in V. clear -V. induction V as [|x v l vs H _ IH]; [reflexivity|]. simpl. rewrite <- IH.
    f_equal. unfold val. symmetry. exact H. }
  assert (E2 : map Some ws = map val (map vals l)).
  { clear -F. induction F as [|x v l vs H _ IH]; [reflexivity|]. simpl. rewrite <- IH. f_equal. unfold val. symmetry. exact H. }
  assert (Q : Permutation (map Some vs) (map Some ws)).
  { rewrite E1, E2. apply Permutation_map. unfold dims. rewrite <- tbox_vals. apply Permutation_map, Permutation_sym. exact P. }
  apply Permutation_map_inv in Q. destruct Q as (us & Eu & Q). apply Permutation_sym in Q.
  assert (vs = us) as ->; [|exact Q].
  clear -Eu. revert us Eu. induction vs as [|w ws IH]; intros [|u us] E; try discriminate; [reflexivity|].
  simpl in E. injection E as -> E. f_equal. apply IH. exact E.
Qed.

Lemma fold_perm {A B} (f : A -> B -> A) l l' : order_free f -> Permutation l l' ->
  forall a, fold_left f l a = fold_left f l' a.
Proof.
  intros O P. induction P as [|x l l' P IH|x y l|l l' l'' P1 IH1 P2 IH2]; intros a; simpl.
  - reflexivity.
  - apply IH.
  - rewrite O. reflexivity.
  - rewrite IH1. apply IH2.
Qed.

Lemma reduce_any {T A} cx c (f : A -> T -> A) init m : fair cx -> order_free f -> can_read m c c ->
  reduce_on cx c f init m = reduce c f init m.
Proof.
  intros Fc O CR. destruct (reduce_any_order cx c f init m Fc CR) as (vs & vs' & V & P & ->).
  rewrite (reduce_l c f init m vs CR V). rewrite (fold_perm f vs vs' O P). reflexivity.
Qed.

Lemma and_order_free {T} (f : T -> bool) : order_free (fun a e => a && f e).
Proof. intros a x y. destruct a, (f x), (f y); reflexivity. Qed.
Lemma or_order_free {T} (f : T -> bool) : order_free (fun a e => a || f e).
Proof. intros a x y. destruct a, (f x), (f y); reflexivity. Qed.
Lemma count_order_free {T} (f : T -> bool) : order_free (fun a e => size_add a (f e)).
Proof. intros a x y. unfold size_add. rewrite !Zplus_mod_idemp_l. f_equal. lia. Qed.

Lemma all_of_any {T} cx c (f : T -> bool) m : fair cx -> can_read m c c -> all_of_on cx c f m = all_of c f m.
Proof. intros Fc CR. apply reduce_any; [exact Fc|apply and_order_free|exact CR]. Qed.
Lemma any_of_any {T} cx c (f : T -> bool) m : fair cx -> can_read m c c -> any_of_on cx c f m = any_of c f m.
Proof. intros Fc CR. apply reduce_any; [exact Fc|apply or_order_free|exact CR]. Qed.
Lemma none_of_any {T} cx c (f : T -> bool) m : fair cx -> can_read m c c -> none_of_on cx c f m = none_of c f m.
Proof. intros Fc CR. unfold none_of_on, none_of. rewrite any_of_any by assumption. reflexivity. Qed.
Lemma count_if_any {T} cx c (f : T -> bool) m : fair cx -> can_read m c c -> count_if_on cx c f m = count_if c f m.
Proof. intros Fc CR. apply reduce_any; [exact Fc|apply count_order_free|exact CR]. Qed.
Lemma count_any {T} cx (eqb : T -> T -> bool) c v m : fair cx -> can_read m c c ->
  count_on cx eqb c v m = count eqb c v m.
Proof. intros Fc CR. apply reduce_any; [exact Fc|apply (count_order_free (fun e => eqb e v))|exact CR]. Qed.

Lemma transform_reduce_any {T A B} cx c1 c2 (R : A -> B -> A) (f : T -> T -> B) init m :
  fair cx -> order_free R -> can_read m c1 c1 -> can_read m c1 c2 ->
  transform_reduce_on cx c1 c2 init R f m = transform_reduce c1 c2 init R f m.
Proof.
  intros Fc O CR1 CR2. destruct (live_wf m c1 (can_read_live _ _ _ CR1)) as [W Nn].
  unfold transform_reduce_on, transform_reduce, map_containers_on, map_containers.
  match goal with |- visit cx _ _ ?st _ = _ => set (step := st) end.
  assert (G : forall t, In t (tbox (c_shape c1)) -> exists d, forall a, step t (a, m) = Ok (R a d, m)).
  { intros t Ht. destruct (tbox_mem _ _ W Ht) as (Wt & Bt & Tt).
    destruct (proj2 (proj2 CR1) (vals t) Bt) as (w1 & Hw1). destruct (proj2 (proj2 CR2) (vals t) Bt) as (w2 & Hw2).
    exists (f w1 w2). intros a. unfold step. cbn [snd fst]. rewrite (mapM_refs m m c1 [c1; c2] t); try assumption.
    - rewrite bind_ok. cbn [map]. rewrite (load_peek _ _ _ Hw1), bind_ok, (load_peek _ _ _ Hw2), bind_ok. reflexivity.
    - constructor; [apply can_read_live; exact CR1|]. constructor; [apply can_read_live; exact CR2|constructor].
    - apply same_refl. }
  apply (visit_cpu cx _ step (fun sm => snd sm = m)); try assumption; [| |reflexivity].
  - intros t [a m'] s' Ht E Hs. cbn [snd] in E. subst m'. destruct (G t Ht) as (d & Hd). rewrite Hd in Hs.
    injection Hs as <-. reflexivity.
  - intros t u [a m'] Ht Hu _ E. cbn [snd] in E. subst m'. destruct (G t Ht) as (d & Hd). destruct (G u Hu) as (e & He).
    rewrite Hd, He, !bind_ok, Hd, He. rewrite O. reflexivity.
Qed.

Lemma combine_some {A B C} (f : C -> option A) (g : C -> option B) l vs ws :
  map Some vs = map f l -> map Some ws = map g l ->
  map Some (combine vs ws) = map (fun x => match f x, g x with Some a, Some b => Some (a, b) | _, _ => None end) l.
Proof.
  revert vs ws. induction l as [|x l IH]; intros [|v vs] [|w ws] E1 E2; try discriminate; [reflexivity|].
  cbn [map combine] in *. injection E1 as E1 T1. injection E2 as E2 T2. rewrite <- E1, <- E2. f_equal. apply IH; assumption.
Qed.

Lemma transform_reduce_any_order {T A B} cx c1 c2 (R : A -> B -> A) (f : T -> T -> B) init m :
  fair cx -> can_read m c1 c1 -> can_read m c1 c2 ->
  exists vs ws l, values m c1 c1 vs /\ values m c1 c2 ws /\ Permutation (combine vs ws) l /\
    transform_reduce_on cx c1 c2 init R f m = Ok (fold_left (fun a p => R a (f (fst p) (snd p))) l init, m).
Proof.
  intros Fc CR1 CR2. destruct (live_wf m c1 (can_read_live _ _ _ CR1)) as [W Nn].
  destruct (values_exist m c1 c1 CR1) as (vs & V1). destruct (values_exist m c1 c2 CR2) as (ws & V2).
  unfold transform_reduce_on, map_containers_on.
  match goal with |- context [visit cx _ _ ?st _] => set (step := st) end.
  destruct (Fc _ (c_shape c1) step (init, m) W Nn) as (l & El & ->).
  pose proof (each_once_perm _ l Nn El) as P.
  assert (G : forall l, Forall (fun t => In t (tbox (c_shape c1))) l ->
     exists us, Forall2 (fun t u => value m c1 (vals t) (fst u) /\ value m c2 (vals t) (snd u)) l us /\
       forall a, run step l (a, m) = Ok (fold_left (fun a p => R a (f (fst p) (snd p))) us a, m)).
  { clear -CR1 CR2 W. induction 1 as [|t l Ht _ (us & F & IH)]; [exists []; split; [constructor|reflexivity]|].
    destruct (tbox_mem _ _ W Ht) as (Wt & Bt & Tt).
    destruct (proj2 (proj2 CR1) (vals t) Bt) as (w1 & Hw1). destruct (proj2 (proj2 CR2) (vals t) Bt) as (w2 & Hw2).
    exists ((w1, w2) :: us). split; [constructor; [split; assumption|assumption]|]. intros a. cbn [run].
    replace (step t (a, m)) with (Ok (R a (f w1 w2), m)); [rewrite bind_ok; apply IH|].
    unfold step. cbn [snd fst]. rewrite (mapM_refs m m c1 [c1; c2] t); try assumption.
    - rewrite bind_ok. cbn [map]. rewrite (load_peek _ _ _ Hw1), bind_ok, (load_peek _ _ _ Hw2), bind_ok. reflexivity.
    - constructor; [apply can_read_live; exact CR1|]. constructor; [apply can_read_live; exact CR2|constructor].
    - apply same_refl. }
  destruct (G l) as (us & F & E).
  { apply Forall_forall. intros x. apply Permutation_in. exact P. }
  exists vs, ws, us. split; [exact V1|]. split; [exact V2|]. split; [|apply E].
  clear -V1 V2 F P.
  assert (EV : forall c xs, values m c1 c xs -> map Some xs = map (fun is_ => peek m (elem c is_)) (box (dims c1))).
  { intros c xs V. unfold values in V. clear -V. induction V as [|x v k us' H _ IH]; [reflexivity|]. simpl. rewrite <- IH.
    f_equal. symmetry. exact H. }
  pose proof (combine_some _ _ _ _ _ (EV _ _ V1) (EV _ _ V2)) as E1.
  set (val := fun x => match peek m (elem c1 x), peek m (elem c2 x) with Some a, Some b => Some (a, b) | _, _ => None end) in *.
  assert (E2 : map Some us = map val (map vals l)).
  { clear -F. induction F as [|x [u1 u2] l vs [H1 H2] _ IH]; [reflexivity|]. simpl. rewrite <- IH. f_equal. unfold val.
    cbn [fst snd] in *. unfold value in *. rewrite H1, H2. reflexivity. }
  assert (Q : Permutation (map Some (combine vs ws)) (map Some us)).
  { rewrite E1, E2. apply Permutation_map. unfold dims. rewrite <- tbox_vals. apply Permutation_map, Permutation_sym. exact P. }
  apply Permutation_map_inv in Q. destruct Q as (ys & Eu & Q). apply Permutation_sym in Q.
  assert (combine vs ws = ys) as ->; [|exact Q].
  clear -Eu. revert Eu. generalize (combine vs ws). intros xs. revert ys.
  induction xs as [|x xs IH]; intros [|u us] E; try discriminate; [reflexivity|].
  simpl in E. injection E as -> E. f_equal. apply IH. exact E.
Qed.

Lemma inner_product_any_order {T A B} cx dbg c1 c2 (R : A -> B -> A) (f : T -> T -> B) init m :
  fair cx -> can_read m c1 c1 -> can_read m c1 c2 -> dbg = false \/ shape_eq (c_shape c1) (c_shape c2) = Ok true ->
  exists vs ws l, values m c1 c1 vs /\ values m c1 c2 ws /\ Permutation (combine vs ws) l /\
    transform_reduce_on cx c1 c2 init R f m = Ok (fold_left (fun a p => R a (f (fst p) (snd p))) l init, m) /\
    inner_product_on cx dbg c1 c2 init R f m = Ok (fold_left (fun a p => R a (f (fst p) (snd p))) l init, m).
Proof.
  intros Fc CR1 CR2 D. destruct (transform_reduce_any_order cx c1 c2 R f init m Fc CR1 CR2) as (vs & ws & l & V1 & V2 & P & E).
  exists vs, ws, l. do 4 (split; [assumption|]). unfold inner_product_on. rewrite E.
  destruct D as [->|D]; [reflexivity|]. rewrite D. destruct dbg; reflexivity.
Qed.

Lemma inner_product_any {T A B} cx dbg c1 c2 (R : A -> B -> A) (f : T -> T -> B) init m :
  fair cx -> order_free R -> can_read m c1 c1 -> can_read m c1 c2 ->
  inner_product_on cx dbg c1 c2 init R f m = inner_product dbg c1 c2 init R f m.
Proof.
  intros Fc O CR1 CR2. unfold inner_product_on, inner_product.
  destruct (kassert dbg _); try reflexivity. rewrite !bind_ok. apply transform_reduce_any; assumption.
Qed.

Lemma run_until_inv {A S} (I : S -> Prop) (f g : A -> S -> outcome (bool * S)) l :
  (forall c s, In c l -> I s -> f c s = g c s) ->
  (forall c s r, In c l -> I s -> g c s = Ok r -> I (snd r)) ->
  forall s, I s -> run_until f l s = run_until g l s.
Proof.
  intros H K. induction l as [|c l IH]; intros s Is; cbn [run_until]; [reflexivity|].
  rewrite (H c s) by (try (left; reflexivity); assumption).
  destruct (g c s) as [r| | |] eqn:E; try reflexivity. rewrite !bind_ok. destruct (fst r); [reflexivity|].
  apply IH; [| |eapply K; [left; reflexivity|exact Is|exact E]].
  - intros; apply H; [right|]; assumption.
  - intros c' s' r' Hc. apply K. right. exact Hc.
Qed.

Lemma find_first_of_any {T} cx (eqb : T -> T -> bool) c vs (m : mem T) : fair cx -> wf_container c -> can_read m vs vs ->
  find_first_of_on cx eqb c vs m = find_first_of eqb c vs m.
Proof.
  intros Fc Wc CR. unfold find_first_of_on, find_first_of. rewrite !for_until_run; try assumption; try apply Wc.
  f_equal. apply (run_until_inv (fun pm => snd pm = m)); [| |reflexivity].
  - intros t [p m'] Ht E. cbn [snd] in E. subst m'. cbn [snd fst].
    destruct (ref m c t) as [q| | |]; try reflexivity. rewrite !bind_ok. destruct (load m q) as [e| | |]; try reflexivity.
    rewrite !bind_ok, any_of_any by assumption. reflexivity.
  - intros t [p m'] r Ht E. cbn [snd] in E. subst m'. cbn [snd fst].
    destruct (ref m c t) as [q| | |]; try discriminate. rewrite bind_ok. destruct (load m q) as [e| | |]; try discriminate.
    rewrite bind_ok. destruct (any_of_l vs (fun x => eqb x e) m CR) as (b & -> & _). rewrite bind_ok. cbn [fst snd].
    destruct b; intros G; injection G as <-; reflexivity.
Qed.

(** ** The CPU, and the opposite order *)
Lemma cpu_fair : fair cpu.
Proof.
  intros S ds f s W Nn. exists (tbox ds). split; [apply each_once_tbox; exact Nn|]. apply for_each_run; assumption.
Qed.

(** The coordinates from last to first. *)
Definition backwards : context := Cx (fun S ds f s => run f (rev (tbox ds)) s).
Lemma backwards_fair : fair backwards.
Proof.
  intros S ds f s W Nn. exists (rev (tbox ds)). split; [|reflexivity].
  apply perm_each_once; [exact Nn|]. apply Permutation_sym, Permutation_rev.
Qed.
