(** Laws between the algorithms (C76). *)
From Coq Require Import ZArith List Bool Lia.
From Verif Require Import Outcome CInt CIntFacts Spec SpecFacts ShapeSpec Shape ShapeFacts ShapeFacts2
  ForEach ForEachSpec ForEachFacts Memory MemFacts Container ContainerSpec ContainerFacts ContainerFacts2
  ContainerFacts3 Algo AlgoSpec AlgoFacts AlgoFacts2 AlgoFacts3 AlgoFacts4 ReverseFacts Search SearchSpec SearchFacts LawSpec.
Import ListNotations.
Open Scope Z_scope.

(** ** Lists *)
Lemma filter_none {A} (p : A -> bool) l : (forall x, In x l -> p x = false) -> filter p l = [].
Proof.
  induction l as [|x l IH]; intros H; [reflexivity|]. cbn [filter]. rewrite (H x (or_introl eq_refl)).
  apply IH. intros y Hy. apply H. right. exact Hy.
Qed.
Lemma filter_some {A} (p : A -> bool) l x : In x l -> p x = true -> (1 <= length (filter p l))%nat.
Proof.
  intros I E. assert (J : In x (filter p l)) by (apply filter_In; auto).
  destruct (filter p l); [destruct J|cbn; lia].
Qed.
Lemma filter_split {A} (p : A -> bool) l : (length (filter p l) + length (filter (fun x => negb (p x)) l) = length l)%nat.
Proof. induction l as [|x l IH]; [reflexivity|]. cbn [filter]. destruct (p x); cbn [negb length]; lia. Qed.
Lemma filter_upper {A} (p : A -> bool) : forall l K, (K <= length l)%nat ->
  (forall k x, nth_error l k = Some x -> (p x = true <-> (K <= k)%nat)) -> length (filter p l) = (length l - K)%nat.
Proof.
  induction l as [|y l IH]; intros K HK H; [cbn; lia|]. cbn [filter length].
  pose proof (H 0%nat y eq_refl) as H0. destruct K as [|K].
  - rewrite (proj2 H0) by lia. cbn [length]. rewrite (IH 0%nat); [lia|lia|]. intros k x E. rewrite (H (S k) x E). split; lia.
  - destruct (p y); [apply proj1 in H0; specialize (H0 eq_refl); lia|]. cbn in HK. rewrite (IH K); [lia|lia|].
    intros k x E. rewrite (H (S k) x E). split; lia.
Qed.

(** ** Values by rank *)
Lemma values_rank {T} (m : mem T) c vs is_ v : nonnegs (dims c) -> values m c c vs -> in_box (dims c) is_ -> value m c is_ v ->
  nth_error vs (Z.to_nat (rank (dims c) is_)) = Some v.
Proof.
  intros N V B H. destruct (box_split _ _ B) as (pre & post & E). destruct (values_at _ _ _ _ _ _ _ V E) as (w & Ew & Hw).
  assert (v = w) by (unfold value in *; congruence). subst w. rewrite <- Ew. f_equal.
  pose proof (rank_range _ _ B) as Rr. pose proof (box_length (dims c) N) as Bl.
  rewrite (box_split_rank _ _ _ _ N E), firstn_length. lia.
Qed.
Lemma rank_values {T} (m : mem T) c vs k v : nonnegs (dims c) -> values m c c vs -> nth_error vs k = Some v ->
  exists is_, in_box (dims c) is_ /\ rank (dims c) is_ = Z.of_nat k /\ value m c is_ v.
Proof.
  intros N V E. assert (L : length (box (dims c)) = length vs) by exact (Forall2_len _ _ _ V).
  destruct (nth_error (box (dims c)) k) as [is_|] eqn:Ei.
  - assert (B : in_box (dims c) is_) by (apply box_In; eapply nth_error_In; exact Ei).
    destruct (nth_error_split _ _ Ei) as (pre & post & Es & Lp).
    destruct (values_at _ _ _ _ _ _ _ V Es) as (w & Ew & Hw). rewrite Lp, E in Ew. injection Ew as <-.
    exists is_. split; [exact B|]. split; [|exact Hw].
    pose proof (rank_range _ _ B) as Rr. pose proof (box_length (dims c) N) as Bl.
    pose proof (box_split_rank _ _ _ _ N Es) as Ep. apply (f_equal (@length _)) in Ep. rewrite firstn_length in Ep. lia.
  - apply nth_error_None in Ei. assert (k < length vs)%nat by (apply nth_error_Some; congruence). lia.
Qed.
Lemma values_len {T} (m : mem T) c vs : nonnegs (dims c) -> values m c c vs -> Z.of_nat (length vs) = prod (dims c).
Proof. intros N V. rewrite <- (Forall2_len _ _ _ V). apply box_length, N. Qed.

(** A search result splits the values. *)
Lemma first_place {T} (m : mem T) c vs (p : T -> bool) r : nonnegs (dims c) -> values m c c vs ->
  first_at m c (fun v => p v = true) r ->
  (forall a b u v, in_box (dims c) a -> in_box (dims c) b -> lex a b -> value m c a u -> value m c b v -> p u = true -> p v = true) ->
  Z.of_nat (length (filter p vs)) = prod (dims c) - place c r /\ 0 <= place c r <= prod (dims c).
Proof.
  intros N V F Mo. pose proof (values_len m c vs N V) as L. destruct r as [pos|]; cbn [first_at place] in *.
  - destruct F as (_ & B & (v & Hv & Pv) & Mi). pose proof (rank_range _ _ B) as Rr. split; [|lia].
    rewrite (filter_upper p vs (Z.to_nat (rank (dims c) (vals pos)))); [lia|lia|].
    intros k x E. destruct (rank_values m c vs k x N V E) as (is_ & Bi & Ri & Hx). split.
    + intros Px. destruct (Mi is_ x Bi Hx Px) as [->|Lx]; [lia|]. apply (rank_lex _ _ _ B Bi) in Lx. lia.
    + intros Hk. destruct (Z.eq_dec (rank (dims c) (vals pos)) (rank (dims c) is_)) as [Eq|Ne].
      * apply (rank_inj _ _ _ B Bi) in Eq. subst is_. assert (v = x) by (unfold value in *; congruence). subst. exact Pv.
      * apply (Mo (vals pos) is_ v x B Bi); auto. apply (rank_lex _ _ _ B Bi). lia.
  - split; [|pose proof (box_length (dims c) N); lia]. rewrite filter_none; [cbn; lia|].
    intros x Hx. apply (values_In m c vs x V) in Hx. destruct Hx as (is_ & Bi & Hv). specialize (F is_ x Bi Hv).
    destruct (p x); congruence.
Qed.

(** ** Predicates *)
Lemma predicate_laws {T} c (f : T -> bool) m : can_read m c c -> prod (dims c) < 2 ^ 64 ->
  Forall (fun n => n <= 2147483648) (dims c) ->
  exists a b n k r s, all_of c f m = Ok (a, m) /\ any_of c f m = Ok (b, m) /\ none_of c f m = Ok (negb b, m) /\
    none_of c (fun x => negb (f x)) m = Ok (a, m) /\ any_of c (fun x => negb (f x)) m = Ok (negb a, m) /\
    count_if c f m = Ok (n, m) /\ count_if c (fun x => negb (f x)) m = Ok (k, m) /\
    n + k = prod (dims c) /\ (b = true <-> 0 < n) /\ (a = true <-> k = 0) /\
    find_if c f m = Ok (r, m) /\ find_if_not c f m = Ok (s, m) /\ (r <> None <-> b = true) /\ (s <> None <-> a = false).
Proof.
  intros CR P Sm. destruct (live_wf m c (can_read_live _ _ _ CR)) as [_ N]. destruct (values_exist m c c CR) as (vs & V).
  destruct (all_of_l c f m CR) as (a & Ea & Ha). destruct (any_of_l c f m CR) as (b & Eb & Hb).
  destruct (any_of_l c (fun x => negb (f x)) m CR) as (b' & Eb' & Hb').
  destruct (find_if_l c f m CR Sm) as (r & Er & Hr). destruct (find_if_l c (fun x => negb (f x)) m CR Sm) as (s & Es & Hs).
  assert (B' : b' = negb a).
  { destruct a, b'; try reflexivity; exfalso.
    - destruct (proj1 Hb' eq_refl) as (is_ & v & B & Hv & Nv). rewrite (proj1 Ha eq_refl is_ v B Hv) in Nv. discriminate.
    - assert (F : false = true); [|discriminate]. apply Ha. intros is_ v B Hv. destruct (f v) eqn:E; [reflexivity|].
      apply Hb'. exists is_, v. rewrite E. auto. }
  subst b'.
  exists a, b, (Z.of_nat (length (filter f vs))), (Z.of_nat (length (filter (fun x => negb (f x)) vs))), r, s.
  split; [exact Ea|]. split; [exact Eb|]. split; [unfold none_of; rewrite Eb; reflexivity|].
  split; [unfold none_of; rewrite Eb', bind_ok; cbn [fst snd]; rewrite negb_involutive; reflexivity|].
  split; [exact Eb'|]. split; [apply count_if_l; assumption|]. split; [apply count_if_l; assumption|].
  split; [pose proof (filter_split f vs); pose proof (values_len m c vs N V); lia|].
  split; [|split; [|split; [exact Er|split; [exact Es|split]]]].
  - split.
    + intros E. destruct (proj1 Hb E) as (is_ & v & B & Hv & Fv).
      pose proof (filter_some f vs v (proj2 (values_In m c vs v V) (ex_intro _ is_ (conj B Hv))) Fv). lia.
    + intros G. destruct (filter f vs) as [|v l] eqn:E; [cbn in G; lia|].
      assert (I : In v (filter f vs)) by (rewrite E; left; reflexivity). apply filter_In in I. destruct I as [I Fv].
      apply (values_In m c vs v V) in I. destruct I as (is_ & B & Hv). apply Hb. eauto 6.
  - split.
    + intros ->. rewrite filter_none; [reflexivity|]. intros x I. apply (values_In m c vs x V) in I. destruct I as (is_ & B & Hv).
      rewrite (proj1 Ha eq_refl is_ x B Hv). reflexivity.
    + intros G. apply Ha. intros is_ v B Hv. destruct (f v) eqn:E; [reflexivity|].
      assert (H : (1 <= length (filter (fun x => negb (f x)) vs))%nat); [|lia].
      apply (filter_some _ vs v); [apply (values_In m c vs v V); eauto|rewrite E; reflexivity].
  - destruct r as [pos|].
    + split; [intros _|discriminate]. destruct Hr as (_ & B & (v & Hv & Fv) & _). apply Hb. eauto 6.
    + split; [congruence|]. intros E. destruct (proj1 Hb E) as (is_ & v & B & Hv & Fv). exfalso.
      pose proof (Hr is_ v B Hv) as X. cbv beta in X. congruence.
  - destruct s as [pos|].
    + split; [intros _|discriminate]. destruct Hs as (_ & B & (v & Hv & Fv) & _).
      destruct a; [|reflexivity]. rewrite (proj1 Ha eq_refl _ v B Hv) in Fv. discriminate.
    + split; [congruence|]. intros ->. exfalso. assert (F : false = true); [|discriminate]. apply Ha.
      intros is_ v B Hv. pose proof (Hs is_ v B Hv) as X. cbv beta in X. destruct (f v); [reflexivity|discriminate].
Qed.

(** ** Search results *)
Lemma cints_eq : forall p q : list cint, map cty p = map cty q -> vals p = vals q -> p = q.
Proof.
  induction p as [|[t v] p IH]; intros [|[t' v'] q] H1 H2; try discriminate; [reflexivity|].
  cbn in H1, H2. injection H1 as <- H1. injection H2 as <- H2. f_equal. apply IH; assumption.
Qed.
Lemma first_at_unique {T} (m : mem T) c (P Q : T -> Prop) r s : (forall v, P v <-> Q v) ->
  first_at m c P r -> first_at m c Q s -> r = s.
Proof.
  intros PQ Hr Hs. destruct r as [p|], s as [q|]; cbn [first_at] in *; [| | |reflexivity].
  - destruct Hr as (Tp & Bp & (u & Hu & Pu) & Mp). destruct Hs as (Tq & Bq & (v & Hv & Qv) & Mq). f_equal.
    apply cints_eq; [congruence|]. apply PQ in Pu. apply PQ in Qv.
    destruct (Mp _ v Bq Hv Qv) as [E|L1]; [congruence|]. destruct (Mq _ u Bp Hu Pu) as [E|L2]; [congruence|].
    apply (rank_lex _ _ _ Bp Bq) in L1. apply (rank_lex _ _ _ Bq Bp) in L2. lia.
  - destruct Hr as (_ & B & (u & Hu & Pu) & _). apply PQ in Pu. destruct (Hs _ u B Hu Pu).
  - destruct Hs as (_ & B & (u & Hu & Pu) & _). apply PQ in Pu. destruct (Hr _ u B Hu Pu).
Qed.

Lemma find_laws {T} ss c (f : T -> bool) m : default_layout c -> Forall (fun n => cty n <> U32) (c_shape c) -> readable m c ->
  prod (dims c) < 2 ^ 64 -> Forall (fun n => n <= 2147483648) (dims c) ->
  exists r s n, find_if c f m = Ok (r, m) /\ find_last_if ss c f m = Ok (s, m) /\ count_if c f m = Ok (n, m) /\
    (r = None <-> n = 0) /\ (s = None <-> n = 0) /\
    (forall p q, r = Some p -> s = Some q -> vals p = vals q \/ lex (vals p) (vals q)) /\
    (0 < n -> (r = s <-> n = 1)).
Proof.
  intros D Sg R P Sm. pose proof (default_can_read m c c D eq_refl R) as CR.
  destruct (live_wf m c (can_read_live _ _ _ CR)) as [_ N]. destruct (values_exist m c c CR) as (vs & V).
  destruct (find_if_first_l c f m CR Sm) as (r & Er & Hr). destruct (find_last_if_typed ss c f m D Sg R) as (s & Es & Hs).
  exists r, s, (Z.of_nat (length (filter f vs))). split; [exact Er|]. split; [exact Es|].
  split; [apply count_if_l; assumption|].
  assert (Z0 : (forall is_ v, in_box (dims c) is_ -> value m c is_ v -> ~ f v = true) -> filter f vs = []).
  { intros H. apply filter_none. intros x I. apply (values_In m c vs x V) in I. destruct I as (is_ & B & Hv).
    specialize (H is_ x B Hv). destruct (f x); congruence. }
  assert (Z1 : forall is_ v, in_box (dims c) is_ -> value m c is_ v -> f v = true -> (1 <= length (filter f vs))%nat).
  { intros is_ v B Hv Fv. apply (filter_some f vs v); [apply (values_In m c vs v V); eauto|exact Fv]. }
  destruct r as [p|], s as [q|]; cbn [first_at last_at] in *.
  - destruct Hr as (Tp & Bp & (u & Hu & Fu) & Mp). destruct Hs as (Tq & Bq & (w & Hw & Fw) & Mq).
    pose proof (Z1 _ u Bp Hu Fu) as G. split; [split; [discriminate|lia]|]. split; [split; [discriminate|lia]|].
    split; [intros p' q' [= <-] [= <-]; destruct (Mp _ w Bq Hw Fw); auto|]. intros _. split.
    + intros [= <-]. pose proof (values_rank m c vs _ u N V Bp Hu) as E.
      destruct (nth_error_split _ _ E) as (l1 & l2 & Ev & Ll).
      assert (O : forall k x, nth_error vs k = Some x -> f x = true -> k = length l1).
      { intros k x Ek Fx. destruct (rank_values m c vs k x N V Ek) as (is_ & Bi & Ri & Hx). rewrite Ll.
        destruct (Mp is_ x Bi Hx Fx) as [->|L1]; [lia|]. destruct (Mq is_ x Bi Hx Fx) as [->|L2]; [lia|].
        apply (rank_lex _ _ _ Bp Bi) in L1. apply (rank_lex _ _ _ Bi Bp) in L2. lia. }
      rewrite Ev, filter_app. cbn [filter]. rewrite Fu, (filter_none f l1), (filter_none f l2); [reflexivity| |].
      * intros x I. destruct (f x) eqn:Fx; [|reflexivity]. apply In_nth_error in I. destruct I as (k & Ek). exfalso.
        assert (X : nth_error vs (length l1 + S k)%nat = Some x).
        { rewrite Ev, nth_error_app2 by lia. replace (length l1 + S k - length l1)%nat with (S k) by lia. exact Ek. }
        pose proof (O _ x X Fx). lia.
      * intros x I. destruct (f x) eqn:Fx; [|reflexivity]. apply In_nth_error in I. destruct I as (k & Ek). exfalso.
        assert (K : (k < length l1)%nat) by (apply nth_error_Some; congruence).
        assert (X : nth_error vs k = Some x) by (rewrite Ev, nth_error_app1 by lia; exact Ek).
        pose proof (O _ x X Fx). lia.
    + intros E1. destruct (Mp _ w Bq Hw Fw) as [E|L]; [f_equal; apply cints_eq; congruence|exfalso].
      apply (rank_lex _ _ _ Bp Bq) in L. pose proof (rank_range _ _ Bp) as Rp.
      pose proof (values_rank m c vs _ u N V Bp Hu) as Eu. pose proof (values_rank m c vs _ w N V Bq Hw) as Ew.
      destruct (nth_error_split _ _ Eu) as (l1 & l2 & Ev & Ll).
      assert (I : In w l2).
      { rewrite Ev, nth_error_app2 in Ew by lia.
        replace (Z.to_nat (rank (dims c) (vals q)) - length l1)%nat
          with (S (Z.to_nat (rank (dims c) (vals q)) - length l1 - 1))%nat in Ew by lia.
        cbn [nth_error] in Ew. eapply nth_error_In; exact Ew. }
      pose proof (filter_some f l2 w I Fw) as G2. rewrite Ev, filter_app in E1. cbn [filter] in E1. rewrite Fu in E1.
      rewrite app_length in E1. cbn [length] in E1. lia.
  - destruct Hr as (_ & B & (u & Hu & Fu) & _). destruct (Hs _ u B Hu Fu).
  - destruct Hs as (_ & B & (u & Hu & Fu) & _). destruct (Hr _ u B Hu Fu).
  - rewrite (Z0 Hr). cbn. split; [tauto|]. split; [tauto|]. split; [discriminate|lia].
Qed.

(** ** Sorted containers *)
Lemma search_laws {T} dbg (less : T -> T -> bool) c x m : searchable m c -> strict_weak_order less -> sorted less m c ->
  can_read m c c -> prod (dims c) < 2 ^ 64 -> Forall (fun n => n <= 2147483648) (dims c) ->
  exists lo up b n, lower_bound dbg less c x m = Ok lo /\ upper_bound dbg less c x m = Ok up /\
    binary_search dbg less c x m = Ok b /\
    find_if c (fun v => negb (less v x)) m = Ok (lo, m) /\ find_if c (fun v => less x v) m = Ok (up, m) /\
    any_of c (fun v => negb (less v x) && negb (less x v)) m = Ok (b, m) /\
    count_if c (fun v => negb (less v x) && negb (less x v)) m = Ok (n, m) /\
    count_if c (fun v => less v x) m = Ok (place c lo, m) /\
    count_if c (fun v => less x v) m = Ok (prod (dims c) - place c up, m) /\
    n = place c up - place c lo.
Proof.
  intros S Sw So CR P Sm. destruct (live_wf m c (can_read_live _ _ _ CR)) as [_ N].
  destruct (values_exist m c c CR) as (vs & V). pose proof (values_len m c vs N V) as L.
  destruct (lower_bound_l dbg less c x m S Sw So) as (lo & El & Hl). destruct (upper_bound_l dbg less c x m S Sw So) as (up & Eu & Hu).
  destruct (binary_search_l dbg less c x m S Sw So) as (b & Eb & Hb).
  destruct (find_if_first_l c (fun v => negb (less v x)) m CR Sm) as (r & Er & Hr).
  destruct (find_if_first_l c (fun v => less x v) m CR Sm) as (s & Es & Hs).
  destruct (any_of_l c (fun v => negb (less v x) && negb (less x v)) m CR) as (b' & Eb' & Hb').
  assert (r = lo) by (eapply first_at_unique; [|exact Hr|exact Hl]; intros v; apply negb_true_iff). subst r.
  assert (s = up) by (eapply first_at_unique; [|exact Hs|exact Hu]; tauto). subst s.
  assert (b' = b).
  { apply eq_true_iff_eq. rewrite Hb, Hb'. split; intros (is_ & v & B & Hv & H); exists is_, v; split; auto; split; auto.
    - apply andb_true_iff in H. rewrite !negb_true_iff in H. exact H.
    - destruct H as [-> ->]. reflexivity. }
  subst b'. destruct Sw as (Ir & Tr & Nt).
  destruct (first_place m c vs (fun v => negb (less v x)) lo N V Hr) as [Cl Pl].
  { intros p q u v Bp Bq Lx Hu' Hv' E. apply negb_true_iff in E. apply negb_true_iff.
    exact (Nt v u x (So p q u v Bp Bq Lx Hu' Hv') E). }
  destruct (first_place m c vs (fun v => less x v) up N V Hs) as [Cu Pu].
  { intros p q u v Bp Bq Lx Hu' Hv' E. pose proof (So p q u v Bp Bq Lx Hu' Hv') as Sv.
    destruct (less x v) eqn:Ev; [reflexivity|]. rewrite (Nt x v u Ev Sv) in E. discriminate. }
  pose proof (filter_split (fun v => less v x) vs) as Sp.
  assert (Cn3 : (length (filter (fun v => negb (less v x) && negb (less x v)) vs) + length (filter (fun v => less x v) vs)
    = length (filter (fun v => negb (less v x)) vs))%nat).
  { clear -Ir Tr. induction vs as [|v l IH]; [reflexivity|]. cbn [filter].
    destruct (less v x) eqn:E1, (less x v) eqn:E2; cbn [negb andb length]; try lia.
    pose proof (Tr _ _ _ E1 E2). rewrite Ir in H. discriminate. }
  exists lo, up, b, (place c up - place c lo).
  repeat (split; [assumption|]). split; [rewrite (count_if_l c _ m vs CR V P); do 2 f_equal; lia|].
  split; [rewrite (count_if_l c _ m vs CR V P); do 2 f_equal; lia|].
  split; [rewrite (count_if_l c _ m vs CR V P); do 2 f_equal; lia|reflexivity].
Qed.

(** ** Composition *)
Lemma frame_can_read {T} (m m' : mem T) c0 c : can_write m c0 c ->
  (forall is_, in_box (dims c0) is_ -> exists v, value m' c is_ v) -> can_read m' c0 c.
Proof. intros (A & C & _) H. split; [exact A|]. split; [exact C|exact H]. Qed.

Lemma transform_fusion {T} (f g : list T -> T) in_ mid out (m : mem T) : can_write m mid mid -> can_write m out out ->
  dims mid = dims out -> ctypes mid = ctypes out -> can_read m mid in_ -> no_cross_alias mid in_ mid -> no_cross_alias out mid out ->
  no_cross_alias out in_ out ->
  exists m1 m2 m', transform f mid in_ [] m = Ok m1 /\ transform g out mid [] m1 = Ok m2 /\
    transform (fun vs => g [f vs]) out in_ [] m = Ok m' /\
    forall is_ v, in_box (dims out) is_ -> (value m2 out is_ v <-> value m' out is_ v).
Proof.
  intros W1 W2 D Ct R N1 N2 N3.
  destruct (transform_l f mid in_ [] m W1 ltac:(auto) ltac:(auto)) as (m1 & E1 & V1 & F1).
  assert (R' : can_read m out in_).
  { destruct R as (A & C & H). unfold covers in *. rewrite D in *. split; [rewrite <- Ct; exact A|]. split; assumption. }
  destruct (transform_l (fun vs => g [f vs]) out in_ [] m W2 ltac:(auto) ltac:(auto)) as (m' & E' & V' & _).
  assert (W2' : can_write m1 out out).
  { destruct W2 as (A & C & Di & H). split; [exact A|]. split; [exact C|]. split; [exact Di|].
    intros is_ B. apply (proj1 F1). apply H, B. }
  assert (Vm : forall is_ v, in_box (dims out) is_ -> value m in_ is_ v -> value m1 mid is_ (f [v])).
  { intros is_ v B Hv. apply (V1 is_ [v]); [rewrite D; exact B|repeat constructor; exact Hv]. }
  assert (Rm : can_read m1 out mid).
  { destruct W1 as (A & C & _). split; [rewrite <- Ct; exact A|]. split; [intros i Hi; rewrite D; exact Hi|].
    intros is_ B. destruct (proj2 (proj2 R') is_ B) as (v & Hv). exists (f [v]). auto. }
  destruct (transform_l g out mid [] m1 W2' ltac:(auto) ltac:(auto)) as (m2 & E2 & V2 & _).
  exists m1, m2, m'. split; [exact E1|]. split; [exact E2|]. split; [exact E'|]. intros is_ v B.
  destruct (proj2 (proj2 R') is_ B) as (w & Hw).
  assert (X : value m' out is_ (g [f [w]])) by (apply (V' is_ [w] B); repeat constructor; exact Hw).
  assert (Y : value m2 out is_ (g [f [w]])) by (apply (V2 is_ [f [w]] B); repeat constructor; auto).
  unfold value in *. rewrite X, Y. tauto.
Qed.

Lemma transform_then_reduce {T A} (f : list T -> T) (g : A -> T -> A) init in_ out (m : mem T) : can_write m out out ->
  dims in_ = dims out -> can_read m out in_ -> can_read m in_ in_ -> no_cross_alias out in_ out ->
  exists m' r, transform f out in_ [] m = Ok m' /\ reduce out g init m' = Ok (r, m') /\
    reduce in_ (fun a x => g a (f [x])) init m = Ok (r, m).
Proof.
  intros W D R R2 NA. destruct (transform_l f out in_ [] m W ltac:(auto) ltac:(auto)) as (m' & E & V & _).
  destruct (values_exist m in_ in_ R2) as (vs & Vs).
  assert (Vo : values m' out out (map (fun x => f [x]) vs)).
  { unfold values in *. rewrite D in Vs.
    assert (In_ : forall i, In i (box (dims out)) -> in_box (dims out) i) by (intros i; apply box_In).
    revert In_. induction Vs as [|i v is_ vs Hv Vs IH]; intros In_; constructor.
    - apply (V i [v]); [apply In_; left; reflexivity|repeat constructor; exact Hv].
    - apply IH. intros j J. apply In_. right. exact J. }
  exists m', (fold_left g (map (fun x => f [x]) vs) init). split; [exact E|]. split.
  - apply reduce_l; [|exact Vo]. eapply frame_can_read; [exact W|]. intros is_ B.
    destruct (proj2 (proj2 R) is_ B) as (v & Hv). exists (f [v]). apply (V is_ [v] B). repeat constructor. exact Hv.
  - rewrite (reduce_l in_ _ init m vs R2 Vs). do 2 f_equal. clear. revert init.
    induction vs as [|v vs IH]; intros init; [reflexivity|]. cbn. apply IH.
Qed.

Lemma replace_then_count {T} out f (v : T) m : can_write m out out -> can_read m out out -> prod (dims out) < 2 ^ 64 -> f v = false ->
  exists m', replace_if out f v m = Ok m' /\ count_if out f m' = Ok (0, m') /\ none_of out f m' = Ok (true, m').
Proof.
  intros W R P Fv. destruct (replace_if_l out f v m W R) as (m' & E & V & _). exists m'. split; [exact E|].
  assert (Q : forall is_ x, in_box (dims out) is_ -> value m' out is_ x -> f x = false).
  { intros is_ x B Hx. destruct (proj2 (proj2 R) is_ B) as (y & Hy). pose proof (V is_ y B Hy) as H.
    unfold value in *. rewrite H in Hx. injection Hx as <-. destruct (f y) eqn:Fy; assumption. }
  assert (R' : can_read m' out out).
  { eapply frame_can_read; [exact W|]. intros is_ B. destruct (proj2 (proj2 R) is_ B) as (y & Hy). eauto. }
  destruct (values_exist m' out out R') as (vs & Vs). split.
  - rewrite (count_if_l out f m' vs R' Vs P), filter_none; [reflexivity|].
    intros x I. apply (values_In m' out vs x Vs) in I. destruct I as (is_ & B & Hx). eauto.
  - destruct (none_of_l out f m' R') as (b & Eb & Hb). rewrite Eb. do 2 f_equal. apply Hb.
    intros (is_ & x & B & Hx & Fx). rewrite (Q is_ x B Hx) in Fx. discriminate.
Qed.

Lemma scan_laws {T B} in_ oi oe (init : T) (f1 : T -> B -> T) f2 m : can_read m in_ in_ -> can_write m in_ oi -> can_write m in_ oe ->
  no_cross_alias in_ in_ oi -> no_alias in_ in_ oe ->
  exists mi me r, transform_inclusive_scan in_ oi init f1 f2 m = Ok mi /\ transform_exclusive_scan in_ oe init f1 f2 m = Ok me /\
    reduce in_ (fun a v => f1 a (f2 v)) init m = Ok (r, m) /\
    forall is_ v, in_box (dims in_) is_ -> value m in_ is_ v ->
      exists a, value me oe is_ a /\ value mi oi is_ (f1 a (f2 v)) /\
        (rank (dims in_) is_ = 0 -> a = init) /\ (rank (dims in_) is_ = prod (dims in_) - 1 -> f1 a (f2 v) = r) /\
        (forall js, in_box (dims in_) js -> rank (dims in_) js = rank (dims in_) is_ + 1 -> value me oe js (f1 a (f2 v))).
Proof.
  intros R Wi We Ni Ne. destruct (live_wf m in_ (can_read_live _ _ _ R)) as [_ N].
  destruct (inclusive_values_l in_ oi init f1 f2 m R Wi Ni) as (vs & mi & V & Ei & Hi & _).
  destruct (exclusive_values_l in_ oe init f1 f2 m R We Ne) as (vs' & me & V' & Ee & He & _).
  assert (vs' = vs) by (eapply values_unique; eassumption). subst vs'.
  exists mi, me, (fold_left (fun a v => f1 a (f2 v)) vs init). split; [exact Ei|]. split; [exact Ee|].
  split; [apply reduce_l; assumption|]. intros is_ v Bx Hv. pose proof (values_len m in_ vs N V) as L.
  pose proof (rank_range _ _ Bx) as Rr. pose proof (values_rank m in_ vs is_ v N V Bx Hv) as Ev.
  set (k := Z.to_nat (rank (dims in_) is_)) in *.
  assert (Fs : firstn (k + 1) vs = firstn k vs ++ [v]).
  { destruct (nth_error_split _ _ Ev) as (l1 & l2 & -> & Ll). rewrite <- Ll at 1 2.
    rewrite firstn_app_2. rewrite firstn_app, Nat.sub_diag, firstn_O, app_nil_r, firstn_all. reflexivity. }
  assert (St : fold_left (fun a v => f1 a (f2 v)) (firstn (k + 1) vs) init
    = f1 (fold_left (fun a v => f1 a (f2 v)) (firstn k vs) init) (f2 v)) by (rewrite Fs, fold_left_app; reflexivity).
  exists (fold_left (fun a v => f1 a (f2 v)) (firstn k vs) init). rewrite <- St.
  split; [apply He, Bx|]. split; [apply Hi, Bx|]. split; [|split].
  - intros E0. replace k with 0%nat by lia. reflexivity.
  - intros E1. rewrite firstn_all2 by lia. reflexivity.
  - intros js Bj Ej. pose proof (He js Bj) as H. replace (Z.to_nat (rank (dims in_) js)) with (k + 1)%nat in H by lia. exact H.
Qed.

Lemma iota_then_search et out (m : mem cint) : default_layout out -> writable m out -> in_ty et (prod (dims out)) ->
  exists m', @iota_default et out m = Ok m' /\
    forall dbg is_, in_box (dims out) is_ ->
      exists pos, lower_bound dbg (fun a b => cval a <? cval b) out (CI et (rank (dims out) is_)) m' = Ok (Some pos) /\
        vals pos = is_.
Proof.
  intros D W H. pose proof (default_can_write m out out D eq_refl W) as CW.
  destruct (iota_default_l et out m CW H) as (m' & E & V & _). exists m'. split; [exact E|]. intros dbg is_ B.
  assert (S : searchable m' out).
  { split; [apply D|]. split; [apply D|]. split; [apply default_addressable, D|]. intros i Bi. eexists. apply (V i Bi). }
  assert (Sw : strict_weak_order (fun a b => cval a <? cval b)).
  { split; [intros; apply Z.ltb_irrefl|]. split; intros x y z; rewrite ?Z.ltb_lt, ?Z.ltb_ge; lia. }
  assert (So : sorted (fun a b => cval a <? cval b) m' out).
  { intros a b x y Ba Bb L Hx Hy. pose proof (V a Ba) as Va. pose proof (V b Bb) as Vb. unfold value in *.
    rewrite Va in Hx. rewrite Vb in Hy. injection Hx as <-. injection Hy as <-. cbn [cval].
    apply (rank_lex _ _ _ Ba Bb) in L. apply Z.ltb_ge. lia. }
  destruct (lower_bound_l dbg _ out (CI et (rank (dims out) is_)) m' S Sw So) as (r & Er & Hr).
  destruct r as [pos|]; cbn [first_at] in Hr.
  - exists pos. split; [exact Er|]. destruct Hr as (_ & Bp & (v & Hv & Lv) & Mi).
    pose proof (V _ Bp) as Vp. unfold value in Hv, Vp. rewrite Vp in Hv. injection Hv as <-. cbn [cval] in Lv.
    apply Z.ltb_ge in Lv. symmetry.
    destruct (Mi is_ _ B (V _ B)) as [X|L]; [apply Z.ltb_irrefl|exact X|]. apply (rank_lex _ _ _ Bp B) in L. lia.
  - exfalso. apply (Hr is_ _ B (V _ B)). apply Z.ltb_irrefl.
Qed.
