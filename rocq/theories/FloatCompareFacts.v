(** Facts about comparisons of elements and values of any arithmetic types (C93). *)
From Coq Require Import ZArith QArith Qreals Qabs Reals Lia Lra List Bool.
From Coq Require Import Floats.SpecFloat.
From Flocq Require Import Core BinarySingleNaN.
From Verif Require Import Outcome CInt CIntFacts Spec SpecFacts ShapeSpec Shape ShapeFacts ShapeFacts2 ForEach ForEachSpec ForEachFacts
  Memory MemFacts Container ContainerSpec ContainerFacts ContainerFacts2 ContainerFacts3 Algo AlgoSpec AlgoFacts AlgoFacts2 AlgoFacts3 AlgoFacts4
  Search SearchSpec SearchFacts ReverseFacts CompareFacts
  Interp IeeeSpec RoundSpec RoundFacts ErrorFacts
  Mixed MixedSpec MixedFacts Convert ConvertSpec ConvertFacts Sums SumsFacts FloatSums FloatSumsFacts FloatCompare FloatCompareSpec.
Import ListNotations.
Open Scope Z_scope.

(** ** One comparison *)
Lemma usual_float t u f : arithmetic_of t u = Some f -> usual t u = AFloat f.
Proof. destruct t, u; cbn; intros H; try discriminate; injection H as <-; reflexivity. Qed.

(** The conversion of a value that takes part as it is. *)
Definition like (f : ftype) (e : extended) (y : spec_float) : Prop :=
  match e with
  | Num q => finite_of f y /\ rv y = Q2R q
  | Infinite s => y = S754_infinity s
  | NotANumber => y = S754_nan
  end.
Lemma like_finite f x q : finite_of f x -> float_value x = Some q -> like f (Num q) x.
Proof. intros F V. split; [exact F|]. symmetry. apply float_value_R, V. Qed.
Lemma measure_finite f x q : finite_of f x -> float_value x = Some q -> measure (NFloat x) = Num q.
Proof. intros [_ F] V. destruct x; try contradiction; cbn [measure]; rewrite V; reflexivity. Qed.

Definition admits (f : ftype) (t : atype) : Prop := match t with AFloat g => le g f | AInt _ => True end.
Lemma arithmetic_admits t u f : arithmetic_of t u = Some f -> admits f t /\ admits f u.
Proof.
  destruct t as [i|g], u as [j|h]; cbn; intros H; try discriminate; injection H as <-; try (split; [|]; try exact I; apply le_refl).
  destruct (Z.ltb_spec (f_prec g) (f_prec h)); unfold le; split; lia.
Qed.
Lemma float_like f g x : le g f -> valid_binary (f_prec g) (f_emax g) x = true ->
  exists y, convert (AFloat f) (NFloat x) = Ok (NFloat y) /\ like f (measure (NFloat x)) y.
Proof.
  intros L V. destruct x as [s|s| |s m e].
  - exists (S754_zero s). split; [reflexivity|]. split; [split; [reflexivity|exact I]|]. rewrite Q2R_0. reflexivity.
  - exists (S754_infinity s). split; reflexivity.
  - exists S754_nan. split; reflexivity.
  - assert (F : finite_of g (S754_finite s m e)) by (split; [exact V|exact I]).
    destruct (to_float_id f g _ L F) as (y & Ey & Fy & Ry). exists y. split; [exact Ey|].
    destruct (finite_float_value _ _ _ F) as [q Vq]. rewrite (measure_finite g _ q F Vq). split; [exact Fy|].
    rewrite Ry. symmetry. apply float_value_R, Vq.
Qed.
Lemma exact_like f t v : admits f t -> exact_in f t v -> exists y, convert (AFloat f) v = Ok (NFloat y) /\ like f (measure v) y.
Proof.
  intros A [T R]. destruct t as [i|g], v as [z|x]; try contradiction.
  - destruct R as (w & p & W & N & E). destruct w as [|x]; [contradiction|]. cbn [value_of_type number_value] in W, N.
    assert (Ez : Q2R (inject_Z z) = rv x) by (rewrite <- (float_value_R _ _ N); symmetry; apply Qeq_eqR, E).
    destruct (to_float f (NInt z) (inject_Z z) eq_refl) as (y & Ey & Fy & Ry).
    + rewrite Ez, rnd_id by (eapply finite_fmt; exact W). eapply finite_lt; exact W.
    + exists y. split; [exact Ey|]. split; [exact Fy|]. rewrite Ry, Ez. apply rnd_id. eapply finite_fmt; exact W.
  - apply float_like with (g := g); assumption.
Qed.
(** Integers of any type are in the range of any floating-point type. *)
Lemma int_in_range f i z : in_ty i z -> in_range (AFloat f) (inject_Z z).
Proof.
  intros H. assert (B : Z.abs z <= 2 ^ 64) by (destruct H; destruct i; cbn in *; lia).
  exists (NFloat (of_int (arith_of f) (2 ^ 64))), (inject_Z (2 ^ 64)).
  split; [destruct f; split; [vm_compute; reflexivity|exact I|vm_compute; reflexivity|exact I|vm_compute; reflexivity|exact I]|].
  split; [destruct f; vm_compute; reflexivity|].
  unfold Qle. cbn [Qabs inject_Z Qnum Qden]. rewrite !Z.mul_1_r. rewrite (Z.abs_eq (2 ^ 64)) by lia. exact B.
Qed.
Lemma stand_like f u x : admits f u -> of_type u x ->
  exists y e, convert (AFloat f) x = Ok (NFloat y) /\ like f e y /\ stands_as f x e.
Proof.
  intros A T. destruct u as [i|g], x as [z|x]; try contradiction.
  - destruct (convert_ok (AFloat f) (NInt z)) as (w & Ew & Cw).
    { exists (inject_Z z). split; [reflexivity|]. eapply int_in_range; exact T. }
    destruct w as [|y]; [destruct Cw|]. destruct Cw as (Wy & q & p & Nq & Np & Ne). injection Nq as <-.
    exists y, (Num p). split; [exact Ew|]. split; [apply like_finite; assumption|]. exists (NFloat y), p. auto.
  - destruct (float_like f g x A T) as (y & Ey & L). exists y, (measure (NFloat x)). split; [exact Ey|]. split; [exact L|]. reflexivity.
Qed.

Lemma compare_finite f x y : finite_of f x -> finite_of f y -> SFcompare x y = Some (Rcompare (rv x) (rv y)).
Proof.
  intros Fx Fy. destruct (finite_B _ _ x Fx) as (b & <- & Fb & <-). destruct (finite_B _ _ y Fy) as (d & <- & Fd & <-).
  exact (Bcompare_correct _ _ b d Fb Fd).
Qed.
Lemma zero_or x f : finite_of f x -> match x with S754_zero _ | S754_finite _ _ _ => True | _ => False end. Proof. intros [_ H]. exact H. Qed.
Lemma compare_like f a b x y : like f a x -> like f b y ->
  (match SFcompare x y with Some Eq => true | _ => false end) = same a b /\
  (match SFcompare x y with Some Lt => true | _ => false end) = below a b.
Proof.
  destruct a as [p|s|], b as [q|s'|]; cbn [like]; intros La Lb.
  - destruct La as [Fx Rx], Lb as [Fy Ry]. rewrite (compare_finite f x y Fx Fy), Rx, Ry. cbn [same below].
    destruct (Rcompare_spec (Q2R p) (Q2R q)) as [L|E|L].
    + apply Rlt_Qlt in L. split.
      * symmetry. destruct (Qeq_bool p q) eqn:E; [|reflexivity]. apply Qeq_bool_eq in E. rewrite E in L. exfalso. exact (Qlt_irrefl _ L).
      * symmetry. destruct (Qle_bool q p) eqn:E; [|reflexivity]. apply Qle_bool_iff in E. exfalso. exact (Qle_not_lt _ _ E L).
    + apply eqR_Qeq in E. split.
      * symmetry. apply Qeq_bool_iff. exact E.
      * symmetry. assert (H : Qle_bool q p = true) by (apply Qle_bool_iff; rewrite E; apply Qle_refl). rewrite H. reflexivity.
    + apply Rlt_Qlt in L. split.
      * symmetry. destruct (Qeq_bool p q) eqn:E; [|reflexivity]. apply Qeq_bool_eq in E. rewrite E in L. exfalso. exact (Qlt_irrefl _ L).
      * symmetry. assert (H : Qle_bool q p = true) by (apply Qle_bool_iff, Qlt_le_weak, L). rewrite H. reflexivity.
  - subst y. destruct La as [Fx _]. apply zero_or in Fx. destruct x, s'; try contradiction; split; reflexivity.
  - subst y. destruct La as [Fx _]. apply zero_or in Fx. destruct x; try contradiction; split; reflexivity.
  - subst x. destruct Lb as [Fy _]. apply zero_or in Fy. destruct y, s; try contradiction; split; reflexivity.
  - subst x y. destruct s, s'; split; reflexivity.
  - subst x y. destruct s; split; reflexivity.
  - subst x. destruct Lb as [Fy _]. apply zero_or in Fy. destruct y; try contradiction; split; reflexivity.
  - subst x y. split; reflexivity.
  - subst x y. split; reflexivity.
Qed.

Lemma compared_l t u f a b x y ea eb : arithmetic_of t u = Some f ->
  convert (AFloat f) a = Ok (NFloat x) -> like f ea x -> convert (AFloat f) b = Ok (NFloat y) -> like f eb y ->
  equal_number t u a b = same ea eb /\ less_number t u a b = below ea eb /\ less_number t u b a = below eb ea.
Proof.
  intros A Ex Lx Ey Ly. unfold equal_number, less_number. rewrite (usual_float t u f A). unfold compare_in. rewrite Ex, Ey.
  destruct (compare_like f ea eb x y Lx Ly) as [H1 H2]. destruct (compare_like f eb ea y x Ly Lx) as [_ H3]. auto.
Qed.
Lemma arithmetic_sym t u : arithmetic_of t u = arithmetic_of u t.
Proof. destruct t as [i|g], u as [j|h]; try reflexivity. cbn. destruct g, h; reflexivity. Qed.
Lemma exact_compare_l t u f a b : arithmetic_of t u = Some f -> exact_in f t a -> exact_in f u b ->
  equal_number t u a b = same (measure a) (measure b) /\ less_number t u a b = below (measure a) (measure b).
Proof.
  intros A Ea Eb. destruct (arithmetic_admits t u f A) as [At Au].
  destruct (exact_like f t a At Ea) as (x & Ex & Lx). destruct (exact_like f u b Au Eb) as (y & Ey & Ly).
  destruct (compared_l t u f a b x y _ _ A Ex Lx Ey Ly) as (H1 & H2 & _). auto.
Qed.
Lemma value_compare_l t u f b : arithmetic_of t u = Some f -> of_type u b ->
  exists e, stands_as f b e /\ forall a, exact_in f t a ->
    equal_number t u a b = same (measure a) e /\ less_number t u a b = below (measure a) e /\ less_number t u b a = below e (measure a).
Proof.
  intros A T. destruct (arithmetic_admits t u f A) as [At Au]. destruct (stand_like f u b Au T) as (y & e & Ey & Ly & S).
  exists e. split; [exact S|]. intros a Ea. destruct (exact_like f t a At Ea) as (x & Ex & Lx).
  exact (compared_l t u f a b x y _ _ A Ex Lx Ey Ly).
Qed.
Lemma exact_stands_l f u x e : exact_in f u x -> stands_as f x e ->
  e = measure x \/ exists p q, e = Num p /\ measure x = Num q /\ (p == q)%Q.
Proof.
  intros [T R] S. destruct x as [z|x]; [|left; exact S]. right. destruct S as (w & p & W & N & Ne & ->).
  exists p, (inject_Z z). split; [reflexivity|]. split; [reflexivity|]. destruct R as (v & r & Wv & Nv & Er).
  specialize (Ne v r Wv Nv). rewrite Er in Ne. setoid_replace (inject_Z z - inject_Z z)%Q with 0%Q in Ne by ring.
  change (Qabs 0) with 0%Q in Ne. assert (Z0 : (p - inject_Z z == 0)%Q).
  { pose proof (Qabs_nonneg (p - inject_Z z)) as P. apply Qabs_Qle_condition in Ne. destruct Ne as [N1 N2]. apply Qle_antisym; [exact N2|].
    exact N1. }
  setoid_replace p with (p - inject_Z z + inject_Z z)%Q by ring. rewrite Z0. ring.
Qed.

(** ** Algorithms *)
Lemma assign_convert t v : assignable t v -> exists w, convert t v = Ok w /\ assigned t v w.
Proof.
  intros [C|C].
  - destruct (convert_ok t v C) as (w & E & Cw). exists w. split; [exact E|left; exact Cw].
  - destruct t as [i|g]; [contradiction|]. destruct v as [z|y]; [contradiction|]. exists (NFloat y). split; [|right; auto].
    destruct y; try discriminate C; reflexivity.
Qed.
Section Algorithms.
Variables (t u : atype) (f : ftype) (c : container) (m : mem number) (vs : list number) (x : number).
Hypothesis A : arithmetic_of t u = Some f.
Hypothesis V : values m c c vs.
Hypothesis Ex : Forall (exact_in f t) vs.
Hypothesis Tx : of_type u x.

Lemma exact_at is_ v : in_box (dims c) is_ -> value m c is_ v -> exact_in f t v.
Proof using V Ex. intros B H. rewrite Forall_forall in Ex. apply Ex. eapply value_In; eassumption. Qed.

Lemma ncount_l : can_read m c c -> prod (dims c) < 2 ^ 64 ->
  exists e, stands_as f x e /\ ncount t u c x m = Ok (Z.of_nat (length (filter (fun v => same (measure v) e) vs)), m).
Proof using All.
  intros CR P. destruct (value_compare_l t u f x A Tx) as (e & S & H). exists e. split; [exact S|].
  unfold ncount. destruct (count_values_l (equal_number t u) c x m CR P) as (vs' & V' & ->).
  rewrite (values_unique _ _ _ _ _ V' V). rewrite (filter_same _ (fun v => same (measure v) e)); [reflexivity|].
  intros v I. rewrite Forall_forall in Ex. apply (H v (Ex v I)).
Qed.
Lemma nfind_l : can_read m c c -> Forall (fun n => n <= 2147483648) (dims c) ->
  exists e r, stands_as f x e /\ nfind t u c x m = Ok (r, m) /\ first_at m c (fun v => same (measure v) e = true) r.
Proof using All.
  intros CR P. destruct (value_compare_l t u f x A Tx) as (e & S & H). destruct (find_first_l (equal_number t u) c x m CR P) as (r & E & F).
  exists e, r. split; [exact S|]. split; [exact E|]. eapply first_at_ext; [|exact F]. intros is_ v B Hv. cbn beta.
  rewrite (proj1 (H v (exact_at is_ v B Hv))). tauto.
Qed.
Lemma last_at_ext (P Q : number -> Prop) r : (forall is_ v, in_box (dims c) is_ -> value m c is_ v -> P v <-> Q v) ->
  last_at m c P r -> last_at m c Q r.
Proof using.
  intros H. destruct r as [pos|]; cbn [last_at].
  - intros (H1 & B & (v & Hv & Pv) & D). split; [exact H1|]. split; [exact B|]. split.
    + exists v. split; [exact Hv|]. apply (H _ _ B Hv). exact Pv.
    + intros is_ w Bi Hw Qw. apply (D is_ w Bi Hw). apply (H is_ w Bi Hw). exact Qw.
  - intros D is_ v Bi Hv Qv. apply (D is_ v Bi Hv). apply (H is_ v Bi Hv). exact Qv.
Qed.
Lemma nfind_last_l st : default_layout c -> Forall (fun n => cty n <> U32) (c_shape c) -> readable m c ->
  exists e r, stands_as f x e /\ nfind_last t u st c x m = Ok (r, m) /\ last_at m c (fun v => same (measure v) e = true) r.
Proof using All.
  intros D U R. destruct (value_compare_l t u f x A Tx) as (e & S & H).
  destruct (find_last_if_typed st c (fun v => equal_number t u v x) m D U R) as (r & E & F).
  exists e, r. split; [exact S|]. split; [exact E|]. eapply last_at_ext; [|exact F]. intros is_ v B Hv. cbn beta.
  rewrite (proj1 (H v (exact_at is_ v B Hv))). tauto.
Qed.

Lemma nreplace_as w new : convert t new = Ok w -> nreplace t u c x new m = replace_if c (fun v => equal_number t u v x) w m.
Proof using.
  intros E. unfold nreplace, replace_if. rewrite E. reflexivity.
Qed.
Lemma nreplace_l new : can_write m c c -> can_read m c c -> assignable t new ->
  exists e w m', stands_as f x e /\ assigned t new w /\ nreplace t u c x new m = Ok m' /\
    (forall is_ v, in_box (dims c) is_ -> value m c is_ v -> value m' c is_ (if same (measure v) e then w else v)) /\
    frame c c m m'.
Proof using All.
  intros CW CR C. destruct (value_compare_l t u f x A Tx) as (e & S & H). destruct (assign_convert t new C) as (w & Ew & Aw).
  destruct (replace_if_l c (fun v => equal_number t u v x) w m CW CR) as (m' & E & R & F).
  exists e, w, m'. split; [exact S|]. split; [exact Aw|]. rewrite (nreplace_as w new Ew). split; [exact E|]. split; [|exact F].
  intros is_ v B Hv. rewrite <- (proj1 (H v (exact_at is_ v B Hv))). apply R; assumption.
Qed.

End Algorithms.

Lemma nfind_first_of_l t u f c cv m vs ws : arithmetic_of t u = Some f -> can_read m c c -> values m c c vs -> can_read m cv cv ->
  values m cv cv ws -> Forall (fun n => n <= 2147483648) (dims c) -> Forall (exact_in f t) vs -> Forall (exact_in f u) ws ->
  exists r, nfind_first_of t u c cv m = Ok (r, m) /\
    first_at m c (fun v => exists w, In w ws /\ same (measure w) (measure v) = true) r.
Proof.
  intros A CR V CV W P Ev Ew. destruct (find_first_of_first_l (equal_number u t) c cv m CR CV P) as (r & E & F).
  exists r. split; [exact E|]. eapply first_at_ext; [|exact F]. intros is_ v B Hv. cbn beta.
  assert (Iv : In v vs) by (eapply value_In; eassumption). rewrite Forall_forall in Ev, Ew. rewrite arithmetic_sym in A. split.
  - intros (js & y & Bj & Hy & Ey). assert (Iy : In y ws) by (eapply value_In; eassumption). exists y. split; [exact Iy|].
    rewrite <- (proj1 (exact_compare_l u t f y v A (Ew y Iy) (Ev v Iv))). exact Ey.
  - intros (y & Iy & Sy). destruct (proj1 (values_In m cv ws y W) Iy) as (js & Bj & Hy). exists js, y.
    split; [exact Bj|]. split; [exact Hy|]. rewrite (proj1 (exact_compare_l u t f y v A (Ew y Iy) (Ev v Iv))). exact Sy.
Qed.

(** ** Searches *)
Ltac by_q := repeat match goal with
  | H : negb (Qle_bool _ _) = true |- _ => apply negb_true_iff in H
  | H : negb (Qle_bool _ _) = false |- _ => apply negb_false_iff in H
  | H : Qle_bool _ _ = true |- _ => apply Qle_bool_iff in H
  | H : Qle_bool ?a ?b = false |- _ => assert (~ (a <= b)%Q) by (intros ?; assert (Qle_bool a b = true) by (apply Qle_bool_iff; assumption); congruence); clear H
  | |- negb (Qle_bool _ _) = true => apply negb_true_iff
  | |- negb (Qle_bool _ _) = false => apply negb_false_iff, Qle_bool_iff
  | |- Qle_bool ?a ?b = false => destruct (Qle_bool a b) eqn:?; [exfalso|reflexivity]
  end.
Lemma below_left a b e : a <> NotANumber -> b <> NotANumber -> below b a = false -> below b e = true -> below a e = true.
Proof.
  destruct a as [p|[]|], b as [q|[]|], e as [r|[]|]; cbn [below]; intros Na Nb H1 H2; try congruence; try reflexivity.
  by_q. apply H. eapply Qle_trans; eassumption.
Qed.
Lemma below_right a b e : a <> NotANumber -> b <> NotANumber -> below b a = false -> below e a = true -> below e b = true.
Proof.
  destruct a as [p|[]|], b as [q|[]|], e as [r|[]|]; cbn [below]; intros Na Nb H1 H2; try congruence; try reflexivity.
  by_q. apply H. eapply Qle_trans; eassumption.
Qed.
Lemma below_same a b : a <> NotANumber -> b <> NotANumber -> (below a b = false /\ below b a = false) <-> same a b = true.
Proof.
  destruct a as [p|[]|], b as [q|[]|]; cbn [below same eqb]; intros Na Nb; try congruence; try (split; [intros [H1 H2]; congruence|intros H; try discriminate H; split; reflexivity]).
  rewrite Qeq_bool_iff. split.
  - intros [H1 H2]. by_q. apply Qle_antisym; assumption.
  - intros E. split; by_q; rewrite E; apply Qle_refl.
Qed.

Lemma point_first c (m : mem number) (P : number -> bool) r : partition_point P c m r -> first_at m c (fun v => P v = false) r.
Proof.
  destruct r as [pos|]; cbn [partition_point first_at].
  - intros (H1 & H2 & H3 & H4 & _). split; [exact H1|]. split; [exact H2|]. split; [exact H3|].
    intros is_ v B Hv Pv. destruct (lex_trichotomy (dims c) is_ (vals pos) B H2) as [E|[L|L]]; [left; exact E| |right; exact L].
    rewrite (H4 is_ v B Hv L) in Pv. discriminate.
  - intros H is_ v B Hv Pv. specialize (H is_ v B Hv). cbv beta in H. congruence.
Qed.

Section Searches.
Variables (t u : atype) (f : ftype) (c : container) (m : mem number) (vs : list number) (x : number) (dbg : bool).
Hypothesis A : arithmetic_of t u = Some f.
Hypothesis V : values m c c vs.
Hypothesis Ex : Forall (exact_in f t) vs.
Hypothesis Tx : of_type u x.
Hypothesis Sc : searchable m c.
Hypothesis Nv : Forall (fun v => measure v <> NotANumber) vs.
Hypothesis So : sorted (fun a b => below (measure a) (measure b)) m c.
Hypothesis Nx : measure x <> NotANumber.

Lemma stands_number e : stands_as f x e -> e <> NotANumber.
Proof using Nx Tx. destruct x; cbn [stands_as]; [intros (w & p & _ & _ & _ & ->); discriminate|intros ->; exact Nx]. Qed.
Lemma searches_l : exists e, stands_as f x e /\
  (exists r, nlower_bound dbg t u c x m = Ok r /\ first_at m c (fun v => below (measure v) e = false) r) /\
  (exists r, nupper_bound dbg t u c x m = Ok r /\ first_at m c (fun v => below e (measure v) = true) r) /\
  (exists b, nbinary_search dbg t u c x m = Ok b /\
     (b = true <-> exists is_ v, in_box (dims c) is_ /\ value m c is_ v /\ same (measure v) e = true)).
Proof using All.
  destruct (value_compare_l t u f x A Tx) as (e & S & H). exists e. split; [exact S|].
  assert (At : forall is_ v, in_box (dims c) is_ -> value m c is_ v -> exact_in f t v /\ measure v <> NotANumber).
  { intros is_ v B Hv. rewrite Forall_forall in Ex, Nv. assert (I : In v vs) by (eapply value_In; eassumption). auto. }
  pose proof (stands_number e S) as Ne.
  assert (Lo : exists r, nlower_bound dbg t u c x m = Ok r /\ first_at m c (fun v => below (measure v) e = false) r).
  { destruct (lower_bound_gen dbg (less_number t u) c x m Sc) as (r & E & _ & P). exists r. split; [exact E|].
    eapply first_at_ext; [|apply point_first, P].
    - intros is_ v B Hv. cbn beta. destruct (At is_ v B Hv) as [Ev _]. rewrite (proj1 (proj2 (H v Ev))). tauto.
    - intros a b y z Ba Bb L Hy Hz. destruct (At a y Ba Hy) as [Ey Ny], (At b z Bb Hz) as [Ez Nz].
      rewrite (proj1 (proj2 (H y Ey))), (proj1 (proj2 (H z Ez))). apply below_left; [exact Ny|exact Nz|]. exact (So a b y z Ba Bb L Hy Hz). }
  split; [exact Lo|]. split.
  - destruct (upper_bound_gen dbg (less_number t u) c x m Sc) as (r & E & _ & P). exists r. split; [exact E|].
    eapply first_at_ext; [|apply point_first, P].
    + intros is_ v B Hv. cbn beta. destruct (At is_ v B Hv) as [Ev _]. rewrite (proj2 (proj2 (H v Ev))), negb_false_iff. tauto.
    + intros a b y z Ba Bb L Hy Hz. destruct (At a y Ba Hy) as [Ey Ny], (At b z Bb Hz) as [Ez Nz].
      rewrite (proj2 (proj2 (H y Ey))), (proj2 (proj2 (H z Ez))), !negb_true_iff. intros Bz. destruct (below e (measure y)) eqn:By; [|reflexivity].
      rewrite (below_right (measure y) (measure z) e Ny Nz (So a b y z Ba Bb L Hy Hz) By) in Bz. discriminate.
  - destruct Lo as (r & E & F). destruct (lower_bound_gen dbg (less_number t u) c x m Sc) as (r' & E' & Sf & _).
    unfold nlower_bound in E. rewrite E in E'. injection E' as <-. destruct Sc as (Lg & Nn & Ad & Rd).
    unfold nbinary_search, binary_search. rewrite E, bind_ok. destruct r as [pos|]; cbn [first_at safe_pos] in *.
    + destruct F as (F1 & F2 & (v & Hv & Hf) & F4). destruct Sf as (_ & Wp & _).
      rewrite (get_at m c pos v Ad F1 Wp F2 Hv), bind_ok. eexists. split; [reflexivity|].
      destruct (At _ v F2 Hv) as [Ev Nm]. rewrite (proj2 (proj2 (H v Ev))), negb_true_iff. split.
      * intros Hx. exists (vals pos), v. split; [exact F2|]. split; [exact Hv|]. apply below_same; auto.
      * intros (is_ & w & B & Hw & Sw). destruct (At is_ w B Hw) as [Ew Nw]. apply below_same in Sw; [|assumption..]. destruct Sw as [S1 S2].
        destruct (F4 is_ w B Hw S1) as [->|L].
        -- assert (w = v) by (unfold value in *; congruence). subst w. exact S2.
        -- destruct (below e (measure v)) eqn:Bv; [|reflexivity].
           rewrite (below_right (measure v) (measure w) e Nm Nw (So (vals pos) is_ v w F2 B L Hv Hw) Bv) in S2. discriminate.
    + exists false. split; [reflexivity|]. split; [discriminate|]. intros (is_ & w & B & Hw & Sw). exfalso.
      destruct (At is_ w B Hw) as [Ew Nw]. apply below_same in Sw; [|assumption..]. exact (F is_ w B Hw (proj1 Sw)).
Qed.
End Searches.

(** ** NaN *)
Lemma nan_compare t u f a : arithmetic_of t u = Some f -> equal_number t u a (NFloat S754_nan) = false /\
  less_number t u a (NFloat S754_nan) = false /\ less_number t u (NFloat S754_nan) a = false.
Proof.
  intros A. unfold equal_number, less_number, compare_in. rewrite (usual_float t u f A). cbn [convert]. cbn [to_ftype].
  destruct a as [z|x]; cbn [convert]; [|]; (set (y := of_int _ _) || set (y := to_ftype f x)); destruct y; repeat split; reflexivity.
Qed.
Lemma nan_counts_l t u f c m : arithmetic_of t u = Some f -> can_read m c c -> prod (dims c) < 2 ^ 64 ->
  Forall (fun n => n <= 2147483648) (dims c) ->
  ncount t u c (NFloat S754_nan) m = Ok (0, m) /\ nfind t u c (NFloat S754_nan) m = Ok (None, m).
Proof.
  intros A CR P P'. split.
  - unfold ncount. destruct (count_values_l (equal_number t u) c (NFloat S754_nan) m CR P) as (vs & V & ->).
    rewrite (filter_same _ (fun _ => false)); [|intros v _; apply (nan_compare t u f v A)]. do 2 f_equal. clear V.
    assert (E : filter (fun _ : number => false) vs = []) by (induction vs; [reflexivity|assumption]). rewrite E. reflexivity.
  - unfold nfind. destruct (find_first_l (equal_number t u) c (NFloat S754_nan) m CR P') as (r & E & F). rewrite E. destruct r as [pos|]; [|reflexivity].
    destruct F as (_ & _ & (v & _ & Hv) & _). rewrite (proj1 (nan_compare t u f v A)) in Hv. discriminate.
Qed.
Lemma nan_last_l t u f st c m : arithmetic_of t u = Some f -> default_layout c -> Forall (fun n => cty n <> U32) (c_shape c) -> readable m c ->
  nfind_last t u st c (NFloat S754_nan) m = Ok (None, m).
Proof.
  intros A D U R. unfold nfind_last, find_last.
  destruct (find_last_if_typed st c (fun v => equal_number t u v (NFloat S754_nan)) m D U R) as (r & E & F). rewrite E.
  destruct r as [pos|]; [|reflexivity]. destruct F as (_ & _ & (v & _ & Hv) & _). rewrite (proj1 (nan_compare t u f v A)) in Hv. discriminate.
Qed.
Lemma nan_replace_l t u f c m new : arithmetic_of t u = Some f -> can_read m c c -> nreplace t u c (NFloat S754_nan) new m = Ok m.
Proof.
  intros A CR. unfold nreplace, run_map.
  pose (st := fun _ : list (list Z) => (tt, m)).
  change (tt, m) with (st []). rewrite (map_containers_inv _ c [] m st).
  - reflexivity.
  - apply can_read_live. exact CR.
  - constructor.
  - intros pre. apply same_refl.
  - intros pre is_ post E. unfold st. cbn [map snd fst].
    assert (B : in_box (dims c) is_) by (apply box_In; rewrite E; apply in_elt).
    destruct (proj2 (proj2 CR) is_ B) as (v & Hv).
    rewrite (load_peek _ _ _ Hv), bind_ok, (proj1 (nan_compare t u f v A)). reflexivity.
Qed.
Lemma nan_searches_l t u f c m dbg : arithmetic_of t u = Some f -> searchable m c ->
  (exists r, nlower_bound dbg t u c (NFloat S754_nan) m = Ok r /\ first_at m c (fun _ => True) r) /\
  nupper_bound dbg t u c (NFloat S754_nan) m = Ok None /\
  (exists b, nbinary_search dbg t u c (NFloat S754_nan) m = Ok b /\ (b = true <-> exists is_, in_box (dims c) is_)).
Proof.
  intros A Sc.
  destruct (lower_bound_gen dbg (less_number t u) c (NFloat S754_nan) m Sc) as (r & E & Sf & P).
  assert (F : first_at m c (fun _ => True) r).
  { eapply first_at_ext; [|apply point_first, P].
    - intros is_ v _ _. cbn beta. rewrite (proj1 (proj2 (nan_compare t u f v A))). tauto.
    - intros a b y z _ _ _ _ _. rewrite (proj1 (proj2 (nan_compare t u f z A))). discriminate. }
  split; [exists r; split; [exact E|exact F]|]. split.
  - destruct (upper_bound_gen dbg (less_number t u) c (NFloat S754_nan) m Sc) as (r' & E' & _ & P'). unfold nupper_bound. rewrite E'.
    destruct r' as [pos|]; [exfalso|reflexivity].
    assert (Q : first_at m c (fun v => negb (less_number t u (NFloat S754_nan) v) = false) (Some pos)).
    { apply point_first, P'. intros a b y z _ _ _ _ _ _. rewrite (proj2 (proj2 (nan_compare t u f y A))). reflexivity. }
    destruct Q as (_ & _ & (v & _ & Hv) & _). rewrite (proj2 (proj2 (nan_compare t u f v A))) in Hv. discriminate.
  - destruct Sc as (Lg & Nn & Ad & Rd). unfold nbinary_search, binary_search. rewrite E, bind_ok. destruct r as [pos|]; cbn [first_at safe_pos] in *.
    + destruct F as (F1 & F2 & (v & Hv & _) & _). destruct Sf as (_ & Wp & _).
      rewrite (get_at m c pos v Ad F1 Wp F2 Hv), bind_ok. eexists. split; [reflexivity|].
      rewrite (proj2 (proj2 (nan_compare t u f v A))). split; [intros _; exists (vals pos); exact F2|reflexivity].
    + exists false. split; [reflexivity|]. split; [discriminate|]. intros (is_ & B). exfalso.
      destruct (Rd is_ B) as (v & Hv). exact (F is_ v B Hv I).
Qed.
