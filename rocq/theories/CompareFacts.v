From Coq Require Import ZArith List Bool Lia.
From Verif Require Import Outcome CInt CIntFacts Spec SpecFacts ShapeSpec Shape Memory MemFacts Container ContainerSpec
  Algo AlgoSpec AlgoFacts AlgoFacts2 AlgoFacts3 AlgoFacts4 Sums SumsSpec SumsFacts.
Import ListNotations.
Open Scope Z_scope.

Lemma ceqb_mod a b : ceqb a b = true <->
  cval a mod modulus (common (cty a) (cty b)) = cval b mod modulus (common (cty a) (cty b)).
Proof.
  unfold ceqb. cbv zeta. rewrite Z.eqb_eq. split; intros H.
  - rewrite <- (cast_modulus _ (cval a)), <- (cast_modulus _ (cval b)), H. reflexivity.
  - apply cast_same. exact H.
Qed.

Lemma comparable_eq t u xs ys v w : typed t xs -> typed u ys -> comparable t u (map cval xs) (map cval ys) ->
  In v xs -> In w ys -> ceqb v w = (cval v =? cval w).
Proof.
  intros Tx Ty C Iv Iw. unfold typed in *. rewrite Forall_forall in Tx, Ty.
  destruct (Tx v Iv) as (T1 & W1), (Ty w Iw) as (T2 & W2). apply ceqb_exact; try assumption.
  destruct C as [S|(Px & Py)].
  - left. rewrite T1, T2. exact S.
  - right. rewrite Forall_forall in Px, Py. split; [apply Px|apply Py]; apply in_map; assumption.
Qed.

Lemma filter_same {A} (f g : A -> bool) l : (forall x, In x l -> f x = g x) -> filter f l = filter g l.
Proof.
  induction l as [|x l IH]; intros H; [reflexivity|]. cbn [filter]. rewrite (H x (or_introl eq_refl)), IH; [reflexivity|].
  intros y I. apply H. right. exact I.
Qed.

Lemma count_by_value_l c t m vs x : can_read m c c -> values m c c vs -> prod (dims c) < 2 ^ 64 -> typed t vs -> wfc x ->
  comparable t (cty x) (map cval vs) [cval x] ->
  count ceqb c x m = Ok (Z.of_nat (length (filter (fun v => cval v =? cval x) vs)), m).
Proof.
  intros CR V P Ty Wx C. destruct (count_values_l ceqb c x m CR P) as (vs' & V' & ->).
  rewrite (values_unique _ _ _ _ _ V' V). rewrite (filter_same _ (fun v => cval v =? cval x)); [reflexivity|].
  intros v I. apply (comparable_eq t (cty x) vs [x]); try assumption; [|left; reflexivity].
  constructor; [split; [reflexivity|exact Wx]|constructor].
Qed.

Lemma first_at_ext {T} m c (P Q : T -> Prop) r : (forall is_ v, in_box (dims c) is_ -> value m c is_ v -> P v <-> Q v) ->
  first_at m c P r -> first_at m c Q r.
Proof.
  intros H. destruct r as [pos|]; cbn [first_at].
  - intros (A & B & (v & Hv & Pv) & D). split; [exact A|]. split; [exact B|]. split.
    + exists v. split; [exact Hv|]. apply (H _ _ B Hv). exact Pv.
    + intros is_ w Bi Hw Qw. apply (D is_ w Bi Hw). apply (H is_ w Bi Hw). exact Qw.
  - intros D is_ v Bi Hv Qv. apply (D is_ v Bi Hv). apply (H is_ v Bi Hv). exact Qv.
Qed.

Lemma value_In {T} (m : mem T) c vs is_ v : values m c c vs -> in_box (dims c) is_ -> value m c is_ v -> In v vs.
Proof. intros V B H. apply (values_In m c vs v V). eauto. Qed.

Lemma find_by_value_l c t m vs x : can_read m c c -> values m c c vs -> Forall (fun n => n <= 2147483648) (dims c) ->
  typed t vs -> wfc x -> comparable t (cty x) (map cval vs) [cval x] ->
  exists r, find ceqb c x m = Ok (r, m) /\ first_at m c (fun v => cval v = cval x) r.
Proof.
  intros CR V P Ty Wx C. destruct (find_first_l ceqb c x m CR P) as (r & E & F). exists r. split; [exact E|].
  eapply first_at_ext; [|exact F]. intros is_ v B Hv. cbn beta.
  rewrite (comparable_eq t (cty x) vs [x] v x); try assumption.
  - rewrite Z.eqb_eq. tauto.
  - constructor; [split; [reflexivity|exact Wx]|constructor].
  - eapply value_In; eassumption.
  - left. reflexivity.
Qed.

Lemma find_first_of_by_value_l c cv t u m vs ws : can_read m c c -> values m c c vs -> can_read m cv cv -> values m cv cv ws ->
  Forall (fun n => n <= 2147483648) (dims c) -> typed t vs -> typed u ws -> comparable u t (map cval ws) (map cval vs) ->
  exists r, find_first_of ceqb c cv m = Ok (r, m) /\ first_at m c (fun v => In (cval v) (map cval ws)) r.
Proof.
  intros CR V CV W P Ty Tu C. destruct (find_first_of_first_l ceqb c cv m CR CV P) as (r & E & F). exists r.
  split; [exact E|]. eapply first_at_ext; [|exact F]. intros is_ v B Hv. cbn beta. rewrite in_map_iff.
  assert (Iv : In v vs) by (eapply value_In; eassumption). split.
  - intros (js & x & Bj & Hx & Ex). assert (Ix : In x ws) by (eapply value_In; eassumption).
    rewrite (comparable_eq u t ws vs x v Tu Ty C Ix Iv), Z.eqb_eq in Ex. exists x. split; [congruence|exact Ix].
  - intros (x & Ex & Ix). destruct (proj1 (values_In m cv ws x W) Ix) as (js & Bj & Hx). exists js, x.
    split; [exact Bj|]. split; [exact Hx|]. rewrite (comparable_eq u t ws vs x v Tu Ty C Ix Iv). apply Z.eqb_eq. congruence.
Qed.

Lemma replace_by_value_l c t m vs x y : can_write m c c -> can_read m c c -> values m c c vs -> typed t vs -> wfc x ->
  comparable t (cty x) (map cval vs) [cval x] ->
  exists m', replace_int t c x y m = Ok m' /\
    (forall is_ v, in_box (dims c) is_ -> value m c is_ v ->
       value m' c is_ (if cval v =? cval x then CI t (cast t (cval y)) else v)) /\
    frame c c m m'.
Proof.
  intros CW CR V Ty Wx C. unfold replace_int, replace.
  destruct (replace_if_l c (fun v => ceqb v x) (conv t y) m CW CR) as (m' & E & H & F). exists m'.
  split; [exact E|]. split; [|exact F]. intros is_ v B Hv. specialize (H is_ v B Hv). cbn beta in H.
  rewrite (comparable_eq t (cty x) vs [x] v x) in H; try assumption.
  - constructor; [split; [reflexivity|exact Wx]|constructor].
  - eapply value_In; eassumption.
  - left. reflexivity.
Qed.

Lemma copy_converts_l t out in_ m : can_write m out out -> can_read m out in_ -> no_cross_alias out in_ out ->
  exists m', copy_int t out in_ m = Ok m' /\
    (forall is_ v, in_box (dims out) is_ -> value m in_ is_ v -> value m' out is_ (CI t (cast t (cval v)))) /\
    frame out out m m'.
Proof.
  intros CW CR NA. unfold copy_int.
  destruct (transform_l (fun vs => match vs with v :: _ => conv t v | [] => CI t 0 end) out in_ [] m CW) as (m' & E & H & F).
  - constructor; [exact CR|constructor].
  - constructor; [exact NA|constructor].
  - exists m'. split; [exact E|]. split; [|exact F]. intros is_ v B Hv.
    apply (H is_ [v] B). constructor; [exact Hv|constructor].
Qed.

Lemma count_mod_l c t m vs x : can_read m c c -> values m c c vs -> prod (dims c) < 2 ^ 64 -> typed t vs ->
  count ceqb c x m =
  Ok (Z.of_nat (length (filter (fun v => cval v mod modulus (common t (cty x)) =? cval x mod modulus (common t (cty x))) vs)), m).
Proof.
  intros CR V P Ty. destruct (count_values_l ceqb c x m CR P) as (vs' & V' & ->).
  rewrite (values_unique _ _ _ _ _ V' V).
  rewrite (filter_same _ (fun v => cval v mod modulus (common t (cty x)) =? cval x mod modulus (common t (cty x)))); [reflexivity|].
  intros v I. unfold typed in Ty. rewrite Forall_forall in Ty. destruct (Ty v I) as (<- & _).
  apply eq_true_iff_eq. rewrite ceqb_mod, Z.eqb_eq. reflexivity.
Qed.
