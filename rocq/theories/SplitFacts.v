(** Slices that cover a container (C77). *)
From Coq Require Import ZArith List Bool Lia Permutation.
From Verif Require Import Outcome CInt CIntFacts Spec SpecFacts ShapeSpec Shape ShapeFacts ShapeFacts2
  Memory MemFacts Container ContainerSpec ContainerFacts ContainerFacts2 ContainerFacts3 EndRatio Slicer SlicerSpec
  SlicerFacts SlicerFacts2 SlicerFacts3 SlicerFacts4 Algo AlgoSpec AlgoFacts AlgoFacts2 AlgoFacts3 AlgoFacts4 ViewFacts SplitSpec.
Import ListNotations.
Open Scope Z_scope.

Lemma part_view dbg a b c p tys : default_layout c -> is_part dbg c p ->
  exists v, slice_container dbg a b c (cuts p) = Ok v /\ dims v = counts p /\ legal (c_shape v) /\ addressable v tys /\
    strides_z v = times (steps p) (strides_of (dims c)) /\
    (forall js, in_box (counts p) js -> in_box (dims c) (place (starts p) (steps p) js) /\
       elem v js = elem c (place (starts p) (steps p) js)) /\
    (forall i j, in_box (counts p) i -> in_box (counts p) j ->
       place (starts p) (steps p) i = place (starts p) (steps p) j -> i = j).
Proof.
  intros D (Sl & Wd & Po). pose proof D as (Lg & Ne & _). destruct (sliced_length _ _ _ _ _ Sl) as (L1 & L2 & L3 & L4).
  assert (Cs : compress (length (cuts p)) (c_shape c) = Ok (c_shape c)).
  { unfold compress. rewrite L1, Nat.leb_refl, Nat.eqb_refl, andb_true_r. destruct (c_shape c); [contradiction|reflexivity]. }
  assert (Ln : (1 <= length (cuts p) <= length (c_shape c))%nat).
  { rewrite L1. destruct (c_shape c); [contradiction|simpl; lia]. }
  destruct (slice_default_l dbg a b c (cuts p) (c_shape c) _ _ _ tys D Ln Cs Sl Wd (or_introl Po))
    as (v & Ev & Dv & Lv & Av & _ & Sz & El & _).
  exists v. split; [exact Ev|]. split; [exact Dv|]. split; [exact Lv|]. split; [exact Av|]. split; [exact Sz|]. split.
  - intros js B. destruct (El js B) as [B2 ->]. split; [exact B2|]. rewrite (default_elem c); [reflexivity|exact D|exact B2].
  - intros i j Bi Bj E. apply in_box_length in Bi, Bj. apply (place_inj (starts p) (steps p)) in E; try congruence.
    clear -Po. induction Po; constructor; [lia|assumption].
Qed.

Lemma part_view_t dbg a b c p : default_layout c -> is_part dbg c p ->
  exists v, slice_container dbg a b c (cuts p) = Ok v /\ dims v = counts p /\ legal (c_shape v) /\ addressable v (ctypes v) /\
    strides_z v = times (steps p) (strides_of (dims c)) /\
    (forall js, in_box (counts p) js -> in_box (dims c) (place (starts p) (steps p) js) /\
       elem v js = elem c (place (starts p) (steps p) js)) /\
    (forall i j, in_box (counts p) i -> in_box (counts p) j ->
       place (starts p) (steps p) i = place (starts p) (steps p) j -> i = j).
Proof.
  intros D P. destruct (part_view dbg a b c p [] D P) as (v & Ev & _).
  destruct (part_view dbg a b c p (ctypes v) D P) as (v' & Ev' & R). rewrite Ev in Ev'. injection Ev' as <-. exists v. auto.
Qed.

Lemma part_read {T} (m : mem T) dbg a b c p v : default_layout c -> is_part dbg c p -> slice_container dbg a b c (cuts p) = Ok v ->
  readable m c -> can_read m v v.
Proof.
  intros D P E R. destruct (part_view_t dbg a b c p D P) as (v' & E' & Dv & _ & Av & _ & El & _).
  rewrite E in E'. injection E' as <-. split; [exact Av|]. split; [intros i; auto|].
  intros js B. rewrite Dv in B. destruct (El js B) as [B2 Ee]. destruct (R _ B2) as (x & Hx). exists x. unfold value. rewrite Ee. exact Hx.
Qed.
Lemma part_write {T} (m : mem T) dbg a b c p v : default_layout c -> is_part dbg c p -> slice_container dbg a b c (cuts p) = Ok v ->
  writable m c -> can_write m v v.
Proof.
  intros D P E W. destruct (part_view_t dbg a b c p D P) as (v' & E' & Dv & _ & Av & _ & El & Inj).
  rewrite E in E'. injection E' as <-. split; [exact Av|]. split; [intros i; auto|].
  split.
  - intros i j Bi Bj Ee. rewrite Dv in Bi, Bj. destruct (El i Bi) as [Ci Ei]. destruct (El j Bj) as [Cj Ej]. rewrite Ei, Ej in Ee.
    apply (proj1 (proj2 (proj2 (default_can_write m c c D eq_refl W)))) in Ee; [|assumption..]. eapply Inj; eassumption.
  - intros js B. rewrite Dv in B. destruct (El js B) as [B2 ->]. apply W, B2.
Qed.

(** ** The coordinates of the parts are those of the container *)
Definition area (p : part) : list (list Z) := map (place (starts p) (steps p)) (box (counts p)).
Lemma area_In p is_ : In is_ (area p) <-> chosen p is_.
Proof.
  unfold area, chosen. rewrite in_map_iff. split; intros (js & H1 & H2); exists js; rewrite box_In in *; auto.
Qed.
Definition apart (ps : list part) : Prop :=
  forall i j p q is_, nth_error ps i = Some p -> nth_error ps j = Some q -> chosen p is_ -> chosen q is_ -> i = j.
Lemma apart_cons p ps : apart (p :: ps) -> apart ps /\ forall q is_, In q ps -> chosen p is_ -> ~ chosen q is_.
Proof.
  intros H. split.
  - intros i j q r is_ Hi Hj Cq Cr. assert (X : S i = S j) by (eapply H; eassumption). lia.
  - intros q is_ I Cp Cq. apply In_nth_error in I. destruct I as (j & Ej).
    assert (X : 0%nat = S j) by (eapply (H 0%nat (S j)); [reflexivity|exact Ej|exact Cp|exact Cq]). lia.
Qed.
Lemma counts_nonneg dbg c p : default_layout c -> is_part dbg c p -> nonnegs (counts p).
Proof.
  intros D P. destruct (part_view dbg false false c p [] D P) as (v & _ & Dv & Lv & _). rewrite <- Dv. apply Lv.
Qed.
Lemma NoDup_map_in {A B} (f : A -> B) l : (forall x y, In x l -> In y l -> f x = f y -> x = y) -> NoDup l -> NoDup (map f l).
Proof.
  intros H N. induction N as [|x l Hx N IH]; [constructor|]. cbn. constructor.
  - intros I. apply in_map_iff in I. destruct I as (y & Ey & Iy). apply H in Ey; [subst; contradiction|right; exact Iy|left; reflexivity].
  - apply IH. intros u v Hu Hv. apply H; right; assumption.
Qed.
Lemma NoDup_app' {A} (l1 l2 : list A) : NoDup l1 -> NoDup l2 -> (forall x, In x l1 -> ~ In x l2) -> NoDup (l1 ++ l2).
Proof.
  intros N1 N2 H. induction N1 as [|x l1 Hx N1 IH]; [exact N2|]. cbn. constructor.
  - rewrite in_app_iff. intros [I|I]; [contradiction|]. apply (H x); [left; reflexivity|exact I].
  - apply IH. intros y I. apply H. right. exact I.
Qed.
Lemma areas_In ps x : In x (concat (map area ps)) <-> exists q, In q ps /\ chosen q x.
Proof.
  rewrite in_concat. split.
  - intros (l & Il & Ix). apply in_map_iff in Il. destruct Il as (q & <- & Iq). exists q. split; [exact Iq|]. apply area_In, Ix.
  - intros (q & Iq & Cq). exists (area q). split; [apply in_map, Iq|apply area_In, Cq].
Qed.
Lemma areas_NoDup dbg c ps : default_layout c -> Forall (is_part dbg c) ps -> apart ps -> NoDup (concat (map area ps)).
Proof.
  intros D F. induction F as [|p ps P F IH]; intros Ap; [constructor|]. destruct (apart_cons p ps Ap) as [Ap' Dj]. cbn [map concat].
  apply NoDup_app'; [|apply IH, Ap'|].
  - destruct (part_view dbg false false c p [] D P) as (v & _ & _ & _ & _ & _ & _ & Inj).
    apply NoDup_map_in; [|apply box_NoDup, (counts_nonneg dbg c p D P)]. intros x y Hx Hy. apply Inj; apply box_In; assumption.
  - intros x I J. apply area_In in I. apply areas_In in J. destruct J as (q & Iq & Cq). exact (Dj q x Iq I Cq).
Qed.
Lemma chosen_in dbg c p is_ : default_layout c -> is_part dbg c p -> chosen p is_ -> in_box (dims c) is_.
Proof.
  intros D P (js & B & ->). destruct (part_view dbg false false c p [] D P) as (v & _ & _ & _ & _ & _ & El & _). apply El, B.
Qed.
Lemma areas_permutation dbg c ps : default_layout c -> Forall (is_part dbg c) ps -> tiling c ps ->
  Permutation (box (dims c)) (concat (map area ps)).
Proof.
  intros D F (Cov & Ap). pose proof D as (Lg & _). apply NoDup_Permutation.
  - apply box_NoDup. apply Lg.
  - eapply areas_NoDup; eassumption.
  - intros x. rewrite box_In, areas_In. split; [apply Cov|]. intros (q & Iq & Cq). rewrite Forall_forall in F.
    eapply chosen_in; [exact D|apply F, Iq|exact Cq].
Qed.

(** ** Values *)
Lemma slices_ok dbg a b c ps : default_layout c -> Forall (is_part dbg c) ps ->
  exists vs, slices dbg a b c ps = Ok vs /\ Forall2 (fun p v => slice_container dbg a b c (cuts p) = Ok v) ps vs.
Proof.
  intros D F. unfold slices. induction F as [|p ps P F (vs & E & H)]; [exists []; split; [reflexivity|constructor]|].
  destruct (part_view_t dbg a b c p D P) as (v & Ev & _). exists (v :: vs). split; [|constructor; assumption].
  cbn [mapM]. rewrite Ev, bind_ok, E. reflexivity.
Qed.
Lemma area_values {T} (m : mem T) dbg a b c p v ws : default_layout c -> is_part dbg c p -> slice_container dbg a b c (cuts p) = Ok v ->
  (Forall2 (fun is_ x => value m c is_ x) (area p) ws <-> values m v v ws).
Proof.
  intros D P E. destruct (part_view_t dbg a b c p D P) as (v' & E' & Dv & _ & _ & _ & El & _). rewrite E in E'. injection E' as <-.
  unfold values, area. rewrite Dv.
  assert (H : forall js, In js (box (counts p)) -> elem v js = elem c (place (starts p) (steps p) js)) by (intros js I; apply El, box_In, I).
  revert ws H. generalize (box (counts p)) as l. induction l as [|x l IH]; intros ws H; cbn [map].
  - split; intros F; inversion F; constructor.
  - split; intros F; inversion F; subst; constructor; try (apply IH; [intros js I; apply H; right; exact I|assumption]);
      unfold value in *; [rewrite (H x (or_introl eq_refl))|rewrite <- (H x (or_introl eq_refl))]; assumption.
Qed.
Lemma tiles_values {T} (m : mem T) dbg a b c ps : default_layout c -> Forall (is_part dbg c) ps -> tiling c ps -> readable m c ->
  exists vs us wss, slices dbg a b c ps = Ok vs /\ values m c c us /\
    Forall2 (fun v ws => can_read m v v /\ values m v v ws) vs wss /\ Permutation us (concat wss).
Proof.
  intros D F Ti R. destruct (slices_ok dbg a b c ps D F) as (vs & E & Hv).
  destruct (values_exist m c c (default_can_read m c c D eq_refl R)) as (us & U).
  pose proof (areas_permutation dbg c ps D F Ti) as Pe. destruct (Permutation_Forall2 Pe U) as (us' & Pu & U').
  assert (G : exists wss, us' = concat wss /\ Forall2 (fun v ws => can_read m v v /\ values m v v ws) vs wss).
  { clear Pe Pu E U Ti us. revert us' U' F. induction Hv as [|p v ps vs Ev Hv IH]; intros us' U' F.
    - inversion U'; subst. exists []. split; [reflexivity|constructor].
    - inversion F as [|? ? Fp F']; subst. cbn [map concat] in U'. apply Forall2_app_inv_l in U'.
      destruct U' as (w1 & w2 & H1 & H2 & ->). destruct (IH w2 H2 F') as (wss & -> & H). exists (w1 :: wss).
      split; [reflexivity|]. constructor; [|exact H]. split; [eapply part_read; eassumption|].
      eapply area_values; eassumption. }
  destruct G as (wss & -> & H). exists vs, us, wss. auto.
Qed.

(** ** Algorithms *)
Lemma fold_permutation {A T} (f : A -> T -> A) l1 l2 : order_free f -> Permutation l1 l2 -> forall a, fold_left f l1 a = fold_left f l2 a.
Proof.
  intros O P. induction P; intros a; cbn [fold_left]; [reflexivity|apply IHP|rewrite O; reflexivity|rewrite IHP1; apply IHP2].
Qed.
Lemma reduce_each_l {T A} (f : A -> T -> A) m vs wss : Forall2 (fun v ws => can_read m v v /\ values m v v ws) vs wss -> forall acc,
  reduce_each vs f acc m = Ok (fold_left f (concat wss) acc, m).
Proof.
  intros H. induction H as [|v ws vs wss [CR V] H IH]; intros acc; [reflexivity|]. cbn [reduce_each concat].
  rewrite (reduce_l v f acc m ws CR V), bind_ok. cbn [fst snd]. rewrite IH, fold_left_app. reflexivity.
Qed.
Lemma reduce_tiles {T A} (m : mem T) dbg a b c ps (f : A -> T -> A) init : default_layout c -> Forall (is_part dbg c) ps -> tiling c ps ->
  readable m c -> order_free f ->
  exists vs r, slices dbg a b c ps = Ok vs /\ reduce_each vs f init m = Ok (r, m) /\ reduce c f init m = Ok (r, m).
Proof.
  intros D F Ti R O. destruct (tiles_values m dbg a b c ps D F Ti R) as (vs & us & wss & E & U & H & P).
  exists vs, (fold_left f us init). split; [exact E|]. split; [|apply reduce_l; [apply default_can_read; auto|exact U]].
  rewrite (reduce_each_l f m vs wss H). do 2 f_equal. apply fold_permutation; [exact O|apply Permutation_sym, P].
Qed.
Lemma filter_permutation {A} (f : A -> bool) l1 l2 : Permutation l1 l2 -> length (filter f l1) = length (filter f l2).
Proof. intros P. induction P; cbn [filter]; repeat destruct (f _); cbn [length]; lia. Qed.
Lemma count_tiles {T} (m : mem T) dbg a b c ps (f : T -> bool) : default_layout c -> Forall (is_part dbg c) ps -> tiling c ps ->
  readable m c ->
  exists vs ns, slices dbg a b c ps = Ok vs /\ Forall2 (fun v n => count_if v f m = Ok (n, m)) vs ns /\
    count_if c f m = Ok (fold_right Z.add 0 ns, m).
Proof.
  intros D F Ti R. destruct (tiles_values m dbg a b c ps D F Ti R) as (vs & us & wss & E & U & H & P).
  assert (Pc : prod (dims c) < 2 ^ 64).
  { destruct D as (Lg & _). pose proof (prod_le_posprod (dims c)) as Q. unfold dims in *. destruct Lg as (_ & N & B).
    specialize (Q N). lia. }
  assert (CR : can_read m c c) by (apply default_can_read; auto).
  pose proof (Forall2_len _ _ _ U) as Lu. pose proof (box_length (dims c) ltac:(apply D)) as Lb.
  exists vs, (map (fun ws => Z.of_nat (length (filter f ws))) wss). split; [exact E|]. split.
  - assert (Le : (length (concat wss) <= length us)%nat) by (rewrite (Permutation_length P); lia).
    clear P U E Ti R CR. revert Le. induction H as [|v ws vs wss [C V] H IH]; intros Le; [constructor|]. cbn [concat map] in *.
    rewrite app_length in Le. constructor; [|apply IH; lia].
    apply count_if_l; [exact C|exact V|]. destruct (live_wf m v (can_read_live _ _ _ C)) as [_ N].
    pose proof (box_length (dims v) N). pose proof (Forall2_len _ _ _ V). lia.
  - rewrite (count_if_l c f m us CR U Pc), (filter_permutation f _ _ P). do 2 f_equal. clear.
    induction wss as [|w wss IH]; [reflexivity|]. cbn [concat map fold_right]. rewrite filter_app, app_length. lia.
Qed.
Lemma all_any_tiles {T} (m : mem T) dbg a b c ps (f : T -> bool) : default_layout c -> Forall (is_part dbg c) ps -> tiling c ps ->
  readable m c ->
  exists vs xs ys, slices dbg a b c ps = Ok vs /\ Forall2 (fun v x => all_of v f m = Ok (x, m)) vs xs /\
    Forall2 (fun v y => any_of v f m = Ok (y, m)) vs ys /\
    all_of c f m = Ok (forallb (fun x => x) xs, m) /\ any_of c f m = Ok (existsb (fun y => y) ys, m).
Proof.
  intros D F Ti R. destruct (tiles_values m dbg a b c ps D F Ti R) as (vs & us & wss & E & U & H & P).
  assert (CR : can_read m c c) by (apply default_can_read; auto).
  assert (A1 : forall v ws, can_read m v v -> values m v v ws -> all_of v f m = Ok (forallb f ws, m)).
  { intros v ws C V. destruct (all_of_l v f m C) as (x & Ex & Hx). rewrite Ex. do 2 f_equal. apply eq_true_iff_eq. rewrite Hx, forallb_forall.
    split.
    - intros Q y I. apply (values_In m v ws y V) in I. destruct I as (is_ & B & Hy). eauto.
    - intros Q is_ y B Hy. apply Q. apply (values_In m v ws y V). eauto. }
  assert (A2 : forall v ws, can_read m v v -> values m v v ws -> any_of v f m = Ok (existsb f ws, m)).
  { intros v ws C V. destruct (any_of_l v f m C) as (x & Ex & Hx). rewrite Ex. do 2 f_equal. apply eq_true_iff_eq. rewrite Hx, existsb_exists.
    split.
    - intros (is_ & y & B & Hy & Fy). exists y. split; [apply (values_In m v ws y V); eauto|exact Fy].
    - intros (y & I & Fy). apply (values_In m v ws y V) in I. destruct I as (is_ & B & Hy). eauto 6. }
  exists vs, (map (forallb f) wss), (map (existsb f) wss). split; [exact E|].
  split; [clear -H A1; induction H as [|v ws vs wss [C V] H IH]; constructor; auto|].
  split; [clear -H A2; induction H as [|v ws vs wss [C V] H IH]; constructor; auto|].
  rewrite (A1 c us CR U), (A2 c us CR U). split; do 2 f_equal; apply eq_true_iff_eq.
  - rewrite !forallb_forall. split.
    + intros Q x I. apply in_map_iff in I. destruct I as (ws & <- & Iw). apply forallb_forall. intros y Iy. apply Q.
      apply (Permutation_in _ (Permutation_sym P)), in_concat. eauto.
    + intros Q y I. apply (Permutation_in _ P), in_concat in I. destruct I as (ws & Iw & Iy).
      assert (Z : forallb f ws = true) by (apply Q, in_map, Iw). rewrite forallb_forall in Z. auto.
  - rewrite !existsb_exists. split.
    + intros (y & I & Fy). apply (Permutation_in _ P), in_concat in I. destruct I as (ws & Iw & Iy).
      exists (existsb f ws). split; [apply in_map, Iw|]. apply existsb_exists. eauto.
    + intros (x & I & Ex). apply in_map_iff in I. destruct I as (ws & <- & Iw). apply existsb_exists in Ex. destruct Ex as (y & Iy & Fy).
      exists y. split; [apply (Permutation_in _ (Permutation_sym P)), in_concat; eauto|exact Fy].
Qed.

(** ** Writing *)
Lemma part_step {T} (m m' : mem T) dbg a b c p v : default_layout c -> is_part dbg c p -> slice_container dbg a b c (cuts p) = Ok v ->
  writable m c -> frame v v m m' ->
  (forall is_, in_box (dims c) is_ -> ~ chosen p is_ -> cell m' (elem c is_) = cell m (elem c is_)) /\
  (forall q, (forall is_, in_box (dims c) is_ -> q <> elem c is_) -> cell m' q = cell m q) /\ same_cells m m'.
Proof.
  intros D P E W (Sc & Fr). destruct (part_view_t dbg a b c p D P) as (v' & E' & Dv & _ & _ & _ & El & _).
  rewrite E in E'. injection E' as <-. split; [|split; [|exact Sc]].
  - intros is_ B N. apply Fr. intros js Bj Ee. rewrite Dv in Bj. destruct (El js Bj) as [B2 E2]. rewrite E2 in Ee.
    apply (proj1 (proj2 (proj2 (default_can_write m c c D eq_refl W)))) in Ee; [|assumption..]. apply N. exists js. auto.
  - intros q Hq. apply Fr. intros js Bj. rewrite Dv in Bj. destruct (El js Bj) as [B2 E2]. rewrite E2. apply Hq, B2.
Qed.
Lemma part_transform {T} (m : mem T) dbg a b c p v f : default_layout c -> is_part dbg c p -> slice_container dbg a b c (cuts p) = Ok v ->
  readable m c ->
  exists m', transform f v v [] m = Ok m' /\
    (forall is_ x, chosen p is_ -> value m c is_ x -> value m' c is_ (f [x])) /\
    (forall is_, in_box (dims c) is_ -> ~ chosen p is_ -> cell m' (elem c is_) = cell m (elem c is_)) /\
    (forall q, (forall is_, in_box (dims c) is_ -> q <> elem c is_) -> cell m' q = cell m q).
Proof.
  intros D P E R. pose proof (readable_writable m c R) as W. pose proof (part_write m dbg a b c p v D P E W) as Cw.
  destruct (transform_l f v v [] m Cw) as (m' & Et & V & F).
  - constructor; [eapply part_read; eassumption|constructor].
  - constructor; [|constructor]. apply distinct_no_cross. apply Cw.
  - destruct (part_step m m' dbg a b c p v D P E W F) as (S1 & S2 & _). exists m'. split; [exact Et|]. split; [|auto].
    destruct (part_view_t dbg a b c p D P) as (v' & E' & Dv & _ & _ & _ & El & _). rewrite E in E'. injection E' as <-.
    intros is_ x (js & B & ->) Hx. destruct (El js B) as [_ Ee]. unfold value in *. rewrite <- Ee in *. apply V; [rewrite Dv; exact B|].
    constructor; [exact Hx|constructor].
Qed.
Lemma part_fill {T} (m : mem T) dbg a b c p v x : default_layout c -> is_part dbg c p -> slice_container dbg a b c (cuts p) = Ok v ->
  writable m c ->
  exists m', fill v x m = Ok m' /\ (forall is_, chosen p is_ -> value m' c is_ x) /\
    (forall is_, in_box (dims c) is_ -> ~ chosen p is_ -> cell m' (elem c is_) = cell m (elem c is_)) /\
    (forall q, (forall is_, in_box (dims c) is_ -> q <> elem c is_) -> cell m' q = cell m q) /\ writable m' c.
Proof.
  intros D P E W. pose proof (part_write m dbg a b c p v D P E W) as Cw.
  destruct (fill_l v x m Cw) as (m' & Et & V & F). destruct (part_step m m' dbg a b c p v D P E W F) as (S1 & S2 & Sc).
  exists m'. split; [exact Et|]. split; [|split; [exact S1|split; [exact S2|intros i B; apply Sc, W, B]]].
  destruct (part_view_t dbg a b c p D P) as (v' & E' & Dv & _ & _ & _ & El & _). rewrite E in E'. injection E' as <-.
  intros is_ (js & B & ->). destruct (El js B) as [_ Ee]. unfold value in *. rewrite <- Ee. apply V. rewrite Dv. exact B.
Qed.
Lemma chosen_dec p is_ : {chosen p is_} + {~ chosen p is_}.
Proof.
  destruct (in_dec (list_eq_dec Z.eq_dec) is_ (area p)) as [I|I]; [left|right]; rewrite <- area_In; exact I.
Qed.
Lemma cell_value {T} (m m' : mem T) c is_ x : cell m' (elem c is_) = cell m (elem c is_) -> value m c is_ x -> value m' c is_ x.
Proof. unfold value, peek. intros ->. auto. Qed.
Lemma value_cell {T} (m m' : mem T) c is_ x : value m c is_ x -> value m' c is_ x -> cell m' (elem c is_) = cell m (elem c is_).
Proof.
  unfold value, peek. destruct (cell m (elem c is_)) as [[u|]|]; [|discriminate|discriminate]. intros [= ->].
  destruct (cell m' (elem c is_)) as [[w|]|]; [|discriminate|discriminate]. intros [= ->]. reflexivity.
Qed.
Lemma transform_each_l {T} dbg a b c ps f : default_layout c -> Forall (is_part dbg c) ps -> apart ps -> forall vs (m : mem T),
  Forall2 (fun p v => slice_container dbg a b c (cuts p) = Ok v) ps vs -> readable m c ->
  exists m', transform_each f vs m = Ok m' /\
    (forall is_ x p, In p ps -> chosen p is_ -> value m c is_ x -> value m' c is_ (f [x])) /\
    (forall is_, in_box (dims c) is_ -> (forall p, In p ps -> ~ chosen p is_) -> cell m' (elem c is_) = cell m (elem c is_)) /\
    (forall q, (forall is_, in_box (dims c) is_ -> q <> elem c is_) -> cell m' q = cell m q).
Proof.
  intros D F. induction F as [|p ps P F IH]; intros Ap vs m Hv R; inversion Hv as [|? v ? vs' Ev Hv']; subst.
  - exists m. cbn. split; [reflexivity|]. split; [intros ? ? ? []|]. auto.
  - destruct (apart_cons p ps Ap) as [Ap' Dj]. destruct (part_transform m dbg a b c p v f D P Ev R) as (m1 & E1 & V1 & K1 & O1).
    assert (R1 : readable m1 c).
    { intros i B. destruct (R i B) as (x & Hx). destruct (chosen_dec p i) as [C|C]; [exists (f [x]); exact (V1 i x C Hx)|].
      exists x. apply (cell_value m m1 c i x (K1 i B C) Hx). }
    destruct (IH Ap' vs' m1 Hv' R1) as (m' & E' & V' & K' & O'). exists m'. cbn [transform_each]. rewrite E1, bind_ok.
    split; [exact E'|]. split; [|split].
    + intros i x q [<-|I] C Hx.
      * assert (B : in_box (dims c) i) by (eapply chosen_in; eassumption).
        apply (cell_value m1 m' c i); [|exact (V1 i x C Hx)]. apply K'; [exact B|]. intros q I. exact (Dj q i I C).
      * assert (B : in_box (dims c) i) by (rewrite Forall_forall in F; eapply chosen_in; [exact D|exact (F q I)|exact C]).
        apply (V' i x q I C). apply (cell_value m m1 c i x); [|exact Hx]. apply K1; [exact B|]. intros Cp. exact (Dj q i I Cp C).
    + intros i B N. rewrite K'; [apply K1; [exact B|apply N; left; reflexivity]|exact B|]. intros q I. apply N. right. exact I.
    + intros q Hq. rewrite O' by exact Hq. apply O1, Hq.
Qed.
Lemma fill_each_l {T} dbg a b c ps (x : T) : default_layout c -> Forall (is_part dbg c) ps -> forall vs (m : mem T),
  Forall2 (fun p v => slice_container dbg a b c (cuts p) = Ok v) ps vs -> writable m c ->
  exists m', fill_each vs x m = Ok m' /\
    (forall is_ p, In p ps -> chosen p is_ -> value m' c is_ x) /\
    (forall is_, in_box (dims c) is_ -> (forall p, In p ps -> ~ chosen p is_) -> cell m' (elem c is_) = cell m (elem c is_)) /\
    (forall q, (forall is_, in_box (dims c) is_ -> q <> elem c is_) -> cell m' q = cell m q).
Proof.
  intros D F. induction F as [|p ps P F IH]; intros vs m Hv W; inversion Hv as [|? v ? vs' Ev Hv']; subst.
  - exists m. cbn. split; [reflexivity|]. split; [intros ? ? []|]. auto.
  - destruct (part_fill m dbg a b c p v x D P Ev W) as (m1 & E1 & V1 & K1 & O1 & W1).
    destruct (IH vs' m1 Hv' W1) as (m' & E' & V' & K' & O'). exists m'. cbn [fill_each]. rewrite E1, bind_ok.
    split; [exact E'|]. split; [|split].
    + intros i q [<-|I] C; [|eauto]. assert (B : in_box (dims c) i) by (eapply chosen_in; eassumption).
      destruct (existsb (fun q => if chosen_dec q i then true else false) ps) eqn:Ex.
      * apply existsb_exists in Ex. destruct Ex as (q & I & Hq). destruct (chosen_dec q i) as [Cq|]; [|discriminate]. exact (V' i q I Cq).
      * apply (cell_value m1 m' c i); [|exact (V1 i C)]. apply K'; [exact B|]. intros q I Cq.
        assert (Y : existsb (fun q => if chosen_dec q i then true else false) ps = true); [|congruence].
        apply existsb_exists. exists q. split; [exact I|]. destruct (chosen_dec q i); [reflexivity|contradiction].
    + intros i B N. rewrite K'; [apply K1; [exact B|apply N; left; reflexivity]|exact B|]. intros q I. apply N. right. exact I.
    + intros q Hq. rewrite O' by exact Hq. apply O1, Hq.
Qed.
Lemma elem_cases c q : (exists is_, in_box (dims c) is_ /\ q = elem c is_) \/ (forall is_, in_box (dims c) is_ -> q <> elem c is_).
Proof.
  destruct (in_dec ptr_eq_dec q (map (elem c) (box (dims c)))) as [I|I].
  - left. apply in_map_iff in I. destruct I as (i & <- & Ib). exists i. rewrite box_In in Ib. auto.
  - right. intros i B ->. apply I, in_map, box_In, B.
Qed.
Lemma transform_tiles {T} (m : mem T) dbg a b c ps f : default_layout c -> Forall (is_part dbg c) ps -> tiling c ps -> readable m c ->
  exists vs m1 m2, slices dbg a b c ps = Ok vs /\ transform_each f vs m = Ok m1 /\ transform f c c [] m = Ok m2 /\
    forall q, cell m1 q = cell m2 q.
Proof.
  intros D F (Cov & Ap) R. destruct (slices_ok dbg a b c ps D F) as (vs & E & Hv).
  destruct (transform_each_l dbg a b c ps f D F Ap vs m Hv R) as (m1 & E1 & V1 & _ & O1).
  pose proof (default_can_write m c c D eq_refl (readable_writable m c R)) as Cw.
  destruct (transform_l f c c [] m Cw) as (m2 & E2 & V2 & (_ & O2)).
  - constructor; [apply default_can_read; auto|constructor].
  - constructor; [|constructor]. apply distinct_no_cross. apply Cw.
  - exists vs, m1, m2. split; [exact E|]. split; [exact E1|]. split; [exact E2|]. intros q.
    destruct (elem_cases c q) as [(i & B & ->)|N]; [|rewrite O1, O2 by exact N; reflexivity].
    destruct (R i B) as (x & Hx). destruct (Cov i B) as (p & I & C). apply (value_cell m2 m1 c i (f [x])); [|eapply V1; eassumption].
    apply V2; [exact B|]. constructor; [exact Hx|constructor].
Qed.
Lemma fill_tiles {T} (m : mem T) dbg a b c ps x : default_layout c -> Forall (is_part dbg c) ps -> tiling c ps -> writable m c ->
  exists vs m1 m2, slices dbg a b c ps = Ok vs /\ fill_each vs x m = Ok m1 /\ fill c x m = Ok m2 /\
    forall q, cell m1 q = cell m2 q.
Proof.
  intros D F (Cov & Ap) W. destruct (slices_ok dbg a b c ps D F) as (vs & E & Hv).
  destruct (fill_each_l dbg a b c ps x D F vs m Hv W) as (m1 & E1 & V1 & _ & O1).
  destruct (fill_l c x m (default_can_write m c c D eq_refl W)) as (m2 & E2 & V2 & (_ & O2)).
  exists vs, m1, m2. split; [exact E|]. split; [exact E1|]. split; [exact E2|]. intros q.
  destruct (elem_cases c q) as [(i & B & ->)|N]; [|rewrite O1, O2 by exact N; reflexivity].
  destruct (Cov i B) as (p & I & C). apply (value_cell m2 m1 c i x); [apply V2, B|eapply V1; eassumption].
Qed.
Lemma tiles_disjoint {T} (m : mem T) dbg a b c ps i j p q v w : default_layout c -> Forall (is_part dbg c) ps -> tiling c ps -> writable m c ->
  nth_error ps i = Some p -> nth_error ps j = Some q -> i <> j ->
  slice_container dbg a b c (cuts p) = Ok v -> slice_container dbg a b c (cuts q) = Ok w ->
  forall x y, in_box (dims v) x -> in_box (dims w) y -> elem v x <> elem w y.
Proof.
  intros D F (_ & Ap) W Ei Ej Ne Ev Ew x y Bx By Ee. rewrite Forall_forall in F.
  assert (P : is_part dbg c p) by (apply F; eapply nth_error_In; exact Ei).
  assert (Q : is_part dbg c q) by (apply F; eapply nth_error_In; exact Ej).
  destruct (part_view_t dbg a b c p D P) as (v' & Ev' & Dv & _ & _ & _ & Elv & _). rewrite Ev in Ev'. injection Ev' as <-.
  destruct (part_view_t dbg a b c q D Q) as (w' & Ew' & Dw & _ & _ & _ & Elw & _). rewrite Ew in Ew'. injection Ew' as <-.
  rewrite Dv in Bx. rewrite Dw in By. destruct (Elv x Bx) as [B1 E1]. destruct (Elw y By) as [B2 E2]. rewrite E1, E2 in Ee.
  apply (proj1 (proj2 (proj2 (default_can_write m c c D eq_refl W)))) in Ee; [|assumption..].
  apply Ne. apply (Ap i j p q (place (starts p) (steps p) x) Ei Ej); [exists x; auto|exists y; auto].
Qed.

(** ** Blocks of rows *)
Lemma place_whole rest js : in_box (vals rest) js -> place (repeat 0 (length rest)) (repeat 1 (length rest)) js = js.
Proof.
  revert js. induction rest as [|n rest IH]; intros js B; inversion B; subst; [reflexivity|]. cbn [length repeat place].
  rewrite IH by assumption. f_equal. lia.
Qed.
Lemma block_area rest sl o k : 0 <= k ->
  area (block rest sl o k) = flat_map (fun i => map (cons i) (box (vals rest))) (zrange o (Z.to_nat k)).
Proof.
  intros K. unfold area, block. cbn [starts steps counts box].
  rewrite <- (Z.add_0_r o) at 2. rewrite <- zrange_shift. rewrite !flat_map_concat_map, concat_map, !map_map. f_equal.
  apply map_ext. intros i. rewrite !map_map. apply map_ext_in. intros js I. cbn [place]. rewrite place_whole by (apply box_In, I).
  f_equal. lia.
Qed.
Lemma takes_inside n sl o k : takes n sl o k 1 -> 0 < k -> 0 <= o -> o + k <= cval n -> inside n o k 1.
Proof. intros _ K O L. unfold inside. lia. Qed.
Lemma rest_sliced rest : Forall (fun n => 0 < cval n) rest ->
  sliced_each rest (repeat SAll (length rest)) (repeat 0 (length rest)) (vals rest) (repeat 1 (length rest)).
Proof.
  induction 1 as [|n rest H F IH]; [constructor|]. cbn. constructor; [constructor|unfold inside; lia|exact IH].
Qed.
Lemma consecutive_le n (rest : list cint) l : forall o, consecutive n rest o l -> o <= cval n.
Proof. induction l as [|[sl k] l IH]; intros o C; cbn in C; [lia|]. destruct C as (_ & _ & K & C). apply IH in C. lia. Qed.
Lemma blocks_parts dbg c n rest l : forall o, c_shape c = n :: rest -> Forall (fun n => 0 < cval n) rest -> 0 <= o ->
  consecutive n rest o l -> (dbg = true -> Forall wide (map fst l)) -> Forall (is_part dbg c) (blocks rest o l).
Proof.
  induction l as [|[sl k] l IH]; intros o Sh Po O C Wd; [constructor|]. cbn [blocks]. destruct C as (Tk & Sm & K & C).
  pose proof (consecutive_le n rest l (o + k) C) as Le. constructor.
  - split; [|split].
    + rewrite Sh. unfold block. cbn [cuts starts counts steps]. split; [exact Sm|]. constructor; [exact Tk|eapply takes_inside; eauto; lia|apply rest_sliced, Po].
    + intros Hd. specialize (Wd Hd). cbn in Wd. inversion Wd; subst. constructor; [assumption|]. cbn. clear. induction (length rest); constructor; [exact I|assumption].
    + cbn. constructor; [lia|]. clear. induction (length rest); constructor; [lia|assumption].
  - apply IH; try assumption; [lia|]. intros Hd. specialize (Wd Hd). inversion Wd; assumption.
Qed.
Lemma blocks_area n rest l : forall o, consecutive n rest o l ->
  concat (map area (blocks rest o l)) = flat_map (fun i => map (cons i) (box (vals rest))) (zrange o (Z.to_nat (cval n - o))).
Proof.
  induction l as [|[sl k] l IH]; intros o C; cbn [blocks map concat].
  - cbn in C. subst. rewrite Z.sub_diag. reflexivity.
  - destruct C as (Tk & _ & K & C). rewrite (IH _ C), block_area by lia. pose proof (consecutive_le n rest l _ C) as Le.
    replace (Z.to_nat (cval n - o)) with (Z.to_nat k + Z.to_nat (cval n - (o + k)))%nat by lia.
    rewrite zrange_app, flat_map_app. do 3 f_equal. lia.
Qed.
Lemma blocks_values {T} (m : mem T) dbg a b c n rest l : default_layout c -> c_shape c = n :: rest -> Forall (fun n => 0 < cval n) rest ->
  consecutive n rest 0 l -> (dbg = true -> Forall wide (map fst l)) -> readable m c ->
  exists vs us wss, slices dbg a b c (blocks rest 0 l) = Ok vs /\ values m c c us /\
    Forall2 (fun v ws => can_read m v v /\ values m v v ws) vs wss /\ us = concat wss.
Proof.
  intros D Sh Po C Wd R. pose proof (blocks_parts dbg c n rest l 0 Sh Po ltac:(lia) C Wd) as F.
  destruct (slices_ok dbg a b c _ D F) as (vs & E & Hv).
  destruct (values_exist m c c (default_can_read m c c D eq_refl R)) as (us & U).
  assert (U' : Forall2 (fun is_ x => value m c is_ x) (concat (map area (blocks rest 0 l))) us).
  { rewrite (blocks_area n rest l 0 C), Z.sub_0_r. unfold values, dims in U. rewrite Sh in U. exact U. }
  assert (G : exists wss, us = concat wss /\ Forall2 (fun v ws => can_read m v v /\ values m v v ws) vs wss).
  { clear E U C Wd. revert us U' F. induction Hv as [|p v ps vs Ev Hv IH]; intros us' U' F.
    - inversion U'; subst. exists []. split; [reflexivity|constructor].
    - inversion F as [|? ? Fp F']; subst. cbn [map concat] in U'. apply Forall2_app_inv_l in U'.
      destruct U' as (w1 & w2 & H1 & H2 & ->). destruct (IH w2 H2 F') as (wss & -> & H). exists (w1 :: wss).
      split; [reflexivity|]. constructor; [|exact H]. split; [eapply part_read; eassumption|].
      eapply area_values; eassumption. }
  destruct G as (wss & -> & H). exists vs, (concat wss), wss. auto.
Qed.
Lemma reduce_blocks {T A} (m : mem T) dbg a b c n rest l (f : A -> T -> A) init : default_layout c -> c_shape c = n :: rest ->
  Forall (fun n => 0 < cval n) rest -> consecutive n rest 0 l -> (dbg = true -> Forall wide (map fst l)) -> readable m c ->
  exists vs r, slices dbg a b c (blocks rest 0 l) = Ok vs /\ reduce_each vs f init m = Ok (r, m) /\ reduce c f init m = Ok (r, m).
Proof.
  intros D Sh Po C Wd R. destruct (blocks_values m dbg a b c n rest l D Sh Po C Wd R) as (vs & us & wss & E & U & H & ->).
  exists vs, (fold_left f (concat wss) init). split; [exact E|]. split; [apply reduce_each_l, H|].
  apply reduce_l; [apply default_can_read; auto|exact U].
Qed.
Lemma blocks_tiling dbg c n rest l : default_layout c -> c_shape c = n :: rest -> Forall (fun n => 0 < cval n) rest ->
  consecutive n rest 0 l -> (dbg = true -> Forall wide (map fst l)) -> Forall (is_part dbg c) (blocks rest 0 l) /\ tiling c (blocks rest 0 l).
Proof.
  intros D Sh Po C Wd. split; [eapply blocks_parts; eauto; lia|]. split.
  - intros is_ B. apply areas_In. rewrite (blocks_area n rest l 0 C), Z.sub_0_r. apply box_In in B. unfold dims in B. rewrite Sh in B. exact B.
  - assert (H : forall l o i p is_, consecutive n rest o l -> nth_error (blocks rest o l) i = Some p -> chosen p is_ ->
      exists x r, is_ = x :: r /\ o <= x /\ forall j q, (j < i)%nat -> nth_error (blocks rest o l) j = Some q -> ~ chosen q is_).
    { clear. induction l as [|[sl k] l IH]; intros o i p is_ C Ei Ch; [destruct i; discriminate|]. destruct C as (_ & _ & K & C).
      destruct i as [|i]; cbn [blocks nth_error] in Ei.
      - injection Ei as <-. destruct Ch as (js & B & ->). cbn [block counts starts steps] in *. inversion B; subst.
        cbn [place]. eexists _, _. split; [reflexivity|]. split; [lia|]. intros j q Hj. lia.
      - destruct (IH (o + k) i p is_ C Ei Ch) as (x & r & -> & Lx & Nx). exists x, r. split; [reflexivity|]. split; [lia|].
        intros [|j] q Hj Ej Cq; cbn [blocks nth_error] in Ej; [|apply (Nx j q); [lia|exact Ej|exact Cq]].
        injection Ej as <-. destruct Cq as (js & B & Ep). cbn [block counts starts steps] in *. inversion B; subst.
        cbn [place] in Ep. injection Ep as -> _. lia. }
    intros i j p q is_ Ei Ej Cp Cq. destruct (Nat.lt_trichotomy i j) as [L|[L|L]]; [exfalso|exact L|exfalso].
    + destruct (H l 0 j q is_ C Ej Cq) as (_ & _ & _ & _ & N). exact (N i p L Ei Cp).
    + destruct (H l 0 i p is_ C Ei Cp) as (_ & _ & _ & _ & N). exact (N j q L Ej Cq).
Qed.

(** A block of rows is laid out like a table: it can be sliced again. *)
Lemma times_ones ds : times (repeat 1 (length ds)) ds = ds.
Proof. induction ds as [|d ds IH]; [reflexivity|]. cbn [length repeat times]. rewrite IH. f_equal. lia. Qed.
Lemma slice_block d1 d2 a1 b1 a2 b2 c n rest sl o k v1 p2 b off : default_layout c -> c_shape c = n :: rest ->
  is_part d1 c (block rest sl o k) -> slice_container d1 a1 b1 c (cuts (block rest sl o k)) = Ok v1 ->
  is_part d2 v1 p2 -> Forall (fun x => Z.abs x <= 2147483647) (times (steps p2) (strides_z v1)) -> c_data c = Ptr b off ->
  exists v2, slice_container d2 a2 b2 v1 (cuts p2) = Ok v2 /\ dims v2 = counts p2 /\
    forall js, in_box (counts p2) js -> elem v2 js = elem v1 (place (starts p2) (steps p2) js).
Proof.
  intros D Sh P1 E1 (S2 & W2 & Po2) Tm Dt. pose proof P1 as (S1 & W1 & Po1).
  destruct (slice_slice_l d1 d2 a1 b1 a2 b2 c (cuts (block rest sl o k)) (cuts p2) _ _ _ (starts p2) (counts p2) (steps p2) v1 b off
    D S1 W1 Po1 E1 S2 W2 Po2 Tm Dt) as (v2 & E2 & D2 & El2).
  exists v2. split; [exact E2|]. split; [exact D2|]. intros js B.
  destruct (part_view_t d1 a1 b1 c _ D P1) as (v1' & E1' & Dv & Lv & _ & Sz & El & _). rewrite E1 in E1'. injection E1' as <-.
  assert (Bp : in_box (dims v1) (place (starts p2) (steps p2) js)).
  { unfold dims. eapply sliced_place; [apply legal_axis, Lv|exact S2|exact B]. }
  rewrite Dv in Bp. destruct (El _ Bp) as [_ ->]. apply El2; [exact B|].
  destruct (sliced_length _ _ _ _ _ S2) as (_ & Lo & _). pose proof (f_equal (@length _) Dv) as Ld. unfold dims, vals in Ld.
  rewrite map_length in Ld. rewrite rank_dot by congruence. f_equal. cbn [block counts steps]. unfold dims. rewrite Sh. cbn [vals map].
  cbn [strides_of times]. f_equal; [symmetry; apply Z.mul_1_l|]. fold (vals rest).
  replace (length rest) with (length (strides_of (vals rest))) by (rewrite strides_of_length; unfold vals; apply map_length).
  symmetry. apply times_ones.
Qed.

(** ** Checking a tiling *)
Definition inb (x : list Z) (l : list (list Z)) : bool := if in_dec (list_eq_dec Z.eq_dec) x l then true else false.
Fixpoint apartb (ps : list part) : bool :=
  match ps with
  | [] => true
  | p :: ps => forallb (fun q => forallb (fun x => negb (inb x (area q))) (area p)) ps && apartb ps
  end.
Lemma apartb_ok ps : apartb ps = true -> apart ps.
Proof.
  induction ps as [|p ps IH]; intros H; [intros [|i]; discriminate|]. cbn in H. apply andb_true_iff in H. destruct H as [H1 H2].
  specialize (IH H2). rewrite forallb_forall in H1.
  assert (G : forall j q is_, nth_error ps j = Some q -> chosen p is_ -> ~ chosen q is_).
  { intros j q x E C Cq. specialize (H1 q (nth_error_In _ _ E)). rewrite forallb_forall in H1. apply area_In in C. specialize (H1 x C).
    apply area_In in Cq. unfold inb in H1. destruct (in_dec _ x (area q)); [discriminate|contradiction]. }
  intros [|i] [|j] q r x Ei Ej C1 C2; cbn [nth_error] in Ei, Ej.
  - reflexivity.
  - injection Ei as <-. destruct (G j r x Ej C1 C2).
  - injection Ej as <-. destruct (G i q x Ei C2 C1).
  - f_equal. eapply IH; eassumption.
Qed.
Lemma tiling_check c ps : forallb (fun x => inb x (concat (map area ps))) (box (dims c)) && apartb ps = true -> tiling c ps.
Proof.
  intros H. apply andb_true_iff in H. destruct H as [H1 H2]. split; [|apply apartb_ok, H2].
  intros x B. rewrite forallb_forall in H1. apply box_In in B. specialize (H1 x B). unfold inb in H1.
  destruct (in_dec _ x _) as [I|]; [|discriminate]. apply areas_In, I.
Qed.
