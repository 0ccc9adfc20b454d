From Coq Require Import ZArith List Bool Lia Sorted.
From Verif Require Import Outcome CInt CIntFacts Spec SpecFacts ShapeSpec Shape ShapeFacts ShapeFacts2 ForEach ForEachSpec ForEachFacts
  Memory MemFacts Container ContainerSpec ContainerFacts ContainerFacts2 ContainerFacts3 Algo AlgoSpec AlgoFacts AlgoFacts2 AlgoFacts3 AlgoFacts4
  Slicer SlicerSpec LawFacts SplitSpec SplitFacts OverlapSpec OverlapFacts.
Import ListNotations.
Open Scope Z_scope.

(** ** Tiles *)
Lemma place_order os : forall ps ss a b, length os = length ss -> length ps = length ss -> length a = length ss -> length b = length ss ->
  Forall (fun s => 0 < s) ss -> not_after os ps -> lex a b -> place os ss a <> place ps ss b.
Proof.
  induction os as [|o os IH]; intros ps ss a b L1 L2 L3 L4 P N X E;
    destruct ss as [|s ss]; try discriminate; destruct ps as [|p ps]; try discriminate;
    destruct a as [|i a]; try discriminate; destruct b as [|j b]; try discriminate.
  - inversion X.
  - cbn [place] in E. injection E as E1 E2. inversion P; subst.
    assert (C : o < p \/ (o = p /\ not_after os ps)).
    { destruct N as [N|N]; [injection N as -> ->; right; split; [reflexivity|left; reflexivity]|].
      inversion N; subst; [left; assumption|right; split; [reflexivity|right; assumption]]. }
    assert (D : i < j \/ (i = j /\ lex a b)) by (inversion X; subst; auto).
    destruct C as [C|[-> C]].
    + destruct D as [D|[-> _]]; nia.
    + destruct D as [D|[-> D]]; [nia|]. cbn in *. apply (IH ps ss a b); auto; lia.
Qed.

Lemma sliced_lengths ns sls os ks ss : sliced ns sls os ks ss ->
  length os = length ns /\ length ks = length ns /\ length ss = length ns.
Proof. intros [_ S]. induction S; cbn; intuition lia. Qed.

Lemma tile_copy_l {T} (m : mem T) d1 a1 b1 d2 a2 b2 c p q : default_layout c -> is_part d1 c p -> is_part d2 c q ->
  counts p = counts q -> steps p = steps q -> not_after (starts p) (starts q) -> readable m c ->
  exists vp vq m', slice_container d1 a1 b1 c (cuts p) = Ok vp /\ slice_container d2 a2 b2 c (cuts q) = Ok vq /\ copy vp vq m = Ok m' /\
    (forall js v, in_box (counts p) js -> value m c (place (starts q) (steps q) js) v ->
       value m' c (place (starts p) (steps p) js) v) /\
    (forall is_, in_box (dims c) is_ -> ~ chosen p is_ -> cell m' (elem c is_) = cell m (elem c is_)) /\ frame c c m m'.
Proof.
  intros D P Q Ec Es N R.
  destruct (part_view_t d1 a1 b1 c p D P) as (vp & Ep & Dp & _ & _ & _ & Elp & _).
  destruct (part_view d2 a2 b2 c q (ctypes vp) D Q) as (vq & Eq & Dq & _ & Aq & _ & Elq & _).
  assert (Rw : writable m c).
  { intros i Bi. destruct (R i Bi) as (v & Hv). unfold valid. eapply peek_valid. exact Hv. }
  pose proof (part_write m d1 a1 b1 c p vp D P Ep Rw) as CW.
  assert (CR : can_read m vp vq).
  { split; [exact Aq|]. split; [intros i Bi; rewrite Dq, <- Ec, <- Dp; exact Bi|].
    intros i Bi. rewrite Dp, Ec in Bi. destruct (Elq i Bi) as [B2 Ee]. destruct (R _ B2) as (v & Hv).
    exists v. unfold value. rewrite Ee. exact Hv. }
  assert (RA : reads_ahead vp vq).
  { intros a b Ba Bb L Ee. rewrite Dp in Ba, Bb. destruct (Elp a Ba) as [Ca Ea]. 
    pose proof Bb as Bb'. rewrite Ec in Bb'. destruct (Elq b Bb') as [Cb Eb]. rewrite Ea, Eb in Ee.
    apply (proj1 (proj2 (proj2 (default_can_write m c c D eq_refl Rw)))) in Ee; [|assumption..].
    symmetry in Ee. rewrite <- Es in Ee. revert Ee.
    destruct P as (Sp & _ & Pp), Q as (Sq & _ & _).
    destruct (sliced_lengths _ _ _ _ _ Sp) as (l1 & l2 & l3), (sliced_lengths _ _ _ _ _ Sq) as (l4 & l5 & l6).
    apply in_box_length in Ba, Bb. apply place_order; try assumption; congruence. }
  destruct (copy_ahead_l vp vq m CW CR RA) as (m' & E & V & F). exists vp, vq, m'.
  split; [exact Ep|]. split; [exact Eq|]. split; [exact E|]. destruct F as [Fs Fo].
  assert (O : forall is_, in_box (dims c) is_ -> ~ chosen p is_ -> cell m' (elem c is_) = cell m (elem c is_)).
  { intros i Bi Nc. apply Fo. intros j Bj Ee. rewrite Dp in Bj. destruct (Elp j Bj) as [Cj Ej]. rewrite Ej in Ee.
    apply (proj1 (proj2 (proj2 (default_can_write m c c D eq_refl Rw)))) in Ee; [|assumption..].
    apply Nc. exists j. auto. }
  split; [|split; [exact O|]].
  - intros js v B Hv. destruct (Elp js B) as [_ Ee]. pose proof B as B'. rewrite Ec in B'. destruct (Elq js B') as [_ Eq'].
    unfold value in *. rewrite <- Ee. apply V; [rewrite Dp; exact B|]. rewrite Eq'. exact Hv.
  - split; [exact Fs|]. intros r Hr. apply Fo. intros j Bj ->. rewrite Dp in Bj. destruct (Elp j Bj) as [Cj Ej].
    apply (Hr _ Cj). exact Ej.
Qed.

(** ** Shifts along consecutive elements *)
Lemma box_ones ns is_ : in_box ns is_ -> Forall (fun n => 1 <= n) ns.
Proof. induction 1; constructor; [lia|assumption]. Qed.

Lemma shift_down_l {T} (m : mem T) out c b o k : can_write m out out -> can_read m out c -> dims c = dims out ->
  in_a_row c b o -> in_a_row out b (o + k) -> k <= 0 ->
  exists m', copy out c m = Ok m' /\
    (forall is_ v, in_box (dims out) is_ -> value m c is_ v -> value m' out is_ v) /\ frame out out m m'.
Proof.
  intros CW CR D Rc Ro K. apply copy_ahead_l; try assumption.
  intros x y Bx By L E. rewrite (Rc y), (Ro x) in E by (rewrite ?D; assumption). rewrite D in E. injection E as E.
  apply (rank_lex _ _ _ Bx By) in L. lia.
Qed.

Lemma shift_up_l {T} (m : mem T) out c b o k : can_write m out out -> can_read m out c -> dims c = dims out ->
  in_a_row c b o -> in_a_row out b (o + k) -> 0 < k ->
  exists m', copy out c m = Ok m' /\
    (forall is_ js v, in_box (dims out) is_ -> in_box (dims out) js -> rank (dims out) js = rank (dims out) is_ mod k ->
       value m c js v -> value m' out is_ v) /\ frame out out m m'.
Proof.
  intros CW CR D Rc Ro K. destruct (copy_overlap_l out c m CW CR) as (m' & E & F & R). exists m'.
  split; [exact E|]. split; [|exact F].
  assert (G : forall n is_ js v, rank (dims out) is_ < n -> in_box (dims out) is_ -> in_box (dims out) js ->
            rank (dims out) js = rank (dims out) is_ mod k -> value m c js v -> value m' out is_ v).
  { intros n. destruct (Z.neg_nonneg_cases n) as [Hn|Hn].
    { intros is_ js v L B. pose proof (rank_range _ _ B). lia. }
    revert n Hn. apply (natlike_ind (fun n => forall is_ js v, rank (dims out) is_ < n -> in_box (dims out) is_ -> in_box (dims out) js ->
            rank (dims out) js = rank (dims out) is_ mod k -> value m c js v -> value m' out is_ v)).
    { intros is_ js v L B. pose proof (rank_range _ _ B). lia. }
    intros n Hn IH is_ js v L B Bj Ej Hv. destruct (R is_ B) as (w & S & W).
    pose proof (rank_range _ _ B) as Rr.
    destruct S as [(a & Ba & La & Ea & Wa)|[Na Wc]].
    - rewrite (Rc is_), (Ro a) in Ea by (rewrite ?D; assumption). rewrite D in Ea. injection Ea as Ea.
      assert (X : rank (dims out) a = rank (dims out) is_ - 1 * k) by lia.
      assert (Ha : value m' out a v).
      { apply (IH a js v); try assumption; [lia|]. rewrite Ej, X. rewrite <- (Z_mod_plus_full (rank (dims out) is_) (-1) k). f_equal. lia. }
      assert (v = w) by (unfold value in *; congruence). subst w. exact W.
    - destruct (Z_lt_le_dec (rank (dims out) is_) k) as [Lt|Ge].
      + rewrite Z.mod_small in Ej by lia. apply rank_inj in Ej; [|assumption..]. subst js.
        assert (v = w) by (unfold value in *; congruence). subst w. exact W.
      + exfalso. destruct (dims out) as [|n0 ns] eqn:Dd.
        { rewrite ?Dd in Rr, Ge. cbn [prod] in Rr. change (prod []) with 1 in Rr. lia. }
        destruct (rank_surj (n0 :: ns) (rank (n0 :: ns) is_ - k)) as (a & Ba & Ra).
        { apply (box_ones _ is_). exact B. } { discriminate. } { lia. }
        apply (Na a Ba); [apply (rank_lex _ _ _ Ba B); lia|].
        rewrite (Rc is_), (Ro a) by (rewrite ?D, ?Dd; assumption). rewrite D, Dd, Ra. f_equal. lia. }
  intros is_ js v B. apply (G (rank (dims out) is_ + 1)); [lia|exact B].
Qed.

(** ** Recurrences *)
Lemma Forall2_nth {A B} (P : A -> B -> Prop) l : forall l', length l = length l' ->
  (forall i x, nth_error l i = Some x -> exists y, nth_error l' i = Some y /\ P x y) -> Forall2 P l l'.
Proof.
  induction l as [|x l IH]; intros [|y l'] L H; try discriminate; [constructor|]. constructor.
  - destruct (H 0%nat x eq_refl) as (z & E & Q). injection E as ->. exact Q.
  - apply IH; [cbn in L; lia|]. intros i z E. exact (H (S i) z E).
Qed.
Lemma running_length {T} (f : T -> T -> T) vs : forall a, length (running f a vs) = length vs.
Proof. induction vs; intros; cbn; auto. Qed.
Lemma running_0 {T} (f : T -> T -> T) a vs v : nth_error vs 0 = Some v -> nth_error (running f a vs) 0 = Some (f a v).
Proof. destruct vs; cbn; intros E; [discriminate|]. injection E as ->. reflexivity. Qed.
Lemma running_S {T} (f : T -> T -> T) vs : forall a k x v, nth_error (running f a vs) k = Some x -> nth_error vs (S k) = Some v ->
  nth_error (running f a vs) (S k) = Some (f x v).
Proof.
  induction vs as [|w vs IH]; intros a k x v E1 E2; [discriminate|]. destruct k as [|k]; cbn [running nth_error] in *.
  - injection E1 as <-. apply running_0. exact E2.
  - exact (IH _ _ _ _ E1 E2).
Qed.
Lemma box_nth_rank ns i is_ : nonnegs ns -> nth_error (box ns) i = Some is_ -> rank ns is_ = Z.of_nat i.
Proof.
  intros N E. pose proof (box_rank_zrange ns N) as R.
  assert (L : (i < length (box ns))%nat) by (apply nth_error_Some; congruence).
  apply (map_nth_error (rank ns)) in E. rewrite R in E.
  assert (Z0 : forall k s n, (n < k)%nat -> nth_error (zrange s k) n = Some (s + Z.of_nat n)).
  { clear. induction k as [|k IH]; intros s [|n] H; try lia; cbn [zrange nth_error].
    - f_equal. lia.
    - rewrite IH by lia. f_equal. lia. }
  rewrite Z0 in E by exact L. injection E as <-. lia.
Qed.

Lemma recurrence_l {T} (m : mem T) g out c b o a vs : can_write m out out -> can_read m out c -> can_read m out out -> dims c = dims out ->
  in_a_row c b o -> in_a_row out b (o + 1) ->
  (forall is_ v, in_box (dims out) is_ -> rank (dims out) is_ = 0 -> value m c is_ v -> v = a) -> values m out out vs ->
  exists m', transform (fun xs => match xs with [x; y] => g x y | _ => a end) out c [out] m = Ok m' /\
    values m' out out (running g a vs) /\ frame out out m m'.
Proof.
  intros CW CR CR2 D Rc Ro Ha Hvs.
  set (f := fun xs => match xs with [x; y] => g x y | _ => a end).
  destruct (transform_overlap_l f out c [out] m CW ltac:(constructor; [exact CR|constructor; [exact CR2|constructor]])) as (m' & E & F & R).
  exists m'. split; [exact E|]. split; [|exact F].
  destruct (live_wf m out (can_write_live _ _ _ CW)) as [_ Nn].
  pose proof CW as (_ & _ & Dst & _).
  assert (Own : forall y w, in_box (dims out) y -> sees m m' out out y w -> value m out y w).
  { intros y w By. apply sees_ahead; [|exact By]. intros u v Bu Bv L Eq. apply Dst in Eq; [|assumption..]. subst. exact (lex_irrefl _ L). }
  assert (G : forall i is_, nth_error (box (dims out)) i = Some is_ ->
            exists x, nth_error (running g a vs) i = Some x /\ value m' out is_ x).
  { induction i as [|i IH]; intros is_ Ei.
    - pose proof (box_nth_rank _ _ _ Nn Ei) as R0. assert (B : in_box (dims out) is_) by (apply box_In; eapply nth_error_In; exact Ei).
      destruct (R is_ B) as (xs & S & V). inversion S as [|? x ? l S1 S2]; subst. inversion S2 as [|? y ? l' S3 S4]; subst. inversion S4; subst.
      apply Own in S3; [|exact B]. pose proof (values_rank m out vs is_ y Nn Hvs B S3) as Y. rewrite R0 in Y. cbn in Y.
      destruct S1 as [(z & Bz & Lz & Ez & _)|[_ Vx]].
      + apply (rank_lex _ _ _ Bz B) in Lz. pose proof (rank_range _ _ Bz). lia.
      + assert (x = a) by (eapply Ha; eassumption). subst x. exists (g a y). split; [apply running_0; exact Y|exact V].
    - pose proof (box_nth_rank _ _ _ Nn Ei) as R0. assert (B : in_box (dims out) is_) by (apply box_In; eapply nth_error_In; exact Ei).
      assert (Lt : (i < length (box (dims out)))%nat) by (assert (S i < length (box (dims out)))%nat by (apply nth_error_Some; congruence); lia).
      destruct (nth_error (box (dims out)) i) as [js|] eqn:Ej; [|apply nth_error_None in Ej; lia].
      destruct (IH js eq_refl) as (w & Ew & Vw).
      pose proof (box_nth_rank _ _ _ Nn Ej) as Rj. assert (Bj : in_box (dims out) js) by (apply box_In; eapply nth_error_In; exact Ej).
      destruct (R is_ B) as (xs & S & V). inversion S as [|? x ? l S1 S2]; subst. inversion S2 as [|? y ? l' S3 S4]; subst. inversion S4; subst.
      apply Own in S3; [|exact B]. pose proof (values_rank m out vs is_ y Nn Hvs B S3) as Y. rewrite R0 in Y. rewrite Nat2Z.id in Y.
      assert (Eq : elem c is_ = elem out js) by (rewrite (Rc is_), (Ro js) by (rewrite ?D; assumption); rewrite D, R0, Rj; f_equal; lia).
      destruct S1 as [(z & Bz & Lz & Ez & Vz)|[Nz _]].
      + rewrite Eq in Ez. apply Dst in Ez; [|assumption..]. subst z.
        assert (x = w) by (unfold value in *; congruence). subst x.
        exists (g w y). split; [apply running_S; assumption|exact V].
      + destruct (Nz js Bj); [apply (rank_lex _ _ _ Bj B); lia|exact Eq]. }
  apply Forall2_nth; [rewrite running_length; exact (Forall2_len _ _ _ Hvs)|].
  intros i x Ei. destruct (G i x Ei) as (y & Ey & Vy). exists y. auto.
Qed.

(** Containers without strides, and their blocks of whole rows. *)
Lemma default_row c b o : default_layout c -> c_data c = Ptr b o -> in_a_row c b o.
Proof. intros D E i B. rewrite (default_elem c i D B), E. reflexivity. Qed.

Lemma block_row dbg a1 b1 c n rest sl s k v b o : default_layout c -> c_data c = Ptr b o -> c_shape c = n :: rest ->
  is_part dbg c (block rest sl s k) -> slice_container dbg a1 b1 c (cuts (block rest sl s k)) = Ok v ->
  in_a_row v b (o + s * prod (vals rest)).
Proof.
  intros D Eb Sh P E. destruct (part_view_t dbg a1 b1 c _ D P) as (v' & E' & Dv & _ & _ & _ & El & _).
  rewrite E in E'. injection E' as <-. cbn [block counts starts steps] in *.
  intros js B. rewrite Dv in B. inversion B as [|n' ns' j js' Hj Hjs]; subst.
  destruct (El (j :: js') B) as [B2 ->]. cbn [place] in *. rewrite place_whole in * by exact Hjs.
  rewrite (default_elem c _ D B2), Eb, Dv. unfold padd. f_equal.
  unfold dims. rewrite Sh. unfold vals. cbn [map]. fold (vals rest). rewrite !rank_cons by (apply in_box_length; exact Hjs). lia.
Qed.

Lemma rows_up_l {T} (m : mem T) d1 a1 b1 d2 a2 b2 c n rest slp slq s k h b o : default_layout c -> c_shape c = n :: rest -> c_data c = Ptr b o ->
  is_part d1 c (block rest slp (s + k) h) -> is_part d2 c (block rest slq s h) -> 0 < k -> readable m c ->
  exists vp vq m', slice_container d1 a1 b1 c (cuts (block rest slp (s + k) h)) = Ok vp /\
    slice_container d2 a2 b2 c (cuts (block rest slq s h)) = Ok vq /\ copy vp vq m = Ok m' /\
    forall r js v, 0 <= r < h -> in_box (vals rest) js -> value m c ((s + r mod k) :: js) v -> value m' c ((s + k + r) :: js) v.
Proof.
  intros D Sh Eb P Q K R.
  destruct (part_view_t d1 a1 b1 c _ D P) as (vp & Ep & Dp & _ & _ & _ & Elp & _).
  destruct (part_view d2 a2 b2 c _ (ctypes vp) D Q) as (vq & Eq & Dq & _ & Aq & _ & Elq & _).
  pose proof (block_row _ _ _ _ _ _ _ _ _ _ _ _ D Eb Sh P Ep) as Rp.
  pose proof (block_row _ _ _ _ _ _ _ _ _ _ _ _ D Eb Sh Q Eq) as Rq.
  cbn [block counts starts steps] in *.
  assert (Rw : writable m c).
  { intros i Bi. destruct (R i Bi) as (v & Hv). unfold valid. eapply peek_valid. exact Hv. }
  pose proof (part_write m d1 a1 b1 c _ vp D P Ep Rw) as CW.
  assert (CR : can_read m vp vq).
  { split; [exact Aq|]. split; [intros i Bi; rewrite Dq, <- Dp; exact Bi|].
    intros i Bi. rewrite Dp in Bi. destruct (Elq i Bi) as [B2 Ee]. destruct (R _ B2) as (v & Hv).
    exists v. unfold value. rewrite Ee. exact Hv. }
  replace (o + (s + k) * prod (vals rest)) with (o + s * prod (vals rest) + k * prod (vals rest)) in Rp by lia.
  assert (G : exists m', copy vp vq m = Ok m' /\
    forall r js v, 0 <= r < h -> in_box (vals rest) js -> value m vq ((r mod k) :: js) v -> value m' vp (r :: js) v).
  { destruct (Z_lt_le_dec 0 (k * prod (vals rest))) as [Kp|Kn].
    - destruct (shift_up_l m vp vq b _ _ CW CR ltac:(congruence) Rq Rp Kp) as (m' & E & V & _).
      exists m'. split; [exact E|]. intros r js v Hr Bj Hv.
      pose proof (Z.mod_pos_bound r k K) as Mb. pose proof (Z.mod_le r k ltac:(lia) K) as Ml.
      pose proof (rank_range _ _ Bj) as Rr.
      assert (B1 : in_box (h :: vals rest) (r :: js)) by (constructor; [lia|exact Bj]).
      assert (B2 : in_box (h :: vals rest) ((r mod k) :: js)) by (constructor; [lia|exact Bj]).
      apply (V (r :: js) ((r mod k) :: js)); rewrite ?Dp; try assumption.
      rewrite !rank_cons by (apply in_box_length; exact Bj).
      replace (r * prod (vals rest) + rank (vals rest) js)
        with (r mod k * prod (vals rest) + rank (vals rest) js + (r / k) * (k * prod (vals rest))) by (rewrite (Z_div_mod_eq_full r k) at 3; ring).
      rewrite Z_mod_plus_full. symmetry. apply Z.mod_small. nia.
    - destruct (copy_overlap_l vp vq m CW CR) as (m' & E & _). exists m'. split; [exact E|].
      intros r js v Hr Bj. pose proof (rank_range _ _ Bj). nia. }
  destruct G as (m' & E & V). exists vp, vq, m'. split; [exact Ep|]. split; [exact Eq|]. split; [exact E|].
  intros r js v Hr Bj Hv. pose proof (Z.mod_pos_bound r k K) as Mb. pose proof (Z.mod_le r k ltac:(lia) K) as Ml.
  assert (B1 : in_box (h :: vals rest) (r :: js)) by (constructor; [lia|exact Bj]).
  assert (B2 : in_box (h :: vals rest) ((r mod k) :: js)) by (constructor; [lia|exact Bj]).
  destruct (Elp _ B1) as [_ E1], (Elq _ B2) as [_ E2]. cbn [place] in E1, E2. rewrite place_whole in E1, E2 by exact Bj.
  rewrite !Z.mul_1_r in E1, E2.
  unfold value in *. rewrite <- E1. apply (V r js v Hr Bj). rewrite E2. exact Hv.
Qed.
