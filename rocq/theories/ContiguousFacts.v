From Coq Require Import ZArith List Bool Lia.
From Verif Require Import Outcome CInt CIntFacts Spec SpecFacts ShapeSpec Shape ShapeFacts EndRatio Memory Container ContainerSpec ContainerFacts
  Slicer SlicerSpec SlicerFacts SlicerFacts2 SlicerFacts3 SlicerFacts4 ContiguousSpec.
Import ListNotations.
Open Scope Z_scope.

Lemma prod_below ks ns : Forall2 (fun k n => 1 <= k <= n) ks ns -> 1 <= prod ks <= prod ns /\ (prod ks = prod ns -> ks = ns).
Proof.
  induction 1 as [|k n ks ns B F [IH1 IH2]]; [split; [change (prod []) with 1; lia|reflexivity]|]. rewrite !prod_cons. split; [nia|]. intros E.
  assert (k = n) by nia. subst n. f_equal. apply IH2. nia.
Qed.

Lemma zeros_in ks ns : Forall2 (fun k n => 1 <= k <= n) ks ns -> in_box ks (repeat 0 (length ks)).
Proof. induction 1; cbn [length repeat]; [constructor|]. constructor; [lia|assumption]. Qed.

Lemma solid_dot ns ks : Forall2 (fun k n => 1 <= k <= n) ks ns -> forall ss, length ss = length ns ->
  ((forall js, in_box ks js -> dot (times ss (strides_of ns)) js = dot (strides_of ks) js) <-> solid ns ks ss).
Proof.
  induction 1 as [|k n ks ns B F IH]; intros [|s ss] L; try discriminate.
  - split; [constructor|]. intros _ js Bj. reflexivity.
  - cbn in L. specialize (IH ss ltac:(lia)). cbn [strides_of times solid]. destruct (prod_below _ _ F) as [Pb Pe]. split.
    + intros H. split; [|apply IH; intros js Bj; specialize (H (0 :: js)); cbn [dot] in H; rewrite !Z.mul_0_r, !Z.add_0_l in H; apply H; constructor; [lia|exact Bj]].
      destruct (Z.eq_dec k 1) as [E|E]; [left; exact E|right]. specialize (H (1 :: repeat 0 (length ks))). cbn [dot] in H.
      rewrite !dot_zeros in H. assert (G : s * prod ns * 1 + 0 = prod ks * 1 + 0) by (apply H; constructor; [lia|eapply zeros_in; exact F]).
      assert (s = 1) by nia. split; [assumption|]. apply Pe. subst s. lia.
    + intros [Hd Hs] js Bj. inversion Bj as [|? ? j js1 B1 Bs]; subst. cbn [dot]. rewrite (proj2 IH Hs js1 Bs).
      destruct Hd as [-> | [-> ->]]; [|lia]. assert (j = 0) by lia. subst j. lia.
Qed.

Lemma takes_nonzero n sl o k s : takes n sl o k s -> s <> 0.
Proof. intros H. inversion H; subst; lia. Qed.
Lemma each_below cs sls os ks ss : sliced_each cs sls os ks ss -> Forall (fun k => 0 < k) ks -> Forall2 (fun k n => 1 <= k <= n) ks (vals cs).
Proof.
  induction 1 as [|n sl o k s ns sls os ks ss Ht (I1 & I2 & I3) S IH]; intros P; [constructor|]. inversion P; subst. cbn [vals map]. constructor; [|apply IH; assumption].
  pose proof (takes_nonzero _ _ _ _ _ Ht). specialize (I2 ltac:(lia)). split; [lia|]. destruct (Z.lt_trichotomy s 0) as [?|[?|?]]; [nia|contradiction|nia].
Qed.

Lemma contiguous_l dbg a b c sls cs os ks ss tys : default_layout c -> c_data c <> Null ->
  (1 <= length sls <= length (c_shape c))%nat -> compress (length sls) (c_shape c) = Ok cs ->
  sliced cs sls os ks ss -> (dbg = true -> Forall wide sls) -> directed c sls ss tys -> Forall (fun k => 0 < k) ks ->
  exists v, slice_container dbg a b c sls = Ok v /\ dims v = ks /\ (contiguous v <-> solid (vals cs) ks ss).
Proof.
  intros D Nn Ln Cs Sl Wd Dr P.
  destruct (slice_default_l dbg a b c sls cs os ks ss tys D Ln Cs Sl Wd Dr) as (v & Ev & Dv & _ & _ & Dav & Szv & _).
  exists v. split; [exact Ev|]. split; [exact Dv|]. pose proof (each_below _ _ _ _ _ (proj2 Sl) P) as F.
  destruct (sliced_length _ _ _ _ _ Sl) as (_ & _ & _ & L4).
  rewrite <- (solid_dot _ _ F ss) by (rewrite vals_length; exact L4).
  unfold contiguous, elem. rewrite Szv, Dav, Dv. destruct (c_data c) as [|bl off]; [contradiction|]. cbn [padd].
  split; intros H js B; specialize (H js B); rewrite (rank_dot ks js) in * by (apply in_box_length, B).
  - injection H as H. lia.
  - f_equal. lia.
Qed.

Lemma multiple_of_three_l k : forall sls, length sls = (3 * k)%nat -> preserve_reachability sls = false.
Proof.
  induction k as [|k IH]; intros sls L; [destruct sls; [reflexivity|discriminate]|].
  destruct sls as [|s [|t [|u rest]]]; cbn in L; try lia. assert (R : preserve_reachability rest = false) by (apply IH; lia).
  destruct s, t; cbn [preserve_reachability]; rewrite R; apply andb_false_r.
Qed.

Lemma four_l dbg a b c n0 n1 n2 n3 i : default_layout c -> c_data c <> Null -> c_shape c = [n0; n1; n2; n3] ->
  Forall (fun n => 0 < n) (dims c) -> 2 <= cval n2 -> 2 <= cval n3 -> wfc i -> 0 <= cval i < cval n3 -> (dbg = true -> promote (cty i) = cty i) ->
  preserve_reachability [SAll; SAll; SAll; SIdx i] = true /\
  exists v, slice_container dbg a b c [SAll; SAll; SAll; SIdx i] = Ok v /\ dims v = [cval n0; cval n1; cval n2; 1] /\ ~ contiguous v.
Proof.
  intros D Nn Sh P B2 B3 Wi Bi Wd. split; [reflexivity|].
  unfold dims in P. rewrite Sh in P. cbn [vals map] in P. inversion P as [|? ? P0 Q0]; subst. inversion Q0 as [|? ? P1 Q1]; subst. clear P Q0 Q1.
  destruct (contiguous_l dbg a b c [SAll; SAll; SAll; SIdx i] [n0; n1; n2; n3] [0; 0; 0; cval i] [cval n0; cval n1; cval n2; 1] [1; 1; 1; 1] [] D Nn)
    as (v & Ev & Dv & H).
  - rewrite Sh. cbn. lia.
  - rewrite Sh. reflexivity.
  - split; [exists SAll; split; [left; reflexivity|discriminate]|].
    do 3 (apply sliced_cons; [apply takes_all|unfold inside; lia|]). apply sliced_cons; [apply takes_index; exact Wi|unfold inside; lia|apply sliced_nil].
  - intros E. do 3 (constructor; [exact Logic.I|]). constructor; [exact (Wd E)|constructor].
  - left. repeat constructor.
  - do 3 (constructor; [lia|]). constructor; [lia|constructor].
  - exists v. split; [exact Ev|]. split; [exact Dv|]. rewrite H. cbn [vals map solid]. intros (_ & _ & [E|[_ E]] & _); [lia|]. injection E as E. lia.
Qed.

Lemma jokers_whole n : forall cs os ks ss, sliced_each cs (repeat SAll n) os ks ss -> ks = vals cs /\ solid (vals cs) ks ss.
Proof.
  induction n as [|n IH]; intros cs os ks ss S; inversion S as [|m sl o k s ns sls os' ks' ss' Ht Hi Sl]; subst; [split; [reflexivity|constructor]|].
  destruct (IH _ _ _ _ Sl) as [E1 E2]. inversion Ht; subst. cbn [vals map]. fold (vals ns). split; [reflexivity|]. cbn [solid].
  split; [right; split; reflexivity|exact E2].
Qed.
Lemma pattern_solid pre sl n : Forall single pre -> unit_slicer sl = true -> forall cs os ks ss, sliced_each cs (pre ++ sl :: repeat SAll n) os ks ss ->
  solid (vals cs) ks ss /\ (Forall (fun k => k = 1) (firstn (length pre) ks)).
Proof.
  intros F U. induction F as [|p pre Hp F IH]; intros cs os ks ss S; cbn [app] in S; inversion S as [|m sl' o k s ns sls os' ks' ss' Ht Hi Sl]; subst; cbn [vals map]; fold (vals ns).
  - destruct (jokers_whole _ _ _ _ _ Sl) as [-> E2]. split; [|constructor]. cbn [solid]. split; [|exact E2]. right. split; [|reflexivity].
    apply (unit_step sl s U (takes_step _ _ _ _ _ Ht)).
  - destruct (IH _ _ _ _ Sl) as [E1 E2]. assert (K : k = 1) by (destruct p; try contradiction; inversion Ht; reflexivity). subst k.
    split; [cbn [solid]; auto|]. cbn [length firstn]. constructor; [reflexivity|exact E2].
Qed.

Lemma pattern_l dbg a b c pre sl n cs os ks ss : default_layout c -> c_data c <> Null ->
  let sls := pre ++ sl :: repeat SAll n in Forall single pre -> unit_slicer sl = true ->
  (length sls <= length (c_shape c))%nat -> compress (length sls) (c_shape c) = Ok cs ->
  sliced cs sls os ks ss -> (dbg = true -> Forall wide sls) -> Forall (fun s => 0 < s) ss -> Forall (fun k => 0 < k) ks ->
  exists v, slice_container dbg a b c sls = Ok v /\ dims v = ks /\ contiguous v.
Proof.
  intros D Nn sls F U Ln Cs Sl Wd Ps Pk.
  destruct (contiguous_l dbg a b c sls cs os ks ss [] D Nn) as (v & Ev & Dv & H); try assumption.
  - split; [|exact Ln]. unfold sls. rewrite app_length. cbn. lia.
  - left. exact Ps.
  - exists v. split; [exact Ev|]. split; [exact Dv|]. apply H. apply (pattern_solid pre sl n F U _ _ _ _ (proj2 Sl)).
Qed.
