(** Facts about sums of numbers of any arithmetic type (C84): scans, exact sums, other accumulators. *)
From Coq Require Import ZArith QArith Qreals Qpower Qabs Reals Lia Lra Psatz List Bool.
From Coq Require Import Floats.SpecFloat.
From Flocq Require Import Core Relative BinarySingleNaN.
From Verif Require Import Outcome CInt CIntFacts Spec SpecFacts ShapeSpec Shape ShapeFacts ShapeFacts2 ForEach ForEachSpec ForEachFacts
  Memory MemFacts Container ContainerSpec ContainerFacts ContainerFacts2 ContainerFacts3 Algo AlgoSpec AlgoFacts AlgoFacts2 AlgoFacts3 AlgoFacts4
  Interp IeeeSpec RoundSpec RoundFacts ErrorFacts
  Mixed MixedSpec MixedFacts Convert ConvertSpec ConvertFacts Sums SumsFacts FloatSums FloatSumsSpec FloatSumsFacts FloatSumsFacts2 FloatSumsFacts3.
Import ListNotations.
Open Scope R_scope.

(** ** Scans *)
Lemma ninclusive_by ta te ot in_ out init m vs (acc ow : nat -> number) :
  can_read m in_ in_ -> can_write m in_ out -> no_cross_alias in_ in_ out -> values m in_ in_ vs ->
  acc 0%nat = init -> (forall k v, nth_error vs k = Some v -> accumulate ta te (acc k) v = Ok (acc (S k))) ->
  (forall k, convert ot (acc k) = Ok (ow k)) ->
  exists m', ninclusive ta te ot in_ out init m = Ok m' /\
    (forall is_, in_box (dims in_) is_ -> value m' out is_ (ow (S (Z.to_nat (rank (dims in_) is_))))) /\
    frame in_ out m m'.
Proof.
  intros CR CW NA V A0 AS OW. destruct (live_wf m in_ (can_read_live _ _ _ CR)) as [_ Nn].
  pose (val := fun (pre : list (list Z)) (_ : list Z) => Some (ow (S (length pre)))).
  pose proof CW as (_ & _ & D & Vd).
  pose proof (pmem_result out val in_ m Nn D Vd) as (R & F). cbv zeta in R, F.
  exists (pmem out val m (box (dims in_))). unfold ninclusive.
  pose (st := fun pre : list (list Z) => (acc (length pre), pmem out val m pre)).
  replace (init, m) with (st []) by (unfold st; cbn [length]; rewrite A0; reflexivity).
  rewrite (map_containers_inv _ in_ [out] m st).
  - split; [reflexivity|]. split; [|exact F]. intros is_ Bi.
    destruct (box_split _ _ Bi) as (pre & post & E). specialize (R pre _ post E). unfold val in R at 1.
    rewrite (rank_pre _ _ _ _ Nn E Bi) in R. exact R.
  - apply can_read_live. exact CR.
  - constructor; [apply can_write_live; exact CW|constructor].
  - intros pre. apply pmem_same.
  - intros pre is_ post E. destruct (box_split_notin _ _ _ _ Nn E) as (_ & Bi & _).
    destruct (values_at _ _ _ _ _ _ _ V E) as (v & Ev & Hv).
    assert (Hv' : value (snd (st pre)) in_ is_ v).
    { unfold value, peek, st. cbn [snd]. rewrite (pmem_read in_ in_ out val m pre is_ post); assumption. }
    cbn [map]. rewrite (load_peek _ _ _ Hv'), bind_ok. unfold st. cbn [fst snd].
    rewrite (AS _ _ Ev), bind_ok, OW, bind_ok, store_valid by (apply pmem_same, Vd, Bi). rewrite bind_ok, pmem_step, app_length, Nat.add_1_r.
    reflexivity.
Qed.

Lemma nexclusive_by ta te ot in_ out init m vs (acc ow : nat -> number) :
  can_read m in_ in_ -> can_write m in_ out -> no_alias in_ in_ out -> values m in_ in_ vs ->
  acc 0%nat = init -> (forall k v, nth_error vs k = Some v -> accumulate ta te (acc k) v = Ok (acc (S k))) ->
  (forall k, convert ot (acc k) = Ok (ow k)) ->
  exists m', nexclusive ta te ot in_ out init m = Ok m' /\
    (forall is_, in_box (dims in_) is_ -> value m' out is_ (ow (Z.to_nat (rank (dims in_) is_)))) /\
    frame in_ out m m'.
Proof.
  intros CR CW NA V A0 AS OW. destruct (live_wf m in_ (can_read_live _ _ _ CR)) as [_ Nn].
  pose (val := fun (pre : list (list Z)) (_ : list Z) => Some (ow (length pre))).
  pose proof CW as (_ & _ & D & Vd).
  pose proof (pmem_result out val in_ m Nn D Vd) as (R & F). cbv zeta in R, F.
  exists (pmem out val m (box (dims in_))). unfold nexclusive.
  pose (st := fun pre : list (list Z) => (acc (length pre), pmem out val m pre)).
  replace (init, m) with (st []) by (unfold st; cbn [length]; rewrite A0; reflexivity).
  rewrite (map_containers_inv _ in_ [out] m st).
  - split; [reflexivity|]. split; [|exact F]. intros is_ Bi.
    destruct (box_split _ _ Bi) as (pre & post & E). specialize (R pre _ post E). unfold val in R at 1.
    rewrite (rank_pre _ _ _ _ Nn E Bi) in R. exact R.
  - apply can_read_live. exact CR.
  - constructor; [apply can_write_live; exact CW|constructor].
  - intros pre. apply pmem_same.
  - intros pre is_ post E. destruct (box_split_notin _ _ _ _ Nn E) as (_ & Bi & _).
    destruct (values_at _ _ _ _ _ _ _ V E) as (v & Ev & Hv).
    cbn [map]. unfold st. cbn [fst snd].
    rewrite OW, bind_ok, store_valid by (apply pmem_same, Vd, Bi). rewrite bind_ok.
    assert (Hv' : value (upd (pmem out val m pre) (elem out is_) (ow (length pre))) in_ is_ v).
    { unfold value. rewrite peek_upd_other by (apply not_eq_sym, NA; assumption). unfold peek.
      rewrite (pmem_read in_ in_ out val m pre is_ post); try assumption. intros a b Ha Hb _. apply NA; assumption. }
    rewrite (load_peek _ _ _ Hv'), bind_ok, (AS _ _ Ev), bind_ok, pmem_step, app_length, Nat.add_1_r. reflexivity.
Qed.

(** The values of the outputs, of a type [o] not less precise than the accumulator. *)
Definition out_value (o : ftype) (w : number) : number := match w with NFloat x => NFloat (to_ftype o x) | _ => w end.

Lemma prefix_error f te vs qs k a qa : stand_for te vs qs -> finite_of f a -> float_value a = Some qa ->
  (sum_limit f te (length vs) (Qabs qa + size_of qs) < 2 ^ f_emax f)%Q -> (k <= length vs)%nat -> forall o, le f o ->
  exists y p, out_value o (partial f te vs a k) = NFloat y /\ convert (AFloat o) (partial f te vs a k) = Ok (NFloat y) /\ finite_of o y /\ float_value y = Some p /\
    within (sum_error f te k (Qabs qa + size_of (firstn k qs))) (qa + sum_of (firstn k qs)) p /\
    exists r, partial f te vs a k = NFloat r /\ rv y = rv r.
Proof.
  intros S Fa Va B Lk o L. apply below_max in B. rewrite limit_R, Q2R_plus, Q2R_abs in B. pose proof (float_value_R _ _ Va) as Ra. rewrite Ra in B.
  destruct (partial_near f te vs qs a k S Fa B) as (r & Er & _ & Fr & Ee). rewrite Er. cbn [out_value convert].
  destruct (conv_ok f o r L Fr) as [Fy Ry]. destruct (finite_float_value _ _ _ Fy) as [p Vp].
  exists (to_ftype o r), p. split; [reflexivity|]. split; [reflexivity|]. split; [exact Fy|]. split; [exact Vp|]. split; [|eauto].
  rewrite firstn_length, Nat.min_l in Ee by exact Lk.
  unfold within. apply Rle_Qle. rewrite Q2R_abs, error_R, Q2R_minus, !Q2R_plus, Q2R_abs, Ra, (float_value_R _ _ Vp), Ry. exact Ee.
Qed.

Lemma rank_lt_length {T} (m : mem T) c vs is_ : can_read m c c -> values m c c vs -> in_box (dims c) is_ ->
  (Z.to_nat (rank (dims c) is_) < length vs)%nat.
Proof.
  intros CR V B. destruct (live_wf m c (can_read_live _ _ _ CR)) as [_ Nn].
  destruct (box_split _ _ B) as (pre & post & E). rewrite <- (rank_pre _ _ _ _ Nn E B).
  rewrite (values_length _ _ _ _ V), E, app_length. cbn [length]. lia.
Qed.

Lemma ninclusive_error_l f te o in_ out a qa m vs qs : can_read m in_ in_ -> can_write m in_ out -> no_cross_alias in_ in_ out ->
  values m in_ in_ vs -> stand_for te vs qs -> finite_of f a -> float_value a = Some qa -> (f_prec f <= f_prec o)%Z ->
  (sum_limit f te (length vs) (Qabs qa + size_of qs) < 2 ^ f_emax f)%Q ->
  exists m', ninclusive (AFloat f) te (AFloat o) in_ out (NFloat a) m = Ok m' /\
    (forall is_ k, in_box (dims in_) is_ -> k = S (Z.to_nat (rank (dims in_) is_)) ->
       exists y p, value m' out is_ (NFloat y) /\ finite_of o y /\ float_value y = Some p /\
         within (sum_error f te k (Qabs qa + size_of (firstn k qs))) (qa + sum_of (firstn k qs)) p) /\
    (Forall (fun q => (0 <= q)%Q) qs -> forall is_ js y z p p', in_box (dims in_) is_ -> in_box (dims in_) js ->
       (rank (dims in_) is_ <= rank (dims in_) js)%Z -> value m' out is_ (NFloat y) -> value m' out js (NFloat z) ->
       float_value y = Some p -> float_value z = Some p' -> (p <= p')%Q) /\
    (Forall (fun q => (q <= 0)%Q) qs -> forall is_ js y z p p', in_box (dims in_) is_ -> in_box (dims in_) js ->
       (rank (dims in_) is_ <= rank (dims in_) js)%Z -> value m' out is_ (NFloat y) -> value m' out js (NFloat z) ->
       float_value y = Some p -> float_value z = Some p' -> (p' <= p)%Q) /\
    frame in_ out m m'.
Proof.
  intros CR CW NA V S Fa Va L B. pose proof B as B'. apply below_max in B'. rewrite limit_R, Q2R_plus, Q2R_abs, (float_value_R _ _ Va) in B'.
  destruct (ninclusive_by (AFloat f) te (AFloat o) in_ out (NFloat a) m vs (partial f te vs a) (fun k => out_value o (partial f te vs a k)) CR CW NA V) as (m' & E & Hv & F).
  - reflexivity.
  - intros k v Ev. apply (partial_step f te vs qs a k v S Fa B' Ev).
  - intros k. destruct (partial_near f te vs qs a k S Fa B') as (r & -> & _). reflexivity.
  - exists m'. split; [exact E|]. split; [|split; [|split; [|exact F]]].
    + intros is_ k Bi ->. pose proof (rank_lt_length m in_ vs is_ CR V Bi) as Lt.
      destruct (prefix_error f te vs qs (Datatypes.S (Z.to_nat (rank (dims in_) is_))) a qa S Fa Va B Lt o L) as (y & p & Ey & _ & Fy & Vp & W & _).
      exists y, p. split; [rewrite <- Ey; apply Hv, Bi|]. auto.
    + intros P is_ js y z p p' Bi Bj Lr Hy Hz Vp Vp'.
      pose proof (rank_lt_length m in_ vs is_ CR V Bi) as Li. pose proof (rank_lt_length m in_ vs js CR V Bj) as Lj.
      set (i := Datatypes.S (Z.to_nat (rank (dims in_) is_))) in *. set (j := Datatypes.S (Z.to_nat (rank (dims in_) js))) in *.
      destruct (prefix_error f te vs qs i a qa S Fa Va B Li o L) as (y' & _ & Ey & _ & _ & _ & _ & r & Er & Ry).
      destruct (prefix_error f te vs qs j a qa S Fa Va B Lj o L) as (z' & _ & Ez & _ & _ & _ & _ & t & Et & Rz).
      specialize (Hv is_ Bi) as Hi. fold i in Hi. rewrite Ey in Hi. assert (y = y') by (unfold value in *; congruence). subst y'.
      specialize (Hv js Bj) as Hj. fold j in Hj. rewrite Ez in Hj. assert (z = z') by (unfold value in *; congruence). subst z'.
      assert (P' : Forall (fun q => 0 <= Q2R q) qs).
      { eapply Forall_impl; [|exact P]. intros q Hq. cbn beta in Hq. apply Qle_Rle in Hq. rewrite Q2R_0 in Hq. exact Hq. }
      destruct (partial_mono f te vs qs S P' a Fa B' i j) as (x1 & x2 & E1 & E2 & Le); [unfold i, j; lia|].
      assert (x1 = r) by congruence. assert (x2 = t) by congruence. subst x1 x2.
      apply Rle_Qle. rewrite (float_value_R _ _ Vp), (float_value_R _ _ Vp'), Ry, Rz. exact Le.
    + intros P is_ js y z p p' Bi Bj Lr Hy Hz Vp Vp'.
      pose proof (rank_lt_length m in_ vs is_ CR V Bi) as Li. pose proof (rank_lt_length m in_ vs js CR V Bj) as Lj.
      set (i := Datatypes.S (Z.to_nat (rank (dims in_) is_))) in *. set (j := Datatypes.S (Z.to_nat (rank (dims in_) js))) in *.
      destruct (prefix_error f te vs qs i a qa S Fa Va B Li o L) as (y' & _ & Ey & _ & _ & _ & _ & r & Er & Ry).
      destruct (prefix_error f te vs qs j a qa S Fa Va B Lj o L) as (z' & _ & Ez & _ & _ & _ & _ & t & Et & Rz).
      specialize (Hv is_ Bi) as Hi. fold i in Hi. rewrite Ey in Hi. assert (y = y') by (unfold value in *; congruence). subst y'.
      specialize (Hv js Bj) as Hj. fold j in Hj. rewrite Ez in Hj. assert (z = z') by (unfold value in *; congruence). subst z'.
      assert (P' : Forall (fun q => Q2R q <= 0) qs).
      { eapply Forall_impl; [|exact P]. intros q Hq. cbn beta in Hq. apply Qle_Rle in Hq. rewrite Q2R_0 in Hq. exact Hq. }
      destruct (partial_anti f te vs qs S P' a Fa B' i j) as (x1 & x2 & E1 & E2 & Le); [unfold i, j; lia|].
      assert (x1 = r) by congruence. assert (x2 = t) by congruence. subst x1 x2.
      apply Rle_Qle. rewrite (float_value_R _ _ Vp), (float_value_R _ _ Vp'), Ry, Rz. exact Le.
Qed.

Lemma nexclusive_error_l f te o in_ out a qa m vs qs : can_read m in_ in_ -> can_write m in_ out -> no_alias in_ in_ out ->
  values m in_ in_ vs -> stand_for te vs qs -> finite_of f a -> float_value a = Some qa -> (f_prec f <= f_prec o)%Z ->
  (sum_limit f te (length vs) (Qabs qa + size_of qs) < 2 ^ f_emax f)%Q ->
  exists m', nexclusive (AFloat f) te (AFloat o) in_ out (NFloat a) m = Ok m' /\
    (forall is_ k, in_box (dims in_) is_ -> k = Z.to_nat (rank (dims in_) is_) ->
       exists y p, value m' out is_ (NFloat y) /\ finite_of o y /\ float_value y = Some p /\
         within (sum_error f te k (Qabs qa + size_of (firstn k qs))) (qa + sum_of (firstn k qs)) p) /\
    (Forall (fun q => (0 <= q)%Q) qs -> forall is_ js y z p p', in_box (dims in_) is_ -> in_box (dims in_) js ->
       (rank (dims in_) is_ <= rank (dims in_) js)%Z -> value m' out is_ (NFloat y) -> value m' out js (NFloat z) ->
       float_value y = Some p -> float_value z = Some p' -> (p <= p')%Q) /\
    (Forall (fun q => (q <= 0)%Q) qs -> forall is_ js y z p p', in_box (dims in_) is_ -> in_box (dims in_) js ->
       (rank (dims in_) is_ <= rank (dims in_) js)%Z -> value m' out is_ (NFloat y) -> value m' out js (NFloat z) ->
       float_value y = Some p -> float_value z = Some p' -> (p' <= p)%Q) /\
    frame in_ out m m'.
Proof.
  intros CR CW NA V S Fa Va L B. pose proof B as B'. apply below_max in B'. rewrite limit_R, Q2R_plus, Q2R_abs, (float_value_R _ _ Va) in B'.
  destruct (nexclusive_by (AFloat f) te (AFloat o) in_ out (NFloat a) m vs (partial f te vs a) (fun k => out_value o (partial f te vs a k)) CR CW NA V) as (m' & E & Hv & F).
  - reflexivity.
  - intros k v Ev. apply (partial_step f te vs qs a k v S Fa B' Ev).
  - intros k. destruct (partial_near f te vs qs a k S Fa B') as (r & -> & _). reflexivity.
  - exists m'. split; [exact E|]. split; [|split; [|split; [|exact F]]].
    + intros is_ k Bi ->. pose proof (Nat.lt_le_incl _ _ (rank_lt_length m in_ vs is_ CR V Bi)) as Lt.
      destruct (prefix_error f te vs qs (Z.to_nat (rank (dims in_) is_)) a qa S Fa Va B Lt o L) as (y & p & Ey & _ & Fy & Vp & W & _).
      exists y, p. split; [rewrite <- Ey; apply Hv, Bi|]. auto.
    + intros P is_ js y z p p' Bi Bj Lr Hy Hz Vp Vp'.
      pose proof (Nat.lt_le_incl _ _ (rank_lt_length m in_ vs is_ CR V Bi)) as Li. pose proof (Nat.lt_le_incl _ _ (rank_lt_length m in_ vs js CR V Bj)) as Lj.
      set (i := Z.to_nat (rank (dims in_) is_)) in *. set (j := Z.to_nat (rank (dims in_) js)) in *.
      destruct (prefix_error f te vs qs i a qa S Fa Va B Li o L) as (y' & _ & Ey & _ & _ & _ & _ & r & Er & Ry).
      destruct (prefix_error f te vs qs j a qa S Fa Va B Lj o L) as (z' & _ & Ez & _ & _ & _ & _ & t & Et & Rz).
      specialize (Hv is_ Bi) as Hi. fold i in Hi. rewrite Ey in Hi. assert (y = y') by (unfold value in *; congruence). subst y'.
      specialize (Hv js Bj) as Hj. fold j in Hj. rewrite Ez in Hj. assert (z = z') by (unfold value in *; congruence). subst z'.
      assert (P' : Forall (fun q => 0 <= Q2R q) qs).
      { eapply Forall_impl; [|exact P]. intros q Hq. cbn beta in Hq. apply Qle_Rle in Hq. rewrite Q2R_0 in Hq. exact Hq. }
      destruct (partial_mono f te vs qs S P' a Fa B' i j) as (x1 & x2 & E1 & E2 & Le); [unfold i, j; lia|].
      assert (x1 = r) by congruence. assert (x2 = t) by congruence. subst x1 x2.
      apply Rle_Qle. rewrite (float_value_R _ _ Vp), (float_value_R _ _ Vp'), Ry, Rz. exact Le.
    + intros P is_ js y z p p' Bi Bj Lr Hy Hz Vp Vp'.
      pose proof (Nat.lt_le_incl _ _ (rank_lt_length m in_ vs is_ CR V Bi)) as Li. pose proof (Nat.lt_le_incl _ _ (rank_lt_length m in_ vs js CR V Bj)) as Lj.
      set (i := Z.to_nat (rank (dims in_) is_)) in *. set (j := Z.to_nat (rank (dims in_) js)) in *.
      destruct (prefix_error f te vs qs i a qa S Fa Va B Li o L) as (y' & _ & Ey & _ & _ & _ & _ & r & Er & Ry).
      destruct (prefix_error f te vs qs j a qa S Fa Va B Lj o L) as (z' & _ & Ez & _ & _ & _ & _ & t & Et & Rz).
      specialize (Hv is_ Bi) as Hi. fold i in Hi. rewrite Ey in Hi. assert (y = y') by (unfold value in *; congruence). subst y'.
      specialize (Hv js Bj) as Hj. fold j in Hj. rewrite Ez in Hj. assert (z = z') by (unfold value in *; congruence). subst z'.
      assert (P' : Forall (fun q => Q2R q <= 0) qs).
      { eapply Forall_impl; [|exact P]. intros q Hq. cbn beta in Hq. apply Qle_Rle in Hq. rewrite Q2R_0 in Hq. exact Hq. }
      destruct (partial_anti f te vs qs S P' a Fa B' i j) as (x1 & x2 & E1 & E2 & Le); [unfold i, j; lia|].
      assert (x1 = r) by congruence. assert (x2 = t) by congruence. subst x1 x2.
      apply Rle_Qle. rewrite (float_value_R _ _ Vp), (float_value_R _ _ Vp'), Ry, Rz. exact Le.
Qed.

(** Outputs of any type. *)
Lemma ninclusive_as_l f te ot in_ out a qa m vs qs : can_read m in_ in_ -> can_write m in_ out -> no_cross_alias in_ in_ out ->
  values m in_ in_ vs -> stand_for te vs qs -> finite_of f a -> float_value a = Some qa ->
  (sum_limit f te (length vs) (Qabs qa + size_of qs) < 2 ^ f_emax f)%Q -> sums_convertible f te ot qa qs ->
  exists m', ninclusive (AFloat f) te ot in_ out (NFloat a) m = Ok m' /\
    (forall is_ k, in_box (dims in_) is_ -> k = S (Z.to_nat (rank (dims in_) is_)) ->
       exists x p w, finite_of f x /\ float_value x = Some p /\
         within (sum_error f te k (Qabs qa + size_of (firstn k qs))) (qa + sum_of (firstn k qs)) p /\
         value m' out is_ w /\ converted ot (NFloat x) w) /\
    frame in_ out m m'.
Proof.
  intros CR CW NA V S Fa Va B Cv. pose proof B as B'. apply below_max in B'. rewrite limit_R, Q2R_plus, Q2R_abs, (float_value_R _ _ Va) in B'.
  assert (Ln : length vs = length qs) by (clear - S; induction S; cbn [length]; congruence).
  assert (Ck : forall k, (k <= length vs)%nat -> exists x p w, partial f te vs a k = NFloat x /\ finite_of f x /\ float_value x = Some p /\
    within (sum_error f te k (Qabs qa + size_of (firstn k qs))) (qa + sum_of (firstn k qs)) p /\ convert ot (NFloat x) = Ok w /\ converted ot (NFloat x) w).
  { intros k Lk. destruct (prefix_error f te vs qs k a qa S Fa Va B Lk f (le_refl f)) as (y & p & _ & _ & _ & Vp & W & r & Er & Ry).
    destruct (partial_near f te vs qs a k S Fa B') as (r' & Er' & _ & Fr & _). assert (r' = r) by congruence. subst r'.
    destruct (same_value _ _ r p Fr) as (p' & Vp' & Ep); [rewrite (float_value_R _ _ Vp); symmetry; exact Ry|].
    assert (W' : within (sum_error f te k (Qabs qa + size_of (firstn k qs))) (qa + sum_of (firstn k qs)) p').
    { unfold within in *. rewrite Ep. exact W. }
    destruct (convert_ok ot (NFloat r)) as (w & Ew & Cw).
    { apply (Cv k r p'); try assumption. rewrite <- Ln. exact Lk. }
    exists r, p', w. auto 10. }
  pose (ow := fun k => match convert ot (partial f te vs a (Nat.min k (length vs))) with Ok w => w | _ => NInt 0 end).
  destruct (ninclusive_by (AFloat f) te ot in_ out (NFloat a) m vs (fun k => partial f te vs a (Nat.min k (length vs))) ow CR CW NA V) as (m' & E & Hv & F).
  - rewrite Nat.min_0_l. reflexivity.
  - intros k v Ev. pose proof (proj1 (nth_error_Some vs k)) as Lt. rewrite Ev in Lt. specialize (Lt ltac:(discriminate)).
    rewrite !Nat.min_l by lia. apply (partial_step f te vs qs a k v S Fa B' Ev).
  - intros k. destruct (Ck (Nat.min k (length vs)) (Nat.le_min_r _ _)) as (x & p & w & Ex & _ & _ & _ & Ew & _).
    unfold ow. rewrite Ex, Ew. reflexivity.
  - exists m'. split; [exact E|]. split; [|exact F].
    intros is_ k Bi ->. pose proof (rank_lt_length m in_ vs is_ CR V Bi) as Lt.
    specialize (Hv is_ Bi). unfold ow in Hv. rewrite Nat.min_l in Hv by lia.
    destruct (Ck (Datatypes.S (Z.to_nat (rank (dims in_) is_))) ltac:(lia)) as (x & p & w & Ex & Fx & Vp & W & Ew & Cw).
    rewrite Ex, Ew in Hv. exists x, p, w. auto 10.
Qed.

Lemma nexclusive_as_l f te ot in_ out a qa m vs qs : can_read m in_ in_ -> can_write m in_ out -> no_alias in_ in_ out ->
  values m in_ in_ vs -> stand_for te vs qs -> finite_of f a -> float_value a = Some qa ->
  (sum_limit f te (length vs) (Qabs qa + size_of qs) < 2 ^ f_emax f)%Q -> sums_convertible f te ot qa qs ->
  exists m', nexclusive (AFloat f) te ot in_ out (NFloat a) m = Ok m' /\
    (forall is_ k, in_box (dims in_) is_ -> k = Z.to_nat (rank (dims in_) is_) ->
       exists x p w, finite_of f x /\ float_value x = Some p /\
         within (sum_error f te k (Qabs qa + size_of (firstn k qs))) (qa + sum_of (firstn k qs)) p /\
         value m' out is_ w /\ converted ot (NFloat x) w) /\
    frame in_ out m m'.
Proof.
  intros CR CW NA V S Fa Va B Cv. pose proof B as B'. apply below_max in B'. rewrite limit_R, Q2R_plus, Q2R_abs, (float_value_R _ _ Va) in B'.
  assert (Ln : length vs = length qs) by (clear - S; induction S; cbn [length]; congruence).
  assert (Ck : forall k, (k <= length vs)%nat -> exists x p w, partial f te vs a k = NFloat x /\ finite_of f x /\ float_value x = Some p /\
    within (sum_error f te k (Qabs qa + size_of (firstn k qs))) (qa + sum_of (firstn k qs)) p /\ convert ot (NFloat x) = Ok w /\ converted ot (NFloat x) w).
  { intros k Lk. destruct (prefix_error f te vs qs k a qa S Fa Va B Lk f (le_refl f)) as (y & p & _ & _ & _ & Vp & W & r & Er & Ry).
    destruct (partial_near f te vs qs a k S Fa B') as (r' & Er' & _ & Fr & _). assert (r' = r) by congruence. subst r'.
    destruct (same_value _ _ r p Fr) as (p' & Vp' & Ep); [rewrite (float_value_R _ _ Vp); symmetry; exact Ry|].
    assert (W' : within (sum_error f te k (Qabs qa + size_of (firstn k qs))) (qa + sum_of (firstn k qs)) p').
    { unfold within in *. rewrite Ep. exact W. }
    destruct (convert_ok ot (NFloat r)) as (w & Ew & Cw).
    { apply (Cv k r p'); try assumption. rewrite <- Ln. exact Lk. }
    exists r, p', w. auto 10. }
  pose (ow := fun k => match convert ot (partial f te vs a (Nat.min k (length vs))) with Ok w => w | _ => NInt 0 end).
  destruct (nexclusive_by (AFloat f) te ot in_ out (NFloat a) m vs (fun k => partial f te vs a (Nat.min k (length vs))) ow CR CW NA V) as (m' & E & Hv & F).
  - rewrite Nat.min_0_l. reflexivity.
  - intros k v Ev. pose proof (proj1 (nth_error_Some vs k)) as Lt. rewrite Ev in Lt. specialize (Lt ltac:(discriminate)).
    rewrite !Nat.min_l by lia. apply (partial_step f te vs qs a k v S Fa B' Ev).
  - intros k. destruct (Ck (Nat.min k (length vs)) (Nat.le_min_r _ _)) as (x & p & w & Ex & _ & _ & _ & Ew & _).
    unfold ow. rewrite Ex, Ew. reflexivity.
  - exists m'. split; [exact E|]. split; [|exact F].
    intros is_ k Bi ->. pose proof (rank_lt_length m in_ vs is_ CR V Bi) as Lt.
    specialize (Hv is_ Bi). unfold ow in Hv. rewrite Nat.min_l in Hv by lia.
    destruct (Ck (Z.to_nat (rank (dims in_) is_)) ltac:(lia)) as (x & p & w & Ex & Fx & Vp & W & Ew & Cw).
    rewrite Ex, Ew in Hv. exists x, p, w. auto 10.
Qed.

(** ** Exact sums *)
Definition sc (z e : Z) : R := IZR z * bpow radix2 e.
Lemma sc_F2R z e : sc z e = F2R (Defs.Float radix2 z e). Proof. reflexivity. Qed.
Lemma sc_fmt f g z e : le f g -> exponent_of f e -> (Z.abs z < 2 ^ f_prec f)%Z -> fmtF g (sc z e) /\ Rabs (sc z e) < bpow radix2 (f_emax g).
Proof.
  unfold exponent_of. intros L E Z. pose proof (le_emax f g L) as Le. unfold le in L. pose proof (fp_ok f). split.
  - rewrite sc_F2R. apply fmt_scaled; [|lia]. eapply Z.lt_le_trans; [exact Z|]. apply Z.pow_le_mono_r; lia.
  - unfold sc. rewrite Rabs_mult, (Rabs_pos_eq (bpow _ _)) by apply bpow_ge_0. rewrite <- abs_IZR.
    apply Rlt_le_trans with (bpow radix2 (f_prec f) * bpow radix2 e).
    + apply Rmult_lt_compat_r; [apply bpow_gt_0|]. rewrite <- (IZR_Zpower radix2) by lia. apply IZR_lt. exact Z.
    + rewrite <- bpow_plus. apply bpow_le. lia.
Qed.
Lemma sc_Q q z e : (q == inject_Z z * 2 ^ e)%Q -> Q2R q = sc z e.
Proof. intros H. apply Qeq_eqR in H. rewrite H, Q2R_mult, Q2R_inject, Q2R_pow2. reflexivity. Qed.
Lemma sc_plus y z e : sc y e + sc z e = sc (y + z) e. Proof. unfold sc. rewrite plus_IZR. ring. Qed.

Lemma step_exact f te e a za v q z : exponent_of f e -> finite_of f a -> rv a = sc za e -> value_of_type te v -> number_value v = Some q ->
  Q2R q = sc z e -> (Z.abs z < 2 ^ f_prec f)%Z -> (Z.abs (za + z) < 2 ^ f_prec f)%Z ->
  exists r, accumulate (AFloat f) te (NFloat a) v = Ok (NFloat r) /\ finite_of f r /\ rv r = sc (za + z) e.
Proof.
  intros He Fa Ra Wv Nv Rq Bz Bs.
  set (h := match te with AInt _ => f | AFloat g => common f g end).
  assert (Uh : usual (AFloat f) te = AFloat h) by (destruct te; reflexivity).
  assert (L : le f h) by (destruct te; [apply le_refl|apply common_l]).
  destruct (to_float_id h f a L Fa) as (a' & Ea & Fa' & Ra').
  destruct (sc_fmt f h z e L He Bz) as [Fz Lz]. destruct (sc_fmt f h (za + z) e L He Bs) as [Fs Ls].
  destruct (sc_fmt f f (za + z) e (le_refl f) He Bs) as [Ff Lf].
  destruct (to_float h v q Nv) as (y & Ey & Fy & Ry).
  { rewrite Rq. rewrite rnd_id by exact Fz. exact Lz. }
  rewrite Rq, rnd_id in Ry by exact Fz.
  assert (Es : rv a' + rv y = sc (za + z) e) by (rewrite Ra', Ra, Ry; apply sc_plus).
  destruct (add_ok (f_prec h) (f_emax h) (fp_ok h) (fm_ok h) a' y Fa' Fy) as [Fp Rp].
  { rewrite Es, rnd_id by exact Fs. exact Ls. }
  rewrite Es, rnd_id in Rp by exact Fs.
  destruct (finite_float_value _ _ _ Fp) as [qs Vs].
  destruct (to_float f (NFloat (SFadd (f_prec h) (f_emax h) a' y)) qs Vs) as (r & Er & Fr & Rr).
  { rewrite (float_value_R _ _ Vs), Rp, rnd_id by exact Ff. exact Lf. }
  exists r. split; [|split; [exact Fr|rewrite Rr, (float_value_R _ _ Vs), Rp; apply rnd_id; exact Ff]].
  unfold accumulate, plus, operate. rewrite Uh, Ea, bind_ok, Ey, bind_ok, bind_ok. exact Er.
Qed.

Lemma below_cons p z y zs : sums_below p z (y :: zs) -> (Z.abs y < 2 ^ p)%Z /\ (Z.abs (z + y) < 2 ^ p)%Z /\ sums_below p (z + y) zs.
Proof.
  intros [F K]. inversion F as [|? ? Hy F']; subst. split; [exact Hy|]. split.
  - specialize (K 1%nat). cbn in K. rewrite Z.add_0_r in K. exact K.
  - split; [exact F'|]. intros k. specialize (K (S k)). cbn [firstn fold_right] in K. rewrite Z.add_assoc in K. exact K.
Qed.

Lemma fold_multiples f te e vs qs : stand_for te vs qs -> forall zs, multiples e qs zs -> exponent_of f e -> forall a z0, finite_of f a -> rv a = sc z0 e ->
  sums_below (f_prec f) z0 zs ->
  exists r, foldo (accumulate (AFloat f) te) vs (NFloat a) = Ok (NFloat r) /\ finite_of f r /\ rv r = sc (z0 + fold_right Z.add 0 zs)%Z e.
Proof.
  induction 1 as [|v q vs qs [Wv Nv] _ IH]; intros zs M He a z0 Fa Ra Sb; inversion M as [|? z ? zs' Ez M']; subst.
  - exists a. cbn [foldo fold_right]. rewrite Z.add_0_r. auto.
  - destruct (below_cons _ _ _ _ Sb) as (Bz & Bs & Sb').
    destruct (step_exact f te e a z0 v q z He Fa Ra Wv Nv (sc_Q _ _ _ Ez) Bz Bs) as (r1 & E1 & F1 & R1).
    destruct (IH zs' M' He r1 (z0 + z)%Z F1 R1 Sb') as (r & E2 & Fr & Rr).
    exists r. cbn [foldo fold_right]. rewrite E1, bind_ok. split; [exact E2|]. split; [exact Fr|]. rewrite Rr. f_equal. lia.
Qed.

Lemma multiples_sum e qs zs : multiples e qs zs -> Q2R (sum_of qs) = sc (fold_right Z.add 0%Z zs) e.
Proof.
  induction 1 as [|q z qs zs H _ IH]; [rewrite sum_nil; unfold sc; cbn [fold_right]; ring|].
  rewrite sum_cons, IH, (sc_Q _ _ _ H). cbn [fold_right]. apply sc_plus.
Qed.

Lemma nsum_exact_l f te e c m vs qs zs a qa z0 : can_read m c c -> values m c c vs -> stand_for te vs qs -> multiples e qs zs ->
  finite_of f a -> float_value a = Some qa -> (qa == inject_Z z0 * 2 ^ e)%Q -> exponent_of f e -> sums_below (f_prec f) z0 zs ->
  exists r p, nsum_from (AFloat f) te c (NFloat a) m = Ok (NFloat r, m) /\ finite_of f r /\ float_value r = Some p /\
    (p == qa + sum_of qs)%Q.
Proof.
  intros CR V S M Fa Va Ea He Sb. pose proof (sc_Q _ _ _ Ea) as Ra. rewrite (float_value_R _ _ Va) in Ra.
  destruct (fold_multiples f te e vs qs S zs M He a z0 Fa Ra Sb) as (r & E & Fr & Rr).
  destruct (same_value _ _ r (qa + sum_of qs) Fr) as (p & Vp & Ep).
  { rewrite Rr, Q2R_plus, (multiples_sum e qs zs M), (sc_Q _ _ _ Ea), sc_plus. reflexivity. }
  exists r, p. unfold nsum_from. rewrite (reduce_by_l c _ _ m vs CR V), E, bind_ok. auto.
Qed.

(** Inner products of multiples. *)
Lemma products_exact f1 f2 e1 e2 vs1 qs1 : stand_for (AFloat f1) vs1 qs1 -> forall zs1, multiples e1 qs1 zs1 ->
  forall vs2 qs2 zs2, stand_for (AFloat f2) vs2 qs2 -> multiples e2 qs2 zs2 -> exponent_of (common f1 f2) (e1 + e2) ->
  Forall (fun y => (Z.abs y < 2 ^ f_prec (common f1 f2))%Z) (map (fun p => fst p * snd p)%Z (combine zs1 zs2)) ->
  exists ps pqs, stand_for (AFloat (common f1 f2)) ps pqs /\ multiples (e1 + e2) pqs (map (fun p => fst p * snd p)%Z (combine zs1 zs2)) /\
    (forall ta a, foldo (fun a p => q <- times (AFloat f1) (AFloat f2) (fst p) (snd p) ;; accumulate ta (AFloat (common f1 f2)) a q) (combine vs1 vs2) a
                  = foldo (accumulate ta (AFloat (common f1 f2))) ps a) /\
    multiples (e1 + e2) (products qs1 qs2) (map (fun p => fst p * snd p)%Z (combine zs1 zs2)).
Proof.
  set (h := common f1 f2).
  induction 1 as [|v1 x vs1 qs1 [W1 N1] _ IH]; intros zs1 M1 vs2 qs2 zs2 S2 M2 He Bp; inversion M1 as [|? z1 ? zs1' E1 M1']; subst.
  - exists [], []. repeat split; try constructor.
  - inversion S2 as [|v2 y vs2' qs2' [W2 N2] S2' Ev Eq]; subst; inversion M2 as [|? z2 ? zs2' E2 M2']; subst.
    { exists [], []. repeat split; try constructor. }
    cbn [combine map fst snd] in Bp |- *. inversion Bp as [|? ? B1 B2]; subst.
    destruct (IH zs1' M1' vs2' qs2' zs2' S2' M2' He B2) as (ps & pqs & Sp & Mp & Ef & Mq).
    destruct v1 as [|a]; [contradiction|]. destruct v2 as [|b]; [contradiction|]. cbn [value_of_type number_value] in *.
    destruct (to_float_id h f1 a (common_l f1 f2) W1) as (a' & Ea & Fa & Ra).
    destruct (to_float_id h f2 b (common_r f1 f2) W2) as (b' & Eb & Fb & Rb).
    assert (Ep : (x * y == inject_Z (z1 * z2) * 2 ^ (e1 + e2))%Q).
    { rewrite E1, E2, inject_Z_mult, Qpower_plus by discriminate. ring. }
    assert (Er : rv a' * rv b' = sc (z1 * z2) (e1 + e2)).
    { rewrite Ra, Rb, <- (float_value_R _ _ N1), <- (float_value_R _ _ N2), <- Q2R_mult. apply sc_Q, Ep. }
    destruct (sc_fmt h h (z1 * z2) (e1 + e2) (le_refl h) He B1) as [Fz Lz].
    destruct (mul_ok (f_prec h) (f_emax h) (fp_ok h) (fm_ok h) a' b' Fa Fb) as [Fp Rp].
    { rewrite Er, rnd_id by exact Fz. exact Lz. }
    rewrite Er, rnd_id in Rp by exact Fz.
    destruct (same_value _ _ _ (x * y) Fp) as (q & Vq & Eq).
    { rewrite Rp. symmetry. apply sc_Q, Ep. }
    exists (NFloat (SFmul (f_prec h) (f_emax h) a' b') :: ps), (q :: pqs). split; [constructor; [split; [exact Fp|exact Vq]|exact Sp]|].
    split; [constructor; [rewrite Eq; exact Ep|exact Mp]|]. split; [|constructor; [exact Ep|exact Mq]].
    intros ta s. cbn [foldo fst snd].
    assert (Et : times (AFloat f1) (AFloat f2) (NFloat a) (NFloat b) = Ok (NFloat (SFmul (f_prec h) (f_emax h) a' b'))).
    { unfold times, operate. cbn [usual]. fold h. rewrite Ea, bind_ok, Eb, bind_ok. reflexivity. }
    rewrite Et, bind_ok. destruct (accumulate ta (AFloat h) s (NFloat (SFmul (f_prec h) (f_emax h) a' b'))) as [w| | |]; try reflexivity.
    rewrite !bind_ok. apply Ef.
Qed.

Lemma ninner_exact_l dbg f1 f2 e1 e2 c1 c2 m vs1 vs2 qs1 qs2 zs1 zs2 :
  can_read m c1 c1 -> can_read m c1 c2 -> values m c1 c1 vs1 -> values m c1 c2 vs2 ->
  stand_for (AFloat f1) vs1 qs1 -> stand_for (AFloat f2) vs2 qs2 -> multiples e1 qs1 zs1 -> multiples e2 qs2 zs2 ->
  legal (c_shape c1) -> legal (c_shape c2) -> c_shape c1 <> [] -> dims c1 = dims c2 -> exponent_of (common f1 f2) (e1 + e2) ->
  sums_below (f_prec (common f1 f2)) 0 (map (fun p => fst p * snd p)%Z (combine zs1 zs2)) ->
  exists r p, ninner dbg (AFloat f1) (AFloat f2) c1 c2 m = Ok (NFloat r, m) /\
    finite_of (common f1 f2) r /\ float_value r = Some p /\ (p == sum_of (products qs1 qs2))%Q.
Proof.
  intros CR1 CR2 V1 V2 S1 S2 M1 M2 L1 L2 Ne Eq He Sb.
  destruct (products_exact f1 f2 e1 e2 vs1 qs1 S1 zs1 M1 vs2 qs2 zs2 S2 M2 He (proj1 Sb)) as (ps & pqs & Sp & Mp & Ef & Mq).
  assert (R0 : rv (S754_zero false) = sc 0 (e1 + e2)) by (unfold sc; rewrite Rmult_0_l; reflexivity).
  destruct (fold_multiples (common f1 f2) (AFloat (common f1 f2)) (e1 + e2) ps pqs Sp _ Mp He (S754_zero false) 0%Z (proj1 (zero_ok _)) R0 Sb) as (r & E & Fr & Rr).
  destruct (same_value _ _ r (sum_of (products qs1 qs2)) Fr) as (p & Vp & Ep).
  { rewrite Rr, (multiples_sum _ _ _ Mq), Z.add_0_l. reflexivity. }
  exists r, p. unfold ninner. cbn [usual zero]. rewrite common_common, (ninner_from_l dbg _ _ _ c1 c2 _ m L1 L2 Ne Eq).
  rewrite (ndot_from_l _ _ _ c1 c2 _ m vs1 vs2 CR1 CR2 V1 V2). cbn [usual]. rewrite Ef, E, bind_ok. auto.
Qed.
