(** Facts about iota on elements of any arithmetic type (C92). *)
From Coq Require Import ZArith QArith Qreals Qpower Qabs Reals Lia Lra Psatz List Bool.
From Coq Require Import Floats.SpecFloat.
From Flocq Require Import Core Relative BinarySingleNaN.
From Verif Require Import Outcome CInt CIntFacts Spec SpecFacts ShapeSpec Shape ShapeFacts ShapeFacts2 ForEach ForEachSpec ForEachFacts
  Memory MemFacts Container ContainerSpec ContainerFacts ContainerFacts2 ContainerFacts3 Algo AlgoSpec AlgoFacts AlgoFacts2 AlgoFacts3 AlgoFacts4
  Interp IeeeSpec RoundSpec RoundFacts ErrorFacts
  Mixed MixedSpec MixedFacts Convert ConvertSpec ConvertFacts Sums SumsFacts FloatSums FloatSumsSpec FloatSumsFacts FloatSumsFacts2 FloatSumsFacts3 FloatSumsFacts4
  FloatSumsFacts5 FloatIota.
Import ListNotations.
Open Scope R_scope.

Definition total (out : container) : nat := Z.to_nat (prod (dims out)).
Lemma rank_total out is_ : in_box (dims out) is_ -> (Z.to_nat (rank (dims out) is_) < total out)%nat.
Proof. intros B. pose proof (rank_range _ _ B). unfold total. lia. Qed.

(** The running value after k steps. *)
Lemma niota_by tv ts ot out v s m (acc ow : nat -> number) : can_write m out out ->
  acc 0%nat = v ->
  (forall k, (k < total out)%nat -> accumulate tv ts (acc k) s = Ok (acc (S k))) ->
  (forall k, (k < total out)%nat -> convert ot (acc k) = Ok (ow k)) ->
  exists m', niota_step tv ts ot out v s m = Ok m' /\
    (forall is_, in_box (dims out) is_ -> value m' out is_ (ow (Z.to_nat (rank (dims out) is_)))) /\
    frame out out m m'.
Proof.
  intros CW A0 AS OW. destruct (live_wf m out (can_write_live _ _ _ CW)) as [_ Nn].
  pose (val := fun (pre : list (list Z)) (_ : list Z) => Some (ow (length pre))).
  pose proof CW as (_ & _ & D & V).
  pose proof (pmem_result out val out m Nn D V) as (R & F). cbv zeta in R, F.
  exists (pmem out val m (box (dims out))). unfold niota_step.
  pose (st := fun pre : list (list Z) => (acc (length pre), pmem out val m pre)).
  replace (v, m) with (st []) by (unfold st; cbn [length]; rewrite A0; reflexivity).
  rewrite (map_containers_inv _ out [] m st).
  - split; [reflexivity|]. split; [|exact F]. intros is_ B.
    destruct (box_split _ _ B) as (pre & post & E). specialize (R pre _ post E). unfold val in R at 1.
    rewrite (rank_pre _ _ _ _ Nn E B) in R. exact R.
  - apply can_write_live. exact CW.
  - constructor.
  - intros pre. apply pmem_same.
  - intros pre is_ post E. destruct (box_split_notin _ _ _ _ Nn E) as (_ & B & _).
    assert (L : (length pre < total out)%nat).
    { rewrite (rank_pre _ _ _ _ Nn E B). apply rank_total, B. }
    cbn [map]. unfold st. cbn [fst snd].
    rewrite (OW _ L), bind_ok, store_valid by (apply pmem_same, V, B). rewrite bind_ok, (AS _ L), bind_ok, pmem_step, app_length, Nat.add_1_r.
    reflexivity.
Qed.

(** ** Repeated steps *)
Lemma firstn_rep {A} (x : A) k n : (k <= n)%nat -> firstn k (repeat x n) = repeat x k.
Proof. revert n. induction k as [|k IH]; intros [|n] L; cbn [firstn repeat]; try reflexivity; [lia|]. rewrite IH by lia. reflexivity. Qed.
Lemma stand_rep ts s q n : value_of_type ts s -> number_value s = Some q -> stand_for ts (repeat s n) (repeat q n).
Proof. intros W N. induction n as [|n IH]; cbn [repeat]; constructor; [split; assumption|exact IH]. Qed.
Lemma Zof_S n : (inject_Z (Z.of_nat (S n)) == 1 + inject_Z (Z.of_nat n))%Q.
Proof. rewrite Nat2Z.inj_succ, <- Z.add_1_l, inject_Z_plus. reflexivity. Qed.
Lemma sum_rep q n : (sum_of (repeat q n) == inject_Z (Z.of_nat n) * q)%Q.
Proof. induction n as [|n IH]; cbn [repeat sum_of]; [ring|]. rewrite IH, Zof_S. ring. Qed.
Lemma size_rep q n : (size_of (repeat q n) == inject_Z (Z.of_nat n) * Qabs q)%Q.
Proof. unfold size_of. assert (E : map Qabs (repeat q n) = repeat (Qabs q) n) by (induction n as [|n IH]; cbn [repeat map]; congruence). rewrite E. apply sum_rep. Qed.
Lemma limit_eq f ts n x y : (x == y)%Q -> (sum_limit f ts n x == sum_limit f ts n y)%Q.
Proof. intros E. unfold sum_limit. rewrite E. reflexivity. Qed.
Lemma error_eq f ts n x y : (x == y)%Q -> (sum_error f ts n x == sum_error f ts n y)%Q.
Proof. intros E. unfold sum_error. rewrite E. reflexivity. Qed.

Lemma nth_rep {A} (x : A) k n : (k < n)%nat -> nth_error (repeat x n) k = Some x.
Proof. revert n. induction k as [|k IH]; intros [|n] L; cbn; try lia; [reflexivity|]. apply IH. lia. Qed.

(** ** Errors *)
Section Errors.
Variables (f : ftype) (ts : atype) (out : container) (a : spec_float) (qa : Q) (s : number) (qs : Q).
Hypothesis Fa : finite_of f a.
Hypothesis Va : float_value a = Some qa.
Hypothesis Ws : value_of_type ts s.
Hypothesis Ns : number_value s = Some qs.
Let n := total out.
Hypothesis B : (sum_limit f ts n (Qabs qa + inject_Z (Z.of_nat n) * Qabs qs) < 2 ^ f_emax f)%Q.

Lemma rep_limit : (sum_limit f ts (length (repeat s n)) (Qabs qa + size_of (repeat qs n)) < 2 ^ f_emax f)%Q.
Proof.
  rewrite repeat_length. rewrite (limit_eq f ts n _ (Qabs qa + inject_Z (Z.of_nat n) * Qabs qs)); [exact B|].
  rewrite size_rep. reflexivity.
Qed.
Lemma rep_room : room f ts a (repeat s n) (repeat qs n).
Proof.
  pose proof rep_limit as L. apply below_max in L. rewrite limit_R, Q2R_plus, Q2R_abs, (float_value_R _ _ Va) in L. exact L.
Qed.
Lemma rep_error k o : (k <= n)%nat -> le f o ->
  exists y p, out_value o (partial f ts (repeat s n) a k) = NFloat y /\ finite_of o y /\ float_value y = Some p /\
    within (sum_error f ts k (Qabs qa + inject_Z (Z.of_nat k) * Qabs qs)) (qa + inject_Z (Z.of_nat k) * qs) p /\
    exists r, partial f ts (repeat s n) a k = NFloat r /\ rv y = rv r.
Proof.
  intros Lk L. destruct (prefix_error f ts (repeat s n) (repeat qs n) k a qa (stand_rep ts s qs n Ws Ns) Fa Va rep_limit) with (o := o) as (y & p & E & _ & Fy & Vp & W & R).
  - rewrite repeat_length. exact Lk.
  - exact L.
  - exists y, p. split; [exact E|]. split; [exact Fy|]. split; [exact Vp|]. split; [|exact R].
    rewrite firstn_rep in W by exact Lk. eapply plus_0; [| |exact W].
    + apply error_eq. rewrite size_rep. reflexivity.
    + rewrite sum_rep. reflexivity.
Qed.
Lemma rep_step k : (k < n)%nat -> accumulate (AFloat f) ts (partial f ts (repeat s n) a k) s = Ok (partial f ts (repeat s n) a (S k)).
Proof.
  intros L. apply (partial_step f ts _ _ a k s (stand_rep ts s qs n Ws Ns) Fa rep_room). apply nth_rep, L.
Qed.
Lemma rep_float k : exists r, partial f ts (repeat s n) a k = NFloat r /\ finite_of f r.
Proof. destruct (partial_near f ts _ _ a k (stand_rep ts s qs n Ws Ns) Fa rep_room) as (r & E & _ & Fr & _). eauto. Qed.

Lemma niota_error_l o m : can_write m out out -> (f_prec f <= f_prec o)%Z ->
  exists m', niota_step (AFloat f) ts (AFloat o) out (NFloat a) s m = Ok m' /\
    (forall is_ k, in_box (dims out) is_ -> k = Z.to_nat (rank (dims out) is_) ->
       exists y p, value m' out is_ (NFloat y) /\ finite_of o y /\ float_value y = Some p /\
         within (sum_error f ts k (Qabs qa + inject_Z (Z.of_nat k) * Qabs qs)) (qa + inject_Z (Z.of_nat k) * qs) p) /\
    ((0 <= qs)%Q -> forall is_ js y z p p', in_box (dims out) is_ -> in_box (dims out) js ->
       (rank (dims out) is_ <= rank (dims out) js)%Z -> value m' out is_ (NFloat y) -> value m' out js (NFloat z) ->
       float_value y = Some p -> float_value z = Some p' -> (p <= p')%Q) /\
    ((qs <= 0)%Q -> forall is_ js y z p p', in_box (dims out) is_ -> in_box (dims out) js ->
       (rank (dims out) is_ <= rank (dims out) js)%Z -> value m' out is_ (NFloat y) -> value m' out js (NFloat z) ->
       float_value y = Some p -> float_value z = Some p' -> (p' <= p)%Q) /\
    frame out out m m'.
Proof.
  intros CW L.
  destruct (niota_by (AFloat f) ts (AFloat o) out (NFloat a) s m (partial f ts (repeat s n) a) (fun k => out_value o (partial f ts (repeat s n) a k)) CW)
    as (m' & E & Hv & F).
  - reflexivity.
  - exact rep_step.
  - intros k _. destruct (rep_float k) as (r & -> & _). reflexivity.
  - exists m'. split; [exact E|]. split; [|split; [|split; [|exact F]]].
    + intros is_ k Bi ->. pose proof (Nat.lt_le_incl _ _ (rank_total out is_ Bi)) as Lt.
      destruct (rep_error _ o Lt L) as (y & p & Ey & Fy & Vp & W & _). exists y, p. split; [rewrite <- Ey; apply Hv, Bi|]. auto.
    + intros P is_ js y z p p' Bi Bj Lr Hy Hz Vp Vp'.
      pose proof (Nat.lt_le_incl _ _ (rank_total out is_ Bi)) as Li. pose proof (Nat.lt_le_incl _ _ (rank_total out js Bj)) as Lj.
      set (i := Z.to_nat (rank (dims out) is_)) in *. set (j := Z.to_nat (rank (dims out) js)) in *.
      destruct (rep_error i o Li L) as (y' & _ & Ey & _ & _ & _ & r & Er & Ry).
      destruct (rep_error j o Lj L) as (z' & _ & Ez & _ & _ & _ & t & Et & Rz).
      specialize (Hv is_ Bi) as Hi. fold i in Hi. rewrite Ey in Hi. assert (y = y') by (unfold value in *; congruence). subst y'.
      specialize (Hv js Bj) as Hj. fold j in Hj. rewrite Ez in Hj. assert (z = z') by (unfold value in *; congruence). subst z'.
      assert (P' : Forall (fun q => 0 <= Q2R q) (repeat qs n)).
      { apply Qle_Rle in P. rewrite Q2R_0 in P. apply Forall_forall. intros q Hq. apply repeat_spec in Hq. subst q. exact P. }
      destruct (partial_mono f ts _ _ (stand_rep ts s qs n Ws Ns) P' a Fa rep_room i j) as (x1 & x2 & E1 & E2 & Le); [unfold i, j; lia|].
      assert (x1 = r) by congruence. assert (x2 = t) by congruence. subst x1 x2.
      apply Rle_Qle. rewrite (float_value_R _ _ Vp), (float_value_R _ _ Vp'), Ry, Rz. exact Le.
    + intros P is_ js y z p p' Bi Bj Lr Hy Hz Vp Vp'.
      pose proof (Nat.lt_le_incl _ _ (rank_total out is_ Bi)) as Li. pose proof (Nat.lt_le_incl _ _ (rank_total out js Bj)) as Lj.
      set (i := Z.to_nat (rank (dims out) is_)) in *. set (j := Z.to_nat (rank (dims out) js)) in *.
      destruct (rep_error i o Li L) as (y' & _ & Ey & _ & _ & _ & r & Er & Ry).
      destruct (rep_error j o Lj L) as (z' & _ & Ez & _ & _ & _ & t & Et & Rz).
      specialize (Hv is_ Bi) as Hi. fold i in Hi. rewrite Ey in Hi. assert (y = y') by (unfold value in *; congruence). subst y'.
      specialize (Hv js Bj) as Hj. fold j in Hj. rewrite Ez in Hj. assert (z = z') by (unfold value in *; congruence). subst z'.
      assert (P' : Forall (fun q => Q2R q <= 0) (repeat qs n)).
      { apply Qle_Rle in P. rewrite Q2R_0 in P. apply Forall_forall. intros q Hq. apply repeat_spec in Hq. subst q. exact P. }
      destruct (partial_anti f ts _ _ (stand_rep ts s qs n Ws Ns) P' a Fa rep_room i j) as (x1 & x2 & E1 & E2 & Le); [unfold i, j; lia|].
      assert (x1 = r) by congruence. assert (x2 = t) by congruence. subst x1 x2.
      apply Rle_Qle. rewrite (float_value_R _ _ Vp), (float_value_R _ _ Vp'), Ry, Rz. exact Le.
Qed.

Lemma niota_as_l ot m : can_write m out out ->
  (forall k x p, (k < n)%nat -> finite_of f x -> float_value x = Some p ->
     within (sum_error f ts k (Qabs qa + inject_Z (Z.of_nat k) * Qabs qs)) (qa + inject_Z (Z.of_nat k) * qs) p ->
     convertible ot (NFloat x)) ->
  exists m', niota_step (AFloat f) ts ot out (NFloat a) s m = Ok m' /\
    (forall is_ k, in_box (dims out) is_ -> k = Z.to_nat (rank (dims out) is_) ->
       exists x p w, finite_of f x /\ float_value x = Some p /\
         within (sum_error f ts k (Qabs qa + inject_Z (Z.of_nat k) * Qabs qs)) (qa + inject_Z (Z.of_nat k) * qs) p /\
         value m' out is_ w /\ converted ot (NFloat x) w) /\
    frame out out m m'.
Proof.
  intros CW Cv.
  assert (Ck : forall k, (k < n)%nat -> exists x p w, partial f ts (repeat s n) a k = NFloat x /\ finite_of f x /\ float_value x = Some p /\
    within (sum_error f ts k (Qabs qa + inject_Z (Z.of_nat k) * Qabs qs)) (qa + inject_Z (Z.of_nat k) * qs) p /\ convert ot (NFloat x) = Ok w /\ converted ot (NFloat x) w).
  { intros k Lk. destruct (rep_error k f ltac:(lia) (le_refl f)) as (y & p & _ & _ & Vp & W & r & Er & Ry).
    destruct (rep_float k) as (r' & Er' & Fr). assert (r' = r) by congruence. subst r'.
    destruct (same_value _ _ r p Fr) as (p' & Vp' & Ep); [rewrite (float_value_R _ _ Vp); symmetry; exact Ry|].
    assert (W' : within (sum_error f ts k (Qabs qa + inject_Z (Z.of_nat k) * Qabs qs)) (qa + inject_Z (Z.of_nat k) * qs) p').
    { unfold within in *. rewrite Ep. exact W. }
    destruct (convert_ok ot (NFloat r)) as (w & Ew & Cw); [apply (Cv k r p'); assumption|].
    exists r, p', w. auto 10. }
  pose (ow := fun k => match convert ot (partial f ts (repeat s n) a k) with Ok w => w | _ => NInt 0 end).
  destruct (niota_by (AFloat f) ts ot out (NFloat a) s m (partial f ts (repeat s n) a) ow CW) as (m' & E & Hv & F).
  - reflexivity.
  - exact rep_step.
  - intros k Lk. destruct (Ck k Lk) as (x & p & w & Ex & _ & _ & _ & Ew & _). unfold ow. rewrite Ex, Ew. reflexivity.
  - exists m'. split; [exact E|]. split; [|exact F].
    intros is_ k Bi ->. specialize (Hv is_ Bi). destruct (Ck _ (rank_total out is_ Bi)) as (x & p & w & Ex & Fx & Vp & W & Ew & Cw).
    unfold ow in Hv. rewrite Ex, Ew in Hv. exists x, p, w. auto 10.
Qed.
End Errors.

(** ** Exact values *)
Lemma chain (P : nat -> number -> Prop) tv ts s v n : P 0%nat v ->
  (forall k x, (k < n)%nat -> P k x -> exists y, accumulate tv ts x s = Ok y /\ P (S k) y) ->
  exists acc : nat -> number, acc 0%nat = v /\ (forall k, (k < n)%nat -> accumulate tv ts (acc k) s = Ok (acc (S k))) /\
    forall k, (k <= n)%nat -> P k (acc k).
Proof.
  intros P0 St.
  pose (acc := fix acc (k : nat) : number := match k with O => v | S k' => match accumulate tv ts (acc k') s with Ok y => y | _ => v end end).
  assert (Pk : forall k, (k <= n)%nat -> P k (acc k)).
  { induction k as [|k IH]; intros L; [exact P0|]. cbn [acc]. destruct (St k (acc k) L (IH ltac:(lia))) as (y & E & Py).
    change (P (S k) (match accumulate tv ts (acc k) s with Ok y0 => y0 | _ => v end)). rewrite E. exact Py. }
  exists acc. split; [reflexivity|]. split; [|exact Pk]. intros k L. destruct (St k (acc k) L (Pk k ltac:(lia))) as (y & E & _).
  rewrite E. f_equal. change (y = match accumulate tv ts (acc k) s with Ok y0 => y0 | _ => v end). rewrite E. reflexivity.
Qed.

Definition exactly (f : ftype) (r : R) (v : number) : Prop := exists x, v = NFloat x /\ finite_of f x /\ rv x = r.
Lemma exact_convert f o r v : le f o -> exactly f r v -> convert (AFloat o) v = Ok (out_value o v) /\ exactly o r (out_value o v).
Proof.
  intros L (x & -> & Fx & Rx). destruct (conv_ok f o x L Fx) as [Fy Ry]. split; [reflexivity|]. exists (to_ftype o x). cbn [out_value].
  split; [reflexivity|]. split; [exact Fy|congruence].
Qed.
Lemma niota_exactly f ts o out v s m (g : nat -> Q) : can_write m out out -> le f o -> exactly f (Q2R (g 0%nat)) v ->
  (forall k x, (k < total out)%nat -> exactly f (Q2R (g k)) x -> exists y, accumulate (AFloat f) ts x s = Ok y /\ exactly f (Q2R (g (S k))) y) ->
  exists m', niota_step (AFloat f) ts (AFloat o) out v s m = Ok m' /\
    (forall is_ k, in_box (dims out) is_ -> k = Z.to_nat (rank (dims out) is_) ->
       exists y p, value m' out is_ (NFloat y) /\ float_value y = Some p /\ (p == g k)%Q) /\
    frame out out m m'.
Proof.
  intros CW L P0 St. destruct (chain (fun k x => exactly f (Q2R (g k)) x) (AFloat f) ts s v (total out) P0 St) as (acc & A0 & AS & Pk).
  destruct (niota_by (AFloat f) ts (AFloat o) out v s m acc (fun k => out_value o (acc k)) CW A0 AS) as (m' & E & Hv & F).
  - intros k Lk. apply (exact_convert f o (Q2R (g k)) _ L), Pk. lia.
  - exists m'. split; [exact E|]. split; [|exact F]. intros is_ k Bi ->.
    pose proof (rank_total out is_ Bi) as Lt. set (k := Z.to_nat (rank (dims out) is_)) in *.
    destruct (exact_convert f o _ (acc k) L (Pk k ltac:(lia))) as (_ & y & Ey & Fy & Ry).
    destruct (same_value _ _ y (g k) Fy Ry) as (p & Vp & Ep). exists y, p. split; [|auto]. rewrite <- Ey. apply Hv, Bi.
Qed.

Lemma between p z0 z n k : (0 <= k <= n)%Z -> (Z.abs z0 < p)%Z -> (Z.abs (z0 + n * z) < p)%Z -> (Z.abs (z0 + k * z) < p)%Z.
Proof.
  intros K H0 Hn. apply Z.abs_lt. apply Z.abs_lt in H0, Hn. destruct (Z.le_gt_cases 0 z).
  - assert (0 <= k * z <= n * z)%Z by nia. lia.
  - assert (n * z <= k * z <= 0)%Z by nia. lia.
Qed.
Lemma niota_exact_l f ts o e out m a qa s qs z0 z : can_write m out out -> (f_prec f <= f_prec o)%Z ->
  finite_of f a -> float_value a = Some qa -> value_of_type ts s -> number_value s = Some qs ->
  (qa == inject_Z z0 * 2 ^ e)%Q -> (qs == inject_Z z * 2 ^ e)%Q -> exponent_of f e ->
  (Z.abs z0 < 2 ^ f_prec f)%Z -> (Z.abs z < 2 ^ f_prec f)%Z -> (Z.abs (z0 + Z.of_nat (total out) * z) < 2 ^ f_prec f)%Z ->
  exists m', niota_step (AFloat f) ts (AFloat o) out (NFloat a) s m = Ok m' /\
    (forall is_ k, in_box (dims out) is_ -> k = Z.to_nat (rank (dims out) is_) ->
       exists y p, value m' out is_ (NFloat y) /\ float_value y = Some p /\ (p == qa + inject_Z (Z.of_nat k) * qs)%Q) /\
    frame out out m m'.
Proof.
  intros CW L Fa Va Ws Ns Ea Es He B0 Bz Bn.
  pose proof (sc_Q _ _ _ Ea) as Ra. pose proof (sc_Q _ _ _ Es) as Rs.
  assert (G : forall k, Q2R (qa + inject_Z (Z.of_nat k) * qs) = sc (z0 + Z.of_nat k * z) e).
  { intros k. rewrite Q2R_plus, Q2R_mult, Q2R_inject, Ra, Rs, <- sc_plus. f_equal. unfold sc. rewrite mult_IZR. ring. }
  apply (niota_exactly f ts o out (NFloat a) s m (fun k => (qa + inject_Z (Z.of_nat k) * qs)%Q) CW L).
  - exists a. split; [reflexivity|]. split; [exact Fa|]. rewrite G. cbn [Z.of_nat]. rewrite Z.mul_0_l, Z.add_0_r, <- Ra. symmetry. apply float_value_R, Va.
  - intros k x Lk (x' & -> & Fx & Rx). rewrite G in Rx.
    destruct (step_exact f ts e x' (z0 + Z.of_nat k * z) s qs z He Fx Rx Ws Ns Rs Bz) as (r & E & Fr & Rr).
    + replace (z0 + Z.of_nat k * z + z)%Z with (z0 + Z.of_nat (S k) * z)%Z by lia. apply between with (n := Z.of_nat (total out)); [lia|assumption..].
    + exists (NFloat r). split; [exact E|]. exists r. split; [reflexivity|]. split; [exact Fr|]. rewrite G, Rr. f_equal. lia.
Qed.

(** ** Steps of one *)
Lemma incr_one f x : accumulate (AFloat f) (AInt I32) x (NInt 1) = accumulate (AFloat f) (AFloat f) x (NFloat (of_int (arith_of f) 1)).
Proof. destruct f; reflexivity. Qed.
Lemma niota_stops_l f out m : can_write m out out ->
  exists m', niota_default (AFloat f) out m = Ok m' /\
    (forall is_, in_box (dims out) is_ -> exists y p, value m' out is_ (NFloat y) /\ float_value y = Some p /\
       (p == inject_Z (Z.min (rank (dims out) is_) (2 ^ f_prec f)))%Q) /\
    frame out out m m'.
Proof.
  intros CW. pose proof (pow_prec (f_prec f) (fp_ok f)) as P2.
  destruct (niota_exactly f (AInt I32) f out (zero (AFloat f)) (NInt 1) m (fun k => inject_Z (Z.min (Z.of_nat k) (2 ^ f_prec f))) CW (le_refl f)) as (m' & E & Hv & F).
  - exists (S754_zero false). split; [reflexivity|]. split; [apply zero_ok|]. rewrite Q2R_inject. cbn [Z.of_nat]. rewrite Z.min_l by lia. reflexivity.
  - intros k x _ (x' & -> & Fx & Rx). rewrite Q2R_inject in Rx. rewrite incr_one.
    destruct (ones_step f x' (Z.min (Z.of_nat k) (2 ^ f_prec f))) as (r & Er & Fr & Rr); [unfold top; lia|exact Fx|exact Rx|].
    exists (NFloat r). split; [exact Er|]. exists r. split; [reflexivity|]. split; [exact Fr|]. rewrite Q2R_inject, Rr. f_equal. unfold top. lia.
  - exists m'. split; [exact E|]. split; [|exact F]. intros is_ Bi. destruct (Hv is_ _ Bi eq_refl) as (y & p & H1 & H2 & H3).
    exists y, p. rewrite Z2Nat.id in H3 by (apply rank_range, Bi). auto.
Qed.

(** ** Integer running values *)
Lemma int_incr t z : in_ty t z -> in_ty t (z + 1) -> accumulate (AInt t) (AInt I32) (NInt z) (NInt 1) = Ok (NInt (z + 1)).
Proof.
  intros H0 H1. unfold accumulate, plus, operate. cbn [usual].
  assert (C : compat (CI t z) (CI I32 1)).
  { destruct (is_signed t) eqn:S; [apply compat_signed; [exact S|reflexivity]|]. apply compat_nonneg; cbn [cval]; [|lia].
    destruct H0 as [H0 _]. destruct t; try discriminate S; cbn in H0; lia. }
  unfold cadd. rewrite arith_exact.
  - rewrite !bind_ok. cbn [cval convert]. rewrite cast_id by exact H1. reflexivity.
  - exact H0.
  - split; vm_compute; discriminate.
  - exact C.
  - cbn [cty cval]. apply in_ty_common_l; [exact H1|]. destruct C as [C|[C1 C2]]; [left; exact C|right; cbn [cval] in *; lia].
Qed.
Lemma niota_int_l t ot out m v : can_write m out out -> in_ty t v -> in_ty t (v + Z.of_nat (total out)) ->
  (forall k, (0 <= k < Z.of_nat (total out))%Z -> convertible ot (NInt (v + k))) ->
  exists m', niota (AInt t) ot out (NInt v) m = Ok m' /\
    (forall is_, in_box (dims out) is_ -> exists w, value m' out is_ w /\ converted ot (NInt (v + rank (dims out) is_)) w) /\
    frame out out m m'.
Proof.
  intros CW H0 Hn Cv.
  pose (ow := fun k : nat => match convert ot (NInt (v + Z.of_nat k)) with Ok w => w | _ => NInt 0 end).
  assert (Ck : forall k, (k < total out)%nat -> convert ot (NInt (v + Z.of_nat k)) = Ok (ow k) /\ converted ot (NInt (v + Z.of_nat k)) (ow k)).
  { intros k L. destruct (convert_ok ot _ (Cv (Z.of_nat k) ltac:(lia))) as (w & E & C). unfold ow. rewrite E. auto. }
  destruct (niota_by (AInt t) (AInt I32) ot out (NInt v) (NInt 1) m (fun k => NInt (v + Z.of_nat k)) ow CW) as (m' & E & Hv & F).
  - cbn [Z.of_nat]. rewrite Z.add_0_r. reflexivity.
  - intros k L. rewrite int_incr.
    + do 2 f_equal. lia.
    + destruct H0, Hn. split; lia.
    + destruct H0, Hn. split; lia.
  - intros k L. apply Ck, L.
  - exists m'. split; [exact E|]. split; [|exact F]. intros is_ Bi. destruct (Ck _ (rank_total out is_ Bi)) as [_ C].
    rewrite Z2Nat.id in C by (apply rank_range, Bi). eexists. split; [apply Hv, Bi|exact C].
Qed.
(** From the integer 0 with steps between -1 and 1. *)
Lemma niota_stuck_l t g ot out m s q w : can_write m out out -> value_of_type (AFloat g) s -> number_value s = Some q -> (Qabs q < 1)%Q ->
  convert ot (NInt 0) = Ok w ->
  exists m', niota_step (AInt t) (AFloat g) ot out (NInt 0) s m = Ok m' /\
    (forall is_, in_box (dims out) is_ -> value m' out is_ w) /\ frame out out m m'.
Proof.
  intros CW Ws Ns B Ew. apply (niota_by (AInt t) (AFloat g) ot out (NInt 0) s m (fun _ => NInt 0) (fun _ => w) CW).
  - reflexivity.
  - intros k _. apply (int_step t g s q Ws Ns B).
  - intros k _. exact Ew.
Qed.
Lemma zero_of ot : exists w, convert ot (NInt 0) = Ok w /\ number_value w = Some 0%Q.
Proof. destruct ot as [t|f]; [exists (NInt 0); destruct t|exists (NFloat (S754_zero false)); destruct f]; split; reflexivity. Qed.
Lemma niota_zeros_l t g ot out m s q : can_write m out out -> value_of_type (AFloat g) s -> number_value s = Some q -> (Qabs q < 1)%Q ->
  exists m', niota_step (AInt t) (AFloat g) ot out (NInt 0) s m = Ok m' /\
    (forall is_, in_box (dims out) is_ -> exists w, value m' out is_ w /\ number_value w = Some 0%Q) /\ frame out out m m'.
Proof.
  intros CW Ws Ns B. destruct (zero_of ot) as (w & Ew & Nw). destruct (niota_stuck_l t g ot out m s q w CW Ws Ns B Ew) as (m' & E & Hv & F).
  exists m'. split; [exact E|]. split; [|exact F]. intros is_ Bi. exists w. split; [apply Hv, Bi|exact Nw].
Qed.
