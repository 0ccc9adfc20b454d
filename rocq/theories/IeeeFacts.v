(** Facts about interpolation in floating-point arithmetic (C59). *)
From Coq Require Import ZArith QArith Qround List Bool Lia.
From Coq Require Import Floats.SpecFloat.
From Verif Require Import Outcome CInt CIntFacts Spec SpecFacts ShapeSpec ShapeFacts Memory MemFacts Container ContainerSpec
  ContainerFacts ContainerFacts2 AlgoSpec Interp InterpSpec InterpFacts IeeeSpec.
Import ListNotations.
Open Scope Z_scope.

(** ** Shifts *)
Definition shift (k m : positive) : positive := Pos.iter xO m k.

Lemma shift_succ k m : shift (Pos.succ k) m = xO (shift k m).
Proof. unfold shift. apply Pos.iter_succ. Qed.
Lemma shift_one m : shift 1 m = xO m.
Proof. reflexivity. Qed.

Lemma shift_pos_shift k m : shift_pos k m = shift k m.
Proof. reflexivity. Qed.

Lemma digits_shift k m : digits2_pos (shift k m) = (digits2_pos m + k)%positive.
Proof.
  induction k as [|k IH] using Pos.peano_ind.
  - rewrite shift_one. cbn [digits2_pos]. lia.
  - rewrite shift_succ. cbn [digits2_pos]. rewrite IH. lia.
Qed.

Lemma shift_mul k m : (m * shift k 1 = shift k m)%positive.
Proof.
  induction k as [|k IH] using Pos.peano_ind.
  - rewrite !shift_one. apply Pos.mul_comm.
  - rewrite !shift_succ. rewrite Pos.mul_xO_r, IH. reflexivity.
Qed.

Lemma shift_div k m : Zpos (shift k m) / 2 ^ Zpos k = Zpos m.
Proof.
  assert (E : Zpos (shift k m) = Zpos m * 2 ^ Zpos k).
  { induction k as [|k IH] using Pos.peano_ind.
    - rewrite shift_one. change (2 ^ 1) with 2. lia.
    - rewrite shift_succ, Pos2Z.inj_xO, IH, Pos2Z.inj_succ, Z.pow_succ_r by lia. lia. }
  rewrite E. apply Z.div_mul. lia.
Qed.

Lemma iter_pos_iter {A} (f : A -> A) n : forall x, iter_pos f n x = Pos.iter f x n.
Proof.
  induction n as [n IH|n IH|]; intros x; cbn [iter_pos Pos.iter].
  - rewrite !IH. rewrite !Pos.iter_swap. reflexivity.
  - rewrite !IH. reflexivity.
  - reflexivity.
Qed.

Lemma shr_shift k m : iter_pos shr_1 k (Build_shr_record (Zpos (shift k m)) false false) =
  Build_shr_record (Zpos m) false false.
Proof.
  rewrite iter_pos_iter. induction k as [|k IH] using Pos.peano_ind.
  - reflexivity.
  - rewrite Pos.iter_succ_r, shift_succ. cbn [shr_1 orb]. exact IH.
Qed.

Lemma digits_lower m : 2 ^ (Zpos (digits2_pos m) - 1) <= Zpos m.
Proof.
  induction m as [m IH|m IH|]; cbn [digits2_pos].
  - rewrite Pos2Z.inj_succ. replace (Z.succ (Zpos (digits2_pos m)) - 1) with (Z.succ (Zpos (digits2_pos m) - 1)) by lia.
    rewrite Z.pow_succ_r by lia. lia.
  - rewrite Pos2Z.inj_succ. replace (Z.succ (Zpos (digits2_pos m)) - 1) with (Z.succ (Zpos (digits2_pos m) - 1)) by lia.
    rewrite Z.pow_succ_r by lia. lia.
  - reflexivity.
Qed.

Lemma digits_le m p : 0 < p -> Zpos m < 2 ^ p -> Zpos (digits2_pos m) <= p.
Proof.
  intros Hp H. destruct (Z.le_gt_cases (Zpos (digits2_pos m)) p) as [L|L]; [exact L|exfalso].
  pose proof (digits_lower m) as D.
  assert (2 ^ p <= 2 ^ (Zpos (digits2_pos m) - 1)) by (apply Z.pow_le_mono_r; lia). lia.
Qed.

Section Format.
Variables prec emax : Z.
Hypothesis Hprec : 1 < prec.
Hypothesis Hemax : prec < emax.

Notation fx := (fexp prec emax).
Notation one := (of_int (ieee prec emax) 1).
Notation pz := (S754_zero false).

Lemma canonical_iff m e : canonical_mantissa prec emax m e = true <-> fx (Zpos (digits2_pos m) + e) = e.
Proof. unfold canonical_mantissa. symmetry. apply Zeq_is_eq_bool. Qed.

Lemma shr_exact0 m e : fx (Zpos (digits2_pos m) + e) = e -> shr_fexp prec emax (Zpos m) e loc_Exact =
  (Build_shr_record (Zpos m) false false, e).
Proof.
  intros C. unfold shr_fexp. cbn [Zdigits2]. rewrite C, Z.sub_diag. reflexivity.
Qed.

Lemma round_canonical s m e : fx (Zpos (digits2_pos m) + e) = e -> e <= emax - prec ->
  binary_round_aux prec emax s (Zpos m) e loc_Exact = S754_finite s m e.
Proof.
  intros C L. unfold binary_round_aux. rewrite shr_exact0 by exact C.
  cbn [shr_m loc_of_shr_record round_nearest_even]. rewrite shr_exact0 by exact C.
  cbn [shr_m]. rewrite (proj1 (Zle_is_le_bool _ _) L). reflexivity.
Qed.

Lemma round_shifted s k m e : fx (Zpos (digits2_pos m) + e) = e -> e <= emax - prec ->
  binary_round_aux prec emax s (Zpos (shift k m)) (e - Zpos k) loc_Exact = S754_finite s m e.
Proof.
  intros C L. unfold binary_round_aux.
  assert (E : shr_fexp prec emax (Zpos (shift k m)) (e - Zpos k) loc_Exact = (Build_shr_record (Zpos m) false false, e)).
  { unfold shr_fexp. cbn [Zdigits2 shr_record_of_loc]. rewrite digits_shift, Pos2Z.inj_add.
    replace (Zpos (digits2_pos m) + Zpos k + (e - Zpos k)) with (Zpos (digits2_pos m) + e) by lia. rewrite C.
    replace (e - (e - Zpos k)) with (Zpos k) by lia. cbn [shr]. rewrite shr_shift. f_equal. lia. }
  rewrite E. cbn [shr_m loc_of_shr_record round_nearest_even]. rewrite shr_exact0 by exact C.
  cbn [shr_m]. rewrite (proj1 (Zle_is_le_bool _ _) L). reflexivity.
Qed.

(** Integers below 2^prec. *)
Lemma of_pos m : Zpos m < 2 ^ prec -> exists m' e, of_int (ieee prec emax) (Zpos m) = S754_finite false m' e /\
  finite_number prec emax (S754_finite false m' e) /\ sf_trunc (S754_finite false m' e) = Some (Zpos m).
Proof.
  intros H. pose proof (digits_le m prec ltac:(lia) H) as D.
  assert (F : fx (Zpos (digits2_pos m) + 0) = Zpos (digits2_pos m) - prec).
  { unfold fexp, emin. lia. }
  cbn [of_int ieee]. unfold binary_normalize, binary_round. rewrite F. unfold shl_align. rewrite Z.sub_0_r.
  destruct (Z.eq_dec (Zpos (digits2_pos m)) prec) as [E|E].
  - assert (F0 : fx (Zpos (digits2_pos m) + 0) = 0) by lia.
    replace (Zpos (digits2_pos m) - prec) with 0 by lia. rewrite round_canonical by (try assumption; lia).
    exists m, 0. split; [reflexivity|]. split; [|reflexivity]. split; [|exact I].
    unfold valid_binary, bounded. rewrite (proj2 (canonical_iff m 0) F0). cbn [andb]. apply Zle_is_le_bool. lia.
  - assert (X : exists k, Zpos (digits2_pos m) - prec = Zneg k).
    { exists (Z.to_pos (prec - Zpos (digits2_pos m))). rewrite <- Pos2Z.opp_pos, Z2Pos.id by lia. lia. }
    destruct X as [k X]. rewrite X, shift_pos_shift.
    assert (C : fx (Zpos (digits2_pos (shift k m)) + Zneg k) = Zneg k).
    { rewrite digits_shift, Pos2Z.inj_add. unfold fexp, emin. lia. }
    rewrite round_canonical by (try exact C; lia). exists (shift k m), (Zneg k). split; [reflexivity|].
    split; [split; [|exact I]|].
    + unfold valid_binary, bounded. rewrite (proj2 (canonical_iff _ _) C). cbn [andb]. apply Zle_is_le_bool. lia.
    + cbn [sf_trunc]. rewrite Pos2Z.opp_neg, shift_div. reflexivity.
Qed.

Lemma one_shift : exists k, one = S754_finite false (shift k 1) (Zneg k) /\ Zpos k = prec - 1.
Proof.
  assert (F : fx (Zpos (digits2_pos 1) + 0) = 1 - prec) by (unfold fexp, emin; cbn [digits2_pos]; lia).
  exists (Z.to_pos (prec - 1)). split; [|rewrite Z2Pos.id by lia; reflexivity].
  cbn [of_int ieee]. unfold binary_normalize, binary_round. rewrite F. unfold shl_align. rewrite Z.sub_0_r.
  assert (X : 1 - prec = Zneg (Z.to_pos (prec - 1))) by (rewrite <- Pos2Z.opp_pos, Z2Pos.id by lia; lia).
  rewrite X, shift_pos_shift. apply round_canonical.
  - rewrite digits_shift, Pos2Z.inj_add, <- X. unfold fexp, emin. cbn [digits2_pos]. rewrite Z2Pos.id by lia. lia.
  - lia.
Qed.

Lemma mul_one x : finite_number prec emax x -> SFmul prec emax x one = x.
Proof.
  intros [V F]. destruct one_shift as (k & -> & Hk). destruct x as [s|s| |s m e]; try contradiction.
  - cbn [SFmul]. destruct s; reflexivity.
  - cbn [SFmul]. rewrite xorb_false_r, shift_mul. unfold valid_binary, bounded in V.
    apply andb_true_iff in V. destruct V as [V1 V2]. apply canonical_iff in V1. apply Zle_is_le_bool in V2.
    replace (e + Zneg k) with (e - Zpos k) by lia. apply round_shifted; assumption.
Qed.

Lemma one_finite : finite_number prec emax one.
Proof.
  destruct (of_pos 1) as (m' & e & E & F & _).
  - apply (Z.pow_gt_1 2 prec) in Hprec as _ || idtac. assert (2 ^ 1 < 2 ^ prec) by (apply Z.pow_lt_mono_r; lia). lia.
  - rewrite E. exact F.
Qed.

Lemma sub_self i : 0 <= i < 2 ^ prec ->
  SFsub prec emax (of_int (ieee prec emax) i) (of_int (ieee prec emax) i) = pz.
Proof.
  intros [H0 H]. destruct i as [|p|p]; [reflexivity| |lia].
  destruct (of_pos p H) as (m' & e & E & _). rewrite E. cbn [SFsub]. rewrite Z.sub_diag. reflexivity.
Qed.

Lemma trunc_of i : 0 <= i < 2 ^ prec -> trunc (ieee prec emax) (of_int (ieee prec emax) i) = Some i.
Proof.
  intros [H0 H]. destruct i as [|p|p]; [reflexivity| |lia].
  destruct (of_pos p H) as (m' & e & E & _ & T). rewrite E. exact T.
Qed.

Lemma sub_zero : SFsub prec emax one pz = one.
Proof. destruct one_shift as (k & -> & _). reflexivity. Qed.

Lemma one_mul_zero : SFmul prec emax one pz = pz.
Proof. destruct one_shift as (k & -> & _). reflexivity. Qed.
Lemma zero_mul_one : SFmul prec emax pz one = pz.
Proof. destruct one_shift as (k & -> & _). reflexivity. Qed.

(** ** The interpolation *)
Lemma map_zeros (g : spec_float -> spec_float) n : g pz = pz -> map g (repeat pz n) = repeat pz n.
Proof. intros H. induction n as [|n IH]; [reflexivity|]. cbn [repeat map]. rewrite H, IH. reflexivity. Qed.

Lemma weights_lower n : map (fun e => SFmul prec emax e one) (one :: repeat pz n) = one :: repeat pz n.
Proof.
  transitivity (SFmul prec emax one one :: map (fun e => SFmul prec emax e one) (repeat pz n)); [reflexivity|].
  rewrite (mul_one _ one_finite), map_zeros by apply zero_mul_one. reflexivity.
Qed.
Lemma weights_upper n : map (fun e => SFmul prec emax e pz) (one :: repeat pz n) = repeat pz (S n).
Proof.
  transitivity (SFmul prec emax one pz :: map (fun e => SFmul prec emax e pz) (repeat pz n)); [reflexivity|].
  rewrite one_mul_zero, map_zeros by reflexivity. reflexivity.
Qed.

Lemma setup_grid is_ : Forall (fun i => 0 <= i < 2147483647 /\ i < 2 ^ prec) is_ ->
  forall c0 cs n, length cs = n -> exists cs' n',
    kfold_right (setup_step (ieee prec emax)) (map (of_int (ieee prec emax)) is_) (c0 :: cs, one :: repeat pz n) =
      Ok ((c0 ++ is_) :: cs', one :: repeat pz n') /\ length cs' = n' /\
    forall c, In c cs' -> exists d js, In d (c0 :: cs) /\ corner is_ js /\ c = d ++ js.
Proof.
  induction 1 as [|i is_ [[H0 H1] H2] F IH]; intros c0 cs n L.
  - exists cs, n. cbn [map kfold_right]. rewrite app_nil_r. split; [reflexivity|]. split; [exact L|].
    intros c I. exists c, []. split; [right; exact I|]. split; [constructor|]. symmetry. apply app_nil_r.
  - cbn [map kfold_right]. unfold setup_step at 1, to_int. rewrite trunc_of by lia.
    assert (T : in_tyb I32 i = true) by (apply in_tyb_spec; unfold in_ty; simpl; lia).
    rewrite T, bind_ok. unfold cadd. rewrite arith_exact;
      [|unfold wfc, in_ty; simpl; lia|unfold wfc, in_ty; simpl; lia|left; reflexivity|unfold in_ty; simpl; lia].
    rewrite bind_ok. cbn [cval int nsub nmul ieee]. rewrite sub_self by lia.
    change (SFsub prec emax (of_int (ieee prec emax) 1) pz) with (SFsub prec emax one pz). rewrite sub_zero.
    rewrite weights_lower, weights_upper, bind_ok.
    set (cs1 := map (fun e => e ++ [i]) cs ++ map (fun e => e ++ [i + 1]) (c0 :: cs)).
    assert (W : (one :: repeat pz n) ++ repeat pz (S n) = one :: repeat pz (n + S n)).
    { cbn [app]. f_equal. symmetry. apply repeat_app. }
    rewrite W.
    change (map (fun e => e ++ [i]) (c0 :: cs) ++ map (fun e => e ++ [i + 1]) (c0 :: cs)) with ((c0 ++ [i]) :: cs1).
    destruct (IH (c0 ++ [i]) cs1 (n + S n)%nat) as (cs' & n' & E & L' & C).
    { unfold cs1. rewrite app_length, !map_length. cbn [length]. lia. }
    exists cs', n'. split; [|split; [exact L'|]].
    + rewrite E, <- app_assoc. reflexivity.
    + intros c I. destruct (C c I) as (d & js & Id & Cj & ->).
      assert (X : exists d0, In d0 (c0 :: cs) /\ (d = d0 ++ [i] \/ d = d0 ++ [i + 1])).
      { destruct Id as [<-|Id]; [exists c0; split; [left; reflexivity|left; reflexivity]|].
        unfold cs1 in Id. apply in_app_or in Id as [Id|Id]; apply in_map_iff in Id as (d0 & <- & I0).
        - exists d0. split; [right; exact I0|left; reflexivity].
        - exists d0. split; [exact I0|right; reflexivity]. }
      destruct X as (d0 & I0 & [-> | ->]).
      * exists d0, (i :: js). split; [exact I0|]. split; [constructor; [left; reflexivity|exact Cj]|].
        rewrite <- app_assoc. reflexivity.
      * exists d0, (i + 1 :: js). split; [exact I0|]. split; [constructor; [right; reflexivity|exact Cj]|].
        rewrite <- app_assoc. reflexivity.
Qed.

Lemma inner_zeros xs : Forall (finite_number prec emax) xs -> forall init, finite_number prec emax init ->
  same_number (inner (ieee prec emax) init xs (repeat pz (length xs))) init.
Proof.
  assert (R : forall a, same_number a a) by (intros [|[]| |]; simpl; auto).
  induction 1 as [|x xs [V F] Fs IH]; intros init HI; [apply R|].
  cbn [length repeat inner nadd nmul ieee].
  assert (Z : exists s, SFmul prec emax x pz = S754_zero s).
  { destruct x; try contradiction; eexists; reflexivity. }
  destruct Z as [s ->]. destruct init as [s0|s0| |s0 m e]; destruct HI as [VI FI]; try contradiction.
  - assert (Z : exists s', SFadd prec emax (S754_zero s0) (S754_zero s) = S754_zero s').
    { cbn [SFadd]. destruct (Bool.eqb s0 s); eauto. }
    destruct Z as [s' ->].
    specialize (IH (S754_zero s') (conj eq_refl I)).
    destruct (inner _ _ _ _); cbn in *; try discriminate; exact I.
  - cbn [SFadd]. apply IH. split; assumption.
Qed.

Lemma mapM_values {T} (m : mem T) c (f : list Z -> T) cs :
  (forall js, In js cs -> get m c (map int js) = Ok (f js)) ->
  mapM (fun v => get m c (map int v)) cs = Ok (map f cs).
Proof.
  induction cs as [|d cs IH]; intros H; [reflexivity|]. cbn [mapM map]. rewrite (H d (or_introl eq_refl)), bind_ok.
  rewrite IH by (intros js I; apply H; right; exact I). reflexivity.
Qed.

Lemma linear_ieee_l {T} (cv : T -> spec_float) (m : mem T) c is_ (f : list Z -> T) :
  addressable c (map (fun _ => I32) (dims c)) -> Forall (fun n => n <= 2147483648) (dims c) ->
  (forall js, in_box (dims c) js -> value m c js (f js)) ->
  Forall2 (fun n i => 0 <= i < n - 1) (dims c) is_ -> Forall (fun i => i < 2 ^ prec) is_ ->
  (forall js, corner is_ js -> finite_number prec emax (cv (f js))) ->
  exists r, linear_interpolate (ieee prec emax) cv m c (map (of_int (ieee prec emax)) is_) = Ok r /\
    same_number r (cv (f is_)).
Proof.
  intros HA HB HV HI HP HF.
  assert (G : Forall (fun i => 0 <= i < 2147483647 /\ i < 2 ^ prec) is_).
  { clear - HB HI HP. revert HB HP. induction HI as [|n i ns is_ H _ IH]; intros HB HP; constructor;
      inversion HB; inversion HP; subst; [lia|apply IH; assumption]. }
  assert (Hbox : forall js, corner is_ js -> in_box (dims c) js).
  { clear - HI. induction HI as [|n i ns is_ H _ IH]; intros js C; inversion C as [|? j ? js' Hj C']; subst; constructor.
    - destruct Hj; lia.
    - apply IH, C'. }
  assert (Hrefl : corner is_ is_) by (clear; induction is_; constructor; auto).
  destruct (setup_grid is_ G [] [] 0%nat eq_refl) as (cs' & n' & E & L & C). cbn [app] in E.
  unfold linear_interpolate, setup_linear. change ([[]], [of_int (ieee prec emax) 1]) with ([@nil Z], one :: repeat pz 0) in *.
  rewrite E, bind_ok.
  assert (Hget : forall js, corner is_ js -> get m c (map int js) = Ok (f js)).
  { intros js Cj. specialize (HV js (Hbox js Cj)). apply get_value.
    - rewrite types_int, (map_const_length (dims c)) by (apply in_box_length, Hbox; exact Cj). exact HA.
    - apply int_coord; [exact HB|apply Hbox; exact Cj].
    - rewrite vals_int. exact HV. }
  rewrite (mapM_values m c f (is_ :: cs')).
  2:{ intros js [<-|I]; [apply Hget, Hrefl|]. destruct (C js I) as (d & ks & [<-|[]] & Ck & ->). apply Hget, Ck. }
  rewrite bind_ok. cbn [map]. eexists. split; [reflexivity|]. cbn [nmul ieee]. rewrite mul_one by (apply HF, Hrefl).
  rewrite <- L. rewrite <- (map_length f), <- (map_length cv). apply inner_zeros; [|apply HF, Hrefl].
  apply Forall_forall. intros x Ix. apply in_map_iff in Ix as (y & <- & Iy). apply in_map_iff in Iy as (js & <- & Ij).
  destruct (C js Ij) as (d & ks & [<-|[]] & Ck & ->). apply HF, Ck.
Qed.
End Format.

(** ** Floor interpolation *)
Lemma trunc_value x q : float_value x = Some q -> sf_trunc x = trunc rationals q.
Proof.
  destruct x as [s|s| |s m e]; cbn [float_value]; intros H; try discriminate; inversion H; subst; [reflexivity|].
  cbn [sf_trunc trunc rationals]. f_equal. destruct e as [|k|k].
  - cbn [Qnum Qden inject_Z]. rewrite Z.quot_1_r. destruct s; cbn; lia.
  - unfold inject_Z. cbn [Qnum Qden]. rewrite Z.quot_1_r. destruct s; [|reflexivity].
    rewrite <- Z.mul_opp_l. reflexivity.
  - cbn [Qnum Qden]. rewrite Pos2Z.inj_pow, Pos2Z.opp_neg.
    assert (P : 0 < 2 ^ Zpos k) by (apply Z.pow_pos_nonneg; lia).
    destruct s.
    + rewrite <- Pos2Z.opp_pos, Z.quot_opp_l by lia. rewrite Z.quot_div_nonneg by lia. reflexivity.
    + symmetry. apply Z.quot_div_nonneg; lia.
Qed.

Lemma floor_same {T} prec emax (m : mem T) c ps qs : Forall2 (fun p q => float_value p = Some q) ps qs ->
  floor_interpolate (ieee prec emax) m c ps = floor_interpolate rationals m c qs.
Proof.
  intros H. unfold floor_interpolate.
  assert (E : mapM (to_int (ieee prec emax) I64) ps = mapM (to_int rationals I64) qs).
  { induction H as [|p q ps qs E _ IH]; [reflexivity|]. cbn [mapM]. rewrite IH.
    assert (X : to_int (ieee prec emax) I64 p = to_int rationals I64 q).
    { unfold to_int. cbn [trunc ieee]. rewrite (trunc_value _ _ E). reflexivity. }
    rewrite X. reflexivity. }
  rewrite E. reflexivity.
Qed.

Lemma floor_ieee_l {T} prec emax (m : mem T) c ps qs (f : list Z -> T) :
  addressable c (map (fun _ => I64) (dims c)) -> Forall (fun n => 1 <= n <= 2 ^ 63) (dims c) ->
  (forall is_, in_box (dims c) is_ -> value m c is_ (f is_)) ->
  Forall2 (fun p q => float_value p = Some q) ps qs ->
  Forall2 (fun n q => (-1 < q)%Q /\ (q < inject_Z n)%Q) (dims c) qs ->
  floor_interpolate (ieee prec emax) m c ps = Ok (f (map (fun q => Z.max 0 (Qfloor q)) qs)).
Proof. intros HA HB HV HP HQ. rewrite (floor_same prec emax m c ps qs HP). apply floor_l; assumption. Qed.
