(** Facts about conversions of the elements of a source (C73). *)
From Coq Require Import ZArith QArith Qreals Qround Qpower Qabs Reals Lia Lra Psatz List Bool.
From Coq Require Import Floats.SpecFloat.
From Flocq Require Import Core BinarySingleNaN.
From Verif Require Import Outcome CInt CIntFacts Spec SpecFacts ShapeSpec Shape ShapeFacts Memory MemFacts Container ContainerSpec
  ContainerFacts ContainerFacts2 ContainerFacts3 AlgoSpec ViewFacts Source SourceSpec SourceFacts Interp InterpSpec InterpFacts IeeeSpec IeeeFacts RoundSpec
  RoundFacts ErrorFacts Mixed MixedSpec MixedFacts Convert ConvertSpec.
Import ListNotations.

(** ** Integers *)
Lemma cast_congr t z : in_ty t (cast t z) /\ exists k, cast t z = (z + k * 2 ^ width t)%Z.
Proof.
  split; [apply cast_range|]. unfold cast. assert (M : modulus t = (2 ^ width t)%Z) by (destruct t; reflexivity).
  pose proof (Z.div_mod z (modulus t) ltac:(destruct t; discriminate)) as D.
  destruct (z mod modulus t <=? tmax t)%Z; [exists (- (z / modulus t))%Z|exists (- (z / modulus t) - 1)%Z]; rewrite <- M; lia.
Qed.

Lemma quot_toward_zero q : toward_zero q (Z.quot (Qnum q) (Zpos (Qden q))).
Proof.
  destruct q as [n d]. unfold toward_zero, Qle, Qlt, inject_Z. cbn [Qnum Qden]. rewrite !Z.mul_1_r.
  pose proof (Z.quot_rem n (Zpos d) ltac:(discriminate)) as E. split; intros H.
  - pose proof (Z.rem_bound_pos n (Zpos d) ltac:(lia) ltac:(lia)). nia.
  - pose proof (Z.rem_bound_pos (- n) (Zpos d) ltac:(lia) ltac:(lia)) as B. rewrite Z.rem_opp_l in B by discriminate. nia.
Qed.
Lemma toward_zero_unique q y z : toward_zero q y -> toward_zero q z -> y = z.
Proof.
  unfold toward_zero. destruct q as [n d]. unfold Qle, Qlt, inject_Z. cbn [Qnum Qden]. rewrite !Z.mul_1_r.
  intros [A B] [C D]. destruct (Z.le_ge_cases 0 n) as [H|H]; [specialize (A H); specialize (C H); nia|].
  specialize (B ltac:(lia)). specialize (D ltac:(lia)). nia.
Qed.

(** ** Floating-point targets *)
Open Scope R_scope.
Lemma rnd_nearest f x y : fmtF f y -> Rabs (rndF f x - x) <= Rabs (y - x).
Proof.
  intros F. destruct (@round_N_pt radix2 _ (fe_valid (f_prec f) (f_emax f) (fp_ok f)) (fun z => negb (Z.even z)) x) as [_ N].
  exact (N y F).
Qed.
Lemma float_target f v q : number_value v = Some q -> in_range (AFloat f) q ->
  exists x, convert (AFloat f) v = Ok (NFloat x) /\ finite_of f x /\ rv x = rndF f (Q2R q).
Proof.
  intros V (w & r & Fw & Vw & B). destruct w as [z|y]; [contradiction|]. cbn [value_of_type number_value] in *.
  pose proof (finite_fmt (f_prec f) (f_emax f) y Fw) as Fy. pose proof (finite_lt (f_prec f) (f_emax f) y Fw) as Ly.
  apply Qle_Rle in B. rewrite !Q2R_abs, (float_value_R _ _ Vw) in B.
  assert (Rd : Rabs (rndF f (Q2R q)) < bpow radix2 (f_emax f)).
  { eapply Rle_lt_trans; [|exact Ly].
    apply abs_round_le_generic; [exact (fe_valid (f_prec f) (f_emax f) (fp_ok f))|apply valid_rnd_N|apply generic_format_abs; exact Fy|exact B]. }
  destruct v as [z|x]; cbn [convert number_value] in *.
  - injection V as <-. rewrite Q2R_inject in *. eexists. split; [reflexivity|].
    exact (of_int_ok (f_prec f) (f_emax f) (fp_ok f) (fm_ok f) z Rd).
  - exists (to_ftype f x). split; [reflexivity|]. rewrite (float_value_R _ _ V) in *. destruct x as [s|s| |s m e]; try discriminate V.
    + split; [split; [reflexivity|exact I]|]. cbn [to_ftype]. change (rv (S754_zero s)) with 0. symmetry. apply round_0, valid_rnd_N.
    + cbn [to_ftype]. assert (E : F2R (Defs.Float radix2 (if s then Zneg m else Zpos m) e) = rv (S754_finite s m e)) by (destruct s; reflexivity).
      destruct (norm_ok (f_prec f) (f_emax f) (fp_ok f) (fm_ok f) (if s then Zneg m else Zpos m) e s) as [N1 N2].
      * rewrite E. exact Rd.
      * split; [exact N1|]. etransitivity; [exact N2|]. rewrite E. reflexivity.
Qed.
Lemma float_target_nearest f v q : number_value v = Some q -> in_range (AFloat f) q ->
  exists x p, convert (AFloat f) v = Ok (NFloat x) /\ finite_of f x /\ float_value x = Some p /\ nearest (AFloat f) q p /\
    Q2R p = rndF f (Q2R q).
Proof.
  intros V R. destruct (float_target f v q V R) as (x & E & F & Vx). destruct (finite_float_value _ _ x F) as [p Ep].
  assert (Rp : Q2R p = rndF f (Q2R q)) by (rewrite (float_value_R _ _ Ep); exact Vx).
  exists x, p. split; [exact E|]. split; [exact F|]. split; [exact Ep|]. split; [|exact Rp]. intros w r Fw Vw. destruct w as [z|y]; [contradiction|]. cbn [value_of_type number_value] in *.
  apply Rle_Qle. rewrite !Q2R_abs, !Q2R_minus, Rp, (float_value_R _ _ Vw). apply rnd_nearest. exact (finite_fmt (f_prec f) (f_emax f) y Fw).
Qed.
Close Scope R_scope.
Open Scope Z_scope.

Lemma convert_ok to v : convertible to v -> exists w, convert to v = Ok w /\ converted to v w.
Proof.
  destruct to as [t|f].
  - destruct v as [z|x]; cbn [convertible convert].
    + intros _. exists (NInt (cast t z)). split; [reflexivity|apply cast_congr].
    + intros (q & z & V & Tz & Rz). rewrite (trunc_value _ _ V). cbn [trunc rationals].
      assert (Ez : Z.quot (Qnum q) (Zpos (Qden q)) = z) by (eapply toward_zero_unique; [apply quot_toward_zero|exact Tz]). rewrite Ez.
      rewrite (proj2 (in_tyb_spec t z) Rz). exists (NInt z). split; [reflexivity|]. cbn. eauto.
  - intros (q & V & R). destruct (float_target_nearest f v q V R) as (x & p & E & F & Ep & N & _).
    exists (NFloat x). split; [exact E|]. destruct v; cbn [converted]; (split; [exact F|exists q, p; auto]).
Qed.

Lemma convert_ub t x : (~ exists q z, float_value x = Some q /\ toward_zero q z /\ in_ty t z) -> convert (AInt t) (NFloat x) = UB.
Proof.
  intros H. cbn [convert]. destruct (float_value x) as [q|] eqn:V.
  - rewrite (trunc_value _ _ V). cbn [trunc rationals]. destruct (in_tyb t (Z.quot (Qnum q) (Zpos (Qden q)))) eqn:B; [|reflexivity].
    exfalso. apply H. exists q, (Z.quot (Qnum q) (Zpos (Qden q))). split; [reflexivity|]. split; [apply quot_toward_zero|]. apply in_tyb_spec, B.
  - destruct x; try reflexivity; discriminate V.
Qed.
Lemma convert_ok_or_ub to v : convert to v = UB \/ exists w, convert to v = Ok w.
Proof.
  destruct to as [t|f], v as [z|x]; cbn [convert]; eauto. destruct (sf_trunc x) as [z|]; [|auto]. destruct (in_tyb t z); eauto.
Qed.
Lemma mapM_converted to vs : Forall (convertible to) vs -> exists ws, mapM (convert to) vs = Ok ws /\ Forall2 (converted to) vs ws.
Proof.
  induction 1 as [|v vs Hv _ (ws & E & F)]; [exists []; split; [reflexivity|constructor]|].
  destruct (convert_ok to v Hv) as (w & Ew & Cw). exists (w :: ws). cbn [mapM]. rewrite Ew, bind_ok, E, bind_ok.
  split; [reflexivity|constructor; assumption].
Qed.
Lemma mapM_ub to vs v : In v vs -> convert to v = UB -> mapM (convert to) vs = UB.
Proof.
  intros I E. induction vs as [|u vs IH]; [destruct I|]. cbn [mapM]. destruct I as [->|I]; [rewrite E; reflexivity|].
  destruct (convert_ok_or_ub to u) as [->|[w ->]]; [reflexivity|]. rewrite bind_ok, (IH I). reflexivity.
Qed.

(** ** The copy *)
Lemma copy_converted_ok to : forall vs m sb so db d_o, sb <> db ->
  (forall k v, nth_error vs k = Some v -> peek m (Ptr sb (so + Z.of_nat k)) = Some v) ->
  (forall k, 0 <= k < Z.of_nat (length vs) -> cell m (Ptr db (d_o + k)) <> None) ->
  match mapM (convert to) vs with
  | Ok ws => exists m', copy_converted to m (Ptr sb so) (Ptr db d_o) (length vs) = Ok m' /\
      (forall k w, nth_error ws k = Some w -> peek m' (Ptr db (d_o + Z.of_nat k)) = Some w) /\
      (forall p, (forall k, 0 <= k < Z.of_nat (length vs) -> p <> Ptr db (d_o + k)) -> cell m' p = cell m p)
  | _ => copy_converted to m (Ptr sb so) (Ptr db d_o) (length vs) = UB
  end.
Proof.
  induction vs as [|v vs IH]; intros m sb so db d_o N R W; cbn [mapM length copy_converted].
  - exists m. split; [reflexivity|]. split; [intros [|k] w; discriminate|auto].
  - pose proof (R 0%nat v eq_refl) as Hv. rewrite Z.add_0_r in Hv. rewrite (load_peek _ _ _ Hv), bind_ok.
    destruct (convert_ok_or_ub to v) as [->|[w ->]]; [reflexivity|]. rewrite !bind_ok.
    pose proof (W 0 ltac:(cbn [length]; lia)) as Wv. rewrite Z.add_0_r in Wv. rewrite store_valid by exact Wv. cbn [bind padd].
    specialize (IH (upd m (Ptr db d_o) w) sb (so + 1) db (d_o + 1) N).
    assert (R' : forall k u, nth_error vs k = Some u -> peek (upd m (Ptr db d_o) w) (Ptr sb (so + 1 + Z.of_nat k)) = Some u).
    { intros k u Hu. rewrite peek_upd_other by congruence. replace (so + 1 + Z.of_nat k) with (so + Z.of_nat (S k)) by lia. apply R. exact Hu. }
    assert (W' : forall k, 0 <= k < Z.of_nat (length vs) -> cell (upd m (Ptr db d_o) w) (Ptr db (d_o + 1 + k)) <> None).
    { intros k Hk. apply valid_upd. replace (d_o + 1 + k) with (d_o + (k + 1)) by lia. apply W. cbn [length]. lia. }
    specialize (IH R' W'). destruct (mapM (convert to) vs) as [ws| | |]; cbn [bind]; try exact IH.
    destruct IH as (m' & E & V & F). exists m'. split; [exact E|]. split.
    + intros [|k] u Hu.
      * injection Hu as <-. rewrite Z.add_0_r. unfold peek. rewrite F; [|intros k' Hk' G; injection G; lia].
        rewrite cell_upd_same by exact Wv. reflexivity.
      * replace (d_o + Z.of_nat (S k)) with (d_o + 1 + Z.of_nat k) by lia. apply V. exact Hu.
    + intros p Hp. rewrite F.
      * apply cell_upd_other. specialize (Hp 0 ltac:(cbn [length]; lia)). rewrite Z.add_0_r in Hp. congruence.
      * intros k Hk. specialize (Hp (k + 1) ltac:(cbn [length]; lia)). replace (d_o + 1 + k) with (d_o + (k + 1)) by lia. exact Hp.
Qed.

Lemma mapM_length {A B} (f : A -> outcome B) l : forall r, mapM f l = Ok r -> length r = length l.
Proof.
  induction l as [|x l IH]; intros r; cbn [mapM]; [injection 1 as <-; reflexivity|].
  destruct (f x) as [y| | |]; cbn [bind]; try discriminate. destruct (mapM f l) as [ys| | |]; cbn [bind]; try discriminate.
  injection 1 as <-. cbn [length]. f_equal. apply IH. reflexivity.
Qed.

Lemma new_block_as_ok to m src vs : holds m src vs ->
  match mapM (convert to) vs with
  | Ok ws => exists m' data, new_block_as to m (Z.of_nat (length vs)) src = Ok (m', data) /\ holds m' data ws /\ extends m m' /\
      (forall k, ~ valid m (padd data k))
  | _ => new_block_as to m (Z.of_nat (length vs)) src = UB
  end.
Proof.
  intros H. unfold new_block_as. destruct vs as [|v vs].
  - cbn. exists m, Null. split; [reflexivity|]. split; [intros [|k] w; discriminate|]. split; [intros p _; reflexivity|]. intros k G. apply G. reflexivity.
  - destruct (Z.eqb_spec (Z.of_nat (length (v :: vs))) 0) as [E|_]; [cbn [length] in E; lia|].
    set (us := v :: vs) in *. unfold alloc. rewrite Nat2Z.id.
    pose proof (H 0%nat v eq_refl) as H0. change (Z.of_nat 0) with 0 in H0. rewrite padd_0 in H0.
    destruct src as [|sb so]; [discriminate|]. pose proof (cell_block_lt m sb so (peek_valid _ _ _ H0)) as Hsb.
    pose (m1 := m ++ [Some (repeat (@None number) (length us))]).
    pose proof (copy_converted_ok to us m1 sb so (length m) 0 ltac:(lia)) as C.
    assert (R : forall k u, nth_error us k = Some u -> peek m1 (Ptr sb (so + Z.of_nat k)) = Some u).
    { intros k u Hu. pose proof (H k u Hu) as P. cbn [padd] in P. unfold peek, m1. rewrite cell_app by (eapply peek_valid; exact P). exact P. }
    assert (W : forall k, 0 <= k < Z.of_nat (length us) -> cell m1 (Ptr (length m) (0 + k)) <> None).
    { intros k Hk. rewrite Z.add_0_l. pose proof (cell_alloc m (Z.of_nat (length us)) k Hk) as G. unfold alloc in G; cbn [fst] in G.
      rewrite Nat2Z.id in G. unfold m1. rewrite G. discriminate. }
    specialize (C R W). fold m1. destruct (mapM (convert to) us) as [ws| | |]; try (rewrite C; reflexivity).
    destruct C as (m' & E & V & F). exists m', (Ptr (length m) 0). rewrite E, bind_ok. split; [reflexivity|]. split; [|split].
    + intros k w Hw. cbn [padd]. apply V, Hw.
    + intros p Vp. rewrite F; [unfold m1; apply cell_app; exact Vp|]. intros k Hk ->. apply cell_block_lt in Vp. lia.
    + intros k. unfold valid. cbn [padd]. rewrite cell_fresh. auto.
Qed.

Lemma table_as_cases to m dbg st sh s vs : legal sh -> sh <> [] -> holds m (storage s) vs -> prod (vals sh) <= Z.of_nat (length vs) ->
  match mapM (convert to) (firstn (Z.to_nat (prod (vals sh))) vs) with
  | Ok ws => exists m' t, table_as to m dbg (Some (st, sh)) s = Ok (m', t) /\ default_layout t /\ c_shape t = sh /\
      values m' t t ws /\ extends m m' /\ forall is_, in_box (vals sh) is_ -> ~ valid m (elem t is_)
  | _ => table_as to m dbg (Some (st, sh)) s = UB
  end.
Proof.
  intros Lg Ne H L. pose proof (legal_prod _ Lg) as Hp. set (n := Z.to_nat (prod (vals sh))).
  assert (Hf : holds m (storage s) (firstn n vs)).
  { intros k v Hk. apply H. rewrite <- (firstn_skipn n vs). rewrite nth_error_app1; [exact Hk|].
    apply nth_error_Some. congruence. }
  assert (Ln : length (firstn n vs) = n) by (rewrite firstn_length; lia).
  pose proof (new_block_as_ok to m (storage s) (firstn n vs) Hf) as N. rewrite Ln in N.
  assert (En : Z.of_nat n = prod (vals sh)) by lia. rewrite En in N.
  unfold table_as, pick_size. rewrite bind_ok, (numel_ok sh Lg Ne), bind_ok. cbn [cval int].
  destruct (mapM (convert to) (firstn n vs)) as [ws| | |] eqn:Ew; try (rewrite N; reflexivity).
  destruct N as (m' & data & E & V & X & Fr). rewrite E, bind_ok.
  destruct (make_view_default_l st sh data Lg Ne) as (t & Et & D & Es & Ed).
  unfold make_view in Et. destruct (make_accessor st st sh None) as [[k sd]| | |]; cbn [bind] in *; try discriminate.
  injection Et as <-. eexists _, _. split; [reflexivity|]. split; [exact D|]. split; [reflexivity|]. split; [|split; [exact X|]].
  - apply (default_values_rank m' _ _ D). cbn [c_data]. unfold dims. cbn [c_shape]. fold n.
    pose proof (mapM_length _ _ _ Ew) as Lw. rewrite Ln in Lw.
    rewrite <- (firstn_all ws). rewrite Lw. apply holds_firstn_cells; [exact V|lia].
  - intros is_ B. rewrite (default_elem _ is_ D) by exact B. apply Fr.
Qed.

Lemma table_as_l to m dbg st sh s vs : legal sh -> sh <> [] -> holds m (storage s) vs -> prod (vals sh) <= Z.of_nat (length vs) ->
  Forall (convertible to) (firstn (Z.to_nat (prod (vals sh))) vs) ->
  exists m' t ws, table_as to m dbg (Some (st, sh)) s = Ok (m', t) /\ default_layout t /\ c_shape t = sh /\
    values m' t t ws /\ Forall2 (converted to) (firstn (Z.to_nat (prod (vals sh))) vs) ws /\ extends m m' /\
    forall is_, in_box (vals sh) is_ -> ~ valid m (elem t is_).
Proof.
  intros Lg Ne H L C. destruct (mapM_converted to _ C) as (ws & E & F).
  pose proof (table_as_cases to m dbg st sh s vs Lg Ne H L) as T. rewrite E in T. destruct T as (m' & t & A & B & D & V & X & Fr).
  exists m', t, ws. repeat (split; [assumption|]). exact Fr.
Qed.

Lemma table_as_ub_l t m dbg st sh s vs x : legal sh -> sh <> [] -> holds m (storage s) vs -> prod (vals sh) <= Z.of_nat (length vs) ->
  In (NFloat x) (firstn (Z.to_nat (prod (vals sh))) vs) ->
  (~ exists q z, float_value x = Some q /\ toward_zero q z /\ in_ty t z) ->
  table_as (AInt t) m dbg (Some (st, sh)) s = UB.
Proof.
  intros Lg Ne H L I C. pose proof (table_as_cases (AInt t) m dbg st sh s vs Lg Ne H L) as T.
  rewrite (mapM_ub (AInt t) _ _ I (convert_ub t x C)) in T. exact T.
Qed.

(** ** Consequences of the specification *)
Lemma representable_convertible to v q : number_value v = Some q -> representable to q -> convertible to v.
Proof.
  intros V (w & p & Tw & Vw & E). destruct to as [t|f].
  - destruct v as [z|x]; cbn [convertible]; [exact I|]. destruct w as [y|y]; [|contradiction]. injection Vw as <-. cbn in Tw.
    exists q, y. split; [exact V|]. split; [|exact Tw].
    unfold toward_zero. rewrite <- E. unfold Qle, Qlt, inject_Z. cbn. lia.
  - destruct v as [z|x]; cbn [convertible]; exists q; (split; [exact V|]); exists w, p; (split; [exact Tw|]); (split; [exact Vw|]); rewrite E; apply Qle_refl.
Qed.
Lemma representable_same to v w q : number_value v = Some q -> representable to q -> converted to v w ->
  exists p, number_value w = Some p /\ (p == q)%Q.
Proof.
  intros V (u & r & Tu & Vu & E) C. destruct to as [t|f].
  - destruct v as [z|x], w as [y|y]; try contradiction; cbn [converted number_value] in *; destruct u as [a|a]; try contradiction; injection Vu as <-; cbn in Tu.
    + destruct C as [Ry [k ->]]. injection V as <-. assert (a = z) by (unfold Qeq, inject_Z in E; cbn in E; lia). subst a.
      exists (inject_Z (z + k * 2 ^ width t)). split; [reflexivity|]. assert (k = 0).
      { assert (M : modulus t = (2 ^ width t)%Z) by (destruct t; reflexivity). rewrite <- M in Ry. unfold in_ty in *. destruct t; cbn in *; lia. }
      subst k. rewrite Z.mul_0_l, Z.add_0_r. reflexivity.
    + destruct C as [Ry (q' & Vq & Tz)]. assert (q' = q) by congruence. subst q'. exists (inject_Z y). split; [reflexivity|].
      assert (Ta : toward_zero q a) by (unfold toward_zero; rewrite <- E; unfold Qle, Qlt, inject_Z; cbn; lia).
      rewrite (toward_zero_unique q y a Tz Ta). exact E.
  - assert (C' : exists q' p, number_value v = Some q' /\ number_value w = Some p /\ nearest (AFloat f) q' p).
    { destruct v, w; try contradiction; destruct C as [_ C]; exact C. }
    destruct C' as (q' & p & Vq & Vp & N). assert (q' = q) by congruence. subst q'. exists p. split; [exact Vp|].
    pose proof (N u r Tu Vu) as D. assert (Z0 : (Qabs (r - q) == 0)%Q) by (rewrite E; setoid_replace (q - q)%Q with 0%Q by ring; reflexivity).
    rewrite Z0 in D. apply Qabs_Qle_condition in D as [D1 D2].
    apply Qle_antisym; [apply (Qplus_le_l _ _ (- q)); setoid_replace (q + - q)%Q with 0%Q by ring; exact D2|].
    apply (Qplus_le_l _ _ (- q)). setoid_replace (q + - q)%Q with (- 0)%Q by ring. exact D1.
Qed.

Lemma Forall_convertible to vs : Forall (fun v => exists q, number_value v = Some q /\ representable to q) vs -> Forall (convertible to) vs.
Proof. apply Forall_impl. intros v (q & V & R). eapply representable_convertible; eassumption. Qed.
Lemma Forall2_same to vs ws : Forall (fun v => exists q, number_value v = Some q /\ representable to q) vs -> Forall2 (converted to) vs ws ->
  Forall2 (fun v w => exists q p, number_value v = Some q /\ number_value w = Some p /\ (p == q)%Q) vs ws.
Proof.
  intros H F. induction F as [|v w vs ws C F IH]; [constructor|]. inversion H as [|? ? (q & V & R) H']; subst. constructor; [|auto].
  destruct (representable_same to v w q V R C) as (p & Vp & E). eauto.
Qed.
Lemma table_as_exact_l to m dbg st sh s vs : legal sh -> sh <> [] -> holds m (storage s) vs -> prod (vals sh) <= Z.of_nat (length vs) ->
  Forall (fun v => exists q, number_value v = Some q /\ representable to q) (firstn (Z.to_nat (prod (vals sh))) vs) ->
  exists m' t ws, table_as to m dbg (Some (st, sh)) s = Ok (m', t) /\ values m' t t ws /\
    Forall2 (fun v w => exists q p, number_value v = Some q /\ number_value w = Some p /\ (p == q)%Q) (firstn (Z.to_nat (prod (vals sh))) vs) ws.
Proof.
  intros Lg Ne H L C. destruct (table_as_l to m dbg st sh s vs Lg Ne H L (Forall_convertible _ _ C)) as (m' & t & ws & E & _ & _ & V & F & _).
  exists m', t, ws. split; [exact E|]. split; [exact V|]. exact (Forall2_same _ _ _ C F).
Qed.

(** ** Order *)
Lemma toward_zero_le q q' y y' : toward_zero q y -> toward_zero q' y' -> (q <= q')%Q -> y <= y'.
Proof.
  intros [A B] [C D] H. assert (K : forall a b, (inject_Z a < inject_Z b)%Q -> a < b) by (intros a b; rewrite <- Zlt_Qlt; auto).
  destruct (Qlt_le_dec q 0) as [G|G].
  - destruct (B (Qlt_le_weak _ _ G)) as [B1 B2]. destruct (Qlt_le_dec q' 0) as [G'|G'].
    + destruct (D (Qlt_le_weak _ _ G')) as [D1 D2].
      assert (y - 1 < y') by (apply K; eapply Qlt_le_trans; [exact B1|eapply Qle_trans; [exact H|exact D2]]). lia.
    + destruct (C G') as [C1 C2].
      assert (y - 1 < 0) by (apply K; eapply Qlt_trans; [exact B1|exact G]).
      assert (0 < y' + 1) by (apply K; eapply Qle_lt_trans; [exact G'|exact C2]). lia.
  - destruct (A G) as [A1 A2]. destruct (C (Qle_trans _ _ _ G H)) as [C1 C2].
    assert (y < y' + 1) by (apply K; eapply Qle_lt_trans; [exact A1|eapply Qle_lt_trans; [exact H|exact C2]]). lia.
Qed.

(** Rounding, and truncation of floating-point numbers: not integer to integer. *)
Definition monotone_for (to : atype) (v : number) : Prop :=
  match to, v with AInt _, NInt _ => False | _, _ => True end.
Lemma convert_le to v v' w w' q q' p p' : monotone_for to v -> monotone_for to v' -> convertible to v -> convertible to v' ->
  convert to v = Ok w -> convert to v' = Ok w' ->
  number_value v = Some q -> number_value v' = Some q' -> number_value w = Some p -> number_value w' = Some p' ->
  (q <= q')%Q -> (p <= p')%Q.
Proof.
  intros M M' C C' E E' V V' W W' H. destruct to as [t|f].
  - destruct v as [z|x], v' as [z'|x']; try contradiction.
    destruct (convert_ok _ _ C) as (u & Eu & Cu). destruct (convert_ok _ _ C') as (u' & Eu' & Cu').
    rewrite E in Eu. injection Eu as <-. rewrite E' in Eu'. injection Eu' as <-.
    destruct w as [y|], w' as [y'|]; try contradiction. destruct Cu as (_ & a & Va & Ta). destruct Cu' as (_ & a' & Va' & Ta').
    cbn [number_value] in *. assert (a = q) by congruence. assert (a' = q') by congruence. subst a a'. injection W as <-. injection W' as <-.
    rewrite <- Zle_Qle. exact (toward_zero_le _ _ _ _ Ta Ta' H).
  - destruct C as (a & Va & Ra). destruct C' as (a' & Va' & Ra'). assert (a = q) by congruence. assert (a' = q') by congruence. subst a a'.
    destruct (float_target_nearest f v q V Ra) as (x & r & Ex & _ & Vx & _ & Rr).
    destruct (float_target_nearest f v' q' V' Ra') as (x' & r' & Ex' & _ & Vx' & _ & Rr').
    rewrite E in Ex. injection Ex as ->. rewrite E' in Ex'. injection Ex' as ->. cbn [number_value] in *.
    assert (r = p) by congruence. assert (r' = p') by congruence. subst r r'. apply Rle_Qle. rewrite Rr, Rr'.
    apply rnd_le; [apply fp_ok|]. apply Qle_Rle, H.
Qed.

Lemma mapM_nth {A B} (f : A -> outcome B) l : forall r i w, mapM f l = Ok r -> nth_error r i = Some w ->
  exists v, nth_error l i = Some v /\ f v = Ok w.
Proof.
  induction l as [|x l IH]; intros r i w; cbn [mapM]; [injection 1 as <-; destruct i; discriminate|].
  destruct (f x) as [y| | |] eqn:Ey; cbn [bind]; try discriminate. destruct (mapM f l) as [ys| | |]; cbn [bind]; try discriminate.
  injection 1 as <-. destruct i as [|i]; [injection 1 as <-; exists x; auto|]. intros H. apply (IH ys i w eq_refl H).
Qed.
Lemma converted_value_defined to v : convertible to v -> monotone_for to v -> exists q, number_value v = Some q.
Proof. destruct to as [t|f], v as [z|x]; cbn; intros C M; try contradiction; [destruct C as (q & _ & V & _); eauto|destruct C as (q & V & _); eauto..]. Qed.

Lemma table_as_sorted_l to m dbg st sh s vs : legal sh -> sh <> [] -> holds m (storage s) vs -> prod (vals sh) <= Z.of_nat (length vs) ->
  Forall (convertible to) (firstn (Z.to_nat (prod (vals sh))) vs) ->
  (forall t z, to = AInt t -> ~ In (NInt z) vs) -> increasing vs ->
  exists m' t ws, table_as to m dbg (Some (st, sh)) s = Ok (m', t) /\ values m' t t ws /\
    length ws = Z.to_nat (prod (vals sh)) /\ increasing ws.
Proof.
  intros Lg Ne H L C M Inc. pose proof (legal_prod _ Lg) as Hp.
  destruct (mapM_converted to _ C) as (ws & E & _).
  pose proof (table_as_cases to m dbg st sh s vs Lg Ne H L) as T. rewrite E in T. destruct T as (m' & t & A & B & D & V & X & Fr).
  exists m', t, ws. split; [exact A|]. split; [exact V|]. split; [rewrite (mapM_length _ _ _ E), firstn_length; lia|].
  intros i j w w' p p' Lij Hw Hw' Vp Vp'.
  destruct (mapM_nth _ _ _ _ _ E Hw) as (v & Hv & Ev). destruct (mapM_nth _ _ _ _ _ E Hw') as (v' & Hv' & Ev').
  assert (G : forall k u, nth_error (firstn (Z.to_nat (prod (vals sh))) vs) k = Some u ->
    nth_error vs k = Some u /\ convertible to u /\ monotone_for to u).
  { intros k u Hu. assert (Hu' : nth_error vs k = Some u).
    { rewrite <- (firstn_skipn (Z.to_nat (prod (vals sh))) vs). rewrite nth_error_app1; [exact Hu|]. apply nth_error_Some. congruence. }
    split; [exact Hu'|]. split.
    - rewrite Forall_forall in C. apply C. eapply nth_error_In. exact Hu.
    - destruct to as [ti|f]; [|destruct u; exact I]. destruct u as [z|x]; [|exact I]. exfalso. eapply M; [reflexivity|]. eapply nth_error_In. exact Hu'. }
  destruct (G _ _ Hv) as (Nv & Cv & Mv). destruct (G _ _ Hv') as (Nv' & Cv' & Mv').
  destruct (converted_value_defined _ _ Cv Mv) as [q Vq]. destruct (converted_value_defined _ _ Cv' Mv') as [q' Vq'].
  eapply convert_le; [exact Mv|exact Mv'|exact Cv|exact Cv'|exact Ev|exact Ev'|exact Vq|exact Vq'|exact Vp|exact Vp'|].
  exact (Inc i j v v' q q' Lij Nv Nv' Vq Vq').
Qed.

(** ** Ranges, and sources that are too short *)
Lemma range_table_as_l to m dbg p vs : holds m p vs -> Z.of_nat (length vs) <= 2147483647 -> Forall (convertible to) vs ->
  exists m' t ws, table_as to m dbg None (SRange p (Z.of_nat (length vs))) = Ok (m', t) /\ default_layout t /\
    dims t = [Z.of_nat (length vs)] /\ values m' t t ws /\ Forall2 (converted to) vs ws /\ extends m m'.
Proof.
  intros H L C. assert (E : table_as to m dbg None (SRange p (Z.of_nat (length vs))) =
    table_as to m dbg (Some (false, [CI U64 (Z.of_nat (length vs))])) (SRange p (Z.of_nat (length vs)))).
  { unfold table_as, pick_size. rewrite range_shape by lia. reflexivity. }
  rewrite E. clear E.
  assert (Pp : prod (vals [CI U64 (Z.of_nat (length vs))]) = Z.of_nat (length vs)) by (unfold prod; simpl; lia).
  assert (Fa : firstn (Z.to_nat (prod (vals [CI U64 (Z.of_nat (length vs))]))) vs = vs) by (rewrite Pp, Nat2Z.id; apply firstn_all).
  destruct (table_as_l to m dbg false [CI U64 (Z.of_nat (length vs))] (SRange p (Z.of_nat (length vs))) vs)
    as (m' & t & ws & E & D & Es & V & F & X & _).
  - apply range_legal. lia.
  - discriminate.
  - exact H.
  - rewrite Pp. lia.
  - rewrite Fa. exact C.
  - rewrite Fa in F. exists m', t, ws. split; [exact E|]. split; [exact D|]. split; [unfold dims; rewrite Es; reflexivity|]. auto.
Qed.

Lemma copy_converted_ub to n : forall m src db d_o k, 0 <= k < Z.of_nat n -> peek m (padd src k) = None ->
  match src with Null => True | Ptr b _ => b <> db end ->
  (forall j, 0 <= j < Z.of_nat n -> cell m (Ptr db (d_o + j)) <> None) ->
  copy_converted to m src (Ptr db d_o) n = UB.
Proof.
  induction n as [|n IH]; intros m src db d_o k Hk Hp Ns W; [lia|].
  cbn [copy_converted]. destruct (peek m src) as [v|] eqn:Ev.
  - rewrite (load_peek _ _ _ Ev). cbn [bind]. destruct (convert_ok_or_ub to v) as [->|[w ->]]; [reflexivity|]. cbn [bind].
    pose proof (W 0 ltac:(lia)) as W0. rewrite Z.add_0_r in W0. rewrite store_valid by exact W0. cbn [bind].
    destruct (Z.eq_dec k 0) as [->|Nk]; [rewrite padd_0 in Hp; congruence|].
    apply (IH _ _ _ _ (k - 1)); [lia| | |].
    + rewrite padd_padd. replace (1 + (k - 1)) with k by lia. rewrite peek_upd_other; [exact Hp|].
      destruct src; [discriminate|]. simpl. intros G. injection G. congruence.
    + destruct src; simpl; auto.
    + intros j Hj. apply valid_upd. replace (d_o + 1 + j) with (d_o + (1 + j)) by lia. apply W. lia.
  - assert (Ld : load m src = UB) by (unfold load, peek in *; destruct (cell m src) as [[?|]|]; try discriminate; reflexivity).
    rewrite Ld. reflexivity.
Qed.
Lemma table_as_overrun_l to m dbg st sh s k : legal sh -> sh <> [] -> known m (storage s) ->
  0 <= k < prod (vals sh) -> peek m (padd (storage s) k) = None -> table_as to m dbg (Some (st, sh)) s = UB.
Proof.
  intros Lg Ne Kn Hk Hp. unfold table_as, pick_size. cbn [bind]. rewrite (numel_ok sh Lg Ne).
  cbn [bind cval int]. unfold new_block_as. destruct (Z.eqb_spec (prod (vals sh)) 0) as [Z0|Nz]; [lia|].
  unfold alloc. rewrite (copy_converted_ub _ _ _ _ _ _ k); [reflexivity|lia| | |].
  - unfold known in Kn. destruct (padd (storage s) k) as [|b o] eqn:Ep.
    + reflexivity.
    + unfold peek in *. destruct (storage s) as [|b' o']; [discriminate|]. simpl in Ep. injection Ep as -> <-.
      unfold cell in *. rewrite nth_error_app1 by lia. exact Hp.
  - unfold known in Kn. destruct (storage s); [exact I|]. lia.
  - intros j Hj. rewrite Z.add_0_l. pose proof (cell_alloc m (prod (vals sh)) j ltac:(lia)) as G. unfold alloc in G.
    cbn [fst] in G. rewrite G. discriminate.
Qed.
