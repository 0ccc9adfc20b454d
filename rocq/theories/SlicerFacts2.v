(** Facts about slicers on one axis: the indexes selected. *)
From Coq Require Import ZArith QArith List Bool Lia.
From Verif Require Import Outcome CInt CIntFacts Spec SpecFacts ShapeSpec Shape ShapeFacts EndRatio EndRatioSpec EndRatioFacts
  Memory Container ContainerSpec Slicer SlicerSpec SlicerFacts.
Import ListNotations.
Open Scope Z_scope.

Lemma selects_forward bz ez sz : bz <= ez -> 0 < sz ->
  selects bz (ceil_div (ez - bz) sz) sz (fun x => bz <= x < ez /\ (sz | x - bz)).
Proof.
  intros R P. pose proof (ceil_div_spec (ez - bz) sz P) as C. split; [nia|].
  intros x. split.
  - intros [B [i E]]. exists i. nia.
  - intros (i & B & E). split; [nia|]. exists i. lia.
Qed.

Lemma selects_backward bz sz : 0 <= bz -> sz < 0 ->
  selects bz (ceil_div (bz + 1) (- sz)) sz (fun x => 0 <= x <= bz /\ (sz | bz - x)).
Proof.
  intros R P. pose proof (ceil_div_spec (bz + 1) (- sz) ltac:(lia)) as C. split; [nia|].
  intros x. split.
  - intros [B [i E]]. exists (- i). nia.
  - intros (i & B & E). split; [nia|]. exists (- i). lia.
Qed.

Lemma selects_ext o k s P Q : (forall x, P x <-> Q x) -> selects o k s P -> selects o k s Q.
Proof. intros E [K H]. split; [exact K|]. intros x. rewrite <- E. apply H. Qed.

Lemma selects_unit o k : 0 <= k -> selects o k 1 (fun x => o <= x < o + k).
Proof.
  intros K. split; [exact K|]. intros x. split.
  - intros B. exists (x - o). lia.
  - intros (i & B & E). lia.
Qed.

Lemma takes_computes_l n sl o k s : axis n -> takes n sl o k s ->
  exists co ck, reindex1 n sl = Ok co /\ cval co = o /\ reshape1 n sl = Ok ck /\ cval ck = k.
Proof. intros A H. destruct (takes_ok n sl o k s A H) as (co & ck & ?). exists co, ck. tauto. Qed.

Lemma cast_mod t z : cast t z mod modulus t = z mod modulus t.
Proof.
  unfold cast. cbv zeta. assert (modulus t <> 0) by (destruct t; discriminate).
  destruct (_ <=? _); [apply Z.mod_mod; assumption|].
  replace (z mod modulus t - modulus t) with (z mod modulus t + (-1) * modulus t) by lia.
  rewrite Z.mod_add by assumption. apply Z.mod_mod; assumption.
Qed.

Lemma cast_add_r t x y : cast t (x + cast t y) = cast t (x + y).
Proof.
  assert (E : (x + cast t y) mod modulus t = (x + y) mod modulus t).
  { rewrite <- Zplus_mod_idemp_r, cast_mod, Zplus_mod_idemp_r. reflexivity. }
  unfold cast at 1 3. rewrite E. reflexivity.
Qed.

(** end - k on an axis of at least k elements, whatever the type of the axis. *)
Lemma end_minus n k : axis n -> sgn_ty k -> 0 <= cval k <= cval n ->
  exists c, end_value (ESub EEnd k) n = Ok c /\ cval c = cval n - cval k.
Proof.
  intros [Wn Bn] [Wk Sk] R. unfold end_value. cbn [build]. unfold kend.
  rewrite bind_ok. unfold end_sub. cbn [frac num denum shift].
  assert (Mk : exists x, cmul k (int 1) = Ok x /\ cval x = cval k /\ wfc x /\ is_signed (cty x) = true).
  { unfold cmul. destruct (arith_nonneg Z.mul k (int 1)) as (x & E & V & W & T); try assumption; try apply wf1;
      try (simpl; unfold max31; lia).
    exists x. simpl in V. split; [exact E|]. split; [lia|]. split; [exact W|]. rewrite T.
    revert Sk. destruct (cty k); simpl; auto. }
  destruct Mk as (x & Ex & Vx & Wx & Sx). rewrite Ex, bind_ok.
  unfold csub. destruct (arith_signed Z.sub (int 0) x) as (y & Ey & Vy & Wy & Sy); try assumption; try apply wf0;
    try reflexivity. { simpl. unfold max31. lia. }
  rewrite Ey, !bind_ok. unfold end_size. cbn [frac num denum shift]. simpl in Vy.
  unfold cmul. destruct (arith_nonneg Z.mul n (int 1)) as (a & Ea & Va & Wa & Ta); try assumption; try apply wf1;
      try (simpl; unfold max31; lia).
  rewrite Ea, bind_ok. simpl in Va. unfold cadd.
  assert (Ad : exists b, arith Z.add a y = Ok b /\ cval b = cval n - cval k /\ wfc b).
  { unfold arith. destruct (is_signed (common (cty a) (cty y))) eqn:S.
    - assert (Ha : in_ty (common (cty a) (cty y)) (cval a)) by (apply in_ty_common_l; [exact Wa|left; exact S]).
      assert (Hy : in_ty (common (cty a) (cty y)) (cval y)) by (apply in_ty_common_r; [exact Wy|left; exact S]).
      rewrite !cast_id by assumption.
      assert (I : in_ty (common (cty a) (cty y)) (cval a + cval y)) by (apply in_ty_common_small; unfold max31; lia).
      pose proof I as I'. apply in_tyb_spec in I. rewrite I. eexists. split; [reflexivity|]. simpl. split; [lia|exact I'].
    - eexists. split; [reflexivity|]. cbn [cval].
      assert (I : in_ty (common (cty a) (cty y)) (cval n - cval k)) by (apply in_ty_common_small; unfold max31; lia).
      assert (E : cast (common (cty a) (cty y)) (cast (common (cty a) (cty y)) (cval a) + cast (common (cty a) (cty y)) (cval y))
        = cval n - cval k).
      { rewrite (cast_id _ (cval a)) by (apply in_ty_common_l; [exact Wa|right; lia]).
        rewrite cast_add_r. replace (cval a + cval y) with (cval n - cval k) by lia. apply cast_id, I. }
      rewrite E. split; [reflexivity|]. exact I. }
  destruct Ad as (b & Eb & Vb & Wb). rewrite Eb, bind_ok.
  destruct (cdiv_nonneg b (int 1)) as (c & Ec & Vc & Wc & _); try assumption; try apply wf1; try (simpl; lia).
  exists c. split; [exact Ec|]. rewrite Vc. cbn [cval int]. rewrite Z.div_1_r. exact Vb.
Qed.

Lemma selects_at n sl o k s P : axis n -> takes n sl o k s -> selects o k s P ->
  exists co ck, reindex1 n sl = Ok co /\ reshape1 n sl = Ok ck /\ selects (cval co) (cval ck) s P.
Proof.
  intros A H S. destruct (takes_computes_l n sl o k s A H) as (co & ck & E1 & V1 & E2 & V2).
  exists co, ck. rewrite V1, V2. auto.
Qed.

Lemma slice_range_l n b s e bz ez sz : axis n -> bound_is n b 0 bz -> bound_is n e (cval n) ez -> step_is s sz ->
  0 <= bz <= ez -> ez <= cval n -> 0 < sz ->
  exists co ck, reindex1 n (SSlice b s e None) = Ok co /\ reshape1 n (SSlice b s e None) = Ok ck /\
    cval ck = ceil_div (ez - bz) sz /\
    selects (cval co) (cval ck) sz (fun x => bz <= x < ez /\ (sz | x - bz)).
Proof.
  intros A Hb He Hs R1 R2 P.
  destruct (takes_computes_l n (SSlice b s e None) bz (ceil_div (ez - bz) sz) sz A ltac:(constructor; assumption))
    as (co & ck & E1 & V1 & E2 & V2).
  exists co, ck. split; [exact E1|]. split; [exact E2|]. split; [exact V2|]. rewrite V1, V2.
  apply selects_forward; lia.
Qed.

Lemma slice_backward_l n b s bz sz : axis n -> bound_is n b (cval n - 1) bz -> step_is s sz ->
  0 <= bz < cval n -> - 2147483647 <= sz < 0 ->
  exists co ck, reindex1 n (SSlice b s None None) = Ok co /\ reshape1 n (SSlice b s None None) = Ok ck /\
    selects (cval co) (cval ck) sz (fun x => 0 <= x <= bz /\ (sz | bz - x)).
Proof.
  intros A Hb Hs R P. eapply selects_at; [exact A|apply takes_backward; eassumption|].
  apply selects_backward; lia.
Qed.

Lemma slice_backward_to_l n b s e bz ez sz : axis n -> bound_is n (Some b) 0 bz -> bound_is n e (cval n) ez ->
  step_is s sz -> 0 <= bz < cval n -> - 2147483647 <= sz < 0 ->
  exists co ck, reindex1 n (SSlice (Some b) s e None) = Ok co /\ reshape1 n (SSlice (Some b) s e None) = Ok ck /\
    selects (cval co) (cval ck) sz (fun x => 0 <= x <= bz /\ (sz | bz - x)).
Proof.
  intros [Wn Bn] Hb He Hs R P.
  destruct (reindex_backward n (Some b) s e None bz sz) as (co & E1 & V1 & _); try assumption; try lia.
  destruct (reshape_backward_from n b s e bz ez sz) as (ck & E2 & V2 & _); try assumption; try lia.
  exists co, ck. rewrite V1, V2. split; [exact E1|]. split; [exact E2|]. apply selects_backward; lia.
Qed.

Lemma slice_length_l n b s l bz lz sz : axis n -> bound_is n b 0 bz -> bound_is n (Some l) 0 lz -> step_is s sz ->
  0 <= bz -> 0 <= lz -> 0 < sz ->
  exists co ck, reindex1 n (SSlice b s None (Some l)) = Ok co /\ reshape1 n (SSlice b s None (Some l)) = Ok ck /\
    selects (cval co) (cval ck) sz (fun x => bz <= x < bz + lz * sz /\ (sz | x - bz)).
Proof.
  intros A Hb Hl Hs R1 R2 P. eapply selects_at; [exact A|apply takes_length; eassumption|].
  split; [exact R2|]. intros x. split.
  - intros [B [i E]]. exists i. nia.
  - intros (i & B & E). split; [nia|]. exists i. lia.
Qed.

Lemma joker_l n : axis n -> exists co ck, reindex1 n SAll = Ok co /\ reshape1 n SAll = Ok ck /\
  selects (cval co) (cval ck) 1 (fun x => 0 <= x < cval n).
Proof.
  intros A. eapply selects_at; [exact A|constructor|]. destruct A as [W B].
  apply (selects_unit 0 (cval n)). lia.
Qed.

Lemma index_l n i : axis n -> wfc i -> exists co ck, reindex1 n (SIdx i) = Ok co /\ reshape1 n (SIdx i) = Ok ck /\
  selects (cval co) (cval ck) 1 (fun x => x = cval i).
Proof.
  intros A W. eapply selects_at; [exact A|constructor; exact W|].
  eapply selects_ext; [|apply (selects_unit (cval i) 1); lia]. intros x; cbv beta; lia.
Qed.

Lemma last_index_l n k : axis n -> sgn_ty k -> 1 <= cval k <= cval n ->
  exists co ck, reindex1 n (SEnd (ESub EEnd k)) = Ok co /\ reshape1 n (SEnd (ESub EEnd k)) = Ok ck /\
  selects (cval co) (cval ck) 1 (fun x => x = cval n - cval k).
Proof.
  intros A S R. destruct (end_minus n k A S ltac:(lia)) as (c & Hc & Vc).
  eapply selects_at; [exact A|apply takes_end with (z := cval n - cval k); exists c; auto|].
  eapply selects_ext; [|apply (selects_unit (cval n - cval k) 1); lia]. intros x; cbv beta; lia.
Qed.

Lemma divide_1 x : (1 | x).
Proof. exists x. lia. Qed.

Lemma between_l n b e ez : axis n -> wfc b -> bound_is n (Some e) 0 ez -> 0 <= cval b <= ez -> ez <= cval n ->
  exists co ck, reindex1 n (between b e) = Ok co /\ reshape1 n (between b e) = Ok ck /\
    selects (cval co) (cval ck) 1 (fun x => cval b <= x < ez).
Proof.
  intros A Wb He R1 R2.
  destruct (slice_range_l n (Some (BInt b)) None (Some e) (cval b) ez 1) as (co & ck & E1 & E2 & _ & S);
    try assumption; try reflexivity; try lia. { split; [assumption|reflexivity]. }
  exists co, ck. split; [exact E1|]. split; [exact E2|]. eapply selects_ext; [|exact S].
  intros x; cbv beta. pose proof (divide_1 (x - cval b)). tauto.
Qed.

Lemma first_l n k : axis n -> wfc k -> 0 <= cval k ->
  exists co ck, reindex1 n (first k) = Ok co /\ reshape1 n (first k) = Ok ck /\
    selects (cval co) (cval ck) 1 (fun x => 0 <= x < cval k).
Proof.
  intros A Wk R. unfold first. eapply selects_at; [exact A| |apply (selects_unit 0 (cval k)); lia].
  apply takes_length with (bz := 0) (lz := cval k) (sz := 1); try reflexivity; try lia. split; [assumption|reflexivity].
Qed.

Lemma drop_first_l n k : axis n -> wfc k -> 0 <= cval k <= cval n ->
  exists co ck, reindex1 n (drop_first k) = Ok co /\ reshape1 n (drop_first k) = Ok ck /\
    selects (cval co) (cval ck) 1 (fun x => cval k <= x < cval n).
Proof.
  intros A Wk R.
  destruct (slice_range_l n (Some (BInt k)) None None (cval k) (cval n) 1) as (co & ck & E1 & E2 & _ & S);
    try assumption; try reflexivity; try lia. { split; [assumption|reflexivity]. }
  exists co, ck. split; [exact E1|]. split; [exact E2|]. eapply selects_ext; [|exact S].
  intros x; cbv beta. pose proof (divide_1 (x - cval k)). tauto.
Qed.

Lemma last_l n k : axis n -> sgn_ty k -> 0 <= cval k <= cval n ->
  exists co ck, reindex1 n (last k) = Ok co /\ reshape1 n (last k) = Ok ck /\
    selects (cval co) (cval ck) 1 (fun x => cval n - cval k <= x < cval n).
Proof.
  intros A S R. destruct (end_minus n k A S R) as (c & Hc & Vc). unfold last. destruct S as [Wk _].
  eapply selects_at; [exact A| |].
  - apply takes_length with (bz := cval n - cval k) (lz := cval k) (sz := 1);
      [exists c; split; [exact Hc|exact Vc]|split; [exact Wk|reflexivity]|reflexivity|lia|lia|lia].
  - eapply selects_ext; [|apply (selects_unit (cval n - cval k) (cval k)); lia]. intros x; cbv beta; lia.
Qed.

Lemma drop_last_l n k : axis n -> sgn_ty k -> 0 <= cval k <= cval n ->
  exists co ck, reindex1 n (drop_last k) = Ok co /\ reshape1 n (drop_last k) = Ok ck /\
    selects (cval co) (cval ck) 1 (fun x => 0 <= x < cval n - cval k).
Proof.
  intros A S R. destruct (end_minus n k A S R) as (c & Hc & Vc).
  destruct (slice_range_l n None None (Some (BEnd (ESub EEnd k))) 0 (cval n - cval k) 1) as (co & ck & E1 & E2 & _ & Sl);
    try assumption; try reflexivity; try lia. { exists c; auto. }
  exists co, ck. split; [exact E1|]. split; [exact E2|]. eapply selects_ext; [|exact Sl].
  intros x; cbv beta. pose proof (divide_1 (x - 0)). tauto.
Qed.

Lemma every_l n s : axis n -> wfc s -> 0 < cval s ->
  exists co ck, reindex1 n (every s) = Ok co /\ reshape1 n (every s) = Ok ck /\
    selects (cval co) (cval ck) (cval s) (fun x => 0 <= x < cval n /\ (cval s | x)).
Proof.
  intros A Ws R. pose proof A as [Wn Bn].
  destruct (slice_range_l n None (Some s) None 0 (cval n) (cval s)) as (co & ck & E1 & E2 & _ & S);
    try assumption; try reflexivity; try lia. { split; [assumption|reflexivity]. }
  exists co, ck. split; [exact E1|]. split; [exact E2|]. eapply selects_ext; [|exact S].
  intros x; cbv beta. rewrite Z.sub_0_r. tauto.
Qed.

Lemma every_backward_l n s : axis n -> 0 < cval n -> wfc s -> - 2147483647 <= cval s < 0 ->
  exists co ck, reindex1 n (every s) = Ok co /\ reshape1 n (every s) = Ok ck /\
    selects (cval co) (cval ck) (cval s) (fun x => 0 <= x < cval n /\ (cval s | cval n - 1 - x)).
Proof.
  intros A Pn Ws R.
  destruct (slice_backward_l n None (Some s) (cval n - 1) (cval s)) as (co & ck & E1 & E2 & S);
    try assumption; try reflexivity; try lia. { split; [assumption|reflexivity]. }
  exists co, ck. split; [exact E1|]. split; [exact E2|]. eapply selects_ext; [|exact S].
  intros x; cbv beta. assert (0 <= x <= cval n - 1 <-> 0 <= x < cval n) by lia. tauto.
Qed.

(** Where the slicers do not do what their names say. *)
Lemma at_empty_l n i : axis n -> wfc i -> 0 <= cval i < cval n ->
  exists co ck, reindex1 n (at_ i) = Ok co /\ cval co = cval i /\ reshape1 n (at_ i) = Ok ck /\ cval ck = 0.
Proof.
  intros A Wi R. destruct (slice_range_l n (Some (BInt i)) None (Some (BInt i)) (cval i) (cval i) 1)
    as (co & ck & E1 & E2 & V & _); try assumption; try reflexivity; try lia; try (split; [assumption|reflexivity]).
  exists co, ck. rewrite Z.sub_diag in V. pose proof E1 as E3. cbn in E3. injection E3 as <-. auto.
Qed.

Lemma to_length_l n s e l sz : axis n -> step_is s sz -> 0 < sz ->
  exists co, reindex1 n (SSlice None s (Some e) (Some l)) = Ok co /\ cval co = 0.
Proof.
  intros [Wn Bn] Hs P. destruct (reindex_forward n None s (Some e) (Some l) 0 sz) as (co & E & V & _); try assumption; try reflexivity.
  eauto.
Qed.

Lemma cmod_zero v w : cval w = 0 -> cmod v w = UB.
Proof.
  intros E. unfold cmod. rewrite E. rewrite (cast_id (common (cty v) (cty w)) 0).
  - reflexivity.
  - apply in_ty_common_small; unfold max31; lia.
Qed.

Lemma eval_count_zero v s : wfc v -> cval v <> 0 -> wfc s -> cval s = 0 -> eval_count v s = UB.
Proof.
  intros Wv Nv Ws Es. unfold eval_count. rewrite ceqb_zero by assumption.
  destruct (Z.eqb_spec (cval v) 0); [contradiction|]. unfold fix_count. rewrite clt_neg by assumption.
  rewrite Es. cbn [Z.ltb Z.compare]. rewrite bind_ok.
  rewrite cmod_zero; [reflexivity|]. unfold conv; cbn [cval]. rewrite Es. destruct (cty s); reflexivity.
Qed.

Lemma zero_step_l n b s e bz ez : axis n -> bound_is n b 0 bz -> bound_is n e (cval n) ez -> step_is (Some s) 0 ->
  0 <= bz < ez -> ez <= cval n -> reshape1 n (SSlice b (Some s) e None) = UB.
Proof.
  intros [Wn Bn] Hb He [Ws Es] R1 R2.
  destruct (fix_extremum_ok n b (int 0) bz Hb wf0) as (b0 & Eb & Vb & Wb).
  destruct (fix_extremum_ok n e n ez He Wn) as (e0 & Ee & Ve & We).
  assert (G : (b0 <- fix_extremum n b (int 0) ;;
      e0 <- fix_extremum n e n ;;
          let t := common I32 (common (common (cty e0) (cty b0)) (cty s)) in
          if cle (int 0) s then d <- csub e0 b0 ;; x <- eval_count d s ;; Ok (conv t x)
          else d <- cadd b0 (CI U8 1) ;; x <- eval_count d s ;; Ok (conv t x)) = UB).
  { rewrite Eb, Ee, !bind_ok. cbv zeta. rewrite cle_pos by assumption. rewrite Es. cbn [Z.leb Z.compare].
    unfold csub. destruct (arith_nonneg Z.sub e0 b0) as (d & Ed & Vd & Wd & _); try assumption; try (unfold max31; lia).
    rewrite Ed, bind_ok. rewrite eval_count_zero; try assumption; [reflexivity|lia]. }
  destruct b as [b|]; [exact G|]. destruct e as [e|]; [exact G|].
  cbn [reshape1]. simpl in Hb, He. apply eval_count_zero; try assumption. lia.
Qed.

Lemma descending_l n b e bz ez : axis n -> bound_is n (Some b) 0 bz -> bound_is n (Some e) 0 ez ->
  0 <= ez < bz -> bz <= 2147483647 ->
  (forall c, fix_extremum n (Some b) (int 0) = Ok c -> is_signed (cty c) = true) ->
  (forall c, fix_extremum n (Some e) n = Ok c -> is_signed (cty c) = true) ->
  exists ck, reshape1 n (SSlice (Some b) None (Some e) None) = Ok ck /\ cval ck = ez - bz /\ cval ck < 0.
Proof.
  intros [Wn Bn] Hb He R1 R2 Sb Se.
  destruct (fix_extremum_ok n (Some b) (int 0) bz Hb wf0) as (b0 & Eb & Vb & Wb).
  destruct (fix_extremum_ok n (Some e) n ez He Wn) as (e0 & Ee & Ve & We).
  cbn [reshape1]. specialize (Sb _ Eb). specialize (Se _ Ee).
  rewrite Eb, Ee, !bind_ok. unfold csub.
  destruct (arith_signed Z.sub e0 b0) as (d & Ed & Vd & Wd & Sd); try assumption; [unfold max31; lia|].
  rewrite Ed, bind_ok. unfold eval_count. rewrite ceqb_zero by assumption.
  destruct (Z.eqb_spec (cval d) 0); [lia|]. unfold fix_count. rewrite clt_neg by apply wf1. change (cval (int 1) <? 0) with false.
  cbv iota. rewrite bind_ok. change (conv (promote (cty (int 1))) (int 1)) with (int 1).
  assert (Cd : cast (common (cty d) I32) (cval d) = cval d).
  { apply cast_id, in_ty_common_l; [exact Wd|left; apply common_signed; [exact Sd|reflexivity]]. }
  assert (C1 : cast (common (cty d) I32) 1 = 1) by (destruct (cty d); reflexivity).
  assert (Hq : cdiv d (int 1) = Ok (CI (common (cty d) I32) (cval d)) /\ cmod d (int 1) = Ok (CI (common (cty d) I32) 0)).
  { unfold cdiv, cmod. cbn [cty cval int]. rewrite Cd, C1. cbn [Z.eqb].
    rewrite Z.quot_1_r, Z.rem_1_r.
    assert (I : in_tyb (common (cty d) I32) (cval d) = true).
    { apply in_tyb_spec, in_ty_common_l; [exact Wd|left; apply common_signed; [exact Sd|reflexivity]]. }
    rewrite I. split; reflexivity. }
  destruct Hq as [Hq Hm]. rewrite Hq, Hm, !bind_ok.
  assert (Z0 : ceqb (CI (common (cty d) I32) 0) (int 0) = true) by (destruct (cty d); reflexivity). rewrite Z0.
  unfold cadd. destruct (arith_signed Z.add (int 0) (CI (common (cty d) I32) (cval d))) as (c & Ec & Vc & _).
  - apply wf0.
  - apply in_ty_common_l; [exact Wd|left; apply common_signed; [exact Sd|reflexivity]].
  - reflexivity.
  - apply common_signed; [exact Sd|reflexivity].
  - cbn [cval int]. unfold max31. lia.
  - exists c. rewrite Ec. cbn [cval int] in Vc. split; [reflexivity|]. lia.
Qed.
