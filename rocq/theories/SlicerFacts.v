(** Facts about slicers on one axis. *)
From Coq Require Import ZArith List Bool Lia.
From Verif Require Import Outcome CInt CIntFacts Spec SpecFacts ShapeSpec Shape ShapeFacts EndRatio EndRatioSpec EndRatioFacts
  Memory Container ContainerSpec Slicer SlicerSpec.
Import ListNotations.
Open Scope Z_scope.

Lemma neg_signed c : wfc c -> cval c < 0 -> is_signed (cty c) = true.
Proof. unfold wfc, in_ty. destruct (cty c); simpl; intros; try reflexivity; lia. Qed.

Lemma compat_zero c : wfc c -> compat c (int 0).
Proof.
  intros W. destruct (Z_lt_le_dec (cval c) 0) as [L|L].
  - apply compat_signed; [apply neg_signed; assumption|reflexivity].
  - apply compat_nonneg; [assumption|simpl; lia].
Qed.

Lemma compat_zero_l c : wfc c -> compat (int 0) c.
Proof.
  intros W. destruct (Z_lt_le_dec (cval c) 0) as [L|L].
  - apply compat_signed; [reflexivity|apply neg_signed; assumption].
  - apply compat_nonneg; [simpl; lia|assumption].
Qed.

Lemma wf0 : wfc (int 0).
Proof. apply wfc_int; unfold max31; lia. Qed.
Lemma wf1 : wfc (int 1).
Proof. apply wfc_int; unfold max31; lia. Qed.

Lemma clt_neg c : wfc c -> clt c (int 0) = (cval c <? 0).
Proof. intros W. rewrite clt_exact; [reflexivity|assumption|apply wf0|apply compat_zero, W]. Qed.
Lemma clt_pos c : wfc c -> clt (int 0) c = (0 <? cval c).
Proof. intros W. rewrite clt_exact; [reflexivity|apply wf0|assumption|apply compat_zero_l, W]. Qed.
Lemma cle_pos c : wfc c -> cle (int 0) c = (0 <=? cval c).
Proof. intros W. rewrite cle_exact; [reflexivity|apply wf0|assumption|apply compat_zero_l, W]. Qed.
Lemma ceqb_zero c : wfc c -> ceqb c (int 0) = (cval c =? 0).
Proof. intros W. rewrite ceqb_exact; [reflexivity|assumption|apply wf0|apply compat_zero, W]. Qed.

Lemma promote_in_ty t z : in_ty t z -> in_ty (promote t) z.
Proof. unfold in_ty. destruct t; simpl; lia. Qed.

Lemma ceil_div_split v w : 0 <= v -> 0 < w ->
  ceil_div v w = (if v mod w =? 0 then 0 else 1) + v / w.
Proof.
  intros Hv Hw. pose proof (ceil_div_spec v w Hw) as C.
  pose proof (Z.div_mod v w ltac:(lia)) as D. pose proof (Z.mod_pos_bound v w Hw) as M.
  destruct (Z.eqb_spec (v mod w) 0) as [E|E]; nia.
Qed.

Lemma ceil_div_bounds v w : 0 <= v -> 0 < w -> 0 <= ceil_div v w <= v.
Proof. intros Hv Hw. pose proof (ceil_div_spec v w Hw) as C. nia. Qed.

Lemma ceil_div_1 v : ceil_div v 1 = v.
Proof. unfold ceil_div. rewrite Z.div_1_r. lia. Qed.

Lemma ceil_div_0 w : ceil_div 0 w = 0.
Proof. unfold ceil_div. destruct w; reflexivity. Qed.

Lemma abs_ok n : wfc n -> - 2147483647 <= cval n -> cval n <> 0 ->
  exists w, (if clt n (int 0) then cneg n else Ok (conv (promote (cty n)) n)) = Ok w /\
            cval w = Z.abs (cval n) /\ wfc w.
Proof.
  intros W B N. rewrite clt_neg by assumption. destruct (Z.ltb_spec (cval n) 0) as [L|L].
  - pose proof (neg_signed n W L) as S. unfold cneg.
    assert (Sp : is_signed (promote (cty n)) = true) by (destruct (cty n); simpl in *; congruence).
    rewrite Sp. rewrite cast_id by (apply promote_in_ty; exact W).
    assert (I : in_ty (promote (cty n)) (- cval n)).
    { unfold in_ty. destruct (cty n); simpl in *; try discriminate; unfold wfc, in_ty in W; lia. }
    pose proof I as I'. apply in_tyb_spec in I. rewrite I. eexists. split; [reflexivity|]. simpl.
    split; [lia|exact I'].
  - assert (I : in_ty (promote (cty n)) (cval n)) by (apply promote_in_ty; exact W).
    eexists. split; [reflexivity|]. rewrite conv_exact by exact I. simpl. split; [lia|exact I].
Qed.

Lemma eval_count_ok v s : wfc v -> 0 <= cval v <= 2147483647 -> wfc s -> - 2147483647 <= cval s ->
  cval s <> 0 ->
  exists c, eval_count v s = Ok c /\ cval c = ceil_div (cval v) (Z.abs (cval s)) /\ wfc c.
Proof.
  intros Wv Bv Ws Bs Ns. unfold eval_count. rewrite ceqb_zero by assumption.
  destruct (Z.eqb_spec (cval v) 0) as [E|E].
  - eexists. split; [reflexivity|]. split; [|apply conv_wf].
    rewrite conv_exact by (apply in_ty_common_small; unfold max31; simpl; lia). simpl. rewrite E, ceil_div_0. reflexivity.
  - unfold fix_count. destruct (abs_ok s Ws Bs Ns) as (w & Ew & Vw & Ww). rewrite Ew, bind_ok.
    destruct (cmod_nonneg v w Wv Ww ltac:(lia) ltac:(lia)) as (r & Er & Vr & Wr & _).
    destruct (cdiv_nonneg v w Wv Ww ltac:(lia) ltac:(lia)) as (q & Eq & Vq & Wq & _).
    rewrite Er, Eq, !bind_ok. rewrite ceqb_zero by assumption.
    pose proof (ceil_div_split (cval v) (cval w) ltac:(lia) ltac:(lia)) as CS.
    pose proof (ceil_div_bounds (cval v) (cval w) ltac:(lia) ltac:(lia)) as CB.
    assert (Q0 : 0 <= cval v / cval w) by (apply Z.div_pos; lia).
    rewrite <- Vw. rewrite <- Vr, <- Vq in CS. rewrite <- Vq in Q0.
    assert (Wb : wfc (int (if cval r =? 0 then 0 else 1))) by (destruct (cval r =? 0); [apply wf0|apply wf1]).
    destruct (arith_nonneg Z.add (int (if cval r =? 0 then 0 else 1)) q) as (c & Ec & Vc & Wc & _); try assumption.
    { simpl. destruct (cval r =? 0); lia. }
    { cbn [cval int]. unfold max31. lia. }
    unfold cadd. exists c. split; [exact Ec|]. split; [|exact Wc]. rewrite Vc, CS. reflexivity.
Qed.

Lemma end_value_wf e n c : end_value e n = Ok c -> wfc c /\ promote (cty c) = cty c.
Proof.
  unfold end_value. intros H. apply bind_inv in H as (x & _ & H). unfold end_size in H.
  apply bind_inv in H as (a & _ & H). apply bind_inv in H as (b & _ & H). unfold cdiv in H.
  destruct (_ =? 0); [discriminate|]. destruct (in_tyb _ _) eqn:I; [|discriminate]. injection H as <-.
  apply in_tyb_spec in I. split; [exact I|]. cbn [cty]. destruct (cty b), (cty (denum (frac x))); reflexivity.
Qed.

Lemma fix_extremum_ok n b d z : bound_is n b (cval d) z -> wfc d ->
  exists c, fix_extremum n b d = Ok c /\ cval c = z /\ wfc c.
Proof.
  intros H W. destruct b as [[c|e]|]; simpl in *.
  - destruct H as [Hw Hv]. eauto.
  - destruct H as (c & Hc & Hv). exists c. destruct (end_value_wf _ _ _ Hc). auto.
  - exists d. auto.
Qed.

Lemma reindex_forward n b s e l bz sz : wfc n -> bound_is n b 0 bz -> step_is s sz -> 0 < sz ->
  exists co, reindex1 n (SSlice b s e l) = Ok co /\ cval co = bz /\ wfc co /\
    (wide (SSlice b s e l) -> promote (cty co) = cty co).
Proof.
  intros Wn Hb Hs Ps. destruct b as [b|].
  - destruct (fix_extremum_ok n (Some b) (int 0) bz Hb wf0) as (c & Ec & Vc & Wc).
    exists c. split; [exact Ec|]. split; [exact Vc|]. split; [exact Wc|]. simpl. destruct b as [c'|e']; simpl.
    + simpl in Ec. injection Ec as <-. auto.
    + intros _. simpl in Ec. apply (end_value_wf _ _ _ Ec).
  - simpl in Hb. subst bz. destruct s as [s|]; simpl in *.
    + destruct Hs as [Ws Vs]. rewrite clt_pos by assumption.
      destruct (Z.ltb_spec 0 (cval s)); [|lia]. eexists. split; [reflexivity|].
      split; [rewrite conv_exact by (apply (in_ty_common_small I32 (cty n)); unfold max31; simpl; lia); reflexivity|].
      split; [apply conv_wf|].
      intros _. destruct (cty n); reflexivity.
    + eexists. split; [reflexivity|]. split; [reflexivity|]. split; [apply wf0|reflexivity].
Qed.

Lemma reindex_backward n b s e l bz sz : wfc n -> 0 <= cval n <= 2147483647 ->
  bound_is n b (cval n - 1) bz -> 0 <= bz < cval n -> step_is s sz -> sz < 0 ->
  exists co, reindex1 n (SSlice b s e l) = Ok co /\ cval co = bz /\ wfc co /\
    (wide (SSlice b s e l) -> promote (cty co) = cty co).
Proof.
  intros Wn Bn Hb Rb Hs Ps. destruct b as [b|].
  - destruct (fix_extremum_ok n (Some b) (int 0) bz Hb wf0) as (c & Ec & Vc & Wc).
    exists c. split; [exact Ec|]. split; [exact Vc|]. split; [exact Wc|]. simpl. destruct b as [c'|e']; simpl.
    + simpl in Ec. injection Ec as <-. auto.
    + intros _. simpl in Ec. apply (end_value_wf _ _ _ Ec).
  - simpl in Hb. destruct s as [s|]; [|simpl in Hs; lia]. simpl in Hs. destruct Hs as [Ws Vs].
    cbn [reindex1]. rewrite clt_pos by assumption.
    destruct (Z.ltb_spec 0 (cval s)); [lia|]. unfold csub.
    destruct (arith_nonneg Z.sub n (int 1)) as (c & Ec & Vc & Wc & Tc); try assumption; try apply wf1;
      try (simpl; unfold max31; lia).
    exists c. rewrite Ec. split; [reflexivity|]. simpl in Vc. split; [lia|]. split; [exact Wc|].
    intros _. rewrite Tc. destruct (cty n); reflexivity.
Qed.

Lemma step_given s sz : step_is s sz ->
  exists c, (match s with Some s => s | None => int 1 end) = c /\ wfc c /\ cval c = sz.
Proof. destruct s; simpl; intros H; [destruct H; eauto|subst; exists (int 1); split; [reflexivity|split; [apply wf1|reflexivity]]]. Qed.

Lemma conv_small t u x : wfc x -> 0 <= cval x <= 2147483647 ->
  cval (conv (common t u) x) = cval x /\ wfc (conv (common t u) x).
Proof.
  intros W B. split; [|apply conv_wf]. rewrite conv_exact; [reflexivity|].
  apply in_ty_common_small. unfold max31; lia.
Qed.

Lemma reshape_forward n b s e bz ez sz : wfc n -> 0 <= cval n <= 2147483647 ->
  bound_is n b 0 bz -> bound_is n e (cval n) ez -> step_is s sz ->
  0 <= bz <= ez -> ez <= 2147483647 -> 0 < sz ->
  exists ck, reshape1 n (SSlice b s e None) = Ok ck /\ cval ck = ceil_div (ez - bz) sz /\ wfc ck.
Proof.
  intros Wn Bn Hb He Hs Rb Re Ps.
  assert (G : exists ck, (b0 <- fix_extremum n b (int 0) ;;
      e0 <- fix_extremum n e n ;;
      match s with
      | Some s0 =>
          let t := common I32 (common (common (cty e0) (cty b0)) (cty s0)) in
          if cle (int 0) s0 then d <- csub e0 b0 ;; x <- eval_count d s0 ;; Ok (conv t x)
          else d <- cadd b0 (CI U8 1) ;; x <- eval_count d s0 ;; Ok (conv t x)
      | None => d <- csub e0 b0 ;; eval_count d (int 1)
      end) = Ok ck /\ cval ck = ceil_div (ez - bz) sz /\ wfc ck).
  { destruct (fix_extremum_ok n b (int 0) bz Hb wf0) as (b0 & Eb & Vb & Wb).
    destruct (fix_extremum_ok n e n ez He Wn) as (e0 & Ee & Ve & We).
    rewrite Eb, Ee, !bind_ok. unfold csub.
    destruct (arith_nonneg Z.sub e0 b0) as (d & Ed & Vd & Wd & _); try assumption; try lia.
    { unfold max31; lia. }
    destruct s as [s|]; simpl in Hs.
    - destruct Hs as [Ws Vs]. cbv zeta. rewrite cle_pos by assumption.
      destruct (Z.leb_spec 0 (cval s)); [|lia]. rewrite Ed, bind_ok.
      destruct (eval_count_ok d s) as (x & Ex & Vx & Wx); try assumption; try lia.
      rewrite Ex, bind_ok. eexists. split; [reflexivity|].
      assert (X : cval x = ceil_div (ez - bz) sz) by (rewrite Vx, Vd, Ve, Vb, Vs, Z.abs_eq by lia; reflexivity).
      pose proof (ceil_div_bounds (ez - bz) sz ltac:(lia) Ps).
      destruct (conv_small I32 (common (common (cty e0) (cty b0)) (cty s)) x Wx ltac:(lia)) as [C1 C2].
      split; [congruence|exact C2].
    - rewrite Ed, bind_ok. destruct (eval_count_ok d (int 1)) as (x & Ex & Vx & Wx); try assumption; try apply wf1;
        try (simpl; lia).
      exists x. split; [exact Ex|]. split; [|exact Wx]. rewrite Vx, Vd, Ve, Vb, Hs. reflexivity. }
  destruct b as [b|]; [exact G|]. destruct e as [e|]; [exact G|]. clear G. simpl in Hb, He. subst bz ez.
  cbn [reshape1]. destruct (step_given s sz Hs) as (c & -> & Wc & Vc).
  destruct (eval_count_ok n c) as (x & Ex & Vx & Wx); try assumption; try lia.
  exists x. split; [exact Ex|]. split; [|exact Wx]. rewrite Vx, Vc, Z.abs_eq by lia. f_equal. lia.
Qed.

Lemma reshape_backward_from n b s e bz ez sz : wfc n -> 0 <= cval n <= 2147483647 ->
  bound_is n (Some b) 0 bz -> bound_is n e (cval n) ez -> step_is s sz ->
  0 <= bz < 2147483647 -> - 2147483647 <= sz < 0 ->
  exists ck, reshape1 n (SSlice (Some b) s e None) = Ok ck /\ cval ck = ceil_div (bz + 1) (- sz) /\ wfc ck.
Proof.
  intros Wn Bn Hb He Hs Rb Ps.
  destruct (fix_extremum_ok n (Some b) (int 0) bz Hb wf0) as (b0 & Eb & Vb & Wb).
  destruct (fix_extremum_ok n e n ez He Wn) as (e0 & Ee & Ve & We).
  destruct s as [s|]; [|simpl in Hs; lia]. simpl in Hs. destruct Hs as [Ws Vs].
  cbn [reshape1]. rewrite Eb, Ee, !bind_ok. cbv zeta. rewrite cle_pos by assumption.
  destruct (Z.leb_spec 0 (cval s)); [lia|]. unfold cadd.
  destruct (arith_nonneg Z.add b0 (CI U8 1)) as (d & Ed & Vd & Wd & _); try assumption; try lia.
  { unfold wfc, in_ty; simpl; lia. } { simpl; lia. } { simpl. unfold max31. lia. }
  rewrite Ed, bind_ok. simpl in Vd.
  destruct (eval_count_ok d s) as (x & Ex & Vx & Wx); try assumption; try lia.
  rewrite Ex, bind_ok. eexists. split; [reflexivity|].
  assert (X : cval x = ceil_div (bz + 1) (- sz)) by (rewrite Vx, Vd, Vb, Vs, Z.abs_neq by lia; reflexivity).
  pose proof (ceil_div_bounds (bz + 1) (- sz) ltac:(lia) ltac:(lia)).
  destruct (conv_small I32 (common (common (cty e0) (cty b0)) (cty s)) x Wx ltac:(lia)) as [C1 C2].
  split; [congruence|exact C2].
Qed.

Lemma reshape_backward n b s bz sz : wfc n -> 0 <= cval n <= 2147483647 ->
  bound_is n b (cval n - 1) bz -> step_is s sz -> 0 <= bz < cval n -> - 2147483647 <= sz < 0 ->
  exists ck, reshape1 n (SSlice b s None None) = Ok ck /\ cval ck = ceil_div (bz + 1) (- sz) /\ wfc ck.
Proof.
  intros Wn Bn Hb Hs Rb Ps. destruct b as [b|].
  - eapply reshape_backward_from; try eassumption; try reflexivity. lia.
  - simpl in Hb. cbn [reshape1]. destruct (step_given s sz Hs) as (c & -> & Wc & Vc).
    destruct (eval_count_ok n c) as (x & Ex & Vx & Wx); try assumption; try lia.
    exists x. split; [exact Ex|]. split; [|exact Wx]. rewrite Vx, Vc, Z.abs_neq by lia. f_equal. lia.
Qed.

(** What the library computes for a slicer is what it means. *)
Lemma takes_ok n sl o k s : axis n -> takes n sl o k s ->
  exists co ck, reindex1 n sl = Ok co /\ cval co = o /\ wfc co /\ (wide sl -> promote (cty co) = cty co) /\
                reshape1 n sl = Ok ck /\ cval ck = k /\ wfc ck.
Proof.
  intros [Wn Bn] H. destruct H as [ |i Wi|e z He|b s e bz ez sz Hb He Hs R1 R2 Ps
    |b s bz sz Hb Hs Rb Ps|b s l bz lz sz Hb Hl Hs R1 R2 Ps|b s l bz lz sz Hb Hl Hs R1 R2 Ps].
  - exists (int 0), n. repeat (split; [solve [reflexivity | apply wf0 | exact Wn | auto]|]). exact Wn.
  - exists i, (int 1). repeat (split; [solve [reflexivity | apply wf1 | exact Wi | auto]|]). apply wf1.
  - destruct He as (c & Hc & Vc). destruct (end_value_wf _ _ _ Hc) as [Wc Pc].
    exists c, (int 1). repeat (split; [solve [reflexivity | exact Hc | exact Vc | exact Wc | auto]|]). apply wf1.
  - destruct (reindex_forward n b s e None bz sz) as (co & E1 & E2 & E3 & E4); try assumption.
    destruct (reshape_forward n b s e bz ez sz) as (ck & F1 & F2 & F3); try assumption; try lia.
    exists co, ck. auto 10.
  - destruct (reindex_backward n b s None None bz sz) as (co & E1 & E2 & E3 & E4); try assumption; try lia.
    destruct (reshape_backward n b s bz sz) as (ck & F1 & F2 & F3); try assumption; try lia.
    exists co, ck. auto 10.
  - destruct (reindex_forward n b s None (Some l) bz sz) as (co & E1 & E2 & E3 & E4); try assumption.
    destruct (fix_extremum_ok n (Some l) n lz Hl Wn) as (ck & F1 & F2 & F3).
    exists co, ck. assert (reshape1 n (SSlice b s None (Some l)) = Ok ck) by (destruct b; exact F1). auto 10.
  - destruct (reindex_backward n b s None (Some l) bz sz) as (co & E1 & E2 & E3 & E4); try assumption; try lia.
    destruct (fix_extremum_ok n (Some l) n lz Hl Wn) as (ck & F1 & F2 & F3).
    exists co, ck. assert (reshape1 n (SSlice b s None (Some l)) = Ok ck) by (destruct b; exact F1). auto 10.
Qed.
