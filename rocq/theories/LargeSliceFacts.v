(** Facts about slices of views of more than 2^31 elements. *)
From Coq Require Import ZArith List Bool Lia.
From Verif Require Import Outcome CInt CIntFacts Spec SpecFacts ShapeSpec Shape ShapeFacts ShapeFacts2 EndRatio
  Memory MemFacts Container ContainerSpec ContainerFacts ContainerFacts2 ContainerFacts3 Algo AlgoSpec AlgoFacts AlgoFacts2 AlgoFacts3 AlgoFacts4 Slicer SlicerSpec SlicerFacts SlicerFacts2
  SlicerFacts3 SlicerFacts4 LargeSpec LargeFacts LargeSliceSpec.
Import ListNotations.
Open Scope Z_scope.

(** ** One axis *)
Lemma arith_fits f a b : wfc a -> wfc b -> 0 <= cval a -> 0 <= cval b -> 0 <= f (cval a) (cval b) ->
  f (cval a) (cval b) <= cval a \/ f (cval a) (cval b) <= cval b ->
  exists c, arith f a b = Ok c /\ cval c = f (cval a) (cval b) /\ wfc c /\ cty c = common (cty a) (cty b).
Proof.
  intros Wa Wb Pa Pb R0 R1.
  assert (I1 : in_ty (common (cty a) (cty b)) (f (cval a) (cval b))).
  { destruct R1.
    - apply (in_ty_shrink _ (cval a)); [apply in_ty_common_l; [exact Wa|right; exact Pa]|lia].
    - apply (in_ty_shrink _ (cval b)); [apply in_ty_common_r; [exact Wb|right; exact Pb]|lia]. }
  eexists. split; [apply arith_exact; try assumption; right; tauto|]. cbn [cval cty]. split; [reflexivity|]. split; [exact I1|reflexivity].
Qed.

Lemma is64_common_l t u : is64 t -> is64 (common t u).
Proof. unfold is64. destruct t, u; cbn; intros [H|H]; try discriminate; auto. Qed.
Lemma is64_common_r t u : is64 u -> is64 (common t u).
Proof. unfold is64. destruct t, u; cbn; intros [H|H]; try discriminate; auto. Qed.

Lemma eval_count_wide v s : wfc v -> 0 <= cval v -> wfc s -> 0 < cval s ->
  exists c, eval_count v s = Ok c /\ cval c = ceil_div (cval v) (cval s) /\ wfc c /\ (is64 (cty v) -> is64 (cty c)).
Proof.
  intros Wv Bv Ws Bs. unfold eval_count. rewrite ceqb_zero by assumption.
  destruct (Z.eqb_spec (cval v) 0) as [E|E].
  - eexists. split; [reflexivity|]. split; [|split; [apply conv_wf|]].
    + rewrite conv_exact by (apply in_ty_common_small; unfold max31; simpl; lia). simpl. rewrite E, ceil_div_0. reflexivity.
    + intros H. cbn [conv cty]. apply is64_common_r, is64_common_l, H.
  - unfold fix_count. rewrite clt_neg by assumption. destruct (Z.ltb_spec (cval s) 0) as [L|L]; [lia|]. rewrite bind_ok.
    assert (I1 : in_ty (promote (cty s)) (cval s)) by (apply promote_in_ty; exact Ws).
    rewrite conv_exact by exact I1. set (w := CI (promote (cty s)) (cval s)).
    assert (Vw : cval w = cval s) by reflexivity. assert (Ww : wfc w) by exact I1.
    destruct (cmod_nonneg v w Wv Ww ltac:(lia) ltac:(lia)) as (r & Er & Vr & Wr & _).
    destruct (cdiv_nonneg v w Wv Ww ltac:(lia) ltac:(lia)) as (q & Eq & Vq & Wq & Tq).
    rewrite Er, Eq, !bind_ok. rewrite ceqb_zero by assumption.
    pose proof (ceil_div_split (cval v) (cval w) ltac:(lia) ltac:(lia)) as CS.
    pose proof (ceil_div_bounds (cval v) (cval w) ltac:(lia) ltac:(lia)) as CB.
    assert (Q0 : 0 <= cval v / cval w) by (apply Z.div_pos; lia).
    rewrite <- Vw. rewrite <- Vr, <- Vq in CS. rewrite <- Vq in Q0.
    assert (Wb : wfc (int (if cval r =? 0 then 0 else 1))) by (destruct (cval r =? 0); [apply wf0|apply wf1]).
    assert (B0 : 0 <= cval (int (if cval r =? 0 then 0 else 1))) by (cbn; destruct (cval r =? 0); lia).
    assert (I2 : in_ty (common I32 (cty q)) (cval (int (if cval r =? 0 then 0 else 1)) + cval q)).
    { apply (in_ty_shrink _ (cval v)); [|cbn [cval int]; lia]. rewrite Tq.
      assert (Iv : in_ty (common (cty v) (cty w)) (cval v)) by (apply in_ty_common_l; [exact Wv|right; exact Bv]).
      apply in_ty_common_r; [exact Iv|right; exact Bv]. }
    unfold cadd. rewrite (arith_exact Z.add _ q) by (try assumption; right; split; assumption).
    eexists. split; [reflexivity|]. cbn [cval cty]. split; [rewrite CS; reflexivity|]. split; [exact I2|].
    intros H. cbn [cty int]. apply is64_common_r. rewrite Tq. apply is64_common_l, H.
Qed.

Lemma fix_extremum_wide n b d z : bound_is n b (cval d) z -> wfc d ->
  exists c, fix_extremum n b d = Ok c /\ cval c = z /\ wfc c /\
    (match b with None => cty c = cty d | Some (BInt x) => cty c = cty x | Some (BEnd _) => True end).
Proof.
  intros H W. destruct b as [[c|e]|]; simpl in *.
  - destruct H as [Hw Hv]. exists c. auto.
  - destruct H as (c & Hc & Hv). exists c. destruct (end_value_wf _ _ _ Hc). auto.
  - exists d. auto.
Qed.

Lemma reshape_wide n b s e bz ez sz : wfc n -> 0 <= cval n ->
  bound_is n b 0 bz -> bound_is n e (cval n) ez -> step_is s sz ->
  0 <= bz <= ez -> ez <= cval n -> 0 < sz ->
  exists ck, reshape1 n (SSlice b s e None) = Ok ck /\ cval ck = ceil_div (ez - bz) sz /\ wfc ck /\
    (is64 (cty n) -> count64 (SSlice b s e None) -> is64 (cty ck)).
Proof.
  intros Wn Bn Hb He Hs Rb Re Ps.
  assert (G : exists ck, (b0 <- fix_extremum n b (int 0) ;;
      e0 <- fix_extremum n e n ;;
      match s with
      | Some s0 =>
          let t := common I32 (common (common (cty e0) (cty b0)) (cty s0)) in
          if cle (int 0) s0 then d <- csub e0 b0 ;; x <- eval_count d s0 ;; Ok (conv t x)
          else d <- cadd b0 (CI U8 1) ;; x <- eval_count d s0 ;; Ok (conv t x)
      | None => d <- csub e0 b0 ;; eval_count d (int 1)
      end) = Ok ck /\ cval ck = ceil_div (ez - bz) sz /\ wfc ck /\
    (is64 (cty n) -> count64 (SSlice b s e None) -> is64 (cty ck))).
  { destruct (fix_extremum_ok n b (int 0) bz Hb wf0) as (b0 & Eb & Vb & Wb).
    destruct (fix_extremum_wide n e n ez He Wn) as (e0 & Ee & Ve & We & Te).
    assert (T64 : is64 (cty n) -> count64 (SSlice b s e None) -> is64 (cty e0)).
    { intros Hn Hc. destruct e as [[x|x]|]; cbn in Hc; [rewrite Te; exact Hc|contradiction|rewrite Te; exact Hn]. }
    rewrite Eb, Ee, !bind_ok. unfold csub.
    destruct (arith_fits Z.sub e0 b0) as (d & Ed & Vd & Wd & Td); try assumption; try lia.
    destruct s as [s|]; simpl in Hs.
    - destruct Hs as [Ws Vs]. cbv zeta. rewrite cle_pos by assumption.
      destruct (Z.leb_spec 0 (cval s)); [|lia]. rewrite Ed, bind_ok.
      destruct (eval_count_wide d s) as (x & Ex & Vx & Wx & Tx); try assumption; try lia.
      rewrite Ex, bind_ok. eexists. split; [reflexivity|].
      assert (X : cval x = ceil_div (ez - bz) sz) by (rewrite Vx, Vd, Ve, Vb, Vs; reflexivity).
      pose proof (ceil_div_bounds (ez - bz) sz ltac:(lia) Ps) as CB.
      assert (I2 : in_ty (common I32 (common (common (cty e0) (cty b0)) (cty s))) (cval x)).
      { apply (in_ty_shrink _ (cval e0)); [|lia]. apply in_ty_common_r; [|right; lia].
        apply in_ty_common_l; [|right; lia]. apply in_ty_common_l; [exact We|right; lia]. }
      rewrite conv_exact by exact I2. cbn [cval cty]. split; [exact X|]. split; [exact I2|].
      intros Hn Hc. apply is64_common_r, is64_common_l, is64_common_l, T64; assumption.
    - rewrite Ed, bind_ok. destruct (eval_count_wide d (int 1)) as (x & Ex & Vx & Wx & Tx); try assumption; try apply wf1;
        try (simpl; lia).
      exists x. split; [exact Ex|]. split; [rewrite Vx, Vd, Ve, Vb, Hs; reflexivity|]. split; [exact Wx|].
      intros Hn Hc. apply Tx. rewrite Td. apply is64_common_l, T64; assumption. }
  destruct b as [b|]; [exact G|]. destruct e as [e|]; [exact G|]. clear G. simpl in Hb, He. subst bz ez.
  cbn [reshape1]. destruct (step_given s sz Hs) as (c & -> & Wc & Vc).
  destruct (eval_count_wide n c) as (x & Ex & Vx & Wx & Tx); try assumption; try lia.
  exists x. split; [exact Ex|]. split; [rewrite Vx, Vc; f_equal; lia|]. split; [exact Wx|]. intros Hn _. apply Tx, Hn.
Qed.

Lemma takes_wide n sl o k s : wfc n -> 0 <= cval n -> takes n sl o k s -> 0 < s ->
  exists co ck, reindex1 n sl = Ok co /\ cval co = o /\ wfc co /\ (wide sl -> promote (cty co) = cty co) /\
                reshape1 n sl = Ok ck /\ cval ck = k /\ wfc ck /\ (is64 (cty n) -> count64 sl -> is64 (cty ck)).
Proof.
  intros Wn Bn H Sp. destruct H as [ |i Wi|e z He|b s e bz ez sz Hb He Hs R1 R2 Ps
    |b s bz sz Hb Hs Rb Ps|b s l bz lz sz Hb Hl Hs R1 R2 Ps|b s l bz lz sz Hb Hl Hs R1 R2 Ps]; try lia.
  - exists (int 0), n. repeat (split; [solve [reflexivity | apply wf0 | exact Wn | auto]|]). auto.
  - exists i, (int 1). repeat (split; [solve [reflexivity | apply wf1 | exact Wi | auto]|]). intros _ [].
  - destruct He as (c & Hc & Vc). destruct (end_value_wf _ _ _ Hc) as [Wc Pc].
    exists c, (int 1). repeat (split; [solve [reflexivity | exact Hc | exact Vc | exact Wc | apply wf1 | auto]|]). intros _ [].
  - destruct (reindex_forward n b s e None bz sz) as (co & E1 & E2 & E3 & E4); try assumption.
    destruct (reshape_wide n b s e bz ez sz) as (ck & F1 & F2 & F3 & F4); try assumption; try lia.
    exists co, ck. auto 10.
  - destruct (reindex_forward n b s None (Some l) bz sz) as (co & E1 & E2 & E3 & E4); try assumption.
    destruct (fix_extremum_wide n (Some l) n lz Hl Wn) as (ck & F1 & F2 & F3 & F4).
    exists co, ck. assert (reshape1 n (SSlice b s None (Some l)) = Ok ck) by (destruct b; exact F1).
    assert (is64 (cty n) -> count64 (SSlice b s None (Some l)) -> is64 (cty ck)).
    { intros _. destruct l as [x|x]; cbn; [rewrite F4; auto|intros []]. }
    auto 12.
Qed.

Lemma takes_count n sl o k s : 0 <= cval n -> takes n sl o k s -> 0 <= k.
Proof.
  intros Bn H. destruct H as [ |i Wi|e z He|b s e bz ez sz Hb He Hs R1 R2 Ps
    |b s bz sz Hb Hs Rb Ps|b s l bz lz sz Hb Hl Hs R1 R2 Ps|b s l bz lz sz Hb Hl Hs R1 R2 Ps]; try lia.
  - pose proof (ceil_div_bounds (ez - bz) sz ltac:(lia) Ps). lia.
  - pose proof (ceil_div_bounds (bz + 1) (- sz) ltac:(lia) ltac:(lia)). lia.
Qed.

(** ** All axes *)
Lemma each_wide ns sls os ks ss : wfs ns -> nonnegs (vals ns) -> sliced_each ns sls os ks ss -> Forall (fun s => 0 < s) ss ->
  exists cos cks, mapM2 reindex1 ns sls = Ok cos /\ vals cos = os /\ wfs cos /\
    (Forall wide sls -> Forall (fun c => promote (cty c) = cty c) cos) /\
    mapM2 reshape1 ns sls = Ok cks /\ vals cks = ks /\ wfs cks /\
    (last64 ns -> length sls = 1%nat \/ on_last count64 sls -> last64 cks).
Proof.
  intros W N H. revert W N. induction H as [|n sl o k s ns sls os ks ss Ht Hi H IH]; intros W N P.
  - exists [], []. repeat (split; [solve [reflexivity | constructor | intros; constructor]|]).
    intros [L|(r & x & E & _)]; [discriminate|destruct r; discriminate].
  - inversion W; inversion N; inversion P; subst. destruct IH as (cos & cks & E1 & V1 & W1 & P1 & E2 & V2 & W2 & K2); try assumption.
    destruct (takes_wide n sl o k s) as (co & ck & F1 & U1 & X1 & Q1 & F2 & U2 & X2 & K1); try assumption.
    exists (co :: cos), (ck :: cks). cbn [mapM2]. rewrite F1, E1, F2, E2, !bind_ok. subst.
    split; [reflexivity|]. split; [reflexivity|]. split; [constructor; assumption|].
    split; [|split; [reflexivity|split; [reflexivity|split; [constructor; assumption|]]]].
    + intros Fw. inversion Fw; subst. constructor; [apply Q1; assumption|apply P1; assumption].
    + assert (Lk : length cks = length ns).
      { destruct (each_length _ _ _ _ _ H) as (_ & _ & L & _). rewrite <- L. unfold vals. rewrite map_length. reflexivity. }
      assert (Ls : length sls = length ns) by apply (each_length _ _ _ _ _ H).
      intros Ln C. destruct ns as [|n2 ns].
      * left. destruct cks; [reflexivity|discriminate].
      * destruct C as [C|(r & x & E & Cx)]; [cbn in C, Ls; lia|]. destruct r as [|sl' r]; [destruct sls; cbn in Ls; [lia|discriminate]|].
        injection E as -> E. destruct Ln as [Ln|(r2 & y & En & Yn)]; [discriminate|].
        destruct r2 as [|y' r2]; [discriminate|]. injection En as -> En.
        assert (last64 cks) as [L|(r3 & z & Ez & Yz)].
        { apply K2; [right; exists r2, y; auto|right; exists r, x; auto]. }
        -- destruct cks as [|z [|z' cks]]; try discriminate. right. exists [ck], z. split; [reflexivity|].
           (* one axis left: its extent has a 64-bit type *)
           destruct ns as [|? ?]; [|discriminate]. destruct sls as [|sl2 [|? ?]]; try discriminate.
           destruct r as [|? r]; [|destruct r; discriminate]. injection E as ->. destruct r2 as [|? r2]; [|destruct r2; discriminate].
           injection En as ->. inversion H as [|? ? ? ? ? ? ? ? ? ? Ht2 Hi2 Hr2]; subst. inversion Hr2; subst.
           match goal with W2 : Forall _ (y :: _), N2 : Forall _ (vals [y]), P2 : Forall _ [_] |- _ =>
             inversion W2; inversion N2; inversion P2; subst end.
           destruct (takes_wide y x _ _ _ ltac:(eassumption) ltac:(eassumption) Ht2 ltac:(eassumption)) as (co2 & ck2 & _ & _ & _ & _ & G2 & _ & _ & K3).
           cbn [mapM2] in E2. rewrite G2 in E2. cbn [bind] in E2. injection E2 as <-. apply K3; assumption.
        -- right. exists (ck :: r3), z. split; [rewrite Ez; reflexivity|exact Yz].
Qed.

Lemma wide_place ns sls os ks ss : sliced_each ns sls os ks ss -> Forall (fun s => 0 < s) ss -> forall js, in_box ks js ->
  in_box (vals ns) (place os ss js).
Proof.
  intros H. induction H as [|n sl o k s ns sls os ks ss Ht Hi H IH]; intros P js B.
  - inversion B; subst. constructor.
  - inversion B as [|? ? j js' Bj B']; subst. inversion P as [|? ? Ps P']; subst.
    specialize (IH P' _ B'). cbn [vals map place]. constructor; [|exact IH].
    destruct Hi as (H1 & H2 & _). specialize (H2 ltac:(lia)). nia.
Qed.

Lemma wide_dims ns sls os ks ss : nonnegs (vals ns) -> sliced_each ns sls os ks ss -> Forall (fun s => 0 < s) ss ->
  nonnegs ks /\ posprod ks <= posprod (vals ns).
Proof.
  intros A H. induction H as [|n sl o k s ns sls os ks ss Ht Hi H IH]; intros P; [split; [constructor|reflexivity]|].
  inversion A as [|? ? An A']; inversion P as [|? ? Ps P']; subst. destruct (IH A' P') as [N Q].
  pose proof (takes_count _ _ _ _ _ An Ht) as K.
  split; [constructor; assumption|]. cbn [vals map]. rewrite !posprod_cons. fold (vals ns).
  destruct Hi as (H1 & H2 & _).
  assert (k <= cval n).
  { destruct (Z_lt_le_dec 0 k) as [Pk|Pk]; [|lia]. specialize (H2 Pk). nia. }
  pose proof (posprod_pos ks). pose proof (posprod_pos (vals ns)). nia.
Qed.

Lemma wide_reach ns sls os ks ss : sliced_each ns sls os ks ss -> Forall (fun s => 0 < s) ss -> forall js, in_box ks js ->
  dot (times ss (strides_of (vals ns))) js <= prod (vals ns) - 1.
Proof.
  intros H. induction H as [|n sl o k s ns sls os ks ss Ht Hi H IH]; intros Ps js B.
  - inversion B; subst. vm_compute. discriminate.
  - inversion B as [|? ? j js' Bj B']; subst. inversion Ps as [|? ? P0 Ps']; subst.
    specialize (IH Ps' _ B'). cbn [vals map strides_of times dot]. rewrite prod_cons. fold (vals ns).
    pose proof (prod_ge1 _ (in_box_pos _ _ (each_in_box _ _ _ _ _ H))) as P.
    destruct Hi as (H1 & H2 & _). specialize (H2 ltac:(lia)).
    assert (J : s * j <= cval n - 1) by nia.
    replace (s * prod (vals ns) * j) with ((s * j) * prod (vals ns)) by lia. nia.
Qed.

(** The strides of the slice. *)
Lemma restride_wide ns sls os ks ss : sliced_each ns sls os ks ss -> Forall (fun s => 0 < s) ss ->
  prod (vals ns) <= max63 -> (sls <> [] -> on_last step64 sls) ->
  forall st, wfs st -> vals st = strides_of (vals ns) -> wide_strides st ->
  exists st', mapM2 restride1 st sls = Ok st' /\ vals st' = times ss (vals st) /\ wfs st' /\ wide_strides st'.
Proof.
  intros H. induction H as [|n sl o k s ns sls os ks ss Ht Hi H IH]; intros P Pr Lst st W V Wd.
  - destruct st; [|discriminate]. exists []. repeat (split; [solve [reflexivity | constructor]|]). exact Logic.I.
  - destruct st as [|d st]; [discriminate|]. inversion W as [|? ? Wdd W']; inversion P as [|? ? P0 P']; subst.
    cbn [vals map strides_of] in V. injection V as Vd V. fold (vals ns) (vals st) in *.
    cbn [vals map] in Pr. rewrite prod_cons in Pr. fold (vals ns) in Pr.
    pose proof (prod_ge1 _ (in_box_pos _ _ (each_in_box _ _ _ _ _ H))) as Q.
    destruct Hi as (H1 & _ & H3).
    assert (Pr' : prod (vals ns) <= max63) by nia.
    assert (Ln : length st = length sls).
    { destruct (each_length _ _ _ _ _ H) as (L & _). rewrite L, <- (vals_length ns), <- (strides_of_length (vals ns)), <- V.
      symmetry. apply vals_length. }
    destruct (IH P' Pr') with (st := st) as (st' & E & Vs & Ws & Wd'); [|assumption|exact V| |].
    { intros Ne. destruct (Lst ltac:(discriminate)) as (r & x & Er & Hx). destruct r as [|r0 r].
      - destruct sls; [contradiction|discriminate].
      - injection Er as -> Er. exists r, x. auto. }
    { destruct st; [exact Logic.I|apply Wd]. }
    pose proof (takes_step _ _ _ _ _ Ht) as Hs.
    assert (R : exists c, restride1 d sl = Ok c /\ cval c = s * cval d /\ wfc c /\ wide_strides (c :: st')).
    { assert (Sh : st = [] <-> st' = []).
      { split; intros ->.
        - destruct sls; [|discriminate]. cbn [mapM2] in E. injection E as <-. reflexivity.
        - destruct st; [reflexivity|]. destruct sls as [|x sls]; [discriminate|]. cbn [mapM2] in E.
          destruct (restride1 c x); cbn [bind] in E; try discriminate. destruct (mapM2 restride1 st sls); cbn in E; discriminate. }
      assert (Wd0 : forall c, (st <> [] -> is64 (cty c)) -> (st = [] -> is64 (cty c) \/ cval c <= 1) -> wide_strides (c :: st')).
      { intros c A B. destruct st' as [|x st'].
        - apply B, Sh. reflexivity.
        - split; [apply A; intros ->; destruct Sh as [Sh _]; specialize (Sh eq_refl); discriminate|exact Wd']. }
      assert (D : s = 1 -> exists c, Ok d = Ok c /\ cval c = s * cval d /\ wfc c /\ wide_strides (c :: st')).
      { intros ->. exists d. split; [reflexivity|]. split; [lia|]. split; [assumption|]. apply Wd0.
        - intros Ne. destruct st; [contradiction|apply Wd].
        - intros ->. exact Wd. }
      destruct sl as [|?|?|?|b [c|] e l]; try (apply D; exact Hs).
      destruct Hs as [Wc Vc]. cbn [restride1]. unfold cmul.
      destruct st as [|d2 st].
      - (* the last axis *)
        destruct sls; [|discriminate].
        assert (Ns : ns = []) by (inversion H; reflexivity). subst ns. change (prod (vals [])) with 1 in *.
        assert (Ct : is64 (cty c) \/ cval c <= 1).
        { destruct (Lst ltac:(discriminate)) as (r & x & Er & Hx). destruct r as [|? r]; [|destruct r; discriminate].
          injection Er as <-. exact Hx. }
        destruct (arith_fits Z.mul c d) as (x & Ex & Vx & Wx & Tx); try assumption; try lia.
        exists x. rewrite Ex. split; [reflexivity|]. split; [rewrite Vx, Vc; reflexivity|]. split; [exact Wx|].
        apply Wd0; [intros Ne; contradiction|]. intros _. destruct Ct as [Ct|Ct]; [left; rewrite Tx; apply is64_common_l, Ct|right; lia].
      - assert (Kd : is64 (cty d)) by apply Wd.
        destruct (arith_wide Z.mul c d) as (x & Ex & Vx & Wx & Kx); try assumption; try lia; [rewrite Vc, Vd; nia|right; exact Kd|].
        exists x. rewrite Ex. split; [reflexivity|]. split; [rewrite Vx, Vc; reflexivity|]. split; [exact Wx|].
        apply Wd0; [intros _; exact Kx|discriminate]. }
    destruct R as (c & Ec & Vc & Wc & Wdc). exists (c :: st'). cbn [mapM2]. rewrite Ec, E, !bind_ok.
    split; [reflexivity|]. cbn [vals map times]. unfold vals in Vs. rewrite Vc, Vs. split; [reflexivity|].
    split; [constructor; assumption|exact Wdc].
Qed.

(** ** Slicing *)
Lemma small_stride s : wfs s -> nonnegs (vals s) -> posprod (vals s) <= 2147483647 -> s <> [] -> exists st, as_stride s = Ok st.
Proof. intros W N P Ne. destruct (as_stride_ok s) as (st & E & _); [repeat split; assumption|exact Ne|]. eauto. Qed.

Lemma slice_large_l dbg ss0 st0 c sls os ks ss : large_layout c -> sliced (c_shape c) sls os ks ss ->
  Forall (fun s => 0 < s) ss -> on_last step64 sls -> countable sls ks -> (dbg = true -> checkable (c_shape c) sls) ->
  exists v, slice_container dbg ss0 st0 c sls = Ok v /\ dims v = ks /\ strides_z v = times ss (strides_of (dims c)) /\
    c_data v = padd (c_data c) (rank (dims c) os) /\ (forall tys, addressable v tys) /\
    forall js, in_box ks js -> in_box (dims c) (place os ss js) /\ elem v js = elem c (place os ss js).
Proof.
  intros D Sl P Ls Ct Ck. pose proof D as (L & Ne & _). pose proof L as (W & N & Pp & L64).
  destruct (large_wf c D) as ((_ & _ & (st & G & Ws & Lst) & _) & Sz & Nn & (st2 & G2 & Wd)).
  rewrite G in G2. injection G2 as <-.
  destruct (sliced_length _ _ _ _ _ Sl) as (L1 & L2 & L3 & L4). pose proof Sl as [_ Se].
  assert (Cs : compress (length sls) (c_shape c) = Ok (c_shape c)).
  { unfold compress. rewrite L1. rewrite Nat.leb_refl, Nat.eqb_refl, andb_true_r.
    destruct (c_shape c); [contradiction|reflexivity]. }
  assert (Cst : compress_stride (length sls) st = st).
  { unfold compress_stride. replace (length st - length sls)%nat with 0%nat by lia. reflexivity. }
  assert (Vst : vals st = strides_of (vals (c_shape c))).
  { unfold strides_z in Sz. rewrite G in Sz. exact Sz. }
  pose proof (large_prod _ N Pp) as [_ Pr].
  destruct (restride_wide _ _ _ _ _ Se P Pr (fun _ => Ls) st Ws Vst Wd) as (st' & Est & Vs' & Ws' & Wd').
  destruct (each_wide _ _ _ _ _ W N Se P) as (cos & cks & E1 & V1 & W1 & P1 & E2 & V2 & W2 & K2).
  destruct (sliced_guards _ _ _ _ _ Sl) as [G1 G2].
  pose proof (each_in_box _ _ _ _ _ Se) as Bo. pose proof (rank_range _ _ Bo) as Ro.
  destruct (large_index dbg (c_shape c) cos L Ne) as (i & Ei & Vi & Wi).
  { split; [exact W1|]. rewrite V1. exact Bo. }
  { intros E. destruct (Ck E) as [Ax Wi]. apply wide_fits; [exact Ax| |apply P1, Wi].
    rewrite <- L2, <- V1. symmetry. apply vals_length. }
  rewrite V1 in Vi.
  destruct (wide_dims _ _ _ _ _ N Se P) as [Nk Pk].
  assert (Nek : cks <> []).
  { intros ->. cbn in V2. subst ks. cbn in L3. destruct (c_shape c); [contradiction|discriminate]. }
  assert (Ak : exists d, as_stride cks = Ok d).
  { destruct Ct as [C|[C|C]].
    - destruct (as_stride_large cks) as (d & Ed & _); [|exact Nek|eauto]. split; [exact W2|]. rewrite V2.
      split; [exact Nk|]. split; [unfold max63 in *; lia|]. left. rewrite <- (vals_length cks), V2. lia.
    - apply small_stride; [exact W2|rewrite V2; exact Nk|rewrite V2; exact C|exact Nek].
    - destruct (as_stride_large cks) as (d & Ed & _); [|exact Nek|eauto]. split; [exact W2|]. rewrite V2.
      split; [exact Nk|]. split; [unfold max63 in *; lia|]. apply K2; [exact L64|right; exact C]. }
  destruct Ak as (dk & Edk).
  assert (Mv : exists v, make_view ss0 st0 cks (Some st') (padd (c_data c) (cast I64 (cval i))) = Ok v).
  { unfold make_view, make_accessor. destruct (ss0 && st0); cbn [bind]; [eexists; reflexivity|]. rewrite Edk. cbn [bind].
    destruct ss0; [|destruct cks as [|x [|y [|z cks]]]]; cbn [bind]; eexists; reflexivity. }
  destruct Mv as (v & Ev). exists v.
  destruct (kind_given _ _ _ _ _ _ Ev) as (Vs & Vd & Vg & Vk).
  assert (Dt : c_data v = padd (c_data c) (rank (dims c) os)).
  { rewrite Vd, Vi. f_equal. unfold dims. apply cast_id. unfold in_ty. cbn. unfold max63 in *. lia. }
  assert (Szv : strides_z v = times ss (strides_of (dims c))).
  { unfold strides_z. rewrite Vg, Vs', Vst. reflexivity. }
  assert (Dv : dims v = ks) by (unfold dims; rewrite Vs; exact V2).
  split.
  { unfold slice_container. rewrite G1, G, bind_ok. unfold origin, slice_shape. rewrite Cs, !bind_ok, G2, E1, E2, !bind_ok.
    rewrite Ei, bind_ok, Cst. unfold slice_stride. rewrite Est, bind_ok. exact Ev. }
  split; [exact Dv|]. split; [exact Szv|]. split; [exact Dt|].
  assert (Nz : nonnegs (strides_z v)).
  { rewrite Szv. apply Forall_forall. intros z Hz. unfold dims in Hz.
    assert (Ns : Forall (fun n => 0 <= n) (strides_of (vals (c_shape c)))) by (apply strides_of_nonneg; exact N).
    revert Hz. clear -P Ns. revert ss P. induction Ns as [|d ds Hd Ns IH]; intros [|s ss] P; cbn; try tauto.
    inversion P; subst. intros [<-|Hz]; [nia|]. eapply IH; eassumption. }
  split.
  { intros tys. split; [|split; [left; exact Nz|right]].
    - split; [rewrite Vs; exact W2|]. split; [rewrite Dv; exact Nk|]. split; [|exact Vk].
      exists st'. split; [exact Vg|]. split; [exact Ws'|].
      rewrite <- (vals_length st'), Vs', Vst, times_length; rewrite ?strides_of_length, ?vals_length; [|exact L4].
      rewrite Vs, <- L3, <- V2. apply vals_length.
    - split; [exists st'; auto|]. split; [exact Nz|]. intros js B. rewrite Dv in B. rewrite Szv.
      pose proof (wide_reach _ _ _ _ _ Se P js B). unfold dims, max63 in *. lia. }
  intros js B. pose proof (wide_place _ _ _ _ _ Se P js B) as Bp. split; [exact Bp|].
  pose proof (in_box_length _ _ B) as Lj.
  rewrite (large_elem c (place os ss js) D Bp). unfold elem. rewrite Szv, Dt, padd_padd. f_equal.
  assert (length (dims c) = length (c_shape c)) by apply vals_length.
  rewrite !rank_dot by (try rewrite place_length; congruence).
  rewrite dot_place; rewrite ?strides_of_length; congruence.
Qed.

Lemma place_inj os ss : Forall (fun s => 0 < s) ss -> forall a b, length ss = length os -> length a = length os -> length b = length os ->
  place os ss a = place os ss b -> a = b.
Proof.
  intros P. revert os. induction P as [|s ss H P IH]; intros [|o os] [|x a] [|y b] L1 L2 L3 E; try discriminate; [reflexivity|].
  cbn [place] in E. injection E as E0 E. f_equal; [nia|]. apply (IH os); cbn in *; congruence.
Qed.

(** Accesses, and algorithms. *)
Lemma slice_large_access {T} (m : mem T) dbg ss0 st0 c sls os ks ss : large_layout c -> sliced (c_shape c) sls os ks ss ->
  Forall (fun s => 0 < s) ss -> on_last step64 sls -> countable sls ks -> (dbg = true -> checkable (c_shape c) sls) ->
  exists v, slice_container dbg ss0 st0 c sls = Ok v /\ dims v = ks /\
    forall js is_, coord_of v js -> coord_of c is_ -> vals is_ = place os ss (vals js) ->
      get m v js = get m c is_ /\ forall x, put m v js x = put m c is_ x.
Proof.
  intros D Sl P Ls Ct Ck.
  destruct (slice_large_l dbg ss0 st0 c sls os ks ss D Sl P Ls Ct Ck) as (v & Ev & Dv & _ & _ & Ad & El).
  exists v. split; [exact Ev|]. split; [exact Dv|]. intros js is_ [Wj Bj] [Wi Bi] E.
  pose proof Bj as Bj'. rewrite Dv in Bj'. destruct (El _ Bj') as [_ Ee].
  unfold get, put, ref. rewrite (elem_address v js), (elem_address c is_); try assumption; [|apply large_addressable, D|apply Ad].
  rewrite Ee, E. auto.
Qed.

Lemma slice_large_usable {T} (m : mem T) dbg ss0 st0 c sls os ks ss : large_layout c -> sliced (c_shape c) sls os ks ss ->
  Forall (fun s => 0 < s) ss -> on_last step64 sls -> countable sls ks -> (dbg = true -> checkable (c_shape c) sls) ->
  exists v, slice_container dbg ss0 st0 c sls = Ok v /\ dims v = ks /\
    (forall js, in_box ks js -> elem v js = elem c (place os ss js)) /\
    (readable m c -> can_read m v v) /\ (writable m c -> can_write m v v).
Proof.
  intros D Sl P Ls Ct Ck.
  destruct (slice_large_l dbg ss0 st0 c sls os ks ss D Sl P Ls Ct Ck) as (v & Ev & Dv & _ & _ & Ad & El).
  exists v. split; [exact Ev|]. split; [exact Dv|]. split; [intros js B; apply El, B|]. split.
  - intros R. split; [apply Ad|]. split; [intros ? ?; assumption|]. intros js B. rewrite Dv in B. destruct (El js B) as [B' E].
    destruct (R _ B') as (x & X). exists x. unfold value; rewrite E. exact X.
  - intros Wr. split; [apply Ad|]. split; [intros ? ?; assumption|]. split.
    + intros a b Ha Hb H. rewrite Dv in Ha, Hb. destruct (El a Ha) as [Ba Ea], (El b Hb) as [Bb Eb]. rewrite Ea, Eb in H.
      rewrite !large_elem in H by assumption.
      apply padd_inj in H.
      * apply (rank_inj (dims c)) in H; [|assumption..].
        destruct (sliced_length _ _ _ _ _ Sl) as (L1 & L2 & L3 & L4). pose proof (in_box_length _ _ Ha). pose proof (in_box_length _ _ Hb).
        apply (place_inj os ss P); congruence.
      * intros Nl. apply (Wr _ Ba). unfold elem. rewrite Nl. reflexivity.
    + intros js B. rewrite Dv in B. destruct (El js B) as [B' E]. rewrite E. apply Wr, B'.
Qed.

Lemma slice_large_fill {T} (m : mem T) dbg ss0 st0 c sls os ks ss (x : T) : large_layout c -> sliced (c_shape c) sls os ks ss ->
  Forall (fun s => 0 < s) ss -> on_last step64 sls -> countable sls ks -> (dbg = true -> checkable (c_shape c) sls) -> writable m c ->
  exists v m', slice_container dbg ss0 st0 c sls = Ok v /\ fill v x m = Ok m' /\
    forall is_, in_box (dims c) is_ ->
      ((exists js, in_box ks js /\ is_ = place os ss js) -> value m' c is_ x) /\
      ((forall js, in_box ks js -> is_ <> place os ss js) -> cell m' (elem c is_) = cell m (elem c is_)).
Proof.
  intros D Sl P Ls Ct Ck Wr.
  destruct (slice_large_usable m dbg ss0 st0 c sls os ks ss D Sl P Ls Ct Ck) as (v & Ev & Dv & El & _ & Cw).
  destruct (fill_l v x m (Cw Wr)) as (m' & Ef & Vf & Fr). exists v, m'. split; [exact Ev|]. split; [exact Ef|].
  intros is_ B. split.
  - intros (js & Bj & ->). unfold value. rewrite <- El by exact Bj. apply Vf. rewrite Dv. exact Bj.
  - intros No. apply Fr. intros js Bj. rewrite Dv in Bj. rewrite El by exact Bj. intros E.
    destruct (slice_large_l dbg ss0 st0 c sls os ks ss D Sl P Ls Ct Ck) as (v2 & Ev2 & _ & _ & _ & _ & El2).
    destruct (El2 js Bj) as [Bp _]. rewrite !large_elem in E by assumption. apply padd_inj in E.
    + apply (rank_inj (dims c)) in E; [|assumption..]. apply (No js Bj). exact E.
    + intros Nl. apply (Wr _ B). unfold elem. rewrite Nl. reflexivity.
Qed.

(** ** What fails *)
Lemma contains_jokers s m : In m s -> 2147483648 <= cval m <= 4294967296 -> contains s (repeat (int 0) (length s)) = false.
Proof.
  intros I0 R. induction s as [|n s IH]; [contradiction|]. cbn [length repeat contains]. apply andb_false_iff.
  destruct I0 as [->|I0]; [left|right; apply IH, I0]. unfold clt. cbn [conv cty cval int]. change (common I32 I32) with I32.
  assert (H : cast I32 (cval m) <= 0).
  { unfold cast. cbn [modulus tmax]. change (modulus I32) with 4294967296. change (tmax I32) with 2147483647.
    destruct (Z.eq_dec (cval m) 4294967296) as [->|Ne]; [vm_compute; discriminate|].
    rewrite Z.mod_small by lia. destruct (Z.leb_spec (cval m) 2147483647); lia. }
  pose proof (cast_range I32 (cval m)) as Hr. rewrite (cast_id I32 (cast I32 (cval m))) by exact Hr. change (cast I32 0) with 0. apply Z.ltb_ge. exact H.
Qed.

Lemma jokers_abort_l ss0 st0 c m : large_layout c -> In m (c_shape c) -> 2147483648 <= cval m <= 4294967296 ->
  slice_container true ss0 st0 c (repeat SAll (length (c_shape c))) = Abort.
Proof.
  intros D I0 R. destruct (large_wf c D) as ((_ & _ & (st & G & _) & _) & _).
  assert (Ne : c_shape c <> []) by apply D.
  assert (G1 : forallb is_index (repeat SAll (length (c_shape c))) = false) by (destruct (c_shape c); [contradiction|reflexivity]).
  assert (G2 : existsb const_index (repeat SAll (length (c_shape c))) = false) by (clear; induction (length (c_shape c)); [reflexivity|assumption]).
  assert (Cs : compress (length (c_shape c)) (c_shape c) = Ok (c_shape c)).
  { unfold compress. rewrite Nat.leb_refl, Nat.eqb_refl, andb_true_r. destruct (c_shape c); [contradiction|reflexivity]. }
  unfold slice_container. rewrite G1, G, bind_ok. unfold origin. rewrite repeat_length, Cs, bind_ok, G2, reindex_all, bind_ok.
  unfold linear_index, kassert. rewrite bind_ok, (contains_jokers _ m I0 R). reflexivity.
Qed.

Lemma int_step_l b st0 n s i : large [n] -> 0 < s <= 2147483647 -> 0 <= i <= 2147483647 -> s * i < cval n -> 2147483647 < s * i ->
  exists v, slice_container false false st0 (Cn K1 [n] [] b) [every (int s)] = Ok v /\ coord_of v [int i] /\ index v [int i] = UB.
Proof.
  intros Lg Rs Ri Lt Gt. pose proof Lg as (W & N & P & _). inversion W as [|? ? Wn _]; subst.
  assert (Ws : wfc (int s)) by (unfold wfc, in_ty; cbn; lia).
  destruct (eval_count_wide n (int s) Wn ltac:(lia) Ws ltac:(cbn; lia)) as (k & Ek & Vk & Wk & _).
  assert (Rx : exists co, reindex1 n (every (int s)) = Ok co /\ cval co = 0 /\ wfc co).
  { cbn [reindex1 every]. rewrite clt_pos by exact Ws. cbn [cval int]. destruct (Z.ltb_spec 0 s); [|lia].
    eexists. split; [reflexivity|]. split; [|apply conv_wf]. rewrite conv_exact by (apply (in_ty_common_small I32 (cty n)); unfold max31; cbn; lia). reflexivity. }
  destruct Rx as (co & Eco & Vco & Wco).
  destruct (large_index false [n] [co] Lg ltac:(discriminate)) as (x & Ex & _); [|discriminate|].
  { split; [constructor; [exact Wco|constructor]|]. cbn [vals map]. apply in_box_cons; [rewrite Vco; lia|apply in_box_nil]. }
  assert (Er : restride1 (int 1) (every (int s)) = Ok (int s)).
  { cbn [restride1 every]. unfold cmul. rewrite arith_exact; cbn [cty cval int]; [rewrite Z.mul_1_r; reflexivity|exact Ws|apply wf1|left; reflexivity|].
    rewrite Z.mul_1_r. exact Ws. }
  exists (Cn K1S [k] [int s] (padd b (cast I64 (cval x)))). split; [|split].
  - unfold slice_container. cbn [forallb is_index every andb c_shape c_kind c_data get_stride bind length].
    unfold origin, slice_shape, compress. cbn [length Nat.ltb Nat.leb Nat.eqb andb bind existsb const_index orb every].
    change (SSlice None (Some (int s)) None None) with (every (int s)).
    cbn [mapM2]. rewrite Eco. cbn [bind]. rewrite Ex. cbn [bind].
    change (reshape1 n (every (int s))) with (eval_count n (int s)). rewrite Ek. cbn [bind].
    unfold slice_stride, compress_stride. cbn [length Nat.sub skipn mapM2]. rewrite Er. cbn [bind].
    unfold make_view, make_accessor. cbn [andb]. reflexivity.
  - split; [constructor; [unfold wfc, in_ty; cbn; lia|constructor]|]. cbn [dims c_shape vals map]. apply in_box_cons; [|apply in_box_nil].
    cbn [cval int]. rewrite Vk. cbn [cval int]. split; [lia|]. pose proof (ceil_div_spec (cval n) s ltac:(lia)). nia.
  - cbn [index c_kind c_stride]. unfold cmul, arith. cbn [cty int cval]. change (common I32 I32) with I32. cbn [is_signed].
    rewrite !cast_id by (unfold in_ty; cbn; lia).
    assert (F : in_tyb I32 (i * s) = false).
    { unfold in_tyb. apply andb_false_iff. right. apply Z.leb_gt. cbn. lia. }
    rewrite F. reflexivity.
Qed.
