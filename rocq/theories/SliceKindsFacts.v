(** Proofs about what is known at compile time about a slice. *)
From Coq Require Import ZArith String List Bool Lia.
From Verif Require Import Outcome CInt CIntFacts Spec SpecFacts Shape ShapeSpec ShapeFacts ShapeFacts2 Prefilled
  PrefilledSpec PrefilledFacts PrefilledFacts2 PrefilledFacts3 NamedSize NamedSizeSpec NamedSizeFacts NamedStride
  NamedStrideSpec NamedStrideFacts EndRatio Memory Container Slicer SlicerSpec SlicerFacts SliceText SliceTextFacts
  Names NamesSpec NamesFacts SliceKinds SliceKindsSpec.
Import ListNotations.
Open Scope Z_scope.

Ltac inv1 H := let x := fresh "x" in let E := fresh "E" in apply bind_inv in H as (x & E & H).

(** ** Values *)
Lemma ksize_value t n c : ksize t n = Ok c -> end_size (bare t) (nint n) = Ok (nint c).
Proof.
  unfold ksize, end_size. intros H. inv1 H. inv1 H. apply nop_ok in E, E0, H. cbn [bare frac num denum shift].
  rewrite E, bind_ok, E0, bind_ok. exact H.
Qed.
Lemma kfix_value n b def c : kfix n b def = Ok c -> fix_extremum (nint n) (option_map plain_bound b) (nint def) = Ok (nint c).
Proof.
  destruct b as [[a|e]|]; cbn [kfix option_map plain_bound fix_extremum]; intros H; try (injection H as <-; reflexivity).
  inv1 H. unfold end_value. rewrite (tbuild_bare e x E), bind_ok. exact (ksize_value _ _ _ H).
Qed.
Lemma keval_value s b c : keval s b = Ok c -> eval_count (nint s) (nint b) = Ok (nint c).
Proof. unfold keval. intros H. inv1 H. injection H as <-. exact E. Qed.
Lemma keval_kind s b c : keval s b = Ok c -> is_fixed c = is_fixed s && is_fixed b.
Proof. unfold keval. intros H. inv1 H. injection H as <-. reflexivity. Qed.
Lemma nop_kind f a b c : nop f a b = Ok c -> is_fixed c = is_fixed a && is_fixed b.
Proof. unfold nop. intros H. inv1 H. injection H as <-. reflexivity. Qed.
Lemma nop_total f a b c : f (nint a) (nint b) = Ok c -> nop f a b = Ok (Nm (is_fixed a && is_fixed b) c).
Proof. unfold nop. intros ->. reflexivity. Qed.
Lemma keval_total s b c : eval_count (nint s) (nint b) = Ok c -> keval s b = Ok (Nm (is_fixed s && is_fixed b) c).
Proof. unfold keval. intros ->. reflexivity. Qed.

Lemma kchoose_value b e s c : kchoose b e s = Ok c ->
  (let t := common I32 (common (common (cty (nint e)) (cty (nint b))) (cty (nint s))) in
   if cle (int 0) (nint s) then d <- csub (nint e) (nint b) ;; x <- eval_count d (nint s) ;; Ok (conv t x)
   else d <- cadd (nint b) (CI U8 1) ;; x <- eval_count d (nint s) ;; Ok (conv t x)) = Ok (nint c).
Proof.
  unfold kchoose. intros H. inv1 H. inv1 H. inv1 H. inv1 H. inv1 H. cbn zeta.
  assert (X : nint c = conv (common I32 (common (common (cty (nint e)) (cty (nint b))) (cty (nint s)))) (nint x3)).
  { destruct (is_fixed e && is_fixed b && is_fixed s); [inv1 H; inv1 H|]; injection H as <-; reflexivity. }
  rewrite X. clear H E E0 E1 E2. destruct (cle (int 0) (nint s)); inv1 E3; apply nop_ok in E; apply keval_value in E3;
    cbn [nint] in E; rewrite E, bind_ok, E3, bind_ok; reflexivity.
Qed.

Lemma kreshape_value n sl c : kreshape1 n sl = Ok c -> reshape1 (nint n) (plain_slc sl) = Ok (nint c).
Proof.
  destruct sl as [|e|i|[bg st en ln]]; cbn [kreshape1 plain_slc]; intros H; try (injection H as <-; reflexivity).
  - destruct (is_fixed i); injection H as <-; reflexivity.
  - unfold plain_slicer. cbn [ts_len ts_begin ts_stop ts_step factor] in *. destruct ln as [l|].
    + apply kfix_value in H. destruct bg, st, en; exact H.
    + destruct bg as [bg|], en as [en|]; cbn [option_map reshape1].
      4: { apply keval_value in H. destruct st; exact H. }
      all: inv1 H; inv1 H; pose proof (kfix_value _ _ _ _ E) as F; pose proof (kfix_value _ _ _ _ E0) as G;
        cbn [option_map nint] in F, G; rewrite F, bind_ok, G, bind_ok;
        destruct st as [st|]; cbn [option_map];
        [exact (kchoose_value _ _ _ _ H)
        |inv1 H; apply nop_ok in E1; apply keval_value in H; rewrite E1, bind_ok; exact H].
Qed.

(** ** Kinds *)
Definition t_fixed (t : tend) : bool := is_fixed (t_off t) && is_fixed (t_fac t) && is_fixed (t_div t).
Lemma tbuild_kind e : forall t, tbuild e = Ok t -> (t_fixed t = true <-> constants e).
Proof.
  induction e; cbn [tbuild constants]; intros u H; try (apply bind_inv in H as (x & E & H); specialize (IHe _ E)).
  { injection H as <-. cbn. split; auto. }
  all: rewrite <- IHe; clear IHe E; unfold t_add, t_sub, t_subl, t_mul, t_divide in H;
    repeat (match type of H with bind _ _ = _ => let x := fresh "y" in let E := fresh "K" in apply bind_inv in H as (x & E & H) end);
    repeat (match goal with K : nop _ _ _ = Ok _ |- _ => apply nop_kind in K end);
    try (match goal with K : nneg _ = Ok _ |- _ => unfold nneg in K; inv1 K; injection K as <- end);
    injection H as <-; unfold t_fixed; cbn [t_off t_fac t_div is_fixed];
    repeat (match goal with K : is_fixed _ = _ |- _ => rewrite K; clear K end);
    destruct (is_fixed o), (is_fixed (t_off x)), (is_fixed (t_fac x)), (is_fixed (t_div x)); cbn; intuition congruence.
Qed.
Lemma ksize_kind t n c : ksize t n = Ok c -> is_fixed c = is_fixed n && t_fixed t.
Proof.
  unfold ksize, t_fixed. intros H. inv1 H. inv1 H. apply nop_kind in E, E0, H. rewrite H, E0, E.
  destruct (is_fixed n), (is_fixed (t_off t)), (is_fixed (t_fac t)), (is_fixed (t_div t)); reflexivity.
Qed.
Lemma kfix_kind n b def c : kfix n b def = Ok c ->
  (is_fixed c = true <-> constant_or (is_fixed def = true) (is_fixed n = true) b).
Proof.
  destruct b as [[a|e]|]; cbn [kfix constant_or constant_bound]; intros H; try (injection H as <-; reflexivity).
  inv1 H. rewrite (ksize_kind _ _ _ H), andb_true_iff, (tbuild_kind e x E). reflexivity.
Qed.

Lemma kchoose_kind b e s c : kchoose b e s = Ok c ->
  (is_fixed c = true <-> is_fixed b = true /\ is_fixed e = true /\ is_fixed s = true /\
     exists d1 d2 u v, csub (nint e) (nint b) = Ok d1 /\ cadd (nint b) (CI U8 1) = Ok d2 /\
       eval_count d1 (nint s) = Ok u /\ eval_count d2 (nint s) = Ok v /\ cty u = cty v /\ cval u = cval v).
Proof.
  unfold kchoose. intros H. inv1 H. inv1 H. inv1 H. inv1 H. inv1 H. clear E E0 E1 E2 E3.
  destruct (is_fixed e && is_fixed b && is_fixed s) eqn:F.
  - rewrite !andb_true_iff in F. destruct F as [[F1 F2] F3]. inv1 H. inv1 H. injection H as <-. cbn [is_fixed].
    inv1 E. inv1 E0. unfold same_constant.
    rewrite (keval_kind _ _ _ E), (keval_kind _ _ _ E0), (nop_kind _ _ _ _ E1), (nop_kind _ _ _ _ E2), F1, F2, F3. cbn [andb is_fixed].
    apply nop_ok in E1, E2. apply keval_value in E, E0. cbn [nint] in E2.
    rewrite andb_true_iff, ity_eqb_spec, Z.eqb_eq. split.
    + intros [A B]. repeat split. exists (nint x6), (nint x7), (nint x4), (nint x5). repeat split; assumption.
    + intros (_ & _ & _ & d1 & d2 & u & v & G1 & G2 & G3 & G4 & G5 & G6).
      rewrite E1 in G1. injection G1 as <-. rewrite E2 in G2. injection G2 as <-.
      rewrite E in G3. injection G3 as <-. rewrite E0 in G4. injection G4 as <-. split; assumption.
  - injection H as <-. cbn [is_fixed]. split; [discriminate|]. intros (A & B & C & _). rewrite A, B, C in F. discriminate.
Qed.

Lemma kreshape_kind n sl c : kreshape1 n sl = Ok c ->
  (is_fixed c = true -> extent_constant (is_fixed n = true) sl) /\
  (~ stepped_range sl -> extent_constant (is_fixed n = true) sl -> is_fixed c = true).
Proof.
  destruct sl as [|e|i|[bg st en ln]]; cbn [kreshape1 extent_constant stepped_range]; intros H;
    try (injection H as <-; split; [intros; exact I || assumption|intros; reflexivity || assumption]).
  cbn [ts_len ts_begin ts_stop ts_step factor] in *. destruct ln as [l|].
  - apply kfix_kind in H. cbn [constant_or] in H. rewrite H. auto.
  - assert (HB : forall b e, kfix n bg (Nm true (int 0)) = Ok b -> kfix n en n = Ok e ->
        (match st with Some s => kchoose b e s | None => d <- nop csub e b ;; keval d (Nm true (int 1)) end) = Ok c ->
        (bg <> None \/ en <> None) ->
        (is_fixed c = true -> constant_or True (is_fixed n = true) bg /\ constant_or (is_fixed n = true) (is_fixed n = true) en /\
           constant_step st) /\
        (~ (None = @None tbound /\ st <> None /\ (bg <> None \/ en <> None)) ->
          constant_or True (is_fixed n = true) bg /\ constant_or (is_fixed n = true) (is_fixed n = true) en /\
           constant_step st -> is_fixed c = true)).
    { intros b e Eb Ee Hc Hn. apply kfix_kind in Eb, Ee. cbn [is_fixed] in Eb.
      assert (Hb : is_fixed b = true <-> constant_or True (is_fixed n = true) bg).
      { rewrite Eb. destruct bg; cbn [constant_or]; [reflexivity|]. split; auto. }
      rewrite <- Hb, <- Ee. clear Eb Ee Hb H. destruct st as [s|]; cbn [constant_step].
      - apply kchoose_kind in Hc. rewrite Hc. split; [intros (A & B & C & _); auto|]. intros N. exfalso. apply N.
        split; [reflexivity|]. split; [discriminate|exact Hn].
      - inv1 Hc. rewrite (keval_kind _ _ _ Hc), (nop_kind _ _ _ _ E). cbn [is_fixed]. rewrite !andb_true_iff. intuition. }
    destruct bg as [bg|], en as [en|].
    4: { apply keval_kind in H. cbn [constant_or]. rewrite H, andb_true_iff. split.
         - intros [A B]. split; [exact I|]. split; [exact A|]. destruct st; [exact B|exact I].
         - intros _ (_ & A & B). split; [exact A|]. destruct st; [exact B|reflexivity]. }
    all: inv1 H; inv1 H; apply (HB _ _ E E0 H); (left; discriminate) || (right; discriminate).
Qed.

Lemma kreindex_kind n sl c : kreindex1 n sl = Ok c -> (is_fixed c = true <-> start_constant (is_fixed n = true) sl).
Proof.
  destruct sl as [|e|i|[bg st en ln]]; cbn [kreindex1 start_constant ts_begin]; intros H.
  - injection H as <-. cbn. split; [discriminate|tauto].
  - inv1 H. rewrite (ksize_kind _ _ _ H), andb_true_iff, (tbuild_kind e x E). reflexivity.
  - injection H as <-. reflexivity.
  - destruct bg as [b|]; cbn [constant_or]; [exact (kfix_kind _ _ _ _ H)|].
    inv1 H. injection H as <-. cbn. split; [discriminate|tauto].
Qed.

(** ** When the slice exists *)
Lemma tbuild_total e : forall x, build (plain e) = Ok x -> exists t, tbuild e = Ok t /\ bare t = x.
Proof.
  induction e; cbn [plain build tbuild]; intros u H.
  { injection H as <-. eexists. split; reflexivity. }
  all: apply bind_inv in H as (x & E & H); destruct (IHe _ E) as (t & -> & <-); rewrite bind_ok; clear IHe E;
    unfold end_add, end_sub, sub_end, end_mul, end_div, rneg, rscale, rdivc, t_add, t_sub, t_subl, t_mul, t_divide in *;
    cbn [bare shift frac num denum] in H;
    repeat (match type of H with bind ?e _ = _ => let x := fresh "y" in let E := fresh "K" in
              apply bind_inv in H as (x & E & H) end);
    repeat (match goal with K : bind _ _ = Ok _ |- _ => let x := fresh "y" in let E := fresh "K" in
              apply bind_inv in K as (x & E & K) end);
    repeat (match goal with K : Ok _ = Ok _ |- _ => injection K as <- end);
    unfold nop, nneg;
    repeat (match goal with K : ?f _ _ = Ok _ |- context [bind (?f _ _) _] => rewrite K, bind_ok; cbn [nint]; clear K
            | K : cneg _ = Ok _ |- _ => rewrite K, bind_ok; cbn [nint]; clear K end);
    repeat (rewrite bind_ok; cbn [nint]);
    repeat (match goal with K : ?f _ _ = Ok _ |- context [bind (?f _ _) _] => rewrite K, bind_ok; cbn [nint]; clear K
            | K : cneg _ = Ok _ |- _ => rewrite K, bind_ok; cbn [nint]; clear K end);
    repeat (rewrite bind_ok; cbn [nint]);
    eexists; (split; [reflexivity|reflexivity]).
Qed.
Lemma ksize_total t n c : end_size (bare t) (nint n) = Ok c -> exists k, ksize t n = Ok k /\ nint k = c.
Proof.
  unfold end_size, ksize, nop. cbn [bare shift frac num denum]. intros H. inv1 H. inv1 H.
  rewrite E, !bind_ok. cbn [nint]. rewrite E0, !bind_ok. cbn [nint]. rewrite H, bind_ok. eexists. split; reflexivity.
Qed.
Lemma kfix_total n b def c : fix_extremum (nint n) (option_map plain_bound b) (nint def) = Ok c ->
  exists k, kfix n b def = Ok k /\ nint k = c.
Proof.
  destruct b as [[a|e]|]; cbn [option_map plain_bound fix_extremum kfix]; intros H; try (injection H as <-; eexists; split; reflexivity).
  unfold end_value in H. inv1 H. destruct (tbuild_total e x E) as (t & -> & <-). rewrite bind_ok. exact (ksize_total t n c H).
Qed.

Lemma kchoose_total b e s : wfc (nint b) -> wfc (nint e) -> wfc (nint s) ->
  0 <= cval (nint b) <= cval (nint e) -> cval (nint b) < 2147483647 -> cval (nint e) <= 2147483647 ->
  - 2147483647 <= cval (nint s) -> cval (nint s) <> 0 ->
  exists c, kchoose b e s = Ok c.
Proof.
  intros Wb We Ws R1 R2 R3 S1 S2. unfold kchoose.
  destruct (arith_nonneg Z.sub (nint e) (nint b)) as (d1 & E1 & V1 & W1 & _); try assumption; try lia. { unfold max31; lia. }
  destruct (arith_nonneg Z.add (nint b) (CI U8 1)) as (d2 & E2 & V2 & W2 & _); try assumption; try (cbn [cval]; unfold max31; lia).
  { unfold wfc, in_ty; simpl; lia. }
  cbn [cval] in V2. change (csub (nint e) (nint b) = Ok d1) in E1. change (cadd (nint b) (CI U8 1) = Ok d2) in E2.
  destruct (eval_count_ok d1 (nint s)) as (u & Eu & _); try assumption; try lia.
  destruct (eval_count_ok d2 (nint s)) as (v & Ev & _); try assumption; try lia.
  rewrite (nop_total csub e b d1 E1), (nop_total cadd b (Nm true (CI U8 1)) d2 E2), !bind_ok.
  rewrite (keval_total (Nm _ d1) s u Eu), (keval_total (Nm _ d2) s v Ev).
  rewrite E1, E2. unfold compiled. rewrite !bind_ok.
  destruct (is_fixed e && is_fixed b && is_fixed s), (is_fixed e && is_fixed b), (is_fixed b), (is_fixed s), (cle (int 0) (nint s));
    cbn [bind andb]; eexists; reflexivity.
Qed.

Lemma takes_bounds n b s e o k z : axis n -> takes n (SSlice b (Some s) e None) o k z -> inside n o k z ->
  b <> None \/ e <> None -> forall c d, fix_extremum n b (int 0) = Ok c -> fix_extremum n e n = Ok d ->
  wfc c /\ wfc d /\ wfc s /\ 0 <= cval c <= cval d /\ cval c < 2147483647 /\ cval d <= 2147483647 /\
  - 2147483647 <= cval s /\ cval s <> 0.
Proof.
  intros [Wn Bn] T [I _] N c d Fc Fd. inversion T; subst.
  - match goal with H1 : bound_is n b 0 _, H2 : bound_is n e _ _, H3 : step_is _ _ |- _ =>
      destruct (fix_extremum_ok n b (int 0) _ H1 wf0) as (c' & X1 & Vc & Wc);
      destruct (fix_extremum_ok n e n _ H2 Wn) as (d' & X2 & Vd & Wd); destruct H3 as [Ws Vs] end.
    rewrite Fc in X1. rewrite Fd in X2. injection X1 as <-. injection X2 as <-. do 3 (split; [assumption|]); lia.
  - cbn in Fd. injection Fd as <-. destruct b as [b|]; [|destruct N; congruence].
    match goal with H1 : bound_is n (Some b) _ _, H3 : step_is _ _ |- _ =>
      destruct (fix_extremum_ok n (Some b) (int 0) _ H1 wf0) as (c' & X1 & Vc & Wc); destruct H3 as [Ws Vs] end.
    rewrite Fc in X1. injection X1 as <-. do 3 (split; [assumption|]); lia.
Qed.

Lemma kreshape_total n sl o k s : axis (nint n) -> takes (nint n) (plain_slc sl) o k s -> inside (nint n) o k s ->
  exists c, kreshape1 n sl = Ok c /\ cval (nint c) = k /\ wfc (nint c).
Proof.
  intros [Wn Bn] T I.
  destruct (takes_ok _ _ _ _ _ (conj Wn Bn) T) as (_ & ck & _ & _ & _ & _ & R & Vk & Wk).
  enough (G : exists c, kreshape1 n sl = Ok c).
  { destruct G as (c & Ec). exists c. split; [exact Ec|]. apply kreshape_value in Ec. rewrite Ec in R. injection R as ->. auto. }
  destruct sl as [|e|i|[bg st en ln]]; cbn [kreshape1]; try (eexists; reflexivity).
  cbn [plain_slc] in *. unfold plain_slicer in *. cbn [ts_begin ts_step ts_stop ts_len factor] in *. destruct ln as [l|].
  { assert (F : fix_extremum (nint n) (option_map plain_bound (Some l)) (nint n) = Ok ck) by (destruct bg, st, en; exact R).
    destruct (kfix_total n (Some l) n ck F) as (c & Ec & _). exists c. exact Ec. }
  cbn [option_map] in T.
  assert (B : forall c, fix_extremum (nint n) (option_map plain_bound bg) (int 0) = Ok c ->
              forall d, fix_extremum (nint n) (option_map plain_bound en) (nint n) = Ok d ->
              (match option_map nint st with Some s => 
                 let t := common I32 (common (common (cty d) (cty c)) (cty s)) in
                 if cle (int 0) s then w <- csub d c ;; x <- eval_count w s ;; Ok (conv t x)
                 else w <- cadd c (CI U8 1) ;; x <- eval_count w s ;; Ok (conv t x)
               | None => w <- csub d c ;; eval_count w (int 1) end) = Ok ck ->
              bg <> None \/ en <> None ->
              exists r, (b <- kfix n bg (Nm true (int 0)) ;; e <- kfix n en n ;;
                 match st with Some st => kchoose b e st | None => d <- nop csub e b ;; keval d (Nm true (int 1)) end) = Ok r).
  { intros c Fc d Fd G N.
    destruct (kfix_total n bg (Nm true (int 0)) c Fc) as (b & -> & Vb).
    destruct (kfix_total n en n d Fd) as (e & -> & Ve). rewrite !bind_ok.
    destruct st as [st|]; cbn [option_map] in *.
    - assert (N' : option_map plain_bound bg <> None \/ option_map plain_bound en <> None).
      { destruct N; [left; destruct bg|right; destruct en]; cbn; congruence. }
      destruct (takes_bounds _ _ _ _ _ _ _ (conj Wn Bn) T I N' c d Fc Fd) as (H1 & H2 & H3 & H4 & H5 & H6 & H7 & H8).
      apply kchoose_total; rewrite ?Vb, ?Ve; assumption.
    - inv1 G. rewrite <- Vb, <- Ve in E. rewrite (nop_total csub e b x E), bind_ok.
      eexists. apply (keval_total (Nm _ x) (Nm true (int 1))). exact G. }
  destruct bg as [bg|], en as [en|]; cbn [option_map reshape1] in R.
  4: { destruct st; eexists; apply keval_total; exact R. }
  all: inv1 R; inv1 R; apply (B _ E _ E0 R); (left; discriminate) || (right; discriminate).
Qed.

Lemma kreindex_total n sl o k s : axis (nint n) -> takes (nint n) (plain_slc sl) o k s -> exists c, kreindex1 n sl = Ok c.
Proof.
  intros A T. destruct (takes_ok _ _ _ _ _ A T) as (co & _ & R & _).
  destruct sl as [|e|i|[bg st en ln]]; cbn [kreindex1 ts_begin]; try (eexists; reflexivity).
  - cbn [plain_slc reindex1] in R. destruct (kfix_total n (Some (TEnd e)) n co R) as (c & E & _). exists c. exact E.
  - destruct bg as [b|]; [|rewrite R; eexists; reflexivity].
    destruct (kfix_total n (Some b) n co) as (c & E & _); [|exists c; exact E].
    cbn [plain_slc plain_slicer reindex1 ts_begin ts_step ts_stop ts_len option_map fix_extremum] in R.
    destruct st, en, ln; exact R.
Qed.
Lemma starts_total ns : forall sls os ks ss, Forall (fun n => axis (nint n)) ns ->
  sliced_each (map nint ns) (map plain_slc sls) os ks ss -> exists is_, mapM2 kreindex1 ns sls = Ok is_.
Proof.
  induction ns as [|n ns IH]; intros [|sl sls] os ks ss A S; cbn [map] in S; inversion S; subst; [eexists; reflexivity|].
  inversion A; subst. match goal with H : sliced_each _ _ _ _ _ |- _ => destruct (IH _ _ _ _ ltac:(assumption) H) as (is_ & E) end.
  match goal with T : takes _ _ _ _ _ |- _ => destruct (kreindex_total n sl _ _ _ ltac:(assumption) T) as (c & F) end.
  exists (c :: is_). cbn [mapM2]. rewrite F, E. reflexivity.
Qed.

(** ** Shapes *)
Definition num_of (d : desc) (v : cint) : knum := Nm (negb (is_dynamic d)) v.
Lemma nums_of_extents ds : forall vs, length ds = length vs -> mapM knum_of (map2 ext_of ds vs) = Ok (map2 num_of ds vs).
Proof.
  induction ds as [|d ds IH]; intros [|v vs] L; try discriminate; [reflexivity|]. cbn [map2 mapM].
  assert (E : knum_of (ext_of d v) = Ok (num_of d v)) by (unfold ext_of, num_of; destruct (is_dynamic d); reflexivity).
  rewrite E, bind_ok, IH by (simpl in L; lia). reflexivity.
Qed.
Lemma pnums_ok p vs : wfp p -> to_values p = Ok vs -> pnums p = Ok (map2 num_of (pdesc p) vs).
Proof.
  intros W V. rewrite to_values_ok in V by exact W. injection V as <-. unfold pnums.
  rewrite (pextents_ok p W), bind_ok. apply nums_of_extents. symmetry. apply values_length, W.
Qed.
Lemma nums_values ds : forall vs, length ds = length vs -> map nint (map2 num_of ds vs) = vs.
Proof.
  induction ds as [|d ds IH]; intros [|v vs] L; try discriminate; [reflexivity|]. cbn [map2 map num_of nint].
  rewrite IH by (simpl in L; lia). reflexivity.
Qed.
Lemma nums_known ds : forall vs k n, nth_error (map2 num_of ds vs) k = Some n ->
  exists d, nth_error ds k = Some d /\ (is_fixed n = true <-> known d).
Proof.
  induction ds as [|d ds IH]; intros [|v vs] [|k] n H; cbn [map2 nth_error] in *; try discriminate.
  - injection H as <-. exists d. split; [reflexivity|]. cbn [num_of is_fixed]. rewrite <- (stat_desc d v). unfold ext_of.
    destruct (is_dynamic d); reflexivity.
  - exact (IH vs k n H).
Qed.

Lemma mapM2_nth {A B C} (f : A -> B -> outcome C) l : forall m r, mapM2 f l m = Ok r ->
  length r = length l /\ length r = length m /\
  forall k c, nth_error r k = Some c -> exists a b, nth_error l k = Some a /\ nth_error m k = Some b /\ f a b = Ok c.
Proof.
  induction l as [|a l IH]; intros [|b m] r H; cbn [mapM2] in H; try discriminate.
  - injection H as <-. split; [reflexivity|]. split; [reflexivity|]. intros [|k] c; discriminate.
  - inv1 H. inv1 H. injection H as <-. destruct (IH m x0 E0) as (L1 & L2 & N). cbn [length].
    split; [lia|]. split; [lia|]. intros [|k] c Hk; cbn [nth_error] in *; [|exact (N k c Hk)].
    injection Hk as <-. eauto.
Qed.

Lemma slices_total ns : forall sls os ks ss, Forall (fun n => axis (nint n)) ns ->
  sliced_each (map nint ns) (map plain_slc sls) os ks ss ->
  exists rs, mapM2 kreshape1 ns sls = Ok rs /\ vals (map nint rs) = ks /\ Forall (fun r => wfc (nint r)) rs /\
    mapM2 reshape1 (map nint ns) (map plain_slc sls) = Ok (map nint rs).
Proof.
  induction ns as [|n ns IH]; intros [|sl sls] os ks ss A S; cbn [map] in S; inversion S; subst.
  - exists []. repeat split. constructor.
  - inversion A; subst. match goal with H : sliced_each _ _ _ _ _ |- _ => destruct (IH _ _ _ _ ltac:(assumption) H) as (rs & E1 & E2 & E3 & E4) end.
    match goal with T : takes _ _ _ _ _, I : inside _ _ _ _ |- _ => destruct (kreshape_total n sl _ _ _ ltac:(assumption) T I) as (r & F1 & F2 & F3) end.
    exists (r :: rs). cbn [mapM2 map vals]. rewrite F1, E1, !bind_ok. split; [reflexivity|]. split; [cbn [vals map] in *; unfold vals in E2; rewrite F2, E2; reflexivity|].
    split; [constructor; assumption|]. rewrite (kreshape_value _ _ _ F1), E4. reflexivity.
Qed.

Lemma extent_nums rs : map v1 (map extent_of rs) = map nint rs.
Proof. induction rs as [|r rs IH]; [reflexivity|]. cbn [map]. rewrite IH. unfold extent_of. destruct (is_fixed r); reflexivity. Qed.
Lemma extent_nj rs : Forall (fun e => e <> EJoker) (map extent_of rs).
Proof. induction rs; constructor; [|assumption]. unfold extent_of. destruct (is_fixed a); discriminate. Qed.
Lemma extent_wf rs : Forall (fun r => wfc (nint r)) rs -> Forall wf_extent (map extent_of rs).
Proof. induction 1; constructor; [|assumption]. unfold extent_of. destruct (is_fixed x); exact H. Qed.
Lemma contents_known q rs k d : map acont (pdesc q) = map to_descriptor (map extent_of rs) -> nth_error (pdesc q) k = Some d ->
  exists r, nth_error rs k = Some r /\ (known d <-> is_fixed r = true).
Proof.
  intros C Hd. assert (X : nth_error (map acont (pdesc q)) k = nth_error (map to_descriptor (map extent_of rs)) k) by (rewrite C; reflexivity).
  rewrite !nth_error_map, Hd in X. destruct (nth_error rs k) as [r|]; [|discriminate]. cbn [option_map] in X. injection X as X.
  exists r. split; [reflexivity|]. rewrite (known_stat d (extent_of r)); [|unfold extent_of; destruct (is_fixed r); discriminate|exact X].
  unfold extent_of. destruct (is_fixed r); cbn; reflexivity.
Qed.

Lemma grouped_one {A} n k (l : list A) : (0 < n)%nat -> n = length l \/ (0 < k)%nat ->
  grouped n k l = match nth_error l (length l - n + k) with Some x => [x] | None => [] end.
Proof.
  intros Hn H. unfold grouped. rewrite <- (nth_skipn_l l (length l - n) k).
  replace (firstn 1 (skipn (length l - n + k) l)) with (match nth_error (skipn (length l - n) l) k with Some x => [x] | None => [] end).
  2: { rewrite nth_skipn_l. generalize (length l - n + k)%nat as j. clear. induction l as [|x l IH]; intros [|j]; cbn; try reflexivity. exact (IH j). }
  destruct k as [|k]; [|reflexivity]. destruct H as [->|H]; [|lia]. rewrite Nat.sub_diag. cbn. destruct l; reflexivity.
Qed.

Lemma pcompress_known dbg p vs n q : wfp p -> to_values p = Ok vs -> legal vs -> (1 <= n <= length vs)%nat ->
  pcompress dbg n p = Ok q -> forall k d, nth_error (pdesc q) k = Some d -> (known d <-> Forall known (grouped n k (pdesc p))).
Proof.
  intros W V HL Hn E k d Hd.
  assert (LV : length (pdesc p) = length vs).
  { rewrite to_values_ok in V by exact W. injection V as <-. symmetry. apply values_length, W. }
  destruct (pcompress_shape_l dbg p vs n W V HL Hn) as (q' & E' & Wq & Vq & A & B). rewrite E in E'. injection E' as <-.
  destruct (Nat.eq_dec n (length vs)) as [Hl|Hl].
  - rewrite (A Hl) in Hd. rewrite grouped_one by lia. replace (length (pdesc p) - n + k)%nat with k by lia. rewrite Hd.
    split; [intros H; repeat constructor; exact H|intros F; inversion F; assumption].
  - destruct (B ltac:(lia)) as (An & B0 & B1). destruct k as [|k].
    + rewrite (B0 d Hd). unfold grouped. rewrite LV. reflexivity.
    + rewrite grouped_one by lia. rewrite LV.
      assert (Ln : length (pdesc q) = n) by (rewrite <- (map_length aid), An; unfold unnamed_axes; rewrite map_length, seq_length; reflexivity).
      assert (Hk : (S k < n)%nat) by (rewrite <- Ln; apply nth_error_Some; rewrite Hd; discriminate).
      destruct (nth_error (pdesc p) (length vs - n + S k)) as [e|] eqn:He; [|apply nth_error_None in He; lia].
      rewrite (B1 (S k) d e ltac:(lia) Hd He). split; [intros H; repeat constructor; exact H|intros F; inversion F; assumption].
Qed.

Lemma legal_axes l : legal l -> Forall axis l.
Proof.
  induction l as [|x l IH]; intros H; [constructor|]. destruct (legal_cons _ _ H) as (W & B & P & L).
  constructor; [|apply IH; exact L]. split; [exact W|]. unfold max31 in *; lia.
Qed.

Lemma pslice_shape_l dbg p vs cs sls os ks ss : wfp p -> to_values p = Ok vs -> legal vs ->
  compress (length sls) vs = Ok cs -> sliced_each cs (map plain_slc sls) os ks ss ->
  exists q ws, pslice_shape dbg p sls = Ok q /\ wfp q /\ to_values q = Ok ws /\ vals ws = ks /\
    slice_shape vs (map plain_slc sls) = Ok ws /\
    map aid (pdesc q) = unnamed_axes (length sls) /\
    forall k d sl, nth_error (pdesc q) k = Some d -> nth_error sls k = Some sl ->
      (known d -> extent_constant (Forall known (grouped (length sls) k (pdesc p))) sl) /\
      (~ stepped_range sl -> extent_constant (Forall known (grouped (length sls) k (pdesc p))) sl -> known d).
Proof.
  intros W V HL C S.
  assert (Hn : (1 <= length sls <= length vs)%nat).
  { unfold compress in C. destruct ((0 <? length sls) && (length sls <=? length vs))%nat eqn:B; [|discriminate].
    apply andb_true_iff in B as [B1 B2]. apply Nat.ltb_lt in B1. apply Nat.leb_le in B2. lia. }
  destruct (pcompress_shape_l dbg p vs (length sls) W V HL Hn) as (c & Ec & Wc & Vc & _).
  rewrite C in Vc. unfold pslice_shape. rewrite Ec, bind_ok, (pnums_ok c cs Wc Vc), bind_ok.
  assert (LC : length (pdesc c) = length cs).
  { rewrite to_values_ok in Vc by exact Wc. injection Vc as <-. symmetry. apply values_length, Wc. }
  pose proof (nums_values (pdesc c) cs LC) as NV. set (ns := map2 num_of (pdesc c) cs) in *.
  destruct (compress_ok (length sls) vs HL Hn) as (cs' & C' & _ & Lcs & _). rewrite C in C'. injection C' as <-.
  assert (Ax : Forall (fun n => axis (nint n)) ns).
  { apply Forall_map. rewrite NV. apply legal_axes. exact Lcs. }
  rewrite <- NV in S. destruct (slices_total ns sls os ks ss Ax S) as (rs & Er & Kr & Wr & Rr).
  rewrite Er, bind_ok. rewrite <- (map_map extent_of APos).
  destruct (of_size_positional dbg (map extent_of rs)) as (q & Eq & Wq & Vq & Aq & Cq); [apply extent_wf, Wr|apply extent_nj|].
  rewrite extent_nums in Vq. destruct (mapM2_nth _ _ _ _ Er) as (L1 & L2 & N).
  exists q, (map nint rs). split; [exact Eq|]. split; [exact Wq|]. split; [exact Vq|]. split; [exact Kr|].
  split; [unfold slice_shape; rewrite map_length, C, bind_ok, <- NV; exact Rr|].
  split; [rewrite Aq, map_length, L2; reflexivity|].
  intros k d sl Hd Hsl. destruct (contents_known q rs k d Cq Hd) as (r & Hr & Kd).
  destruct (N k r Hr) as (n & sl' & Hn' & Hsl' & R). rewrite Hsl in Hsl'. injection Hsl' as <-.
  destruct (nums_known _ _ _ _ Hn') as (dc & Hdc & Kn).
  pose proof (pcompress_known dbg p vs (length sls) c W V HL Hn Ec k dc Hdc) as G.
  destruct (kreshape_kind n sl r R) as [K1 K2]. rewrite Kd.
  assert (X : forall P Q : Prop, (P <-> Q) -> forall sl, extent_constant P sl <-> extent_constant Q sl).
  { clear. intros P Q H [|e|i|[bg st en ln]]; cbn; try tauto. destruct ln as [[a|e]|]; cbn; try tauto.
    destruct bg as [[a|e]|], en as [[a'|e']|]; cbn; tauto. }
  rewrite (X _ _ (iff_trans (iff_sym G) (iff_sym Kn)) sl). split; assumption.
Qed.

(** The kinds of the first indexes. *)
Lemma start_constant_iff P Q sl : (P <-> Q) -> (start_constant P sl <-> start_constant Q sl).
Proof. intros H. destruct sl as [|e|i|[bg st en ln]]; cbn; try tauto. destruct bg as [[a|e]|]; cbn; tauto. Qed.
Lemma start_kinds dbg p vs sls c is_ : wfp p -> to_values p = Ok vs -> legal vs -> (1 <= length sls <= length vs)%nat ->
  pcompress dbg (length sls) p = Ok c -> forall ns, pnums c = Ok ns -> mapM2 kreindex1 ns sls = Ok is_ ->
  length is_ = length sls /\
  forall k i sl, nth_error is_ k = Some i -> nth_error sls k = Some sl ->
    (is_fixed i = true <-> start_constant (Forall known (grouped (length sls) k (pdesc p))) sl).
Proof.
  intros W V HL Hn Ec ns En Em.
  destruct (pcompress_shape_l dbg p vs (length sls) W V HL Hn) as (c' & Ec' & Wc & Vc & _). rewrite Ec in Ec'. injection Ec' as <-.
  destruct (compress_ok (length sls) vs HL Hn) as (cs & C & _). rewrite C in Vc.
  rewrite (pnums_ok c cs Wc Vc) in En. injection En as <-.
  destruct (mapM2_nth _ _ _ _ Em) as (L1 & L2 & N). split; [exact L2|].
  intros k i sl Hi Hsl. destruct (N k i Hi) as (n & sl' & Hn' & Hsl' & R). rewrite Hsl in Hsl'. injection Hsl' as <-.
  destruct (nums_known _ _ _ _ Hn') as (dc & Hdc & Kn).
  pose proof (pcompress_known dbg p vs (length sls) c W V HL Hn Ec k dc Hdc) as G.
  rewrite (kreindex_kind n sl i R). apply start_constant_iff. rewrite Kn. exact G.
Qed.
Lemma runtime_starts_l dbg p vs cs sls os ks ss : wfp p -> to_values p = Ok vs -> legal vs ->
  compress (length sls) vs = Ok cs -> (1 <= length sls <= length vs)%nat -> sliced_each cs (map plain_slc sls) os ks ss ->
  runtime_starts p sls ->
  exists c ns is_, pcompress dbg (length sls) p = Ok c /\ pnums c = Ok ns /\ mapM2 kreindex1 ns sls = Ok is_ /\
    existsb is_fixed is_ = false.
Proof.
  intros W V HL C Hn S Rt.
  destruct (pcompress_shape_l dbg p vs (length sls) W V HL Hn) as (c & Ec & Wc & Vc & _).
  rewrite C in Vc. pose proof (pnums_ok c cs Wc Vc) as Pn.
  assert (LC : length (pdesc c) = length cs).
  { rewrite to_values_ok in Vc by exact Wc. injection Vc as <-. symmetry. apply values_length, Wc. }
  pose proof (nums_values (pdesc c) cs LC) as NV. set (ns := map2 num_of (pdesc c) cs) in *.
  destruct (compress_ok (length sls) vs HL Hn) as (cs' & C' & _ & Lcs & _). rewrite C in C'. injection C' as <-.
  assert (Ax : Forall (fun n => axis (nint n)) ns).
  { apply Forall_map. rewrite NV. apply legal_axes. exact Lcs. }
  rewrite <- NV in S. destruct (starts_total ns sls os ks ss Ax S) as (is_ & Em).
  exists c, ns, is_. split; [exact Ec|]. split; [exact Pn|]. split; [exact Em|].
  destruct (start_kinds dbg p vs sls c is_ W V HL Hn Ec ns Pn Em) as [L K].
  apply not_true_iff_false. intros X. apply existsb_exists in X as (i & Ii & Fi). apply In_nth_error in Ii as (k & Hk).
  destruct (nth_error sls k) as [sl|] eqn:Hs.
  - apply (Rt k sl Hs). apply (K k i sl Hk Hs). exact Fi.
  - apply nth_error_None in Hs. assert (k < length is_)%nat by (apply nth_error_Some; congruence). lia.
Qed.

(** ** A step and a bound *)
Lemma eval_type v s c : eval_count v s = Ok c -> cty c = common I32 (common (cty v) (cty s)).
Proof.
  unfold eval_count. destruct (ceqb v (int 0)); intros H; [injection H as <-; reflexivity|].
  unfold fix_count in H. inv1 H. inv1 H. inv1 H.
  assert (Tw : cty x = promote (cty s)).
  { destruct (clt s (int 0)); [|injection E as <-; reflexivity]. unfold cneg in E.
    destruct (is_signed _); [destruct (in_tyb _ _); [|discriminate]|]; injection E as <-; reflexivity. }
  assert (Tq : cty x1 = common (cty v) (cty x)).
  { unfold cdiv in E1. destruct (_ =? 0); [discriminate|]. destruct (in_tyb _ _); [|discriminate]. injection E1 as <-. reflexivity. }
  assert (Tc : cty c = common I32 (cty x1)).
  { unfold cadd, arith in H. cbn [cty int] in H. destruct (is_signed _); [destruct (in_tyb _ _); [|discriminate]|]; injection H as <-; reflexivity. }
  rewrite Tc, Tq, Tw. destruct (cty v), (cty s); reflexivity.
Qed.
Lemma arith_type f a b c : arith f a b = Ok c -> cty c = common (cty a) (cty b).
Proof. unfold arith. destruct (is_signed _); [destruct (in_tyb _ _); [|discriminate]|]; intros H; injection H as <-; reflexivity. Qed.

Lemma stepped_l n bg st en b e s :
  axis (nint n) -> (bg <> None \/ en <> None) ->
  kfix n bg (Nm true (int 0)) = Ok b -> kfix n en n = Ok e -> s = st ->
  wfc (nint b) -> wfc (nint e) -> wfc (nint s) ->
  0 <= cval (nint b) <= cval (nint e) -> cval (nint b) < 2147483647 -> cval (nint e) <= 2147483647 ->
  - 2147483647 <= cval (nint s) -> cval (nint s) <> 0 ->
  Forall (fun k => promote (cty (nint k)) = I32) [b; e; s] ->
  exists c, kreshape1 n (KSl (Ts bg (Some st) en None)) = Ok c /\
    (is_fixed c = true <-> is_fixed b = true /\ is_fixed e = true /\ is_fixed s = true /\
       ceil_div (cval (nint e) - cval (nint b)) (Z.abs (cval (nint s))) = ceil_div (cval (nint b) + 1) (Z.abs (cval (nint s)))).
Proof.
  intros An N Eb Ee -> Wb We Ws R1 R2 R3 S1 S2 F.
  destruct (kchoose_total b e st Wb We Ws R1 R2 R3 S1 S2) as (c & Ec). exists c. split.
  { cbn [kreshape1 ts_len ts_begin ts_stop ts_step]. destruct bg as [bg|], en as [en|]; try (rewrite Eb, bind_ok, Ee, bind_ok; exact Ec).
    destruct N; congruence. }
  rewrite (kchoose_kind _ _ _ _ Ec).
  destruct (arith_nonneg Z.sub (nint e) (nint b)) as (d1 & E1 & V1 & W1 & T1); try assumption; try lia. { unfold max31; lia. }
  destruct (arith_nonneg Z.add (nint b) (CI U8 1)) as (d2 & E2 & V2 & W2 & T2); try assumption; try (cbn [cval]; unfold max31; lia).
  { unfold wfc, in_ty; simpl; lia. }
  cbn [cval cty] in V2, T2. change (csub (nint e) (nint b) = Ok d1) in E1. change (cadd (nint b) (CI U8 1) = Ok d2) in E2.
  destruct (eval_count_ok d1 (nint st)) as (u & Eu & Vu & _); try assumption; try lia.
  destruct (eval_count_ok d2 (nint st)) as (v & Ev & Vv & _); try assumption; try lia.
  rewrite V1 in Vu. rewrite V2 in Vv. rewrite <- Vu, <- Vv.
  inversion F as [|x l Fb F1]; subst x l. inversion F1 as [|x l Fe F2]; subst x l. inversion F2 as [|x l Fs _]; subst x l.
  assert (Ty : cty u = cty v).
  { rewrite (eval_type _ _ _ Eu), (eval_type _ _ _ Ev), T1, T2.
    destruct (cty (nint b)), (cty (nint e)), (cty (nint st)); try discriminate; reflexivity. }
  split.
  - intros (A & B & C & x1 & x2 & y & z & G1 & G2 & G3 & G4 & _ & G6). repeat split; try assumption.
    rewrite E1 in G1. injection G1 as <-. rewrite E2 in G2. injection G2 as <-. rewrite Eu in G3. injection G3 as <-.
    rewrite Ev in G4. injection G4 as <-. exact G6.
  - intros (A & B & C & G). split; [exact A|]. split; [exact B|]. split; [exact C|]. exists d1, d2, u, v. auto 8.
Qed.

(** ** Strides *)
Lemma krestride_value n sl c : krestride1 n sl = Ok c -> restride1 (nint n) (plain_slc sl) = Ok (nint c).
Proof.
  destruct sl as [|e|i|[bg [st|] en ln]]; cbn [krestride1 plain_slc ts_step]; intros H; try (injection H as <-; reflexivity).
  - destruct (is_fixed i); injection H as <-; reflexivity.
  - apply nop_ok in H. exact H.
Qed.
Lemma krestride_total n sl c : restride1 (nint n) (plain_slc sl) = Ok c -> exists k, krestride1 n sl = Ok k /\ nint k = c.
Proof.
  destruct sl as [|e|i|[bg [st|] en ln]]; cbn [krestride1 plain_slc ts_step]; intros H; try (injection H as <-; eauto).
  - destruct (is_fixed i); injection H as <-; eauto.
  - cbn in H. rewrite (nop_total cmul st n c H). eauto.
Qed.
Lemma krestride_kind n sl c : krestride1 n sl = Ok c -> (is_fixed c = true <-> stride_constant (is_fixed n = true) sl).
Proof.
  unfold stride_constant.
  destruct sl as [|e|i|[bg [st|] en ln]]; cbn [krestride1 ts_step constant_step]; intros H; try (injection H as <-; tauto).
  apply nop_kind in H. rewrite H, andb_true_iff. tauto.
Qed.
Lemma cmul_wf a b c : cmul a b = Ok c -> wfc c.
Proof.
  unfold cmul, arith. destruct (is_signed _) eqn:S.
  - destruct (in_tyb _ _) eqn:I; [|discriminate]. intros H; injection H as <-. apply in_tyb_spec. exact I.
  - intros H; injection H as <-. apply cast_range.
Qed.

Lemma with_strides_positional dbg t : Forall wf_extent t -> Forall (fun e => e <> EJoker) t ->
  exists q, with_strides_args dbg (map APos t) = Ok q /\ wfp q /\ to_values q = Ok (map v1 t) /\
    map aid (pdesc q) = unnamed_axes (length t) /\ map acont (pdesc q) = map to_descriptor t.
Proof.
  intros Wt Jt.
  assert (HG : Forall2 given_value (map APos t) t).
  { clear - Wt. induction Wt; constructor; [constructor; assumption|assumption]. }
  assert (HN : names (map APos t) = []) by (clear; induction t; [reflexivity|assumption]).
  destruct (build_args_l dbg 1 (map APos t) t) as (q & E & Wq & D & Vq & _).
  - unfold in_ty; simpl; lia.
  - exact HG.
  - apply descs_distinct; rewrite HN; constructor.
  - exists q. split; [exact E|]. split; [exact Wq|]. split.
    { exact Vq. }
    rewrite D. split; [apply descs_positional|]. rewrite descs_contents, map_map. reflexivity.
Qed.

Lemma restrides_total ns : forall sls ws, Forall (fun n => wfc (nint n)) ns ->
  mapM2 restride1 (map nint ns) (map plain_slc sls) = Ok ws ->
  exists rs, mapM2 krestride1 ns sls = Ok rs /\ map nint rs = ws /\ Forall (fun r => wfc (nint r)) rs.
Proof.
  induction ns as [|n ns IH]; intros [|sl sls] ws W H; cbn [map mapM2] in *; try discriminate.
  - injection H as <-. exists []. repeat split. constructor.
  - inversion W as [|? ? Wn Wns]; subst. inv1 H. inv1 H. injection H as <-.
    destruct (IH sls x0 Wns E0) as (rs & -> & V & F). destruct (krestride_total n sl x E) as (r & Er & Vr).
    exists (r :: rs). rewrite Er, !bind_ok. split; [reflexivity|]. cbn [map]. split; [congruence|]. constructor; [|exact F].
    destruct sl as [|e|i|[bg [st|] en ln]]; cbn [krestride1 ts_step] in Er; try (injection Er as <-; exact Wn).
    apply nop_ok in Er. exact (cmul_wf _ _ _ Er).
Qed.

Lemma pslice_stride_l dbg r st sls ws : wfp r -> to_values r = Ok st -> Forall wfc st -> (length sls <= length st)%nat ->
  slice_stride (compress_stride (length sls) st) (map plain_slc sls) = Ok ws ->
  exists q, pslice_stride dbg r sls = Ok q /\ wfp q /\ to_values q = Ok ws /\ Forall wfc ws /\
    map aid (pdesc q) = unnamed_axes (length sls) /\
    forall k d e sl, nth_error (pdesc q) k = Some d -> nth_error (pdesc r) (length st - length sls + k) = Some e ->
      nth_error sls k = Some sl -> (known d <-> stride_constant (known e) sl).
Proof.
  intros W V F Hn S. destruct (pcompress_l dbg r st (length sls) W V F Hn) as (c & Ec & Wc & Vc & _ & Kc).
  unfold pslice_stride. rewrite Ec, bind_ok, (pnums_ok c _ Wc Vc), bind_ok.
  set (cs := skipn (length st - length sls) st) in *.
  assert (LC : length (pdesc c) = length cs).
  { rewrite to_values_ok in Vc by exact Wc. injection Vc as <-. symmetry. apply values_length, Wc. }
  pose proof (nums_values (pdesc c) cs LC) as NV. set (ns := map2 num_of (pdesc c) cs) in *.
  assert (Wn : Forall (fun n => wfc (nint n)) ns).
  { apply Forall_map. rewrite NV. unfold cs. rewrite <- (firstn_skipn (length st - length sls) st) in F.
    apply Forall_app in F. exact (proj2 F). }
  unfold slice_stride, compress_stride in S. fold cs in S. rewrite <- NV in S.
  destruct (restrides_total ns sls ws Wn S) as (rs & Er & Vr & Wr). rewrite Er, bind_ok, <- (map_map extent_of APos).
  destruct (with_strides_positional dbg (map extent_of rs)) as (q & Eq & Wq & Vq & Aq & Cq); [apply extent_wf, Wr|apply extent_nj|].
  rewrite extent_nums, Vr in Vq. destruct (mapM2_nth _ _ _ _ Er) as (L1 & L2 & N).
  exists q. split; [exact Eq|]. split; [exact Wq|]. split; [exact Vq|].
  split; [rewrite <- Vr; apply Forall_map; exact Wr|]. split; [rewrite Aq, map_length, L2; reflexivity|].
  intros k d e sl Hd He Hsl. destruct (contents_known q rs k d Cq Hd) as (x & Hx & Kd).
  destruct (N k x Hx) as (n & sl' & Hn' & Hsl' & R). rewrite Hsl in Hsl'. injection Hsl' as <-.
  destruct (nums_known _ _ _ _ Hn') as (dc & Hdc & Kn). rewrite Kd, (krestride_kind n sl x R). unfold stride_constant.
  rewrite Kn, (Kc k dc e Hdc He). reflexivity.
Qed.


Lemma ceqb_one c : wfc c -> ceqb c (int 1) = (cval c =? 1).
Proof.
  intros W. assert (compat c (int 1)).
  { destruct (Z_lt_le_dec (cval c) 0) as [L|L].
    - apply compat_signed; [apply neg_signed; assumption|reflexivity].
    - apply compat_nonneg; [assumption|simpl; lia]. }
  apply ceqb_exact; [assumption| |assumption]. apply wf1.
Qed.

Lemma unit_value p vs d v : wfp p -> to_values p = Ok vs -> nth_error (pdesc p) (length vs - 1) = Some d ->
  nth_error vs (length vs - 1) = Some v -> (is_unit (pdesc p) = true <-> known d /\ ceqb v (int 1) = true).
Proof.
  intros W V Hd Hv. rewrite to_values_ok in V by exact W. injection V as <-.
  assert (L : length (values p) = length (pdesc p)) by apply values_length, W. rewrite L in Hd, Hv.
  rewrite (is_unit_last _ _ Hd). destruct (acont d) as [|t|c] eqn:E.
  1, 2: split; [discriminate|]; intros [[x X] _]; congruence.
  pose proof (nth_static p _ d c W Hd E) as X. rewrite Hv in X. injection X as ->.
  split; [intros H; split; [exists c; exact E|exact H]|intros [_ H]; exact H].
Qed.

Lemma unit_slice_l dbg r st sls ws q sl : wfp r -> to_values r = Ok st -> Forall wfc st -> (1 <= length sls <= length st)%nat ->
  slice_stride (compress_stride (length sls) st) (map plain_slc sls) = Ok ws -> pslice_stride dbg r sls = Ok q ->
  nth_error sls (length sls - 1) = Some sl ->
  let step := match sl with KSl s => ts_step s | _ => None end in
  (step = None -> is_unit (pdesc q) = is_unit (pdesc r)) /\
  (forall k, step = Some k -> is_fixed k = false -> is_unit (pdesc q) = false) /\
  (forall k, step = Some k -> is_fixed k = true -> wfc (nint k) -> 0 <= cval (nint k) <= 2147483647 ->
     is_unit (pdesc r) = true -> (is_unit (pdesc q) = true <-> cval (nint k) = 1)).
Proof.
  intros W V F Hn S E Hsl step.
  destruct (pslice_stride_l dbg r st sls ws W V F ltac:(lia) S) as (q' & E' & Wq & Vq & Fw & Aq & K).
  rewrite E in E'. injection E' as <-.
  assert (Lr : length (pdesc r) = length st).
  { rewrite to_values_ok in V by exact W. injection V as <-. symmetry. apply values_length, W. }
  assert (Lq : length (pdesc q) = length ws).
  { rewrite to_values_ok in Vq by exact Wq. injection Vq as <-. symmetry. apply values_length, Wq. }
  destruct (mapM2_nth _ _ _ _ S) as (L1 & L2 & N). rewrite map_length in L2. unfold compress_stride in N.
  destruct (nth_error ws (length ws - 1)) as [w|] eqn:Hw; [|apply nth_error_None in Hw; lia].
  destruct (N _ _ Hw) as (v & pl & Hv & Hpl & R). rewrite nth_skipn_l in Hv.
  replace (length st - length sls + (length ws - 1))%nat with (length st - 1)%nat in Hv by lia.
  rewrite nth_error_map in Hpl. rewrite L2, Hsl in Hpl. cbn in Hpl. injection Hpl as <-.
  destruct (nth_error (pdesc q) (length ws - 1)) as [d|] eqn:Hd; [|apply nth_error_None in Hd; lia].
  destruct (nth_error (pdesc r) (length st - 1)) as [e|] eqn:He; [|apply nth_error_None in He; lia].
  pose proof (unit_value q ws d w Wq Vq Hd Hw) as Uq. pose proof (unit_value r st e v W V He Hv) as Ur.
  assert (Kd : known d <-> stride_constant (known e) sl).
  { apply (K (length ws - 1)%nat); [exact Hd| |rewrite L2; exact Hsl].
    replace (length st - length sls + (length ws - 1))%nat with (length st - 1)%nat by lia. exact He. }
  rewrite Kd in Uq. unfold stride_constant in Uq.
  assert (Wv : wfc v) by (rewrite Forall_forall in F; apply F; apply nth_error_In in Hv; exact Hv).
  assert (NS : step = None -> is_unit (pdesc q) = is_unit (pdesc r)).
  { intros HS. apply eq_true_iff_eq. rewrite Uq, Ur.
    assert (w = v /\ (match sl with KSl s => constant_step (ts_step s) | _ => True end)) as [-> X].
    { destruct sl as [|x|i|[bg [k|] en ln]]; cbn in *; try discriminate; try (injection R as <-; auto).
      destruct (is_fixed i); injection R as <-; auto. }
    tauto. }
  split; [exact NS|].
  destruct sl as [|x|i|[bg [k|] en ln]]; cbn in step; subst step; try (split; [discriminate|discriminate]).
  split.
  - intros k' [= <-] Hk. apply not_true_iff_false. rewrite Uq. cbn. rewrite Hk. intros [[_ X] _]. discriminate.
  - intros k' [= <-] Hk Wk Bk Ue. rewrite Uq. cbn [constant_step ts_step]. apply Ur in Ue as [Ke V1]. cbn in R.
    assert (Cv : cval v = 1) by (rewrite ceqb_one in V1 by exact Wv; apply Z.eqb_eq, V1).
    destruct (arith_nonneg Z.mul (nint k) v Wk Wv ltac:(lia) ltac:(lia)) as (c & Ec & Vc & Wc & _); [rewrite Cv; unfold max31; lia|].
    unfold cmul in R. rewrite Ec in R. injection R as <-. rewrite ceqb_one by exact Wc. rewrite Vc, Cv, Z.eqb_eq.
    split; [intros [_ X]; lia|intros X; split; [split; [exact Ke|exact Hk]|lia]].
Qed.
