From Coq Require Import ZArith List Bool Lia.
From Verif Require Import Outcome CInt CIntFacts Spec SpecFacts ShapeSpec Shape ShapeFacts ShapeFacts2
  ForEach ForEachSpec ForEachFacts Memory MemFacts Container ContainerSpec ContainerFacts ContainerFacts2 ContainerFacts3
  Algo AlgoSpec AlgoFacts AlgoFacts2 AlgoFacts3 AlgoFacts4 Slicer SlicerSpec SlicerFacts SlicerFacts2 SlicerFacts3 Alloc
  OverlapFacts EndRatio Search SearchSpec SearchFacts Program ProgramSpec ProgramFacts ProgramFacts2 ProgramFacts3.
Import ListNotations.
Open Scope Z_scope.

(** ** Loops keep the live cells *)
Lemma each_same {S T} (f : S -> elem_fun S T) a as_ s m s' m' : each_do f a as_ s m = Ok (s', m') -> same_cells m m'.
Proof. apply run_same. intros x s1 m1 s2 m2 H. exact (call_tame _ _ _ _ _ H). Qed.
Lemma each_index_same {S T} (f : S -> list Z -> elem_fun S T) a s m s' m' : each_index_do f a s m = Ok (s', m') -> same_cells m m'.
Proof. apply run_same. intros x s1 m1 s2 m2 H. exact (call_tame _ _ _ _ _ H). Qed.
Lemma transform_same {T} f o ins (m m' : mem T) : transform_do f o ins m = Ok m' -> same_cells m m'.
Proof. apply run_same_mem. intros x m1 m2 H. apply bind_inv in H as (vs & _ & H). exact (same_store _ _ _ _ H). Qed.
Lemma copy_if_same {T} f o a (m m' : mem T) : copy_if_do f o a m = Ok m' -> same_cells m m'.
Proof.
  apply run_same_mem. intros x m1 m2 H. apply bind_inv in H as (v & _ & H).
  destruct (f v); [exact (same_store _ _ _ _ H)|injection H as <-; apply same_refl].
Qed.
Lemma generate_same {T} f o (m m' : mem T) : generate_do f o m = Ok m' -> same_cells m m'.
Proof. apply run_same_mem. intros x m1 m2 H. exact (same_store _ _ _ _ H). Qed.
Lemma scan_in_same {T} a o (init : T) f1 f2 m s m' : scan_in_do a o init f1 f2 m = Ok (s, m') -> same_cells m m'.
Proof.
  apply run_same. intros x s1 m1 s2 m2 H. apply bind_inv in H as (v & _ & H). apply bind_inv in H as (m3 & E & H).
  injection H as _ <-. exact (same_store _ _ _ _ E).
Qed.
Lemma scan_ex_same {T} a o (init : T) f1 f2 m s m' : scan_ex_do a o init f1 f2 m = Ok (s, m') -> same_cells m m'.
Proof.
  apply run_same. intros x s1 m1 s2 m2 H. apply bind_inv in H as (m3 & E & H). apply bind_inv in H as (v & _ & H).
  injection H as _ <-. exact (same_store _ _ _ _ E).
Qed.

Lemma rep_is_dense c a sh p : rep c a -> a_dense a = Some (sh, p) ->
  a = dense sh p /\ default_layout c /\ c_shape c = sh /\ c_data c = p.
Proof. intros (_ & _ & _ & _ & _ & D & _) E. exact (D sh p E). Qed.

Lemma rep_dims_bound c a : rep c a -> Forall (fun n => n <= 2147483648) (dims c).
Proof.
  intros (_ & _ & Lg & _). apply Forall_forall. intros n I. pose proof (legal_In _ n Lg I). unfold max31 in *. lia.
Qed.
Lemma rep_prod c a : rep c a -> 0 <= prod (dims c) < 2 ^ 64.
Proof.
  intros (_ & _ & Lg & _). pose proof (legal_prod _ Lg). unfold dims, max31 in *. change (2 ^ 64) with 18446744073709551616. lia.
Qed.

(** ** Integers of signed types *)
Lemma signed_common t u : is_signed t = true -> is_signed u = true -> is_signed (common t u) = true.
Proof. destruct t, u; intros; try discriminate; reflexivity. Qed.
Lemma signed_common_int t : is_signed t = true -> is_signed (common I32 t) = true.
Proof. destruct t; intros; try discriminate; reflexivity. Qed.
Lemma signed_arith f a b c : arith f a b = Ok c -> signed a = true -> signed b = true -> signed c = true.
Proof.
  unfold arith, signed. intros H A B. rewrite (signed_common _ _ A B) in H.
  destruct (in_tyb _ _); [|discriminate]. injection H as <-. exact (signed_common _ _ A B).
Qed.
Lemma signed_div a b c : cdiv a b = Ok c -> signed a = true -> signed b = true -> signed c = true.
Proof.
  unfold cdiv, signed. intros H A B. destruct (_ =? _); [discriminate|]. destruct (in_tyb _ _); [|discriminate].
  injection H as <-. exact (signed_common _ _ A B).
Qed.
Lemma signed_neg a c : cneg a = Ok c -> signed a = true -> signed c = true.
Proof.
  unfold cneg, signed. intros H A. assert (P : is_signed (promote (cty a)) = true) by (destruct (cty a); auto).
  rewrite P in H. destruct (in_tyb _ _); [|discriminate]. injection H as <-. exact P.
Qed.
Ltac sgn := repeat match goal with
  | H : bind _ _ = Ok _ |- _ => apply bind_inv in H as (? & ? & H)
  | H : Ok _ = Ok _ |- _ => injection H as <-
  | H : _ && _ = true |- _ => apply andb_true_iff in H as [? ?]
  end.
Ltac sgn_of := repeat match goal with
  | H : arith _ _ _ = Ok ?c |- signed ?c = true => apply (signed_arith _ _ _ _ H)
  | H : cadd _ _ = Ok ?c |- signed ?c = true => apply (signed_arith _ _ _ _ H)
  | H : csub _ _ = Ok ?c |- signed ?c = true => apply (signed_arith _ _ _ _ H)
  | H : cmul _ _ = Ok ?c |- signed ?c = true => apply (signed_arith _ _ _ _ H)
  | H : cdiv _ _ = Ok ?c |- signed ?c = true => apply (signed_div _ _ _ H)
  | H : cneg _ = Ok ?c |- signed ?c = true => apply (signed_neg _ _ H)
  end; try assumption; try reflexivity.
Definition signed_end (e : end_t) : Prop :=
  signed (shift e) = true /\ signed (num (frac e)) = true /\ signed (denum (frac e)) = true.
Lemma signed_build e : signed_expr e = true -> forall x, build e = Ok x -> signed_end x.
Proof.
  induction e; cbn [signed_expr build]; intros Se y H; unfold end_add, end_sub, sub_end, end_mul, end_div, rneg, rscale, rdivc in *; sgn;
    try (match goal with IH : _ -> forall x, build e = Ok x -> _, B : build e = Ok _ |- _ =>
           destruct (IH ltac:(assumption) _ B) as (A1 & A2 & A3) end);
    unfold signed_end; cbn [shift frac num denum]; repeat split; sgn_of.
Qed.
Lemma signed_end_value e n c : signed_expr e = true -> signed n = true -> end_value e n = Ok c -> signed c = true.
Proof.
  unfold end_value, end_size. intros Se Sn H. sgn. destruct (signed_build e Se _ H0) as (A & B & C). sgn_of.
Qed.
Lemma signed_extremum n b d c : signed n = true -> signed_bound b = true -> signed d = true ->
  fix_extremum n b d = Ok c -> signed c = true.
Proof.
  intros Sn Sb Sd H. destruct b as [[z|e]|]; cbn [fix_extremum signed_bound] in *; sgn; try assumption.
  exact (signed_end_value e n c Sb Sn H).
Qed.
Lemma signed_conv t x : is_signed t = true -> signed (conv t x) = true.
Proof. auto. Qed.
Lemma signed_count d s x : signed d = true -> signed s = true -> eval_count d s = Ok x -> signed x = true.
Proof.
  unfold eval_count, fix_count. intros Sd Ss H. destruct (ceqb d (int 0)).
  - sgn. apply signed_conv, signed_common_int, signed_common; assumption.
  - apply bind_inv in H as (y & Y & H). sgn.
    assert (Sw : signed y = true).
    { destruct (clt s (int 0)); [exact (signed_neg _ _ Y Ss)|]. injection Y as <-. unfold signed, conv in *. cbn [cty].
      destruct (cty s); auto. }
    sgn_of.
Qed.
Lemma signed_reshape n sl c : signed n = true -> signed_slc sl = true -> reshape1 n sl = Ok c -> signed c = true.
Proof.
  intros Sn Ss H. destruct sl as [|e|i|i|b s e l]; cbn [reshape1 signed_slc] in *; sgn; try assumption; try reflexivity.
  assert (S3 : signed (match s with Some s => s | None => int 1 end) = true) by (destruct s; auto).
  destruct l as [l|]; [apply (signed_extremum n (Some l) n c Sn H1 Sn); destruct b, e; exact H|].
  assert (G : forall bg en, signed_bound bg = true -> signed_bound en = true ->
    (b <- fix_extremum n bg (int 0) ;; e <- fix_extremum n en n ;;
      match s with
      | Some s =>
          let t := common I32 (common (common (cty e) (cty b)) (cty s)) in
          if cle (int 0) s then d <- csub e b ;; x <- eval_count d s ;; Ok (conv t x)
          else d <- cadd b (CI U8 1) ;; x <- eval_count d s ;; Ok (conv t x)
      | None => d <- csub e b ;; eval_count d (int 1)
      end) = Ok c -> signed c = true).
  { intros bg en Sb Se E. apply bind_inv in E as (x & Ex & E). apply bind_inv in E as (y & Ey & E).
    pose proof (signed_extremum _ _ _ _ Sn Sb (eq_refl : signed (int 0) = true) Ex) as Sx.
    pose proof (signed_extremum _ _ _ _ Sn Se Sn Ey) as Sy. destruct s as [s|].
    - assert (St : is_signed (common I32 (common (common (cty y) (cty x)) (cty s))) = true)
        by (apply signed_common_int, signed_common; [apply signed_common; assumption|exact S3]).
      cbv zeta in E. destruct (cle (int 0) s); sgn; apply signed_conv; exact St.
    - apply bind_inv in E as (d & Ed & E). eapply (signed_count d (int 1) c); [|reflexivity|exact E]. sgn_of. }
  destruct b as [b|]; [exact (G (Some b) e H0 H2 H)|]. destruct e as [e|]; [exact (G None (Some e) H0 H2 H)|].
  exact (signed_count _ _ _ Sn S3 H).
Qed.
Lemma signed_reshapes ns sls cs : forallb signed ns = true -> forallb signed_slc sls = true ->
  mapM2 reshape1 ns sls = Ok cs -> forallb signed cs = true.
Proof.
  revert sls cs. induction ns as [|n ns IH]; intros [|sl sls] cs Sn Ss H; cbn [mapM2 forallb] in *; try discriminate; sgn; [reflexivity|].
  cbn [forallb]. rewrite (signed_reshape n sl x), (IH sls x0); auto.
Qed.

Lemma slice_prog dbg i j c a sh p sls os ks ss : rep c a -> a_dense a = Some (sh, p) -> sliced sh sls os ks ss ->
  (dbg = true -> Forall wide sls) ->
  forallb (Z.ltb 0) ss = true \/ forallb signed sh && forallb signed_slc sls = true ->
  exists c1, slice_container dbg i j c sls = Ok c1 /\
    rep c1 (Arr ks (fun is_ => a_at a (place os ss is_)) None
      (forallb signed sh && forallb signed_slc sls) (negb (forallb (Z.ltb 0) ss))).
Proof.
  intros R D Sl Wd Ps. destruct (rep_is_dense c a sh p R D) as (-> & Df & Es & Ed).
  destruct (sliced_length _ _ _ _ _ Sl) as (L1 & L2 & L3 & L4).
  pose proof Df as (Lg & Ne & _).
  assert (Ln : (1 <= length sls <= length (c_shape c))%nat).
  { rewrite Es in *. rewrite L1. destruct sh; [congruence|]. cbn [length]. lia. }
  assert (Cs : compress (length sls) (c_shape c) = Ok sh).
  { unfold compress. rewrite Es in *. rewrite L1.
    replace ((0 <? length sh)%nat && (length sh <=? length sh)%nat) with true.
    - rewrite Nat.eqb_refl. reflexivity.
    - symmetry. rewrite andb_true_iff, Nat.ltb_lt, Nat.leb_le. lia. }
  assert (Dr : forall tys, (negb (forallb (Z.ltb 0) ss) = true -> Forall (fun t => is_signed t = true) tys) -> directed c sls ss tys).
  { intros tys Ht. destruct (forallb (Z.ltb 0) ss) eqn:E.
    - left. apply Forall_forall. intros s I. rewrite forallb_forall in E. apply Z.ltb_lt, E, I.
    - destruct Ps as [C|Ps]; [discriminate|]. apply andb_true_iff in Ps as [P1 P2]. right.
      split; [rewrite Es; apply forallb_signeds, P1|]. split; [apply Ht; reflexivity|].
      apply Forall_forall. intros sl I. rewrite forallb_forall in P2. specialize (P2 sl I).
      destruct sl as [| | | |b [s|] e l]; auto. cbn [signed_slc] in P2. sgn. assumption. }
  destruct (slice_default_l dbg i j c sls sh os ks ss [] Df Ln Cs Sl Wd (Dr _ ltac:(constructor))) as (v & E & Dv & Lv & _ & _ & _ & El & _).
  exists v. split; [exact E|]. split; [exact Dv|]. split.
  { intros C. unfold dims in Dv. rewrite C in Dv. cbn in Dv. subst ks. cbn in L3. rewrite Es in Ne. destruct sh; [congruence|discriminate]. }
  split; [exact Lv|]. split.
  { intros tys Ht. cbn [a_back] in Ht. destruct (slice_default_l dbg i j c sls sh os ks ss tys Df Ln Cs Sl Wd (Dr _ Ht)) as (v' & E' & _ & _ & A & _).
    rewrite E in E'. injection E' as <-. exact A. }
  split; [intros is_ B; rewrite Dv in B; destruct (El is_ B) as [_ ->]; cbn; rewrite Ed; reflexivity|].
  split; [discriminate|]. cbn [a_signed a_back]. split.
  - intros H. apply andb_true_iff in H as [P1 P2]. apply forallb_signeds.
    unfold slice_container, slice_shape in E. rewrite (proj1 (sliced_guards _ _ _ _ _ Sl)), Cs in E. cbn [bind] in E. sgn.
    eapply signed_reshapes; [exact P1|exact P2|].
    unfold make_view in E. apply bind_inv in E as ([kd stt] & _ & E). injection E as <-. cbn [c_shape]. eassumption.
  - intros H. destruct Ps as [Q|Q]; [rewrite Q in H; discriminate|exact Q].
Qed.

Lemma reverse_prog st c a sh p : rep c a -> a_dense a = Some (sh, p) -> forallb signed sh = true ->
  exists c1, reverse st c = Ok c1 /\
    rep c1 (Arr (vals sh) (fun is_ => a_at a (mirror_coord (vals sh) is_)) None true true).
Proof.
  intros R D Sg. destruct (rep_is_dense c a sh p R D) as (-> & Df & Es & Ed).
  pose proof Df as (Lg & Ne & _). assert (Sc : signeds (c_shape c)) by (rewrite Es; apply forallb_signeds, Sg).
  destruct (reverse_l st c Df Sc) as (rc & E & Er & Ad & El). exists rc. split; [exact E|].
  assert (Dr : dims rc = vals sh) by (unfold dims; rewrite Er, Es; reflexivity).
  split; [exact Dr|]. split; [rewrite Er; exact Ne|]. split; [rewrite Er; exact Lg|]. split.
  { intros tys Ht. specialize (Ht eq_refl). destruct Ad as (A1 & A2 & A3). split; [exact A1|]. split; [|exact A3].
    destruct A2 as [A2|[A2 _]]; [left; exact A2|right; split; [exact A2|exact Ht]]. }
  split.
  { intros is_ B. rewrite Dr in B. assert (Bc : in_box (dims c) is_) by (unfold dims; rewrite Es; exact B).
    rewrite (El is_ Bc). unfold dims in *. rewrite Es in *. cbn [a_at dense]. rewrite (default_elem c _ Df).
    - rewrite Ed. unfold dims. rewrite Es. reflexivity.
    - unfold dims. rewrite Es. apply mirror_box, B. }
  split; [discriminate|]. split; [intros _; rewrite Er; exact Sc|reflexivity].
Qed.

Lemma first_unique {T} (m : mem T) c a (f : T -> bool) r r' : rep c a -> can_read m c c ->
  first_at m c (fun v => f v = true) r -> first_where m a f r' -> option_map (map cval) r = r'.
Proof.
  intros (Ed & _ & _ & _ & El & _) (_ & _ & Cr) H H'. destruct r as [pos|], r' as [is_|]; cbn [option_map first_at first_where] in *.
  - f_equal. destruct H as (_ & B & (v & V & F) & Lo). destruct H' as (B' & (v' & V' & F') & Lo').
    change (map cval pos) with (vals pos). unfold value in *. rewrite (El _ B) in V. rewrite Ed in *.
    destruct (Lo is_ v' B') as [E|Lx]; [rewrite El by exact B'; exact V'|exact F'|congruence|].
    exfalso. rewrite (Lo' (vals pos) v B Lx V) in F. discriminate.
  - exfalso. destruct H as (_ & B & (v & V & F) & _). unfold value in V. rewrite (El _ B) in V. rewrite Ed in B.
    rewrite (H' _ v B V) in F. discriminate.
  - exfalso. destruct H' as (B' & (v' & V' & F') & _). rewrite <- Ed in B'. apply (H is_ v' B'); [|exact F'].
    unfold value. rewrite (El _ B'). exact V'.
  - reflexivity.
Qed.

Lemma last_unique {T} (m : mem T) c a (f : T -> bool) r r' : rep c a ->
  last_at m c (fun v => f v = true) r -> last_where m a f r' -> option_map (map cval) r = r'.
Proof.
  intros (Ed & _ & _ & _ & El & _) H H'. destruct r as [pos|], r' as [is_|]; cbn [option_map last_at last_where] in *.
  - f_equal. destruct H as (_ & B & (v & V & F) & Lo). destruct H' as (B' & (v' & V' & F') & Lo').
    change (map cval pos) with (vals pos). unfold value in *. rewrite (El _ B) in V. rewrite Ed in *.
    destruct (Lo is_ v' B') as [E|Lx]; [rewrite El by exact B'; exact V'|exact F'|congruence|].
    exfalso. rewrite (Lo' (vals pos) v B Lx V) in F. discriminate.
  - exfalso. destruct H as (_ & B & (v & V & F) & _). unfold value in V. rewrite (El _ B) in V. rewrite Ed in B.
    rewrite (H' _ v B V) in F. discriminate.
  - exfalso. destruct H' as (B' & (v' & V' & F') & _). rewrite <- Ed in B'. apply (H is_ v' B'); [|exact F'].
    unfold value. rewrite (El _ B'). exact V'.
  - reflexivity.
Qed.
Lemma first_ext {T} (m : mem T) c (P Q : T -> Prop) r : (forall v, P v <-> Q v) -> first_at m c P r -> first_at m c Q r.
Proof.
  intros E H. destruct r as [pos|]; cbn [first_at] in *.
  - destruct H as (A & B & (v & V & F) & Lo). split; [exact A|]. split; [exact B|]. split; [exists v; split; [exact V|apply E, F]|].
    intros is_ v' B' V' F'. apply (Lo is_ v' B' V'), E, F'.
  - intros is_ v B V F. apply (H is_ v B V), E, F.
Qed.

(** Sorted arrays. *)
Lemma rep_searchable {T} (m : mem T) c a : rep c a -> can_read m c c -> searchable m c.
Proof.
  intros (Ed & Ne & Lg & Ad & _) (_ & _ & Cr). split; [exact Lg|]. split; [exact Ne|]. split; [|exact Cr].
  apply Ad. intros _. clear. induction (c_shape c); constructor; auto.
Qed.
Lemma rep_sorted {T} (m : mem T) (less : T -> T -> bool) c vs : values m c c vs -> in_order less vs -> sorted less m c.
Proof.
  intros V O a b x y A B Lx Hx Hy. unfold values in V.
  assert (G : forall l us, Forall2 (fun is_ v => value m c is_ v) l us -> ForallOrdPairs (fun x y => less y x = false) us ->
    ForallOrdPairs (fun a b => forall x y, value m c a x -> value m c b y -> less y x = false) l).
  { induction 1 as [|i u l us Hi F IH]; intros Ou; [constructor|]. inversion Ou as [|? ? O1 O2]; subst. constructor; [|apply IH, O2].
    clear - Hi F O1. induction F as [|j u' l us Hj F IH]; [constructor|]. inversion O1; subst. constructor; [|apply IH; assumption].
    intros x y X Y. unfold value in *. congruence. }
  specialize (G _ _ V O).
  destruct (in_split b (box (dims c)) (proj2 (box_In _ _) B)) as (pre & l3 & E).
  destruct (in_split a pre (proj2 (OverlapFacts.lex_before _ _ _ _ a E) (conj A Lx))) as (l1 & l2 & ->).
  rewrite <- app_assoc in E. cbn [app] in E. rewrite E in G. clear - G Hx Hy.
  induction l1 as [|z l1 IH]; cbn [app] in G; inversion G as [|? ? G1 G2]; subst; [|apply IH; assumption].
  rewrite Forall_forall in G1. apply (G1 b); [|assumption|assumption]. apply in_or_app. right. left. reflexivity.
Qed.
Lemma search_exists {T} (m : mem T) (less : T -> T -> bool) c vs x b : values m c c vs ->
  (b = true <-> exists is_ v, in_box (dims c) is_ /\ value m c is_ v /\ less v x = false /\ less x v = false) ->
  b = existsb (fun e => negb (less e x) && negb (less x e)) vs.
Proof.
  intros V H. apply Bool.eq_iff_eq_true. rewrite H, existsb_exists. unfold values in V. split.
  - intros (is_ & v & B & Hv & L1 & L2). exists v. rewrite L1, L2. split; [|reflexivity].
    apply box_In in B. clear - V B Hv. induction V as [|i u l us Hi _ IH]; [contradiction|].
    destruct B as [->|B]; [left; unfold value in *; congruence|right; apply IH, B].
  - intros (v & I & E). apply andb_true_iff in E as [L1 L2]. apply negb_true_iff in L1, L2.
    assert (X : exists is_, In is_ (box (dims c)) /\ value m c is_ v).
    { clear - V I. induction V as [|i u l us Hi _ IH]; [contradiction|]. destruct I as [->|I].
      - exists i. split; [left; reflexivity|exact Hi].
      - destruct (IH I) as (j & J & Hj). exists j. split; [right; exact J|exact Hj]. }
    destruct X as (is_ & B & Hv). apply box_In in B. exists is_, v. auto.
Qed.

Lemma match_keep {T} (w : world T) k m t d x : matches w k -> w_tabs w t = Some x -> rep_tab d x ->
  matches (set_mem w m) (with_table k m t (Some d)).
Proof.
  intros (_ & Mt & Mv) E R. split; [reflexivity|]. split; [|exact Mv]. cbn [with_table k_tabs set_mem w_tabs]. intros u.
  unfold bindv. destruct (Nat.eqb_spec u t) as [->|N]; [rewrite E; exact R|apply Mt].
Qed.
Lemma match_keep2 {T} (w : world T) k m t u a b x y : matches w k -> w_tabs w t = Some x -> w_tabs w u = Some y ->
  rep_tab a x -> rep_tab b y -> matches (set_mem w m) (with_table (with_table k m t (Some a)) m u (Some b)).
Proof.
  intros M Ex Ey Ra Rb. pose proof (match_keep w k m t a x M Ex Ra) as M1.
  exact (match_keep (set_mem w m) (with_table k m t (Some a)) m u b y M1 Ey Rb).
Qed.
Lemma contents_fun {T} (m : mem T) a us vs : contents m a us -> contents m a vs -> us = vs.
Proof.
  unfold contents. generalize (box (a_dims a)) as l. intros l H. revert vs. induction H as [|x u l us P _ IH]; intros vs G; inversion G; subst.
  - reflexivity.
  - f_equal; [congruence|apply IH; assumption].
Qed.

Ltac getc M N c R := let E := fresh "E" in destruct (match_get _ _ _ _ M N) as (c & E & R); rewrite E; cbn [bind]; clear E.

Lemma step_sim {S T} dbg (w : world T) (o : op S T) w' r k : wstep dbg w o w' r -> matches w k -> owned w ->
  exists k', kstep dbg k o = Ok (k', r) /\ matches w' k' /\ owned w'.
Proof.
  intros H M O. pose proof M as (Em & Mt & Mv).
  destruct H; cbn [kstep]; rewrite ?Em.
  - (* new *) rewrite (match_fresh_tab w k t M H). cbn [bind].
    pose proof (legal_prod _ H0) as Hp.
    destruct (make_table_prog (w_mem w) m st sh None b H0 H1) as (c & E & R).
    { apply new_block_empty; [lia|exact H2]. }
    rewrite E. cbn [bind]. eexists. split; [reflexivity|]. split; [apply match_set_tab; [exact M|exact R]|].
    eapply owned_give; [exact O|exact H2|]. rewrite repeat_length. lia.
  - (* copy *) rewrite (match_fresh_tab w k t M H). cbn [bind].
    destruct (match_tab w k u x M H0) as (c & E & R). rewrite E. cbn [bind].
    destruct (table_like_prog (w_mem w) m c x c (t_shape x) (base x) vs b R (rep_of_tab _ _ R)) as (c1 & E1 & _ & R1); try assumption.
    { destruct (t_static x); reflexivity. }
    unfold copy_table. rewrite E1. cbn [bind]. eexists. split; [reflexivity|].
    assert (Es : (if t_static x then t_shape x else t_shape x) = t_shape x) by (destruct (t_static x); reflexivity).
    rewrite Es in R1. split; [apply match_set_tab; [exact M|exact R1]|].
    eapply owned_give; [exact O|exact H2|]. rewrite map_length.
    destruct R as ((Lg & _) & Esh & _). rewrite Esh in Lg. apply (contents_dense _ _ _ _ (proj1 (proj2 Lg)) H1).
  - (* table from any *) rewrite (match_fresh_tab w k t M H). cbn [bind]. getc M H0 c R.
    destruct (rep_is_dense c a sh p R H1) as (-> & (Lg & Ne & _) & Es & Ed).
    rewrite Es in *. destruct (contents_dense _ sh p vs (proj1 (proj2 Lg)) H2) as [Lv Hv].
    unfold table_of, settings. rewrite Es, Ed.
    destruct (make_table_prog (w_mem w) m st sh (Some p) b Lg Ne) as (c1 & E1 & R1).
    { eapply new_block_copy; eassumption. }
    rewrite E1. cbn [bind]. eexists. split; [reflexivity|]. split; [apply match_set_tab; [exact M|exact R1]|].
    eapply owned_give; [exact O|exact H3|]. rewrite map_length. exact Lv.
  - (* move *) rewrite (match_fresh_tab w k t M H). cbn [bind].
    destruct (match_tab w k u x M H0) as (c & E & R). rewrite E. cbn [bind].
    assert (K : c_kind c <> KStatic) by (destruct R as (_ & _ & _ & K); intros C; apply K in C; congruence).
    eexists. split; [destruct (c_kind c); try congruence; reflexivity|].
    split; [|apply owned_move; assumption].
    apply match_set_tab; [|exact R]. apply match_set_tab; [exact M|]. destruct R as (D & Es & Ed & Kc).
    split; [exact D|]. split; [exact Es|]. split; [reflexivity|exact Kc].
  - (* move of a stack table *) rewrite (match_fresh_tab w k t M H). cbn [bind].
    destruct (match_tab w k u x M H0) as (c & E & R). rewrite E. cbn [bind].
    assert (K : c_kind c = KStatic) by (destruct R as (_ & _ & _ & K); tauto). rewrite K.
    destruct (table_like_prog (w_mem w) m c x c (t_shape x) (base x) vs b R (rep_of_tab _ _ R)) as (c1 & E1 & _ & R1); try assumption.
    { destruct (t_static x); reflexivity. }
    rewrite (move_stack_prog _ c K), E1. cbn [bind]. eexists. split; [reflexivity|].
    rewrite H1 in R1. split; [apply match_set_tab; [exact M|exact R1]|].
    eapply owned_give; [exact O|exact H3|]. rewrite map_length.
    destruct R as ((Lg & _) & Esh & _). rewrite Esh in Lg. apply (contents_dense _ _ _ _ (proj1 (proj2 Lg)) H2).
  - (* assign *) destruct (match_tab w k t x M H) as (d & E & Rd). rewrite E. cbn [bind]. getc M H0 c R.
    destruct (rep_is_dense c a sh p R H1) as (-> & (Lg & Ne & _) & Es & Ed).
    assert (K : c_kind d <> KStatic) by (destruct Rd as (_ & _ & _ & K); intros C; apply K in C; congruence).
    assert (Ka : match c_kind d with KStatic => assign_stack_table (w_mem w) d c | _ => assign_table (w_mem w) d c end
                 = assign_table (w_mem w) d c) by (destruct (c_kind d); congruence).
    rewrite Ka. clear Ka.
    destruct (table_like_prog (w_mem w) m d x c sh p vs b Rd R) as (c1 & E1 & Kc & R1); try assumption.
    { rewrite H2. exact H3. }
    rewrite H2 in R1. unfold assign_table. rewrite E1. cbn [bind].
    destruct (swap_prog d c1 x _ Rd R1) as (Sa & Sb & Sd); [exact H2| |].
    { rewrite H2. cbn [t_shape]. symmetry. exact H3. }
    destruct (swap_containers d c1) as [d' old]. cbn [fst snd] in *. rewrite Sd.
    destruct (give_spec _ _ _ _ H6) as [Vm _].
    rewrite (release_prog m x (owned_block w t x m O H Vm)). cbn [bind]. eexists. split; [reflexivity|].
    split; [apply match_set_tab; [exact M|exact Sa]|].
    eapply owned_assign; try eassumption. rewrite map_length. rewrite Es in Lg.
    exact (proj1 (contents_dense _ sh p vs (proj1 (proj2 Lg)) H5)).
  - (* assign to a stack table *) destruct (match_tab w k t x M H) as (d & E & Rd). rewrite E. cbn [bind]. getc M H0 c R.
    destruct (rep_is_dense c a sh p R H1) as (-> & _ & _ & _).
    assert (K : c_kind d = KStatic) by (destruct Rd as (_ & _ & _ & K); tauto). rewrite K.
    destruct (t_block x) as [b|] eqn:Eb; [|congruence].
    rewrite (assign_stack_prog (w_mem w) d x c sh p us vs b Rd R H2 Eb (owned_lt w t x b O H Eb) (proj1 (proj1 O t x b H Eb)) H4 H5 H6).
    cbn [bind]. eexists. split; [reflexivity|]. split; [apply (match_keep w k _ t d x M H Rd)|].
    apply owned_mem; [exact O|]. eapply same_trans; [apply same_write|apply same_none].
  - (* swap *) destruct (match_tab w k t x M H) as (a & Ea & Ra). destruct (match_tab w k u y M H0) as (b & Eb & Rb).
    rewrite Ea. cbn [bind]. rewrite Eb. cbn [bind].
    assert (K : c_kind a <> KStatic) by (destruct Ra as (_ & _ & _ & K); intros C; apply K in C; congruence).
    destruct (swap_prog a b x y Ra Rb) as (Sa & Sb & _); [congruence|rewrite H1; exact H3|].
    destruct (swap_containers a b) as [a1 b1] eqn:Esw. eexists. split; [destruct (c_kind a); try congruence; reflexivity|].
    split; [|apply owned_swap; assumption].
    apply match_set_tab; [apply match_set_tab; [exact M|exact Sa]|exact Sb].
  - (* swap of stack tables *) destruct (match_tab w k t x M H) as (a & Ea & Ra). destruct (match_tab w k u y M H0) as (b & Eb & Rb).
    rewrite Ea. cbn [bind]. rewrite Eb. cbn [bind].
    assert (Ka : c_kind a = KStatic) by (destruct Ra as (_ & _ & _ & K); tauto).
    assert (Kb : c_kind b = KStatic) by (destruct Rb as (_ & _ & _ & K); tauto). rewrite Ka.
    rewrite (swap_stack_prog (w_mem w) a b x y us vs Ra Rb H1 H3 H4 H5).
    + cbn [bind]. eexists. split; [reflexivity|]. split.
      * apply match_keep2 with (x := x) (y := y); assumption.
      * apply owned_mem; [exact O|]. eapply same_trans; apply same_write.
    + intros i j Ei Ej ->. pose proof (proj2 O t u x y j H H0 Ei Ej). subst u. rewrite H in H0. injection H0 as <-.
      exact (contents_fun _ _ _ _ H4 H5).
    + exact Kb.
  - (* drop *) destruct (match_tab w k t x M H) as (c & E & R). rewrite E. cbn [bind].
    pose proof R as (_ & _ & Ed & _). rewrite Ed.
    rewrite (release_prog (w_mem w) x (owned_block w t x (w_mem w) O H (fun p V => V))). cbn [bind].
    eexists. split; [reflexivity|]. split; [apply match_set_tab; [exact M|exact I]|apply owned_drop; assumption].
  - (* use *) rewrite (match_fresh_view w k v M H). cbn [bind].
    destruct (make_view_default_l st sh p H0 H1) as (c & E & D & Es & Ed). rewrite E. cbn [bind].
    eexists. split; [reflexivity|]. split; [|exact O]. apply match_set_view; [exact M|apply rep_dense; assumption].
  - (* view *) rewrite (match_fresh_view w k v M H). cbn [bind]. getc M H0 c R.
    destruct (rep_is_dense c a sh p R H1) as (-> & (Lg & Ne & _) & Es & Ed). unfold view_of, settings. rewrite Es, Ed in *.
    destruct (make_view_default_l st sh p Lg Ne) as (c1 & E & D1 & Es1 & Ed1). rewrite E. cbn [bind].
    eexists. split; [reflexivity|]. split; [|exact O]. apply match_set_view; [exact M|apply rep_dense; assumption].
  - (* reshape *) rewrite (match_fresh_view w k v M H). cbn [bind]. getc M H0 c R.
    destruct (rep_is_dense c a sh p R H1) as (-> & _ & Es & Ed). unfold reshape_view, settings. rewrite Ed.
    destruct (make_view_default_l st sh' p H2 H3) as (c1 & E & D1 & Es1 & Ed1). rewrite E. cbn [bind].
    eexists. split; [reflexivity|]. split; [|exact O]. apply match_set_view; [exact M|apply rep_dense; assumption].
  - (* slice *) rewrite (match_fresh_view w k v M H). cbn [bind]. getc M H0 c R.
    destruct (slice_prog dbg i j c a sh p sls os ks ss R H1 H2 H3 H4) as (c1 & E & R1). rewrite E. cbn [bind].
    eexists. split; [reflexivity|]. split; [|exact O]. apply match_set_view; [exact M|exact R1].
  - (* reverse *) rewrite (match_fresh_view w k v M H). cbn [bind]. getc M H0 c R.
    destruct (reverse_prog st c a sh p R H1 H2) as (c1 & E & R1). rewrite E. cbn [bind].
    eexists. split; [reflexivity|]. split; [|exact O]. apply match_set_view; [exact M|exact R1].
  - (* alias *) rewrite (match_fresh_view w k v M H). cbn [bind].
    destruct (match_view w k u a M H0) as (c & E & R). rewrite E. cbn [bind].
    eexists. split; [reflexivity|]. split; [|exact O]. apply match_set_view; [exact M|exact R].
  - (* forget *) destruct (match_view w k v a M H) as (c & E & R). rewrite E. cbn [bind].
    eexists. split; [reflexivity|]. split; [|exact O]. apply match_set_view; [exact M|exact I].
  - (* each *) getc M H c R. destruct (match_gets w k hs as_ M H0) as (cs & E & Rs). rewrite E. cbn [bind].
    rewrite (each_prog f c cs a as_ s (w_mem w) s' m' R Rs H1 H2). cbn [bind fst snd].
    eexists. split; [reflexivity|]. split; [apply match_set_mem, M|apply owned_mem; [exact O|exact (each_same _ _ _ _ _ _ _ H2)]].
  - (* each_index *) getc M H c R. rewrite (each_index_prog f c a s (w_mem w) s' m' R H0 H1). cbn [bind fst snd].
    eexists. split; [reflexivity|]. split; [apply match_set_mem, M|apply owned_mem; [exact O|exact (each_index_same _ _ _ _ _ _ H1)]].
  - (* transform *) getc M H oc Ro. getc M H0 c R. destruct (match_gets w k hs as_ M H1) as (cs & E & Rs). rewrite E. cbn [bind].
    rewrite (transform_prog f oc c cs o a as_ (w_mem w) m' Ro R Rs H2 H3). cbn [bind].
    eexists. split; [reflexivity|]. split; [apply match_set_mem, M|apply owned_mem; [exact O|exact (transform_same _ _ _ _ _ H3)]].
  - (* copy *) getc M H oc Ro. getc M H0 c R.
    rewrite (copy_prog oc c o a (w_mem w) m' Ro R H1 H2). cbn [bind].
    eexists. split; [reflexivity|]. split; [apply match_set_mem, M|apply owned_mem; [exact O|exact (copy_if_same _ _ _ _ _ H2)]].
  - (* copy_if *) getc M H oc Ro. getc M H0 c R.
    rewrite (copy_if_prog f oc c o a (w_mem w) m' Ro R H1 H2). cbn [bind].
    eexists. split; [reflexivity|]. split; [apply match_set_mem, M|apply owned_mem; [exact O|exact (copy_if_same _ _ _ _ _ H2)]].
  - (* fill *) getc M H oc Ro. rewrite (fill_prog v oc o (w_mem w) m' Ro H0 H1). cbn [bind].
    eexists. split; [reflexivity|]. split; [apply match_set_mem, M|apply owned_mem; [exact O|exact (generate_same _ _ _ _ H1)]].
  - (* generate *) getc M H oc Ro. rewrite (generate_prog f oc o (w_mem w) m' Ro H0 H1). cbn [bind].
    eexists. split; [reflexivity|]. split; [apply match_set_mem, M|apply owned_mem; [exact O|exact (generate_same _ _ _ _ H1)]].
  - (* replace_if *) getc M H oc Ro. rewrite (replace_if_prog oc f v o (w_mem w) m' Ro H0 H1). cbn [bind].
    eexists. split; [reflexivity|]. split; [apply match_set_mem, M|apply owned_mem; [exact O|exact (transform_same _ _ _ _ _ H1)]].
  - (* inclusive scan *) getc M H c R. getc M H0 oc Ro.
    rewrite (scan_in_prog c oc init f1 f2 a o (w_mem w) s m' R Ro H1 H2). cbn [bind].
    eexists. split; [reflexivity|]. split; [apply match_set_mem, M|apply owned_mem; [exact O|exact (scan_in_same _ _ _ _ _ _ _ _ H2)]].
  - (* exclusive scan *) getc M H c R. getc M H0 oc Ro.
    rewrite (scan_ex_prog c oc init f1 f2 a o (w_mem w) s m' R Ro H1 H2). cbn [bind].
    eexists. split; [reflexivity|]. split; [apply match_set_mem, M|apply owned_mem; [exact O|exact (scan_ex_same _ _ _ _ _ _ _ _ H2)]].
  - (* reduce *) getc M H c R. destruct (rep_values _ _ _ _ R H0) as [CR V].
    rewrite (reduce_l c f init (w_mem w) vs CR V). cbn [bind fst snd]. rewrite <- Em.
    eexists. split; [reflexivity|]. split; [apply match_same, M|exact O].
  - (* all_of *) getc M H c R. destruct (rep_values _ _ _ _ R H0) as [CR V]. unfold all_of.
    rewrite (reduce_l c _ _ (w_mem w) vs CR V), fold_and. cbn [bind fst snd]. rewrite <- Em, andb_true_l.
    eexists. split; [reflexivity|]. split; [apply match_same, M|exact O].
  - (* any_of *) getc M H c R. destruct (rep_values _ _ _ _ R H0) as [CR V]. unfold any_of.
    rewrite (reduce_l c _ _ (w_mem w) vs CR V), fold_or. cbn [bind fst snd]. rewrite <- Em, orb_false_l.
    eexists. split; [reflexivity|]. split; [apply match_same, M|exact O].
  - (* none_of *) getc M H c R. destruct (rep_values _ _ _ _ R H0) as [CR V]. unfold none_of, any_of.
    rewrite (reduce_l c _ _ (w_mem w) vs CR V), fold_or. cbn [bind fst snd]. rewrite <- Em, orb_false_l.
    eexists. split; [reflexivity|]. split; [apply match_same, M|exact O].
  - (* count_if *) getc M H c R. destruct (rep_values _ _ _ _ R H0) as [CR V].
    rewrite (count_if_l c f (w_mem w) vs CR V (proj2 (rep_prod c a R))). cbn [bind fst snd]. rewrite <- Em.
    eexists. split; [reflexivity|]. split; [apply match_same, M|exact O].
  - (* inner_product *) getc M H c1 R1. getc M H0 c2 R2.
    destruct (rep_values _ _ _ _ R1 H3) as [CR1 V1]. destruct (rep_values _ _ _ _ R2 H4) as [CR2 V2].
    assert (Ed : dims c1 = dims c2) by (destruct R1 as (-> & _), R2 as (-> & _); exact H1).
    assert (CR2' : can_read (w_mem w) c1 c2).
    { destruct R2 as (_ & _ & _ & Ad & _). destruct CR2 as (_ & _ & X). split.
      { apply Ad. intros B. apply (signeds_tys (c_shape c1)). apply R1. apply H2, B. }
      split; [intros x; rewrite Ed; auto|]. rewrite Ed. exact X. }
    assert (V2' : values (w_mem w) c1 c2 us) by (unfold values; rewrite Ed; exact V2).
    rewrite (inner_product_l dbg c1 c2 f1 f2 init (w_mem w) vs us CR1 CR2' V1 V2'); try assumption;
      [|apply R1|apply R2|apply R1].
    cbn [bind fst snd]. rewrite <- Em. eexists. split; [reflexivity|]. split; [apply match_same, M|exact O].
  - (* find *) getc M H c R. destruct (rep_values _ _ _ _ R H0) as [CR V].
    destruct (find_if_first_l c f (w_mem w) CR (rep_dims_bound c a R)) as (r0 & E & Fr). rewrite E. cbn [bind fst snd].
    rewrite (first_unique (w_mem w) c a f r0 r R CR Fr H1), <- Em.
    eexists. split; [reflexivity|]. split; [apply match_same, M|exact O].
  - (* find_last *) getc M H c R. destruct (rep_values _ _ _ _ R H2) as [CR V].
    destruct (rep_is_dense c a sh p R H0) as (-> & Df & Es & _).
    assert (Sc : signeds (c_shape c)) by (rewrite Es; apply forallb_signeds, H1).
    destruct (find_last_if_last_l st c f (w_mem w) Df Sc (proj2 (proj2 CR))) as (r0 & E & Fr). rewrite E. cbn [bind fst snd].
    rewrite (last_unique (w_mem w) c _ f r0 r R Fr H3), <- Em.
    eexists. split; [reflexivity|]. split; [apply match_same, M|exact O].
  - (* lower_bound *) getc M H c R. destruct (rep_values _ _ _ _ R H0) as [CR V].
    destruct (lower_bound_l dbg less c v (w_mem w) (rep_searchable _ _ _ R CR) H1 (rep_sorted _ _ _ _ V H2)) as (r0 & E & Fr).
    rewrite E. cbn [bind].
    rewrite (first_unique (w_mem w) c a (fun e => negb (less e v)) r0 r R CR); [|eapply first_ext; [|exact Fr]|exact H3].
    + eexists. split; [reflexivity|]. split; [exact M|exact O].
    + intros e. cbn beta. rewrite negb_true_iff. reflexivity.
  - (* upper_bound *) getc M H c R. destruct (rep_values _ _ _ _ R H0) as [CR V].
    destruct (upper_bound_l dbg less c v (w_mem w) (rep_searchable _ _ _ R CR) H1 (rep_sorted _ _ _ _ V H2)) as (r0 & E & Fr).
    rewrite E. cbn [bind]. rewrite (first_unique (w_mem w) c a (less v) r0 r R CR Fr H3).
    eexists. split; [reflexivity|]. split; [exact M|exact O].
  - (* binary_search *) getc M H c R. destruct (rep_values _ _ _ _ R H0) as [CR V].
    destruct (binary_search_l dbg less c v (w_mem w) (rep_searchable _ _ _ R CR) H1 (rep_sorted _ _ _ _ V H2)) as (b & E & Fr).
    rewrite E. cbn [bind]. rewrite (search_exists _ _ _ _ _ _ V Fr).
    eexists. split; [reflexivity|]. split; [exact M|exact O].
  - (* get *) getc M H c R. pose proof R as (Ed & _ & _ & Ad & El & _).
    assert (B : in_box (dims c) (vals is_)) by (rewrite Ed; exact H1).
    destruct (strided_access_l (w_mem w) c is_ (Ad _ (fun b => proj1 (signeds_tys is_) (H2 b))) (conj H0 B)) as (G & _).
    rewrite (proj2 (G v)) by (rewrite (El _ B); exact H3). cbn [bind].
    eexists. split; [reflexivity|]. split; [exact M|exact O].
  - (* put *) getc M H c R. pose proof R as (Ed & _ & _ & Ad & El & _).
    assert (B : in_box (dims c) (vals is_)) by (rewrite Ed; exact H1).
    unfold Container.put. rewrite (ref_ok (w_mem w) c is_ (Ad _ (fun b => proj1 (signeds_tys is_) (H2 b))) H0 B).
    + cbn [bind]. rewrite (El _ B), H3. cbn [bind].
      eexists. split; [reflexivity|]. split; [apply match_set_mem, M|apply owned_mem; [exact O|exact (same_store _ _ _ _ H3)]].
    + rewrite (El _ B). unfold store in H3. destruct (validb (w_mem w) (a_at a (vals is_))) eqn:V; [|discriminate].
      apply validb_true. exact V.
  - (* numel *) getc M H c R. pose proof R as (Ed & Ne & Lg & _). unfold c_numel.
    rewrite (numel_ok (c_shape c) Lg Ne). cbn [bind int cval]. fold (dims c). rewrite Ed.
    eexists. split; [reflexivity|]. split; [exact M|exact O].
Qed.

Lemma runs_sim {S T} dbg (p : program S T) n w s w' s' : wruns dbg p n w s w' s' -> forall k, matches w k -> owned w ->
  exists k', kruns dbg p n k s = Ok (k', s') /\ matches w' k' /\ owned w'.
Proof.
  induction 1 as [w s|n w s E|n w s o w1 r w2 s2 E St _ IH]; intros k M O; cbn [kruns].
  - eauto.
  - rewrite E. eauto.
  - rewrite E. destruct (step_sim dbg w o w1 r k St M O) as (k1 & E1 & M1 & O1). rewrite E1. cbn [bind].
    exact (IH k1 M1 O1).
Qed.

Lemma init_sim {T} (m : mem T) : matches (winit m) (kinit m) /\ owned (winit m).
Proof. split; [split; [reflexivity|split; intros; exact I]|split; intros; discriminate]. Qed.

Lemma agrees_l {T} (w : world T) k : matches w k -> agrees w k.
Proof.
  intros (Em & Mt & Mv). split; [exact Em|]. intros [t|v]; cbn [kget names]; unfold var.
  - specialize (Mt t). destruct (k_tabs k t) as [c|], (w_tabs w t) as [x|] eqn:E; try contradiction.
    + apply rep_of_tab in Mt. destruct Mt as (Ed & _ & _ & Ad & El & _). exists (array_of x). split; [eauto|].
      split; [exact Ed|]. split; [exact El|]. intros is_ [W B] Sg. rewrite elem_address; [|apply Ad; intros b; apply signeds_tys, Sg, b|exact W|exact B].
      f_equal. apply El. exact B.
    + intros a (x & Ex & _). congruence.
  - specialize (Mv v). destruct (k_views k v) as [c|], (w_views w v) as [a|] eqn:E; try contradiction.
    + destruct Mv as (Ed & _ & _ & Ad & El & _). exists a. split; [reflexivity|]. split; [exact Ed|]. split; [exact El|].
      intros is_ [W B] Sg. rewrite elem_address; [|apply Ad; intros b; apply signeds_tys, Sg, b|exact W|exact B]. f_equal. apply El. exact B.
    + congruence.
Qed.
