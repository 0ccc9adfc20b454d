(** Proofs about the names of axes. *)
From Coq Require Import ZArith String List Bool Lia.
From Verif Require Import Outcome CInt CIntFacts Spec SpecFacts Shape ShapeSpec ShapeFacts ShapeFacts2 Prefilled
  PrefilledSpec PrefilledFacts PrefilledFacts2 PrefilledFacts3 NamedSize NamedSizeSpec NamedSizeFacts NamedStride
  NamedStrideSpec NamedStrideFacts Names NamesSpec.
Import ListNotations.
Open Scope Z_scope.

(** ** Axes *)
Lemma ity_eqb_spec t u : ity_eqb t u = true <-> t = u.
Proof. destruct t, u; cbn; split; (reflexivity || discriminate). Qed.

Lemma axis_eq_iff_l a b : Forall sane_desc [a; b] ->
  axis_eq a b = true <->
  aid a = aid b /\
  match acont a, acont b with
  | CStatic v, CStatic w => cval v = cval w
  | c, d => c = d
  end.
Proof.
  intros H. inversion H as [|x l Ha H']; subst. inversion H' as [|x l Hb _]; subst.
  unfold axis_eq. rewrite andb_true_iff, axis_id_eqb_spec.
  unfold sane_desc in *. apply and_iff_compat_l.
  destruct (acont a) as [|t|v], (acont b) as [|u|w]; cbn [content_eq]; try (split; (reflexivity || discriminate)).
  - rewrite ity_eqb_spec. split; [intros ->; reflexivity|intros [= ->]; reflexivity].
  - rewrite sane_eqb by assumption. apply Z.eqb_eq.
Qed.

Lemma axis_eq_refl_l a : axis_eq a a = true.
Proof.
  unfold axis_eq. rewrite (proj2 (axis_id_eqb_spec _ _) eq_refl). cbn [andb].
  destruct (acont a); cbn [content_eq]; [reflexivity|apply ity_eqb_spec; reflexivity|apply ceqb_refl].
Qed.

Lemma axis_eq_sym_l a b : axis_eq a b = axis_eq b a.
Proof.
  unfold axis_eq. f_equal.
  - destruct (aid a), (aid b); cbn; try reflexivity; [apply Z.eqb_sym|apply String.eqb_sym].
  - destruct (acont a), (acont b); cbn [content_eq]; try reflexivity; [|apply ceqb_sym].
    match goal with |- ity_eqb ?t ?u = _ => destruct t, u; reflexivity end.
Qed.

Lemma merged_assoc a b c : merged_id (merged_id a b) c = merged_id a (merged_id b c).
Proof. destruct a, b, c; cbn; try reflexivity. f_equal. lia. Qed.


Lemma merged_fold l : forall a, 
  match last_name (a :: l) with
  | Some s => fold_left merged_id l a = AName s
  | None => exists z, fold_left merged_id l a = AIdx z /\ smallest (a :: l) z
  end.
Proof.
  induction l as [|b l IH]; intros a.
  - cbn. destruct a as [z|s]; [|reflexivity]. exists z. split; [reflexivity|]. split; [left; reflexivity|].
    intros y [[= ->]|[]]. lia.
  - cbn [fold_left]. specialize (IH (merged_id a b)). cbn [last_name] in *.
    destruct (last_name l) as [s|]; [exact IH|].
    destruct a as [i|s], b as [m|t]; cbn [merged_id] in *; try exact IH.
    destruct IH as (z & E & I1 & I2). exists z. split; [exact E|]. split.
    + destruct I1 as [[= <-]|I1]; [|right; right; exact I1]. destruct (Z.min_spec m i) as [[_ ->]|[_ ->]]; [right; left|left]; reflexivity.
    + intros y [[= <-]|[[= <-]|Hy]].
      * pose proof (I2 _ (or_introl eq_refl)). lia.
      * pose proof (I2 _ (or_introl eq_refl)). lia.
      * apply I2. right. exact Hy.
Qed.

Definition sized (x : axis_id * cint) : desc := {| aid := fst x; acont := CStatic (snd x) |}.

Lemma axes_fold l : forall a v w, kfold_right cmul (map snd l) v = Ok w ->
  kfold_right axis_compress (map sized l) (sized (a, v)) = Ok (sized (fold_left merged_id (map fst l) a, w)).
Proof.
  induction l as [|[b x] l IH]; intros a v w H; cbn [map kfold_right fold_left fst snd] in *; [injection H as <-; reflexivity|].
  apply bind_inv in H as (y & Hy & H). unfold axis_compress at 1. cbn [sized acont aid content_mul fst snd].
  rewrite Hy. cbn [bind]. exact (IH (merged_id a b) y w H).
Qed.

Lemma merged_axes_l l a v : legal (v :: map snd l) ->
  exists d w, kfold_right axis_compress (map sized l) (sized (a, v)) = Ok d /\
    acont d = CStatic w /\ cval w = prod (vals (v :: map snd l)) /\
    match last_name (a :: map fst l) with
    | Some s => aid d = AName s
    | None => exists z, aid d = AIdx z /\ smallest (a :: map fst l) z
    end.
Proof.
  intros HL. destruct (legal_cons _ _ HL) as (W & B & P & L').
  destruct (kfold_right_prod (map snd l) v W) as (c & E & V & _); try lia; [apply legal_wf, L'|apply legal_nonneg, L'|].
  eexists _, c. split; [exact (axes_fold l a v c E)|]. split; [reflexivity|]. split.
  - unfold vals in *. cbn [map]. rewrite prod_cons. exact V.
  - exact (merged_fold (map fst l) a).
Qed.

(** ** compress *)
Lemma fold_mul es : Forall (fun e => e <> EJoker) es -> forall e w, e <> EJoker ->
  kfold_right cmul (map v1 es) (v1 e) = Ok w ->
  exists x, kfold_right ext_mul es e = Ok x /\ v1 x = w /\ x <> EJoker /\ stat x = forallb stat (e :: es).
Proof.
  induction 1 as [|m es Hm _ IH]; intros e w He H; cbn [map kfold_right] in *.
  - injection H as <-. exists e. cbn. rewrite andb_true_r. auto.
  - apply bind_inv in H as (y & Hy & H).
    assert (X : exists x, ext_mul e m = Ok x /\ v1 x = y /\ x <> EJoker /\ stat x = stat e && stat m).
    { destruct e as [|c|c], m as [|d|d]; try congruence; cbn [value_or] in Hy; cbn [ext_mul]; rewrite Hy;
        (eexists; split; [reflexivity|]; split; [reflexivity|]; split; [discriminate|reflexivity]). }
    destruct X as (x & Ex & Vx & Jx & Sx). rewrite Ex, bind_ok. rewrite <- Vx in H.
    destruct (IH x w Jx H) as (z & Ez & Vz & Jz & Sz). exists z. split; [exact Ez|]. split; [exact Vz|]. split; [exact Jz|].
    rewrite Sz. cbn [forallb]. rewrite Sx. destruct (stat e), (stat m), (forallb stat es); reflexivity.
Qed.

Lemma descs_positional t : map aid (arg_descs (map APos t)) = unnamed_axes (length t).
Proof.
  apply nth_ext_error.
  - unfold unnamed_axes. rewrite !map_length, descs_length, map_length, seq_length. reflexivity.
  - intros k. unfold unnamed_axes. rewrite !nth_error_map. destruct (nth_error t k) as [e|] eqn:E.
    + rewrite (descs_nth (map APos t) k (APos e)) by (rewrite nth_error_map, E; reflexivity).
      cbn [option_map aid arg_axis]. rewrite map_length.
      assert (K : (k < length t)%nat) by (apply nth_error_Some; rewrite E; discriminate).
      rewrite (nth_error_nth' (seq 0 (length t)) 0%nat) by (rewrite seq_length; exact K).
      rewrite seq_nth by exact K. cbn [option_map]. unfold implicit. do 2 f_equal. lia.
    + apply nth_error_None in E.
      rewrite (proj2 (nth_error_None (arg_descs (map APos t)) k)) by (rewrite descs_length, map_length; exact E).
      rewrite (proj2 (nth_error_None (seq 0 (length t)) k)) by (rewrite seq_length; exact E). reflexivity.
Qed.

Lemma of_size_positional dbg t : Forall wf_extent t -> Forall (fun e => e <> EJoker) t ->
  exists q, of_size_args dbg (map APos t) = Ok q /\ wfp q /\ to_values q = Ok (map v1 t) /\
    map aid (pdesc q) = unnamed_axes (length t) /\ map acont (pdesc q) = map to_descriptor t.
Proof.
  intros Wt Jt.
  assert (HG : Forall2 given_value (map APos t) t).
  { clear - Wt. induction Wt; constructor; [constructor; assumption|assumption]. }
  assert (HN : names (map APos t) = []) by (clear; induction t; [reflexivity|assumption]).
  destruct (build_args_l dbg 0 (map APos t) t) as (q & E & Wq & D & Vq & _).
  - unfold in_ty; simpl; lia.
  - exact HG.
  - apply descs_distinct; rewrite HN; constructor.
  - exists q. split; [exact E|]. split; [exact Wq|]. split.
    { rewrite Vq. f_equal. clear - Jt. induction Jt as [|e t He _ IH]; [reflexivity|]. cbn [map]. rewrite IH.
      destruct e; [congruence|reflexivity..]. }
    rewrite D. split; [apply descs_positional|]. rewrite descs_contents, map_map. reflexivity.
Qed.

Lemma ext_of_wf ds vs : Forall wfc vs -> Forall wf_extent (map2 ext_of ds vs).
Proof.
  intros F. revert ds. induction F as [|v vs Hv _ IH]; intros [|d ds]; cbn [map2]; constructor; [|apply IH].
  unfold ext_of. destruct (is_dynamic d); exact Hv.
Qed.

Lemma ext_of_contents ds : forall vs k e, nth_error (map2 ext_of ds vs) k = Some e ->
  exists d v, nth_error ds k = Some d /\ nth_error vs k = Some v /\ e = ext_of d v.
Proof.
  induction ds as [|d ds IH]; intros [|v vs] [|k] e H; cbn [map2 nth_error] in *; try discriminate.
  - injection H as <-. eauto.
  - exact (IH vs k e H).
Qed.

Lemma stat_desc d v : stat (ext_of d v) = true <-> known d.
Proof.
  unfold ext_of. destruct (is_dynamic d) eqn:E; cbn [stat].
  - split; [discriminate|]. intros [c Hc]. apply is_dynamic_runtime in E. exfalso. exact (E c Hc).
  - split; [intros _; apply is_dynamic_static, E|reflexivity].
Qed.

Lemma stat_forall ds : forall vs k, length ds = length vs ->
  forallb stat (firstn k (map2 ext_of ds vs)) = true <-> Forall known (firstn k ds).
Proof.
  induction ds as [|d ds IH]; intros [|v vs] k L; try discriminate; destruct k as [|k]; cbn [map2 firstn forallb];
    try (split; [constructor|reflexivity]).
  rewrite andb_true_iff, stat_desc, (IH vs k) by (simpl in L; lia).
  split; [intros [A B]; constructor; assumption|intros F; inversion F; auto].
Qed.

Lemma known_stat d e : e <> EJoker -> acont d = to_descriptor e -> known d <-> stat e = true.
Proof. intros N H. symmetry. apply stat_known; assumption. Qed.

Lemma skipn_wf k l : Forall wf_extent l -> Forall wf_extent (skipn k l).
Proof. intros F. rewrite <- (firstn_skipn k l) in F. apply Forall_app in F. exact (proj2 F). Qed.
Lemma skipn_nj k (l : list extent) : Forall (fun e => e <> EJoker) l -> Forall (fun e => e <> EJoker) (skipn k l).
Proof. intros F. rewrite <- (firstn_skipn k l) in F. apply Forall_app in F. exact (proj2 F). Qed.

Lemma pcompress_shape_l dbg p vs n : wfp p -> to_values p = Ok vs -> legal vs -> (1 <= n <= length vs)%nat ->
  exists q, pcompress dbg n p = Ok q /\ wfp q /\ to_values q = compress n vs /\
    (n = length vs -> q = p) /\
    ((n < length vs)%nat ->
       map aid (pdesc q) = unnamed_axes n /\
       (forall d, nth_error (pdesc q) 0 = Some d -> (known d <-> Forall known (firstn (length vs - n + 1) (pdesc p)))) /\
       (forall k d e, (0 < k)%nat -> nth_error (pdesc q) k = Some d ->
          nth_error (pdesc p) (length vs - n + k) = Some e -> (known d <-> known e))).
Proof.
  intros W V HL Hn. rewrite to_values_ok in V by exact W. injection V as V'.
  pose proof (values_length p W) as LV. rewrite V' in LV.
  unfold pcompress, compress. rewrite <- LV.
  assert (E : ((0 <? n) && (n <=? length vs))%nat = true).
  { rewrite andb_true_iff, Nat.ltb_lt, Nat.leb_le. lia. }
  rewrite E. destruct (Nat.eqb_spec n (length vs)) as [->|Hne].
  - exists p. split; [reflexivity|]. split; [exact W|]. split; [rewrite to_values_ok, V' by exact W; reflexivity|].
    split; [reflexivity|lia].
  - pose proof (pextents_ok p W) as EX. rewrite V', <- LV in EX. rewrite EX, bind_ok.
    set (k0 := (length vs - n + 1)%nat). set (es := map2 ext_of (pdesc p) vs).
    assert (Ves : map v1 es = vs) by (apply ext_of_vals; symmetry; exact LV).
    assert (Les : length es = length vs) by (rewrite <- (map_length v1 es), Ves; reflexivity).
    assert (Wes : Forall wf_extent es) by (apply ext_of_wf, legal_wf, HL).
    assert (Jes : Forall (fun e => e <> EJoker) es) by apply ext_of_nj.
    assert (Lk : length (firstn k0 es) = k0) by (apply firstn_length_le; unfold k0; lia).
    assert (Fv : firstn k0 vs = map v1 (firstn k0 es)) by (rewrite <- firstn_map, Ves; reflexivity).
    assert (Sv : skipn k0 vs = map v1 (skipn k0 es)) by (rewrite <- skipn_map, Ves; reflexivity).
    rewrite Fv, Sv.
    destruct (firstn k0 es) as [|h hs] eqn:Ef; [exfalso; simpl in Lk; unfold k0 in Lk; lia|].
    assert (Jh : Forall (fun e => e <> EJoker) (h :: hs)).
    { rewrite <- Ef. rewrite <- (firstn_skipn k0 es) in Jes. apply Forall_app in Jes. exact (proj1 Jes). }
    assert (Lh : legal (v1 h :: map v1 hs)).
    { change (legal (map v1 (h :: hs))). rewrite <- Fv.
      rewrite <- (firstn_skipn k0 vs) in HL. exact (proj1 (legal_app _ _ HL)). }
    inversion Jh as [|x l Jx Jl]; subst x l.
    destruct (legal_cons _ _ Lh) as (Wh & Bh & Ph & Lhs).
    destruct (kfold_right_prod (map v1 hs) (v1 h) Wh) as (c & Ec & Cv & Wc); try lia;
      [apply legal_wf, Lhs|apply legal_nonneg, Lhs|].
    destruct (fold_mul hs Jl h c Jx Ec) as (x & Ex & Vx & Jx' & Sx).
    cbn [map]. rewrite Ec, Ex, !bind_ok.
    set (t := x :: skipn k0 es).
    destruct (of_size_positional dbg t) as (q & Eq & Wq & Vq & Aq & Cq).
    { constructor; [|apply skipn_wf, Wes]. destruct x; [congruence|cbn in Vx; subst c; exact Wc..]. }
    { constructor; [exact Jx'|apply skipn_nj, Jes]. }
    assert (Lt : length t = n) by (unfold t; cbn [length]; rewrite skipn_length, Les; unfold k0; lia).
    exists q. split; [exact Eq|]. split; [exact Wq|]. split; [rewrite Vq; unfold t; cbn [map]; rewrite Vx; reflexivity|].
    split; [lia|]. intros _. split; [rewrite Aq, Lt; reflexivity|].
    assert (Cn : forall k d, nth_error (pdesc q) k = Some d -> exists e, nth_error t k = Some e /\ acont d = to_descriptor e).
    { intros k d Hk. assert (X : nth_error (map acont (pdesc q)) k = nth_error (map to_descriptor t) k) by (rewrite Cq; reflexivity).
      rewrite !nth_error_map, Hk in X. destruct (nth_error t k) as [e|]; [|discriminate]. injection X as X. eauto. }
    split.
    + intros d Hd. destruct (Cn 0%nat d Hd) as (e & He & Ce). injection He as <-.
      rewrite (known_stat d x Jx' Ce), Sx, <- Ef. unfold es. apply stat_forall. symmetry. exact LV.
    + intros k d e Hk Hd He. destruct (Cn k d Hd) as (y & Hy & Cy).
      destruct k as [|k]; [lia|]. unfold t in Hy. cbn [nth_error] in Hy. rewrite nth_skipn_l in Hy.
      replace (length vs - n + S k)%nat with (k0 + k)%nat in He by (unfold k0; lia).
      destruct (ext_of_contents (pdesc p) vs _ _ Hy) as (d' & v & Hd' & Hv & ->).
      rewrite He in Hd'. injection Hd' as <-.
      rewrite (known_stat d (ext_of e v)); [apply stat_desc| |exact Cy].
      unfold ext_of. destruct (is_dynamic e); discriminate.
Qed.

Lemma user_not_unnamed a n : user_axis a -> ~ In a (unnamed_axes n).
Proof.
  intros U H. unfold unnamed_axes in H. apply in_map_iff in H as (k & <- & Hk). apply in_seq in Hk. cbn in U. lia.
Qed.

Lemma find_axis_none ds a : ~ In a (map aid ds) -> find_axis ds a = length ds.
Proof.
  intros H. unfold find_axis. induction ds as [|d ds IH]; [reflexivity|]. cbn [locate length].
  destruct (axis_id_eqb (aid d) a) eqn:E.
  - exfalso. apply H. left. apply axis_id_eqb_spec. exact E.
  - rewrite IH; [reflexivity|]. intros I. apply H. right. exact I.
Qed.

Lemma missing_axis p a : ~ In a (map aid (pdesc p)) -> pget_axis p a = UB.
Proof.
  intros H. unfold pget_axis, pget. rewrite (find_axis_none _ _ H).
  rewrite (proj2 (nth_error_None (pdesc p) _)) by lia. reflexivity.
Qed.

Lemma compressed_names_l dbg p vs n q a : wfp p -> to_values p = Ok vs -> legal vs -> (1 <= n < length vs)%nat ->
  pcompress dbg n p = Ok q -> user_axis a -> pget_axis q a = UB.
Proof.
  intros W V HL Hn E U. destruct (pcompress_shape_l dbg p vs n W V HL ltac:(lia)) as (q' & E' & _ & _ & _ & H).
  rewrite E in E'. injection E' as <-. apply missing_axis. rewrite (proj1 (H ltac:(lia))). apply user_not_unnamed, U.
Qed.

Lemma pshape_eq_l dbg p q vs ws : wfp p -> to_values p = Ok vs -> legal vs -> vs <> [] ->
  wfp q -> to_values q = Ok ws -> legal ws -> ws <> [] -> pshape_eq dbg p q = shape_eq vs ws.
Proof.
  intros Wp Vp Lp Np Wq Vq Lq Nq. unfold pshape_eq, shape_eq.
  assert (Dp : length (pdesc p) = length vs).
  { rewrite to_values_ok in Vp by exact Wp. injection Vp as <-. symmetry. apply values_length, Wp. }
  assert (Dq : length (pdesc q) = length ws).
  { rewrite to_values_ok in Vq by exact Wq. injection Vq as <-. symmetry. apply values_length, Wq. }
  rewrite Dp, Dq. set (n := Nat.min (length vs) (length ws)).
  assert (0 < length vs)%nat by (destruct vs; [congruence|simpl; lia]).
  assert (0 < length ws)%nat by (destruct ws; [congruence|simpl; lia]).
  destruct (pcompress_shape_l dbg p vs n Wp Vp Lp ltac:(unfold n; lia)) as (a & Ea & Wa & Va & _).
  destruct (pcompress_shape_l dbg q ws n Wq Vq Lq ltac:(unfold n; lia)) as (b & Eb & Wb & Vb & _).
  rewrite Ea, Eb, !bind_ok, Va, Vb. reflexivity.
Qed.

(** ** Conversions *)
Definition source_extents (dst : list desc) (src : prefilled) : list extent :=
  repeat (EInt (int 1)) (length dst - length (pdesc src)) ++ map EInt (values src).

Lemma convert_values dbg dst src p : wfp src -> (length (pdesc src) <= length dst)%nat ->
  shape_convert dbg dst src = Ok p ->
  pdesc p = dst /\ wfp p /\ values p = map2 (expected (int 0)) dst (source_extents dst src) /\
  dbg && clash dst (source_extents dst src) = false /\
  map aid (skipn (length dst - length (pdesc src)) dst) = map aid (pdesc src).
Proof.
  intros W L E. unfold shape_convert in E. destruct (is_contructible_from dst (pdesc src)) eqn:C; [|discriminate].
  assert (A : map aid (skipn (length dst - length (pdesc src)) dst) = map aid (pdesc src)).
  { unfold is_contructible_from in C. destruct (Nat.eqb_spec (length dst) (length (pdesc src))) as [He|Hne].
    - rewrite He, Nat.sub_diag. cbn [skipn]. apply andb_true_iff in C. apply equivalent_iff, C.
    - destruct (Nat.ltb_spec (length (pdesc src)) (length dst)); [|lia]. apply andb_true_iff in C. apply equivalent_iff, C. }
  assert (Ls : length (source_extents dst src) = length dst).
  { unfold source_extents. rewrite app_length, repeat_length, map_length, values_length by exact W. lia. }
  assert (E' : construct_from dbg (int 0) 0 (source_extents dst src) (pdefault dst) = Ok p).
  { rewrite <- E. unfold shape_construct, source_extents.
    destruct (Nat.eqb_spec (length dst) (length (pdesc src))) as [He|Hne].
    - unfold pconvert. rewrite <- He, Nat.eqb_refl, to_values_ok by exact W. cbn [bind].
      rewrite convert_is_construct, Nat.sub_diag. reflexivity.
    - destruct (Nat.ltb_spec (length (pdesc src)) (length dst)) as [Hl|]; [|lia].
      rewrite to_values_ok by exact W. cbn [bind]. unfold pconstruct. fold (source_extents dst src).
      rewrite Ls, Nat.leb_refl, Nat.sub_diag. reflexivity. }
  destruct (construct_full_ok dbg dst (int 0) (source_extents dst src) Ls) as [F G].
  destruct (dbg && clash dst (source_extents dst src)) eqn:X; [rewrite (F eq_refl) in E'; discriminate|].
  destruct (G eq_refl) as (p' & E2 & D & W' & V). rewrite E' in E2. injection E2 as <-. auto.
Qed.

Lemma clash_nth ds : forall es i d e, clash ds es = false -> nth_error ds i = Some d -> nth_error es i = Some e ->
  contradictsb d e = false.
Proof.
  induction ds as [|x ds IH]; intros [|y es] [|i] d e H Hd He; cbn [clash nth_error] in *; try discriminate;
    apply orb_false_iff in H; destruct H as [H1 H2].
  - injection Hd as <-. injection He as <-. exact H1.
  - exact (IH es i d e H2 Hd He).
Qed.

(** The place of an axis of the source, in the result. *)
Lemma converted_place dst sds a : distinct_axes dst -> (length sds <= length dst)%nat ->
  map aid (skipn (length dst - length sds) dst) = map aid sds -> In a (map aid sds) ->
  find_axis dst a = (length dst - length sds + find_axis sds a)%nat /\ (find_axis sds a < length sds)%nat.
Proof.
  intros D L A I. destruct (find_axis_spec sds a I) as (e & He & Ae).
  assert (Hi : (find_axis sds a < length sds)%nat) by (apply nth_error_Some; rewrite He; discriminate).
  split; [|exact Hi].
  assert (X : nth_error (map aid sds) (find_axis sds a) = Some a) by (rewrite nth_error_map, He; cbn; congruence).
  rewrite <- A, nth_error_map, nth_skipn_l in X.
  destruct (nth_error dst (length dst - length sds + find_axis sds a)) as [d|] eqn:Hd; [|discriminate].
  cbn in X. injection X as <-. exact (find_axis_unique dst _ d D Hd).
Qed.

Lemma conversion_names_l dbg dst src p a : wfp src -> distinct_axes dst -> (length (pdesc src) <= length dst)%nat ->
  shape_convert dbg dst src = Ok p -> In a (map aid (pdesc src)) ->
  exists d v, In d dst /\ aid d = a /\ pget_axis src a = Ok v /\
    pget_axis p a = Ok (match acont d with CStatic c => c | _ => conv (axis_type d) v end) /\
    (dbg = true -> forall c, acont d = CStatic c -> sane c -> sane v -> cval v = cval c).
Proof.
  intros W D L E I. destruct (convert_values dbg dst src p W L E) as (Dp & Wp & Vp & C & A).
  destruct (converted_place dst (pdesc src) a D L A I) as [P Hi].
  set (i := find_axis (pdesc src) a) in *. set (k := (length dst - length (pdesc src))%nat) in *.
  destruct (nth_error (values src) i) as [v|] eqn:Hv;
    [|apply nth_error_None in Hv; rewrite values_length in Hv by exact W; lia].
  destruct (nth_error dst (k + i)) as [d|] eqn:Hd; [|apply nth_error_None in Hd; unfold k in Hd; lia].
  assert (He : nth_error (source_extents dst src) (k + i) = Some (EInt v)).
  { unfold source_extents. fold k. rewrite nth_error_app2 by (rewrite repeat_length; lia).
    rewrite repeat_length, nth_error_map. replace (k + i - k)%nat with i by lia. rewrite Hv. reflexivity. }
  exists d, v. split; [exact (nth_error_In _ _ Hd)|]. split.
  { assert (Id : In a (map aid dst)).
    { rewrite <- (firstn_skipn k dst), map_app. apply in_or_app. right. rewrite A. exact I. }
    destruct (find_axis_spec dst a Id) as (d' & Hd' & Ad'). rewrite P, Hd in Hd'. injection Hd' as <-. exact Ad'. }
  split; [unfold pget_axis; fold i; rewrite pget_ok, Hv by exact W; reflexivity|]. split.
  - unfold pget_axis. rewrite Dp, P, pget_ok, Vp, (nth_map2 _ _ _ _ _ _ Hd He) by exact Wp.
    unfold expected. destruct (acont d); reflexivity.
  - intros -> c Hc Sc Sv. cbn [andb] in C. pose proof (clash_nth _ _ _ _ _ C Hd He) as N.
    unfold contradictsb in N. rewrite Hc in N. apply negb_false_iff in N. rewrite sane_eqb in N by assumption.
    apply Z.eqb_eq, N.
Qed.

Lemma conversion_new_axes_l dbg dst src p d : wfp src -> distinct_axes dst -> (length (pdesc src) <= length dst)%nat ->
  shape_convert dbg dst src = Ok p -> In d (firstn (length dst - length (pdesc src)) dst) -> runtime d ->
  pget_axis p (aid d) = Ok (conv (axis_type d) (int 1)).
Proof.
  intros W D L E I R. destruct (convert_values dbg dst src p W L E) as (Dp & Wp & Vp & C & A).
  set (k := (length dst - length (pdesc src))%nat) in *.
  apply In_nth_error in I as [i Hi].
  assert (Lk : (i < k)%nat).
  { assert (i < length (firstn k dst))%nat by (apply nth_error_Some; rewrite Hi; discriminate).
    rewrite firstn_length in H. lia. }
  assert (Hd : nth_error dst i = Some d).
  { rewrite <- (firstn_skipn k dst), nth_error_app1; [exact Hi|]. apply nth_error_Some. rewrite Hi. discriminate. }
  assert (He : nth_error (source_extents dst src) i = Some (EInt (int 1))).
  { unfold source_extents. fold k. rewrite nth_error_app1 by (rewrite repeat_length; lia).
    rewrite (nth_error_nth' _ (EInt (int 1))) by (rewrite repeat_length; lia). f_equal. apply nth_repeat. }
  unfold pget_axis. rewrite Dp, (find_axis_unique dst i d D Hd), pget_ok, Vp, (nth_map2 _ _ _ _ _ _ Hd He) by exact Wp.
  unfold expected. destruct (acont d) eqn:X; [reflexivity..|]. exfalso. exact (R _ X).
Qed.

Lemma conversion_same_axes_l dbg dst src : length dst = length (pdesc src) -> map aid dst <> map aid (pdesc src) ->
  shape_convert dbg dst src = UB.
Proof.
  intros L N. unfold shape_convert, is_contructible_from. rewrite L, Nat.eqb_refl.
  destruct (is_equivalent dst (pdesc src)) eqn:E; [|reflexivity].
  apply equivalent_iff in E. contradiction.
Qed.

Lemma narrowing_names_l dbg dst src : all_runtime dst -> (length dst < length (pdesc src))%nat ->
  map aid dst <> unnamed_axes (length dst) ->
  is_contructible_from dst (pdesc src) = true /\ shape_convert dbg dst src = UB.
Proof.
  intros R L N. split.
  - apply constructible_runtime; [exact R|]. lia.
  - apply shape_convert_unfit; [exact R|]. unfold axes_fit. destruct (Nat.leb_spec (length (pdesc src)) (length dst)); [lia|exact N].
Qed.

Lemma compress_loses_names_l dbg p vs n : wfp p -> to_values p = Ok vs -> legal vs -> (1 <= n <= length vs)%nat ->
  exists q ws, pcompress dbg n p = Ok q /\ wfp q /\ to_values q = Ok ws /\
    vals ws = merge_axes (length vs - n + 1) (vals vs) /\
    (n = length vs -> q = p) /\
    ((n < length vs)%nat ->
       map aid (pdesc q) = unnamed_axes n /\
       (forall d, nth_error (pdesc q) 0 = Some d -> (known d <-> Forall known (firstn (length vs - n + 1) (pdesc p)))) /\
       (forall k d e, (0 < k)%nat -> nth_error (pdesc q) k = Some d ->
          nth_error (pdesc p) (length vs - n + k) = Some e -> (known d <-> known e))).
Proof.
  intros W V HL Hn. destruct (pcompress_shape_l dbg p vs n W V HL Hn) as (q & E & Wq & Vq & A & B).
  destruct (compress_ok n vs HL Hn) as (ws & Ew & Vw & _). rewrite Ew in Vq. exists q, ws. auto 8.
Qed.

Lemma shape_equality_names_l dbg p q vs ws : wfp p -> to_values p = Ok vs -> legal vs -> vs <> [] ->
  wfp q -> to_values q = Ok ws -> legal ws -> ws <> [] ->
  exists b, pshape_eq dbg p q = Ok b /\
    (length vs = length ws -> (b = true <-> vals vs = vals ws)) /\
    forall dbg' p' q', wfp p' -> wfp q' -> to_values p' = Ok vs -> to_values q' = Ok ws -> pshape_eq dbg' p' q' = Ok b.
Proof.
  intros Wp Vp Lp Np Wq Vq Lq Nq. destruct (shape_eq_ok vs ws Lp Lq Np Nq) as (b & Eb & Hb).
  exists b. split; [rewrite (pshape_eq_l dbg p q vs ws); assumption|]. split.
  - intros L. rewrite Hb, L, Nat.min_id, Nat.sub_diag. cbn [Nat.add].
    assert (A : forall l : list cint, l <> [] -> merge_axes 1 (vals l) = vals l).
    { intros [|x l] H; [congruence|]. apply (prod_firstn_1 (cval x) (vals l)). }
    rewrite !A by assumption. reflexivity.
  - intros dbg' p' q' Wp' Wq' Vp' Vq'. rewrite (pshape_eq_l dbg' p' q' vs ws); assumption.
Qed.
