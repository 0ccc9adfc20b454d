(** Proofs about what is known at compile time about a slice of a container. *)
From Coq Require Import ZArith List Bool Lia.
From Verif Require Import Outcome CInt CIntFacts Spec SpecFacts Shape ShapeSpec ShapeFacts ShapeFacts2 Prefilled
  PrefilledSpec PrefilledFacts PrefilledFacts2 PrefilledFacts3 NamedSize NamedSizeSpec NamedStride NamedStrideSpec NamedStrideFacts EndRatio
  Memory Container ContainerSpec ContainerFacts ContainerFacts2 AlgoFacts4 Slicer SlicerSpec SlicerFacts SlicerFacts2 SlicerFacts3
  SliceText Names NamesSpec NamesFacts SliceKinds SliceKindsSpec SliceKindsFacts.
Import ListNotations.
Open Scope Z_scope.

Lemma fully_static_known ds : is_fully_static ds = true <-> Forall known ds.
Proof.
  rewrite fully_static_nb. induction ds as [|d ds IH]; [split; [constructor|reflexivity]|].
  rewrite Forall_cons_iff, <- IH. clear IH. unfold known. cbn [nb_runtime].
  destruct (acont d) as [|t|v] eqn:E.
  1, 2: split; [discriminate|intros [[x X] _]; discriminate].
  split; [intros H; split; [exists v; reflexivity|exact H]|intros [_ H]; exact H].
Qed.

Lemma pslice_container_l dbg c p r sls cs os ks ss tys : described c p r -> default_layout c ->
  (1 <= length sls <= length (c_shape c))%nat -> compress (length sls) (c_shape c) = Ok cs ->
  sliced cs (map plain_slc sls) os ks ss -> (dbg = true -> Forall wide (map plain_slc sls)) ->
  directed c (map plain_slc sls) ss tys -> runtime_starts p sls ->
  exists v q s, pslice_container dbg c p r sls = Ok (v, q, s) /\ described v q s /\ dims v = ks /\
    (c_kind v = KStatic <-> Forall known (pdesc q) /\ Forall known (pdesc s)) /\
    slice_container dbg (is_fully_static (pdesc q)) (is_fully_static (pdesc s)) c (map plain_slc sls) = Ok v /\
    map aid (pdesc q) = unnamed_axes (length sls) /\ map aid (pdesc s) = unnamed_axes (length sls) /\
    (forall k d sl, nth_error (pdesc q) k = Some d -> nth_error sls k = Some sl ->
      (known d -> extent_constant (Forall known (grouped (length sls) k (pdesc p))) sl) /\
      (~ stepped_range sl -> extent_constant (Forall known (grouped (length sls) k (pdesc p))) sl -> known d)) /\
    (forall k d e sl, nth_error (pdesc s) k = Some d -> nth_error (pdesc r) (length (pdesc r) - length sls + k) = Some e ->
      nth_error sls k = Some sl -> (known d <-> stride_constant (known e) sl)).
Proof.
  intros (Wp & Vp & Wr & Fr & Gr) D N C Sl Wd Dr Rt. pose proof D as (Lg & Ne & _).
  destruct (pslice_shape_l dbg p (c_shape c) cs sls os ks ss Wp Vp Lg C (proj2 Sl)) as (q & ws & Eq & Wq & Vq & Kq & Sq & Aq & Xq).
  destruct (default_stride_any c D) as (st & Gs & Ws & Vs & Ls & _).
  rewrite Gs in Gr. symmetry in Gr. rewrite Gr in Fr.
  destruct (slice_default_l dbg true true c (map plain_slc sls) cs os ks ss tys D) as (v0 & Ev0 & _);
    try rewrite map_length; try assumption.
  assert (exists st', slice_stride (compress_stride (length sls) st) (map plain_slc sls) = Ok st') as (st' & Est).
  { unfold slice_container in Ev0. rewrite (proj1 (sliced_guards _ _ _ _ _ Sl)), Gs, bind_ok, map_length in Ev0.
    apply bind_inv in Ev0 as (o & _ & Ev0). apply bind_inv in Ev0 as (sh & _ & Ev0).
    apply bind_inv in Ev0 as (st' & E & _). exists st'. exact E. }
  destruct (pslice_stride_l dbg r st sls st' Wr Gr Fr ltac:(lia) Est) as (s & Es & Wsn & Vsn & Fs & As & Xs).
  destruct (slice_default_l dbg (is_fully_static (pdesc q)) (is_fully_static (pdesc s)) c (map plain_slc sls) cs os ks ss tys D)
    as (v & Ev & Dv & _); try rewrite map_length; try assumption.
  destruct (runtime_starts_l dbg p (c_shape c) cs sls os ks ss Wp Vp Lg C N (proj2 Sl) Rt) as (p' & ns & is_ & R1 & R2 & R3 & R4).
  exists v, q, s. unfold pslice_container. rewrite Eq, bind_ok, Es, bind_ok, R1, bind_ok, R2, bind_ok, R3, bind_ok, R4, Ev, bind_ok.
  assert (exists x o, v = Cn (fst x) ws (snd x) o /\
    make_accessor (is_fully_static (pdesc q)) (is_fully_static (pdesc s)) ws (Some st') = Ok x) as ([k x] & o & -> & M).
  { unfold slice_container in Ev. rewrite (proj1 (sliced_guards _ _ _ _ _ Sl)), Gs, bind_ok, map_length in Ev.
    apply bind_inv in Ev as (o & _ & Ev). rewrite Sq, bind_ok, Est, bind_ok in Ev. unfold make_view in Ev.
    apply bind_inv in Ev as ([k x] & E & Ev). injection Ev as <-. exists (k, x). eexists. split; [reflexivity|exact E]. }
  cbn [fst snd] in *.
  assert (x = st' /\ (k = KStatic <-> is_fully_static (pdesc q) && is_fully_static (pdesc s) = true) /\ k <> K1 /\ k <> K2) as (-> & Hk & K1n & K2n).
  { cbn [make_accessor] in M. destruct (is_fully_static (pdesc q)), (is_fully_static (pdesc s)); cbn [andb] in *;
      try (apply bind_inv in M as (y & _ & M)); [injection M as <- <-; split; [reflexivity|]; split; [tauto|split; discriminate] | | |].
    1: injection M as <- <-; split; [reflexivity|]; split; [split; discriminate|split; discriminate].
    all: destruct ws as [|? [|? [|? ?]]]; injection M as <- <-; (split; [reflexivity|]; split; [split; discriminate|split; discriminate]). }
  split; [reflexivity|]. split.
  { split; [exact Wq|]. split; [exact Vq|]. split; [exact Wsn|]. rewrite Vsn. split; [exact Fs|].
    unfold get_stride. cbn. destruct k; congruence. }
  split; [exact Dv|]. split.
  { cbn. rewrite Hk, andb_true_iff, !fully_static_known. reflexivity. }
  split; [reflexivity|]. do 2 (split; [assumption|]). split; [exact Xq|].
  assert (Lr : length (pdesc r) = length st).
  { rewrite to_values_ok in Gr by exact Wr. injection Gr as <-. symmetry. apply values_length, Wr. }
  rewrite Lr. exact Xs.
Qed.

Lemma extent_constant_mono (P Q : Prop) sl : (P -> Q) -> extent_constant P sl -> extent_constant Q sl.
Proof.
  intros H. destruct sl as [|e|i|[bg st en ln]]; cbn; try tauto. destruct ln as [[a|e]|]; cbn; try tauto.
  destruct bg as [[a|e]|], en as [[a'|e']|]; cbn; tauto.
Qed.
Lemma grouped_known n k ds : Forall known ds -> Forall known (grouped n k ds).
Proof.
  intros F. unfold grouped. destruct k.
  - rewrite <- (firstn_skipn (length ds - n + 1) ds) in F. apply Forall_app in F. apply F.
  - rewrite <- (firstn_skipn (length ds - n + S k) ds) in F. apply Forall_app in F as [_ F].
    rewrite <- (firstn_skipn 1 (skipn _ ds)) in F. apply Forall_app in F. apply F.
Qed.

Lemma Forall_nth_error {A} (P : A -> Prop) l : (forall k x, nth_error l k = Some x -> P x) -> Forall P l.
Proof. intros H. apply Forall_forall. intros x I. apply In_nth_error in I as (k & Hk). exact (H k x Hk). Qed.

Section Known.
  Context (dbg : bool) (c : container) (p r : prefilled) (sls : list kslc) (cs : shape) (os ks ss : list Z) (tys : list ity).
  Hypotheses (HD : described c p r) (D : default_layout c)
    (N : (1 <= length sls <= length (c_shape c))%nat) (C : compress (length sls) (c_shape c) = Ok cs)
    (Sl : sliced cs (map plain_slc sls) os ks ss) (Wd : dbg = true -> Forall wide (map plain_slc sls))
    (Dr : directed c (map plain_slc sls) ss tys) (Rt : runtime_starts p sls).

  Lemma slices_lengths v q s : pslice_container dbg c p r sls = Ok (v, q, s) ->
    length (pdesc q) = length sls /\ length (pdesc s) = length sls /\ (length sls <= length (pdesc r))%nat.
  Proof.
    intros E. destruct (pslice_container_l dbg c p r sls cs os ks ss tys HD D N C Sl Wd Dr Rt)
      as (v' & q' & s' & E' & _ & _ & _ & _ & Aq & As & _). rewrite E in E'. injection E' as <- <- <-.
    rewrite <- (map_length aid (pdesc q)), Aq, <- (map_length aid (pdesc s)), As. unfold unnamed_axes. rewrite map_length, seq_length.
    split; [reflexivity|]. split; [reflexivity|].
    destruct HD as (Wp & Vp & Wr & Fr & Gr). destruct (default_stride_any c D) as (st & Gs & _ & _ & Ls & _).
    rewrite Gs in Gr. rewrite to_values_ok in Gr by exact Wr. injection Gr as Gr. rewrite <- (values_length r Wr), <- Gr. lia.
  Qed.

  Lemma static_slice_l v q s : pslice_container dbg c p r sls = Ok (v, q, s) -> Forall known (pdesc p) -> Forall known (pdesc r) ->
    Forall (fun sl => constant_slicer sl /\ ~ stepped_range sl) sls -> c_kind v = KStatic.
  Proof.
    intros E Kp Kr F. destruct (slices_lengths v q s E) as (Lq & Ls & Lr).
    destruct (pslice_container_l dbg c p r sls cs os ks ss tys HD D N C Sl Wd Dr Rt)
      as (v' & q' & s' & E' & _ & _ & Kv & _ & _ & _ & Xq & Xs). rewrite E in E'. injection E' as <- <- <-.
    apply Kv. rewrite Forall_forall in F. split; apply Forall_nth_error; intros k d Hd.
    - assert (k < length sls)%nat by (rewrite <- Lq; apply nth_error_Some; congruence).
      destruct (nth_error sls k) as [sl|] eqn:Hs; [|apply nth_error_None in Hs; lia].
      destruct (F sl (nth_error_In _ _ Hs)) as [[F1 F2] F3]. apply (Xq k d sl Hd Hs); [exact F3|].
      eapply extent_constant_mono; [|exact F1]. intros _. apply grouped_known, Kp.
    - assert (k < length sls)%nat by (rewrite <- Ls; apply nth_error_Some; congruence).
      destruct (nth_error sls k) as [sl|] eqn:Hs; [|apply nth_error_None in Hs; lia].
      destruct (nth_error (pdesc r) (length (pdesc r) - length sls + k)) as [e|] eqn:He; [|apply nth_error_None in He; lia].
      destruct (F sl (nth_error_In _ _ Hs)) as [[F1 F2] F3]. apply (Xs k d e sl Hd He Hs).
      split; [|apply F2]. rewrite Forall_forall in Kr. apply Kr. eapply nth_error_In, He.
  Qed.

  Lemma dynamic_slice_l v q s sl : pslice_container dbg c p r sls = Ok (v, q, s) -> In sl sls -> ~ constant_slicer sl ->
    c_kind v <> KStatic.
  Proof.
    intros E I NC. destruct (slices_lengths v q s E) as (Lq & Ls & Lr).
    destruct (pslice_container_l dbg c p r sls cs os ks ss tys HD D N C Sl Wd Dr Rt)
      as (v' & q' & s' & E' & _ & _ & Kv & _ & _ & _ & Xq & Xs). rewrite E in E'. injection E' as <- <- <-.
    intros K. apply Kv in K as [Kq Ks]. apply NC. apply In_nth_error in I as (k & Hk).
    assert (k < length sls)%nat by (apply nth_error_Some; congruence).
    destruct (nth_error (pdesc q) k) as [d|] eqn:Hd; [|apply nth_error_None in Hd; lia].
    destruct (nth_error (pdesc s) k) as [d'|] eqn:Hd'; [|apply nth_error_None in Hd'; lia].
    destruct (nth_error (pdesc r) (length (pdesc r) - length sls + k)) as [e|] eqn:He; [|apply nth_error_None in He; lia].
    rewrite Forall_forall in Kq, Ks. split.
    - eapply extent_constant_mono; [intros _; exact Logic.I|]. eapply (Xq k d sl Hd Hk). apply Kq. eapply nth_error_In, Hd.
    - split; [exact Logic.I|]. eapply (Xs k d' e sl Hd' He Hk). apply Ks. eapply nth_error_In, Hd'.
  Qed.

  Lemma names_lost_l v q s a : pslice_container dbg c p r sls = Ok (v, q, s) -> user_axis a ->
    pget_axis q a = UB /\ pget_axis s a = UB.
  Proof.
    intros E U.
    destruct (pslice_container_l dbg c p r sls cs os ks ss tys HD D N C Sl Wd Dr Rt)
      as (v' & q' & s' & E' & _ & _ & Kv & _ & Aq & As & _). rewrite E in E'. injection E' as <- <- <-.
    split; apply missing_axis; [rewrite Aq|rewrite As]; apply user_not_unnamed, U.
  Qed.
End Known.

(** What a constant as the first index does. *)
Lemma constant_start_l dbg c p r sls x : described c p r -> legal (c_shape c) -> (1 <= length sls <= length (c_shape c))%nat ->
  pslice_container dbg c p r sls = Ok x -> runtime_starts p sls.
Proof.
  intros (Wp & Vp & _) Lg N E k sl Hs Hc. unfold pslice_container in E.
  apply bind_inv in E as (q & _ & E). apply bind_inv in E as (s & _ & E). apply bind_inv in E as (p' & E1 & E).
  apply bind_inv in E as (ns & E2 & E). apply bind_inv in E as (is_ & E3 & E).
  destruct (start_kinds dbg p (c_shape c) sls p' is_ Wp Vp Lg N E1 ns E2 E3) as [L K].
  destruct (nth_error is_ k) as [i|] eqn:Hi.
  - apply (K k i sl Hi Hs) in Hc. destruct (existsb is_fixed is_) eqn:X; [discriminate|].
    assert (Y : existsb is_fixed is_ = true) by (apply existsb_exists; exists i; split; [eapply nth_error_In, Hi|exact Hc]).
    congruence.
  - apply nth_error_None in Hi. assert (k < length sls)%nat by (apply nth_error_Some; congruence). lia.
Qed.

Lemma constant_start_rejected_l dbg c p r sls k sl x : described c p r -> legal (c_shape c) ->
  (1 <= length sls <= length (c_shape c))%nat -> nth_error sls k = Some sl ->
  start_constant (Forall known (grouped (length sls) k (pdesc p))) sl -> pslice_container dbg c p r sls <> Ok x.
Proof. intros D Lg N Hs Hc E. exact (constant_start_l dbg c p r sls x D Lg N E k sl Hs Hc). Qed.
Lemma starts_at_run_time_l nk : ~ start_constant nk KAll /\
  (forall i, ~ start_constant nk (KIdx (Nm false i))) /\ (forall st en ln, ~ start_constant nk (KSl (Ts None st en ln))) /\
  (forall i st en ln, ~ start_constant nk (KSl (Ts (Some (TInt (Nm false i))) st en ln))).
Proof. cbn. intuition discriminate. Qed.

Lemma helper_runtime nk sl : helper sl -> ~ stepped_range sl /\ ~ extent_constant nk sl.
Proof.
  intros []; unfold kbetween, kat, kevery, kfirst, kdrop_first, klast, kdrop_last; cbn; split; intuition discriminate.
Qed.

(** The helpers are the ones of [Slicer]. *)
Lemma helper_plain_l i n b : plain_slc (kat i) = at_ i /\ plain_slc (kevery i) = every i /\ plain_slc (kfirst n) = first n /\
  plain_slc (kdrop_first n) = drop_first n /\ plain_slc (klast n) = last n /\ plain_slc (kdrop_last n) = drop_last n /\
  plain_slc (kbetween i b) = between i (plain_bound b).
Proof. repeat split. Qed.

(** [b + 1] is evaluated when the program is compiled. *)
Lemma largest_bound_l dbg p r st en q :
  pslice_shape dbg p (KSl (Ts (Some (TInt (Nm true (CI I32 2147483647)))) (Some st) en None) :: r) <> Ok q.
Proof.
  intros E. unfold pslice_shape in E. apply bind_inv in E as (c & _ & E). apply bind_inv in E as (ns & _ & E).
  apply bind_inv in E as (rs & E & _). destruct ns as [|n ns]; cbn [mapM2] in E; [discriminate|].
  apply bind_inv in E as (x & E & _). cbn [kreshape1 ts_len ts_begin ts_stop ts_step kfix] in E.
  assert (H : forall e, kchoose (Nm true (CI I32 2147483647)) e st <> Ok x).
  { intros e X. unfold kchoose in X. cbv zeta in X. apply bind_inv in X as (u & _ & X). apply bind_inv in X as (w & X & _).
    cbn in X. discriminate. }
  rewrite bind_ok in E. apply bind_inv in E as (e & _ & E). exact (H e E).
Qed.

Lemma stepped_constants_l dbg p n b e s q : wfp p -> to_values p = Ok [n] -> legal [n] ->
  wfc b -> wfc e -> wfc s -> Forall (fun k => promote (cty k) = I32) [b; e; s] ->
  0 <= cval b <= cval e -> cval e <= cval n -> cval b < 2147483647 -> 0 < cval s ->
  pslice_shape dbg p [KSl (Ts (Some (TInt (Nm true b))) (Some (Nm true s)) (Some (TInt (Nm true e))) None)] = Ok q ->
  (Forall known (pdesc q) <-> ceil_div (cval e - cval b) (cval s) = ceil_div (cval b + 1) (cval s)).
Proof.
  intros W V HL Wb We Ws F R1 R2 R4 R3 E. unfold pslice_shape in E. cbn [length] in E.
  destruct (pcompress_shape_l dbg p [n] 1%nat W V HL ltac:(cbn; lia)) as (c & Ec & Wc & Vc & A & _).
  specialize (A eq_refl). subst c. rewrite Ec, bind_ok, (pnums_ok p [n] W V), bind_ok in E.
  assert (LC : length (pdesc p) = 1%nat).
  { rewrite to_values_ok in V by exact W. injection V as V. rewrite <- (values_length p W), V. reflexivity. }
  pose proof (nums_values (pdesc p) [n] LC) as NV. destruct (map2 num_of (pdesc p) [n]) as [|m [|? ?]]; try discriminate.
  cbn in NV. injection NV as NV. apply bind_inv in E as (rs & Er & E). 
  assert (An : axis (nint m)). { pose proof (legal_axes _ HL) as X. inversion X; subst. assumption. }
  destruct (legal_cons _ _ HL) as (_ & Bn & _). unfold max31 in Bn.
  destruct (stepped_l m (Some (TInt (Nm true b))) (Nm true s) (Some (TInt (Nm true e))) (Nm true b) (Nm true e) (Nm true s) An)
      as (x & Ex & Kx); try reflexivity; cbn [nint]; try assumption; try lia; try (left; discriminate).
  - inversion F as [|? ? F1 F']; inversion F' as [|? ? F2 F'']; inversion F'' as [|? ? F3 _]; subst. repeat constructor; assumption.
  - cbn [mapM2] in Er. rewrite Ex, !bind_ok in Er. injection Er as <-.
    cbn [map] in E. destruct (of_size_positional dbg [extent_of x]) as (q' & Eq & Wq & Vq & Aq & Cq).
    { apply (extent_wf [x]). constructor; [|constructor]. cbn [kreshape1 ts_len ts_begin ts_stop ts_step kfix] in Ex. rewrite !bind_ok in Ex.
      apply kchoose_value in Ex. cbn zeta in Ex.
      destruct (cle _ _); apply bind_inv in Ex as (? & _ & Ex); apply bind_inv in Ex as (? & _ & Ex); injection Ex as <-; apply cast_range. }
    { apply (extent_nj [x]). }
    cbn [map] in Eq. rewrite E in Eq. injection Eq as <-. cbn [nint is_fixed] in Kx. rewrite (Z.abs_eq (cval s)) in Kx by lia.
    assert (L : length (pdesc q) = 1%nat) by (rewrite <- (map_length acont), Cq; reflexivity).
    destruct (pdesc q) as [|d [|? ?]] eqn:Dq; try discriminate.
    destruct (contents_known q [x] 0 d) as (r & Hr & Kd); [rewrite Dq; exact Cq|rewrite Dq; reflexivity|]. injection Hr as <-.
    rewrite Forall_cons_iff, Kd, Kx. intuition.
Qed.
