From Coq Require Import ZArith List Bool Lia Sorted.
From Verif Require Import Outcome CInt CIntFacts Spec SpecFacts ShapeSpec Shape ShapeFacts ShapeFacts2
  EndRatioSpec EndRatioFacts ForEach ForEachSpec ForEachFacts Memory MemFacts Container ContainerSpec ContainerFacts
  ContainerFacts2 ContainerFacts3 Algo AlgoSpec AlgoFacts AlgoFacts2 AlgoFacts3 AlgoFacts4.
Import ListNotations.
Open Scope Z_scope.

(** Computing modulo 2^64 or 2^32: [W] is U64 or U32, [fits W t] says that arithmetic on [t] and [W] ends in [W]
    or is exact. *)
Definition fits (W t : ity) : Prop :=
  match W with U64 => t <> U32 | U32 => t <> I64 /\ t <> U64 | _ => False end.
Definition says (W : ity) (c : cint) (z : Z) : Prop :=
  wfc c /\ fits W (cty c) /\ (cty c = W -> cval c = z mod modulus W) /\ (cty c <> W -> cval c = z).

Lemma fits_common W t u : fits W t -> fits W u -> fits W (common t u).
Proof. destruct W, t, u; simpl; intuition discriminate. Qed.
Lemma fits_promote W t : fits W t -> fits W (promote t).
Proof. destruct W, t; simpl; intuition discriminate. Qed.
Lemma fits_W W : W = U32 \/ W = U64 -> fits W W.
Proof. intros [->| ->]; simpl; intuition discriminate. Qed.
Lemma fits_cases W t : fits W t -> W = U32 \/ W = U64.
Proof. destruct W; simpl; tauto. Qed.
Lemma common_W W t u : fits W t -> fits W u ->
  (common t u = W \/ (is_signed (common t u) = true /\ promote t <> W /\ promote u <> W /\ common t u <> W)).
Proof. destruct W, t, u; simpl; intuition discriminate. Qed.
Definition ity_dec (t u : ity) : {t = u} + {t <> u}. Proof. decide equality. Defined.

Lemma cast_mod W z : W = U32 \/ W = U64 -> cast W z = z mod modulus W.
Proof.
  intros H. unfold cast. cbv zeta. pose proof (Z.mod_pos_bound z (modulus W) (modulus_pos W)) as B.
  destruct (Z.leb_spec (z mod modulus W) (tmax W)) as [_|G]; [reflexivity|].
  destruct H as [-> | ->]; cbn [modulus tmax] in *; lia.
Qed.

Definition ring_like (f : Z -> Z -> Z) : Prop := forall M x y, 0 < M -> f (x mod M) (y mod M) mod M = f x y mod M.
Lemma add_ring : ring_like Z.add. Proof. intros M x y H. symmetry. apply Z.add_mod. lia. Qed.
Lemma mul_ring : ring_like Z.mul. Proof. intros M x y H. symmetry. apply Z.mul_mod. lia. Qed.

Lemma says_mod W c z : says W c z -> cast W (cval c) = z mod modulus W.
Proof.
  intros (Wc & F & E1 & E2). pose proof (fits_cases _ _ F) as HW. rewrite cast_mod by exact HW.
  destruct (ity_dec (cty c) W) as [E|E].
  - rewrite (E1 E). rewrite Z.mod_mod by (pose proof (modulus_pos W); lia). reflexivity.
  - rewrite (E2 E). reflexivity.
Qed.

Lemma says_arith W f a b x y : ring_like f -> says W a x -> says W b y -> Z.abs (f x y) <= max31 ->
  exists c, arith f a b = Ok c /\ says W c (f x y) /\ cty c = common (cty a) (cty b).
Proof.
  intros R Ha Hb Hr. pose proof Ha as (Wa & Fa & Ea1 & Ea2). pose proof Hb as (Wb & Fb & Eb1 & Eb2).
  pose proof (fits_cases _ _ Fa) as HW. unfold arith. cbv zeta.
  destruct (common_W W _ _ Fa Fb) as [C|(C & Pa & Pb & Nc)].
  - rewrite C, (says_mod _ _ _ Ha), (says_mod _ _ _ Hb).
    assert (Sg : is_signed W = false) by (destruct HW as [-> | ->]; reflexivity). rewrite Sg.
    rewrite cast_mod, R by (try exact HW; apply modulus_pos).
    eexists. split; [reflexivity|]. split; [|reflexivity]. split; [|split; [|split]]; [| |reflexivity|].
    + unfold wfc, in_ty. cbn [cty cval]. pose proof (Z.mod_pos_bound (f x y) (modulus W) (modulus_pos W)) as B.
      destruct HW as [-> | ->]; cbn [modulus tmin tmax] in *; lia.
    + apply fits_W. exact HW.
    + intros N. cbn [cty] in N. congruence.
  - assert (Na : cty a <> W) by (intros E; apply Pa; rewrite E; destruct HW as [-> | ->]; reflexivity).
    assert (Nb : cty b <> W) by (intros E; apply Pb; rewrite E; destruct HW as [-> | ->]; reflexivity).
    rewrite C. rewrite (compat_cast_l a b), (compat_cast_r a b) by (try assumption; left; exact C).
    rewrite (Ea2 Na), (Eb2 Nb).
    assert (I : in_ty (common (cty a) (cty b)) (f x y)) by (apply in_ty_common_signed; [exact C|lia]).
    rewrite (proj2 (in_tyb_spec _ _) I). eexists. split; [reflexivity|]. split; [|reflexivity]. split; [|split; [|split]]; [| | |reflexivity].
    + exact I.
    + apply fits_common; assumption.
    + intros N. cbn [cty] in N. congruence.
Qed.

Lemma says_self W c : wfc c -> 0 <= cval c <= max31 -> fits W (cty c) -> says W c (cval c).
Proof.
  intros Wc B F. split; [exact Wc|]. split; [exact F|]. split; [|reflexivity].
  intros E. rewrite Z.mod_small; [reflexivity|]. destruct (fits_cases _ _ F) as [-> | ->]; cbn [modulus]; unfold max31 in B; lia.
Qed.

Lemma says_neg W c : wfc c -> 0 <= cval c <= max31 -> fits W (cty c) -> exists n, cneg c = Ok n /\ says W n (- cval c).
Proof.
  intros Wc B F. pose proof (fits_cases _ _ F) as HW. unfold cneg. cbv zeta. unfold wfc, in_ty in Wc.
  assert (Cc : cast (promote (cty c)) (cval c) = cval c).
  { apply cast_id. unfold in_ty, max31 in *. destruct (cty c); cbn [promote tmin tmax] in *; lia. }
  rewrite Cc. destruct (is_signed (promote (cty c))) eqn:Sg.
  - assert (I : in_ty (promote (cty c)) (- cval c)).
    { unfold in_ty, max31 in *. destruct (cty c); cbn [promote tmin tmax] in *; try discriminate; lia. }
    rewrite (proj2 (in_tyb_spec _ _) I). eexists. split; [reflexivity|]. split; [|split; [|split]]; [| | |reflexivity].
    + exact I.
    + apply fits_promote. exact F.
    + cbn [cty]. intros E. rewrite E in Sg. destruct HW as [-> | ->]; discriminate.
  - assert (E : promote (cty c) = W).
    { destruct HW as [-> | ->]; destruct (cty c); simpl in *; intuition congruence. }
    rewrite E, cast_mod by exact HW. eexists. split; [reflexivity|]. split; [|split; [|split]]; [| |reflexivity|].
    + unfold wfc, in_ty. cbn [cty cval]. pose proof (Z.mod_pos_bound (- cval c) (modulus W) (modulus_pos W)).
      destruct HW as [-> | ->]; cbn [modulus tmin tmax] in *; lia.
    + apply fits_W. exact HW.
    + cbn [cty]. congruence.
Qed.

Lemma absorb_r W t : fits W t -> common t W = W.
Proof. destruct W, t; simpl; intuition congruence. Qed.
Lemma absorb_l W t : fits W t -> common W t = W.
Proof. destruct W, t; simpl; intuition congruence. Qed.

Lemma linearize_says W st zs : Forall2 (says W) st zs -> forall is_ js acc z, Forall2 (says W) is_ js ->
  length is_ = length st -> says W acc z -> Z.abs z + absdot zs js <= max31 ->
  exists c, linearize_from acc st is_ = Ok c /\ says W c (z + dot zs js) /\
    (cty acc = W \/ Exists (fun i => cty i = W) is_ -> cty c = W).
Proof.
  induction 1 as [|s zs0 st zs Hs Hst IH]; intros is_ js acc z Hi L Ha B.
  - destruct Hi; [|discriminate]. cbn in *. exists acc. split; [reflexivity|]. replace (z + 0) with z by lia.
    split; [exact Ha|]. intros [E|E]; [exact E|inversion E].
  - destruct Hi as [|i j is_ js Hi His]; [discriminate|]. cbn [linearize_from].
    cbn [absdot] in B. pose proof (absdot_nonneg zs js).
    destruct (says_arith W Z.mul s i zs0 j mul_ring Hs Hi ltac:(lia)) as (p & E & Hp & Tp). unfold cmul. rewrite E, bind_ok.
    destruct (says_arith W Z.add acc p z (zs0 * j) add_ring Ha Hp ltac:(lia)) as (a & E2 & Ha2 & Ta).
    unfold cadd. rewrite E2, bind_ok.
    destruct (IH is_ js a _ His ltac:(cbn in L; congruence) Ha2 ltac:(lia)) as (c & E3 & Hc & Tc).
    exists c. split; [exact E3|]. cbn [dot]. split.
    + replace (z + (zs0 * j + dot zs js)) with (z + zs0 * j + dot zs js) by lia. exact Hc.
    + intros T. apply Tc. rewrite Ta. destruct T as [T|T].
      * left. rewrite T. apply absorb_l. apply Hp.
      * inversion T as [? ? Q|? ? Q]; subst; [left|right; exact Q]. rewrite Tp.
        assert (Es : common (cty s) (cty i) = cty i) by (apply absorb_r; apply Hs). rewrite Es.
        apply absorb_r. apply Ha.
Qed.

(** The reversed container: the stride and the index of every element. *)
Lemma as_stride_fits W s st : W = U32 \/ W = U64 -> Forall (fun n => fits W (cty n)) s -> as_stride s = Ok st ->
  Forall (fun n => fits W (cty n)) st.
Proof.
  intros HW S E. assert (One : fits W I32) by (destruct HW as [-> | ->]; simpl; intuition discriminate).
  destruct s as [|a s]; [discriminate|]. destruct s as [|b s].
  - injection E as <-. repeat constructor. exact One.
  - inversion S as [|? ? _ S']; subst. unfold as_stride in E. remember (b :: s) as l eqn:El. clear El a b s S.
    revert st E. induction S' as [|m l Hm Hl IH]; intros st E.
    + simpl in E. injection E as <-. repeat constructor. exact One.
    + cbn [kfold_left] in E. apply bind_inv in E. destruct E as (st' & E1 & E2).
      apply bind_inv in E2. destruct E2 as (f & Ef & E2). apply bind_inv in E2. destruct E2 as (x & Ex & E2).
      injection E2 as <-. specialize (IH _ E1). constructor; [|exact IH].
      destruct st' as [|g st']; [discriminate|]. injection Ef as ->. inversion IH; subst.
      assert (Tx : cty x = common (cty m) (cty f)).
      { unfold cmul, arith in Ex. destruct (is_signed (common (cty m) (cty f))).
        - destruct (in_tyb _ _); [|discriminate]. injection Ex as <-. reflexivity.
        - injection Ex as <-. reflexivity. }
      rewrite Tx. apply fits_common; assumption.
Qed.

Lemma default_stride_fits W c : W = U32 \/ W = U64 -> default_layout c -> Forall (fun n => fits W (cty n)) (c_shape c) ->
  exists st, get_stride c = Ok st /\ wfs st /\ Forall (fun n => fits W (cty n)) st /\ length st = length (c_shape c) /\
             vals st = strides_of (dims c) /\ Forall (fun s => 0 <= cval s <= max31) st.
Proof.
  intros HW D S. assert (One : fits W I32) by (destruct HW as [-> | ->]; simpl; intuition discriminate).
  destruct (default_wf c D) as ((Wf & N & (st & G & Ws & L) & K) & Sz & Nn).
  exists st. split; [exact G|]. split; [exact Ws|].
  assert (Vs : vals st = strides_of (dims c)) by (unfold strides_z in Sz; rewrite G in Sz; exact Sz).
  split; [|split; [exact L|split; [exact Vs|]]].
  - pose proof (default_kind_inv c D) as Ki. unfold get_stride in G. destruct (c_kind c).
    + destruct Ki as [Ki _]. injection G as <-. eapply as_stride_fits; eassumption.
    + injection G as <-. eapply as_stride_fits; eassumption.
    + injection G as <-. repeat constructor. exact One.
    + contradiction.
    + destruct (c_shape c) as [|a [|b s]]; try discriminate. injection G as <-.
      inversion S as [|? ? _ S']; inversion S'; subst. constructor; [assumption|]. constructor; [exact One|constructor].
    + contradiction.
  - destruct D as (Lg & Ne & _). pose proof (strides_bound (dims c) N) as B. rewrite <- Vs in B.
    destruct Lg as (_ & _ & Pp). fold (dims c) in Pp. unfold max31.
    clear -B Pp. induction st as [|x st IH]; [constructor|]. inversion B; subst. constructor; [lia|apply IH; assumption].
Qed.

Lemma mapM_neg_says W st : wfs st -> Forall (fun n => fits W (cty n)) st -> Forall (fun s => 0 <= cval s <= max31) st ->
  exists ns, mapM cneg st = Ok ns /\ Forall2 (says W) ns (map Z.opp (vals st)).
Proof.
  intros Ws F B. induction Ws as [|s st W1 Ws IH]; [exists []; split; [reflexivity|constructor]|].
  inversion F; subst. inversion B; subst. destruct IH as (ns & E & H); try assumption.
  destruct (says_neg W s) as (n & En & Hn); try assumption.
  exists (n :: ns). cbn [mapM]. rewrite En, bind_ok, E, bind_ok. split; [reflexivity|]. constructor; assumption.
Qed.

Lemma Forall2_says_len W l zs : Forall2 (says W) l zs -> length l = length zs.
Proof. induction 1; simpl; congruence. Qed.

Lemma coords_says W ns is_ : wfs is_ -> in_box ns (vals is_) -> Forall (fun n => n <= max31) ns ->
  Forall (fun i => fits W (cty i)) is_ -> Forall2 (says W) is_ (vals is_).
Proof.
  intros Wi. revert ns. induction Wi as [|i is_ W1 Wi IH]; intros ns B M F; [constructor|].
  cbn [vals map] in *. inversion B; subst. inversion M; subst. inversion F; subst. constructor.
  - apply says_self; [exact W1|lia|assumption].
  - eapply IH; eassumption.
Qed.


Lemma legal_dims c : legal (c_shape c) -> Forall (fun n => n <= max31) (dims c).
Proof.
  intros (_ & _ & Pp). fold (dims c) in Pp. revert Pp. unfold max31. generalize (dims c). clear.
  induction l as [|n l IH]; intros P; constructor.
  - pose proof (posprod_head_le n l). lia.
  - apply IH. pose proof (posprod_tail_le n l). lia.
Qed.

Lemma reverse_says W ss c : W = U32 \/ W = U64 -> default_layout c -> Forall (fun n => fits W (cty n)) (c_shape c) ->
  exists rc, reverse ss c = Ok rc /\ c_shape rc = c_shape c /\
    forall is_, coord_of c is_ -> Forall (fun i => fits W (cty i)) is_ ->
      exists i, says W i (- rank (dims c) (vals is_)) /\ (Exists (fun i => cty i = W) is_ -> cty i = W) /\
        address rc is_ = Ok (padd (c_data c) (prod (dims c) - 1 + cast I64 (cval i))).
Proof.
  intros HW D S. destruct (default_stride_fits W c HW D S) as (st & G & Ws & Fs & Ls & Vs & Bs).
  destruct (default_wf c D) as ((Wf & N & _ & _) & Sz & Nn).
  destruct (mapM_neg_says W st Ws Fs Bs) as (ns & Em & Hn).
  pose proof (default_reach c D) as Rc.
  pose proof D as (Lg & Ne & _). unfold reverse. rewrite G, bind_ok, Em, bind_ok, (numel_ok _ Lg Ne), bind_ok.
  change (cval (int (prod (vals (c_shape c))))) with (prod (dims c)).
  unfold make_view, make_accessor. set (data := padd (padd (c_data c) (prod (dims c))) (-1)).
  pose proof (Forall2_says_len _ _ _ Hn) as Ln. rewrite map_length, vals_length in Ln.
  assert (Ad : forall k, (match k with K1 | K2 => False | K1S => length (c_shape c) = 1%nat
                          | K2S => length (c_shape c) = 2%nat | _ => True end) ->
    let rc := Cn k (c_shape c) ns data in
    c_shape rc = c_shape c /\
    forall is_, coord_of c is_ -> Forall (fun i => fits W (cty i)) is_ ->
      exists i, says W i (- rank (dims c) (vals is_)) /\ (Exists (fun i => cty i = W) is_ -> cty i = W) /\
        address rc is_ = Ok (padd (c_data c) (prod (dims c) - 1 + cast I64 (cval i)))).
  { intros k Hk rc. split; [reflexivity|]. intros is_ [Wi Bi] Fi.
    pose proof (coords_says W _ _ Wi Bi (legal_dims c Lg) Fi) as Hi.
    assert (Li : length is_ = length ns).
    { pose proof (in_box_length _ _ Bi) as H. unfold dims in H. rewrite !vals_length in H. congruence. }
    assert (Bd : Z.abs 0 + absdot (map Z.opp (vals st)) (vals is_) <= max31).
    { rewrite absdot_opp, Vs, <- Sz. pose proof (Rc _ Bi). unfold max31. lia. }
    assert (Dt : dot (map Z.opp (vals st)) (vals is_) = - rank (dims c) (vals is_)).
    { rewrite dot_opp, Vs, rank_dot by (apply in_box_length; exact Bi). reflexivity. }
    assert (Ix : exists i, index rc is_ = Ok i /\ says W i (- rank (dims c) (vals is_)) /\
                   (Exists (fun i => cty i = W) is_ -> cty i = W)).
    { assert (Gen : exists i, linearize ns is_ = Ok i /\ says W i (- rank (dims c) (vals is_)) /\
                     (Exists (fun i => cty i = W) is_ -> cty i = W)).
      { destruct (linearize_says W ns _ Hn is_ (vals is_) (int 0) 0 Hi Li) as (i & E & H1 & H2); [|exact Bd|].
        - apply says_self; [apply wfc_int; unfold max31; lia|unfold max31; cbn; lia|].
          destruct HW as [-> | ->]; simpl; intuition discriminate.
        - exists i. split; [exact E|]. split; [|intros Q; apply H2; right; exact Q]. rewrite <- Dt. exact H1. }
      destruct k; try contradiction; try exact Gen.
      cbn [rc index c_kind c_stride]. rewrite Hk in Ls. rewrite Ls in Ln.
      destruct ns as [|n [|]]; try discriminate. destruct is_ as [|i [|]]; try discriminate.
      destruct (map Z.opp (vals st)) as [|y [|]]; try (inversion Hn; fail); [|inversion Hn as [|? ? ? ? ? Q]; inversion Q].
      inversion Hn as [|? ? ? ? Hn1 _]; subst. inversion Hi as [|? ? ? ? Hi1 _]; subst.
      cbn [vals map dot absdot] in *.
      destruct (says_arith W Z.mul i n (cval i) y mul_ring Hi1 Hn1 ltac:(lia)) as (p & E & Hp & Tp).
      exists p. split; [exact E|]. split.
      - rewrite <- Dt. match goal with |- says _ _ ?x => match type of Hp with says _ _ ?y => replace x with y by lia end end.
        exact Hp.
      - intros Q. apply Exists_cons in Q. destruct Q as [Q3|Q3]; [|inversion Q3]. rewrite Tp, Q3. apply absorb_l. apply Hn1. }
    destruct Ix as (i & E & H1 & H2). exists i. split; [exact H1|]. split; [exact H2|].
    unfold address. rewrite E, bind_ok. cbn [c_data rc]. unfold data. rewrite !padd_padd. do 2 f_equal. lia. }
  destruct (as_stride_ok _ Lg Ne) as (dst & Ed & _).
  destruct ss; cbn [andb]; rewrite ?Ed.
  - cbn [bind]. eexists. split; [reflexivity|]. apply (Ad KStatic I).
  - destruct (c_shape c) as [|a [|b [|d s]]] eqn:Es; cbn [bind]; eexists; (split; [reflexivity|]).
    + congruence.
    + apply (Ad K1S). reflexivity.
    + apply (Ad K2S). reflexivity.
    + apply (Ad KGen I).
Qed.

(** ** Without 32-bit unsigned extents: the offsets are exact *)
Lemma reverse_typed_l ss c : default_layout c -> Forall (fun n => cty n <> U32) (c_shape c) ->
  exists rc, reverse ss c = Ok rc /\ c_shape rc = c_shape c /\
    forall is_, coord_of c is_ -> Forall (fun i => cty i <> U32) is_ ->
      address rc is_ = Ok (elem c (mirror_coord (dims c) (vals is_))).
Proof.
  intros D S. destruct (reverse_says U64 ss c (or_intror eq_refl) D S) as (rc & E & Sh & H).
  exists rc. split; [exact E|]. split; [exact Sh|]. intros is_ Ci Fi.
  destruct (H is_ Ci Fi) as (i & Hi & _ & ->). destruct Ci as [Wi Bi].
  rewrite (default_elem c) by (try apply mirror_box; assumption). rewrite mirror_rank by exact Bi. do 2 f_equal.
  pose proof (rank_range _ _ Bi) as R. pose proof D as (Lg & _ & _). pose proof (legal_prod _ Lg) as P.
  fold (dims c) in P. set (r := rank (dims c) (vals is_)) in *.
  assert (C : cast I64 (cval i) = - r); [|lia].
  destruct Hi as (Wc & _ & E1 & E2). destruct (ity_dec (cty i) U64) as [T|T].
  - rewrite (E1 T). unfold cast. cbn [modulus tmax]. rewrite Z.mod_mod by lia. unfold max31 in P.
    destruct (Z.eq_dec r 0) as [->|R0]; [reflexivity|].
    assert (M : - r mod 18446744073709551616 = 18446744073709551616 - r).
    { symmetry. apply Z.mod_unique with (q := -1); [left; lia|lia]. }
    rewrite M. destruct (Z.leb_spec (18446744073709551616 - r) 9223372036854775807); lia.
  - rewrite (E2 T). apply cast_id. unfold in_ty. cbn [tmin tmax]. unfold max31 in P. lia.
Qed.

(** find_if on a container whose addresses are known. *)
Lemma find_if_coord {T} c (f : T -> bool) m (E : list Z -> ptr) : wfs (c_shape c) -> nonnegs (dims c) ->
  (forall is_, wfs is_ -> map cty is_ = ctypes c -> in_box (dims c) (vals is_) -> address c is_ = Ok (E (vals is_))) ->
  (forall is_, in_box (dims c) is_ -> exists v, peek m (E is_) = Some v) ->
  (exists t, find_if c f m = Ok (Some (to_pos t), m) /\ wfs t /\ map cty t = ctypes c /\ in_box (dims c) (vals t) /\
     (exists v, peek m (E (vals t)) = Some v /\ f v = true) /\
     (forall is_ v, in_box (dims c) is_ -> peek m (E is_) = Some v -> f v = true -> is_ = vals t \/ lex (vals t) is_)) \/
  (find_if c f m = Ok (None, m) /\ forall is_ v, in_box (dims c) is_ -> peek m (E is_) = Some v -> f v = false).
Proof.
  intros W Nn Ad Rd. unfold find_if. rewrite for_until_run by assumption.
  pose (P := fun is_ : list cint => match peek m (E (vals is_)) with Some v => f v | None => false end).
  destruct (run_until_inv
    (fun is_ pm => p <- ref (snd pm) c is_ ;; v <- load (snd pm) p ;;
       if f v then Ok (true, (map (fun i => conv I32 (conv U64 i)) is_, snd pm)) else Ok (false, pm))
    (tbox (c_shape c)) ([], m) P (fun is_ => (to_pos is_, m))) as [(pre & t & post & El & Pt & Hp & R)|(Hn & R)].
  - intros t It. destruct (in_split _ _ It) as (pre & post & El).
    destruct (tbox_at _ _ _ _ W El) as (Wt & Bt & Ty & _). destruct (Rd _ Bt) as (v & Hv).
    cbn [snd]. unfold ref. rewrite (Ad t Wt Ty Bt), bind_ok.
    assert (Vb : validb m (E (vals t)) = true) by (apply validb_true; unfold peek in Hv; destruct (cell m _); congruence).
    rewrite Vb, bind_ok. unfold P. rewrite Hv.
    rewrite (load_peek _ _ _ Hv), bind_ok. destruct (f v); reflexivity.
  - left. rewrite R, bind_ok. cbn [fst snd]. exists t. split; [reflexivity|].
    destruct (tbox_at _ _ _ _ W El) as (Wt & Bt & Ty & Eb).
    split; [exact Wt|]. split; [exact Ty|]. split; [exact Bt|]. split.
    + unfold P in Pt. destruct (Rd _ Bt) as (v & Hv). rewrite Hv in Pt. eauto.
    + intros is_ v B Hv Hf. pose proof (box_In (dims c) is_) as I. apply I in B. fold (dims c) in Eb. rewrite Eb in B.
      apply in_app_iff in B. destruct B as [B|[B|B]].
      * exfalso. apply in_map_iff in B. destruct B as (d & <- & Hd). specialize (Hp d Hd). unfold P in Hp.
        rewrite Hv in Hp. congruence.
      * left. congruence.
      * right. destruct (sorted_split _ _ (box_sorted (dims c)) _ _ _ Eb) as [_ H]. apply H. exact B.
  - right. rewrite R, bind_ok. cbn [fst snd]. split; [reflexivity|].
    intros is_ v B Hv. apply box_In in B. unfold dims in B. rewrite <- tbox_vals in B. apply in_map_iff in B.
    destruct B as (t & <- & It). specialize (Hn t It). unfold P in Hn. rewrite Hv in Hn. exact Hn.
Qed.

Lemma find_if_at {T} c (f : T -> bool) m (E : list Z -> ptr) : wfs (c_shape c) -> nonnegs (dims c) ->
  Forall (fun n => n <= 2147483648) (dims c) ->
  (forall is_, wfs is_ -> map cty is_ = ctypes c -> in_box (dims c) (vals is_) -> address c is_ = Ok (E (vals is_))) ->
  (forall is_, in_box (dims c) is_ -> exists v, peek m (E is_) = Some v) ->
  exists r, find_if c f m = Ok (r, m) /\
    match r with
    | Some pos => map cty pos = map (fun _ => I32) (c_shape c) /\ in_box (dims c) (vals pos) /\
        (exists v, peek m (E (vals pos)) = Some v /\ f v = true) /\
        (forall is_ v, in_box (dims c) is_ -> peek m (E is_) = Some v -> f v = true ->
           is_ = vals pos \/ lex (vals pos) is_)
    | None => forall is_ v, in_box (dims c) is_ -> peek m (E is_) = Some v -> f v = false
    end.
Proof.
  intros W Nn Fd Ad Rd. destruct (find_if_coord c f m E W Nn Ad Rd) as [(t & R & Wt & Ty & Bt & Hv & Hm)|(R & H)].
  - destruct (to_pos_ok _ _ Wt Bt Fd) as (Ev & Et & _). exists (Some (to_pos t)). split; [exact R|].
    split; [|rewrite Ev; auto]. rewrite Et. unfold ctypes in Ty. clear -Ty. revert Ty. generalize (c_shape c).
    induction t as [|x t IH]; intros [|y s] H; try discriminate; [reflexivity|].
    simpl. f_equal. apply IH. simpl in H. congruence.
  - exists None. split; assumption.
Qed.

Lemma mirror_pos_any s pos : legal s -> wfs pos -> map cty pos = map (fun _ => I32) s ->
  in_box (vals s) (vals pos) ->
  exists ps, mapM (fun np => a <- csub (fst np) (int 1) ;; b <- csub a (snd np) ;; Ok (conv I32 b)) (combine s pos)
    = Ok ps /\ vals ps = mirror_coord (vals s) (vals pos) /\ map cty ps = map (fun _ => I32) s /\ wfs ps.
Proof.
  intros (W & N & P) Wp. revert s W N P. induction Wp as [|p pos Wp1 Wp IH]; intros s W N P Ty B.
  - destruct s; [|discriminate]. exists []. repeat split. constructor.
  - destruct s as [|n s]; [discriminate|]. cbn [vals map] in B. inversion B as [|? ? ? ? Hi B']; subst.
    cbn [map] in Ty. injection Ty as Ty1 Ty. inversion W as [|? ? W1 W2]; subst. inversion N as [|? ? N1 N2]; subst.
    unfold vals in P. cbn [map] in P.
    pose proof (posprod_tail_le (cval n) (vals s)). pose proof (posprod_head_le (cval n) (vals s)). fold (vals s) in P.
    destruct (IH s W2 N2 ltac:(lia) Ty B') as (ps & E & V & T & Wq).
    cbn [combine mapM fst snd].
    destruct (arith_nonneg Z.sub n (int 1)) as (a & E1 & V1 & Wa & _);
      [exact W1|apply wfc_int; unfold max31; lia|lia|cbn; lia|cbn; unfold max31; lia|].
    unfold csub at 1. rewrite E1, bind_ok. cbn [cval int] in V1.
    destruct (arith_nonneg Z.sub a p) as (b & E2 & V2 & Wb & _);
      [exact Wa|exact Wp1|lia|lia|unfold max31; lia|].
    unfold csub at 1. rewrite E2, !bind_ok, E, bind_ok. eexists. split; [reflexivity|].
    assert (I : in_ty I32 (cval b)) by (unfold in_ty; cbn [tmin tmax]; lia).
    rewrite conv_exact by exact I. cbn [vals map cval cty mirror_coord].
    split; [f_equal; [lia|exact V]|]. split; [f_equal; exact T|]. constructor; [exact I|exact Wq].
Qed.

Lemma find_last_if_typed {T} ss c (f : T -> bool) m : default_layout c -> Forall (fun n => cty n <> U32) (c_shape c) ->
  readable m c ->
  exists r, find_last_if ss c f m = Ok (r, m) /\ last_at m c (fun v => f v = true) r.
Proof.
  intros D S R. destruct (reverse_typed_l ss c D S) as (rc & Er & Sh & Ad).
  assert (Ed : dims rc = dims c) by (unfold dims; rewrite Sh; reflexivity).
  pose proof D as (Lg & Ne & _). pose proof Lg as (Wf & Nn & _).
  assert (Ty32 : forall is_, map cty is_ = ctypes rc -> Forall (fun i => cty i <> U32) is_).
  { intros is_ E. unfold ctypes in E. rewrite Sh in E. revert E. clear -S. revert is_. induction S as [|n s Hn S IH];
      intros [|i is_] E; try discriminate; constructor; cbn in E; [congruence|]. apply IH. congruence. }
  destruct (find_if_at rc f m (fun is_ => elem c (mirror_coord (dims c) is_))) as (r & E & H).
  - rewrite Sh. exact Wf.
  - rewrite Ed. exact Nn.
  - rewrite Ed. eapply Forall_impl; [|exact (legal_dims c Lg)]. intros n Hn. cbv beta in *. unfold max31 in Hn. lia.
  - intros is_ Wi Ti Bi. rewrite Ed in Bi. apply Ad; [split; assumption|apply Ty32; exact Ti].
  - intros is_ B. rewrite Ed in B. apply R. apply mirror_box. exact B.
  - unfold find_last_if. rewrite Er, bind_ok, E, bind_ok. destruct r as [pos|].
    + destruct H as (Ty & B & (v & Hvv & Hf) & Hm). rewrite Ed in B, Hm. rewrite Sh in Ty.
      assert (Wp : wfs pos).
      { pose proof (legal_dims c Lg) as Ld. revert Ty B Ld. unfold dims. generalize (c_shape c). clear.
        induction pos as [|p pos IH]; intros [|n s] Ty B Ld; try discriminate; constructor.
        - cbn [vals map] in *. injection Ty as Ty1 _. inversion B; subst. inversion Ld; subst. unfold wfc, in_ty. rewrite Ty1.
          simpl. unfold max31 in *. lia.
        - cbn [vals map] in *. injection Ty as _ Ty. inversion B; subst. inversion Ld; subst. apply (IH s Ty); assumption. }
      destruct (mirror_pos_any (c_shape c) pos Lg Wp Ty B) as (ps & Eps & Vps & Tps & _). fold (dims c) in Vps.
      rewrite Eps, bind_ok. exists (Some ps). split; [reflexivity|]. split; [exact Tps|]. rewrite Vps.
      split; [apply mirror_box; exact B|]. split; [exists v; split; [exact Hvv|exact Hf]|].
      intros is_ w Bi Hw Hfw. destruct (Hm (mirror_coord (dims c) is_) w) as [Eq|Lx].
      * apply mirror_box; exact Bi.
      * rewrite mirror_invol by exact Bi. exact Hw.
      * exact Hfw.
      * left. rewrite <- Eq, mirror_invol by exact Bi. reflexivity.
      * right. rewrite <- (mirror_invol (dims c) is_ Bi). apply mirror_lex; [exact B|apply mirror_box; exact Bi|exact Lx].
    + exists None. split; [reflexivity|]. intros is_ v B Hvv. rewrite Ed in H.
      rewrite (H (mirror_coord (dims c) is_) v); [congruence|apply mirror_box; exact B|].
      rewrite mirror_invol by exact B. exact Hvv.
Qed.

(** ** With 32-bit unsigned extents and no 64-bit ones: the second element visited is outside *)
Lemma find_last_if_u32 {T} ss c (f : T -> bool) m v : default_layout c ->
  Exists (fun n => cty n = U32) (c_shape c) -> Forall (fun n => cty n <> I64 /\ cty n <> U64) (c_shape c) ->
  readable m c -> 2 <= prod (dims c) ->
  (forall b cs, nth_error m b = Some (Some cs) -> Z.of_nat (length cs) <= 4294967296) ->
  value m c (map (fun n => n - 1) (dims c)) v -> f v = false ->
  find_last_if ss c f m = UB.
Proof.
  intros D Ex Sm R P2 Hb Hv Hf. destruct (reverse_says U32 ss c (or_introl eq_refl) D Sm) as (rc & Er & Sh & Ad).
  assert (Ed : dims rc = dims c) by (unfold dims; rewrite Sh; reflexivity).
  pose proof D as (Lg & Ne & _). pose proof Lg as (Wf & Nn & _). fold (dims c) in Nn.
  unfold find_last_if. rewrite Er, bind_ok. unfold find_if.
  rewrite for_until_run by (rewrite ?Sh; assumption). rewrite Sh.
  pose proof (box_rank_zrange (dims c) Nn) as Rk. pose proof (box_length (dims c) Nn) as Lb.
  replace (length (box (dims c))) with (Z.to_nat (prod (dims c))) in Rk by lia. clear Lb.
  change (box (dims c)) with (box (vals (c_shape c))) in Rk. rewrite <- tbox_vals in Rk.
  assert (L2 : exists n, Z.to_nat (prod (dims c)) = S (S n)).
  { exists (Z.to_nat (prod (dims c)) - 2)%nat. lia. }
  destruct L2 as (n & L2). rewrite L2 in Rk. cbn [zrange] in Rk.
  assert (Tt : forall t pre post, tbox (c_shape c) = pre ++ t :: post -> coord_of c t /\ Forall (fun i => fits U32 (cty i)) t /\
            Exists (fun i => cty i = U32) t).
  { intros t pre post E. destruct (tbox_at _ _ _ _ Wf E) as (Wt & Bt & Ty & _). split; [split; assumption|].
    revert Ty. clear -Sm Ex. revert t. generalize (c_shape c) Sm Ex. clear. intros s Sm Ex t Ty. split.
    - revert t Ty. clear Ex. induction Sm as [|x s Hx Sm IH]; intros [|i t] Ty; try discriminate; constructor; cbn in Ty.
      + injection Ty as -> _. exact Hx.
      + apply IH. congruence.
    - revert t Ty. clear Sm. induction Ex as [x s Hx|x s Ex IH]; intros [|i t] Ty; try discriminate; cbn in Ty.
      + apply Exists_cons_hd. congruence.
      + apply Exists_cons_tl. apply IH. congruence. }
  destruct (tbox (c_shape c)) as [|t0 [|t1 rest]] eqn:Et; try discriminate Rk. cbn [map] in Rk.
  injection Rk as R0 R1 _.
  destruct (Tt t0 [] (t1 :: rest) eq_refl) as (C0 & F0 & X0). destruct (Tt t1 [t0] rest eq_refl) as (C1 & F1 & X1).
  assert (Last : elem c (map (fun n => n - 1) (dims c)) = padd (c_data c) (prod (dims c) - 1)).
  { assert (B0 : in_box (dims c) (vals t0)) by apply C0.
    assert (M : mirror_coord (dims c) (vals t0) = map (fun n => n - 1) (dims c)).
    { apply rank_inj with (ns := dims c).
      - apply mirror_box. exact B0.
      - clear -B0. induction B0; cbn; constructor; try lia; assumption.
      - rewrite mirror_rank by exact B0. rewrite R0.
        assert (G : forall ns is_, in_box ns is_ -> rank ns (map (fun n => n - 1) ns) = prod ns - 1).
        { clear. intros ns is_ B. induction B as [|n ns i is_ Hi B IH]; [reflexivity|]. cbn [map].
          rewrite rank_cons by (rewrite map_length; reflexivity). rewrite prod_cons, IH. lia. }
        rewrite (G _ _ B0). lia. }
    rewrite <- M. rewrite (default_elem c) by (try apply mirror_box; assumption). rewrite mirror_rank by exact B0. f_equal. lia. }
  cbn [run_until snd].
  destruct (Ad t0 C0 F0) as (i0 & (_ & _ & Q0 & _) & T0 & A0). specialize (Q0 (T0 X0)). rewrite R0 in Q0. cbn in Q0.
  unfold ref at 1. rewrite A0, bind_ok. rewrite Q0. change (cast I64 0) with 0. rewrite Z.add_0_r, <- Last.
  assert (Vb : validb m (elem c (map (fun n => n - 1) (dims c))) = true).
  { apply validb_true. unfold value, peek in Hv. destruct (cell m _); congruence. }
  rewrite Vb, bind_ok, (load_peek _ _ _ Hv), bind_ok, Hf, bind_ok. cbn [fst snd].
  destruct (Ad t1 C1 F1) as (i1 & (_ & _ & Q1 & _) & T1 & A1). specialize (Q1 (T1 X1)). rewrite R1 in Q1.
  cbn in Q1. unfold ref at 1. rewrite A1, bind_ok, Q1. change (cast I64 4294967295) with 4294967295.
  assert (Out : validb m (padd (c_data c) (prod (dims c) - 1 + 4294967295)) = false); [|rewrite Out; reflexivity].
  unfold validb, cell. rewrite Last in Vb. unfold validb, cell in Vb.
  destruct (c_data c) as [|b o] eqn:Dc; [reflexivity|]. cbn [padd] in *.
  destruct (nth_error m b) as [[cs|]|] eqn:Nb; try reflexivity. specialize (Hb _ _ Nb).
  assert (O : 0 <= o).
  { destruct (R (vals t0) (proj2 C0)) as (w & Hw). rewrite (default_elem c) in Hw by (try exact D; apply C0).
    rewrite R0, Dc in Hw. unfold peek, cell in Hw. cbn [padd] in Hw. rewrite Nb in Hw.
    destruct (Z.leb_spec 0 (o + 0)); [lia|discriminate]. }
  destruct (Z.leb_spec 0 (o + (prod (dims c) - 1 + 4294967295))); [|reflexivity].
  rewrite (proj2 (nth_error_None cs _)); [reflexivity|]. lia.
Qed.
