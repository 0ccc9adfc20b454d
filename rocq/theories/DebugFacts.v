(** Facts about index conversions out of range. *)
From Coq Require Import ZArith List Bool Lia.
From Verif Require Import Outcome CInt CIntFacts Spec SpecFacts ShapeSpec Shape ShapeFacts ShapeFacts2 Memory MemFacts Container ContainerSpec ContainerFacts AlgoFacts4.
Import ListNotations.
Open Scope Z_scope.

Lemma linear_index_aborts_l s is_ : legal s -> s <> [] -> wfs is_ -> nonnegs (vals is_) -> fits s is_ ->
  (linear_index true s is_ = Abort <-> ~ in_box (vals s) (vals is_)).
Proof.
  intros Lg Ne W Nn F. split.
  - intros A B. destruct (linear_index_rank_l true s is_ Lg Ne (conj W B) (fun _ => F)) as (c & E & _). congruence.
  - intros B. unfold linear_index. destruct (contains s is_) eqn:C; [|reflexivity].
    exfalso. apply B. apply (contains_iff_in_box_l s is_ (legal_wf _ Lg) W Nn F). exact C.
Qed.

Lemma linear_index_unchecked_l s is_ : legal s -> s <> [] -> wfs is_ -> nonnegs (vals is_) -> length is_ = length s ->
  rank (vals s) (vals is_) <= 2147483647 ->
  exists c, linear_index false s is_ = Ok c /\ cval c = rank (vals s) (vals is_).
Proof.
  intros Lg Ne W Nn L R. unfold linear_index. cbn [kassert bind].
  destruct (as_stride_ok s Lg Ne) as (st & E & V & Ws). rewrite E. cbn [bind]. unfold linearize.
  assert (Ll : length (vals is_) = length (vals s)) by (unfold vals; rewrite !map_length; exact L).
  rewrite rank_dot in R by exact Ll.
  destruct (linearize_from_nonneg st is_ (int 0)) as (c & Ec & Vc & _); try assumption.
  - apply wfc_int. unfold max31. lia.
  - rewrite L. apply (f_equal (@length Z)) in V. unfold vals in V. rewrite map_length, strides_of_length, map_length in V.
    symmetry. exact V.
  - rewrite V. apply strides_of_nonneg. apply legal_nonneg. exact Lg.
  - simpl. lia.
  - rewrite V. unfold max31. cbn [cval int]. lia.
  - exists c. split; [exact Ec|]. rewrite Vc, V, rank_dot by exact Ll. cbn [cval int]. lia.
Qed.

Lemma coordinates_aborts_l s idx : legal s -> s <> [] -> wfc idx -> 0 <= cval idx ->
  (coordinates true idx s = Abort <-> prod (vals s) <= cval idx).
Proof.
  intros Lg Ne W Nn. split.
  - intros A. destruct (Z.le_gt_cases (prod (vals s)) (cval idx)) as [H|H]; [exact H|].
    destruct (coordinates_ok true s idx Lg Ne W) as (cs & E & _); [lia|congruence].
  - intros H. unfold coordinates. cbn [kassert]. rewrite (numel_ok s Lg Ne). cbn [bind].
    rewrite clt_exact; [|exact W|apply wfc_small_int, legal_prod, Lg|apply compat_nonneg; [exact Nn|apply legal_prod, Lg]].
    cbn [cval int]. destruct (Z.ltb_spec (cval idx) (prod (vals s))); [lia|reflexivity].
Qed.

(** Negative signed indexes. *)
Lemma in_ty_between t z z' : in_ty t z -> z <= z' <= 0 -> in_ty t z'.
Proof. unfold in_ty; destruct t; simpl; lia. Qed.

Lemma quot_neg a b : a <= 0 -> 0 < b -> Z.quot a b = - (- a / b) /\ a <= Z.quot a b <= 0.
Proof.
  intros Ha Hb.
  assert (E : Z.quot a b = - (- a / b)).
  { rewrite <- (Z.opp_involutive a) at 1. rewrite Z.quot_opp_l, Z.quot_div_nonneg by lia. reflexivity. }
  rewrite E. split; [reflexivity|]. pose proof (Z.div_pos (- a) b). assert (- a / b <= - a) by (apply Z.div_le_upper_bound; nia). lia.
Qed.

Lemma rem_neg a b : a <= 0 -> 0 < b -> Z.rem a b = - (- a mod b) /\ a <= Z.rem a b <= 0.
Proof.
  intros Ha Hb.
  assert (E : Z.rem a b = - (- a mod b)).
  { rewrite <- (Z.opp_involutive a) at 1. rewrite Z.rem_opp_l', Z.rem_mod_nonneg by lia. reflexivity. }
  rewrite E. split; [reflexivity|]. pose proof (Z.mod_pos_bound (- a) b Hb). assert (- a mod b <= - a) by (apply Z.mod_le; lia). lia.
Qed.

Lemma cdiv_signed a b : wfc a -> wfc b -> is_signed (cty a) = true -> is_signed (cty b) = true ->
  cval a <= 0 -> 0 < cval b ->
  exists c, cdiv a b = Ok c /\ cval c = - (- cval a / cval b) /\ cval a <= cval c <= 0 /\ wfc c /\ is_signed (cty c) = true.
Proof.
  intros Wa Wb Sa Sb Na Pb. unfold cdiv. assert (C : compat a b) by (apply compat_signed; assumption).
  rewrite (compat_cast_l a b), (compat_cast_r a b) by assumption.
  destruct (Z.eqb_spec (cval b) 0); [lia|].
  destruct (quot_neg (cval a) (cval b) Na Pb) as (Q & B).
  assert (I : in_ty (common (cty a) (cty b)) (Z.quot (cval a) (cval b))).
  { apply in_ty_between with (z := cval a); [|exact B]. apply in_ty_common_l; [exact Wa|]. left. apply common_signed; assumption. }
  rewrite (proj2 (in_tyb_spec _ _) I). eexists. split; [reflexivity|]. cbn [cval cty].
  split; [exact Q|]. split; [exact B|]. split; [exact I|]. apply common_signed; assumption.
Qed.

Lemma cmod_signed a b : wfc a -> wfc b -> is_signed (cty a) = true -> is_signed (cty b) = true ->
  cval a <= 0 -> 0 < cval b ->
  exists c, cmod a b = Ok c /\ cval c = - (- cval a mod cval b) /\ cval a <= cval c <= 0 /\ wfc c.
Proof.
  intros Wa Wb Sa Sb Na Pb. unfold cmod. assert (C : compat a b) by (apply compat_signed; assumption).
  rewrite (compat_cast_l a b), (compat_cast_r a b) by assumption.
  destruct (Z.eqb_spec (cval b) 0); [lia|].
  destruct (quot_neg (cval a) (cval b) Na Pb) as (Q & B).
  assert (A : in_ty (common (cty a) (cty b)) (cval a)).
  { apply in_ty_common_l; [exact Wa|]. left. apply common_signed; assumption. }
  rewrite (proj2 (in_tyb_spec _ _) (in_ty_between _ _ _ A B)).
  destruct (rem_neg (cval a) (cval b) Na Pb) as (R & B2).
  eexists. split; [reflexivity|]. cbn [cval cty]. split; [exact R|]. split; [exact B2|].
  exact (in_ty_between _ _ _ A B2).
Qed.

Lemma coords_inner_neg idx s : forall st, wfc idx -> is_signed (cty idx) = true -> cval idx <= 0 ->
  wfs s -> signeds s -> wfs st -> signeds st -> vals st = strides_of (vals s) ->
  Forall (fun n => 1 <= n) (vals s) ->
  exists cs, coords_inner idx st s = Ok cs /\ vals cs = map Z.opp (inner_of (- cval idx) (vals s)).
Proof.
  induction s as [|n s IH]; intros st Wi Si Hp Hs Ss Hst Sst Hv Hpos.
  - destruct st; [|discriminate]. exists []. split; reflexivity.
  - destruct st as [|d st]; [discriminate|].
    inversion Hs; inversion Ss; inversion Hst; inversion Sst; inversion Hpos; subst.
    unfold vals in Hv; cbn [map strides_of] in Hv. injection Hv as Hd Hv.
    destruct (IH st) as (cs & Hcs & Hcv); try assumption.
    assert (Hdp : 1 <= cval d) by (rewrite Hd; apply prod_pos; assumption).
    cbn [coords_inner].
    destruct (cdiv_signed idx d) as (q & Hq & Hqv & Hqr & Hqw & Hqs); try assumption; try lia.
    rewrite Hq. cbn [bind].
    destruct (cmod_signed q n) as (r & Hr & Hrv & Hrr & Hrw); try assumption; try lia.
    rewrite Hr. cbn [bind]. rewrite Hcs. cbn [bind].
    rewrite conv_exact by (apply in_ty_between with (z := cval idx); [exact Wi|lia]).
    eexists; split; [reflexivity|]. unfold vals; cbn [map inner_of cval].
    unfold vals in Hcv. rewrite Hcv. rewrite Hrv, Hqv, Z.opp_involutive, Hd. reflexivity.
Qed.

Lemma dot_opp a : forall b, dot a (map Z.opp b) = - dot a b.
Proof. induction a as [|x a IH]; intros [|y b]; simpl; try lia. rewrite IH. lia. Qed.

Lemma inner_nonneg r ns : 0 <= r -> Forall (fun n => 1 <= n) ns -> Forall (fun z => 0 <= z) (inner_of r ns).
Proof. intros Hr H. eapply in_box_nonneg. apply inner_of_box; eassumption. Qed.

Lemma coordinates_negative_l dbg s idx : legal s -> s <> [] -> signeds s -> Forall (fun n => 1 <= n) (vals s) ->
  wfc idx -> is_signed (cty idx) = true -> cval idx < 0 ->
  exists cs, coordinates dbg idx s = Ok cs /\ rank (vals s) (vals cs) = cval idx /\
    Forall (fun z => z <= 0) (vals cs) /\ ~ in_box (vals s) (vals cs).
Proof.
  intros Lg Ne Ss Pos Wi Si Neg. unfold coordinates.
  assert (HA : kassert dbg (n <- numel s;; Ok (clt idx n)) = Ok tt).
  { destruct dbg; [|reflexivity]. cbn [kassert]. rewrite (numel_ok s Lg Ne). cbn [bind].
    pose proof (legal_prod _ Lg).
    rewrite clt_exact; [|exact Wi|apply wfc_small_int, legal_prod, Lg|apply compat_signed; [exact Si|reflexivity]].
    cbn [cval int]. destruct (Z.ltb_spec (cval idx) (prod (vals s))); [reflexivity|lia]. }
  rewrite HA. cbn [bind].
  destruct (as_stride_ok s Lg Ne) as (st & Hst & Hv & Hw). pose proof (as_stride_signed s st Ss Hst) as Sst.
  rewrite Hst. cbn [bind]. pose proof (legal_wf _ Lg) as Ws.
  destruct s as [|n s]; [congruence|]. destruct st as [|d st]; [discriminate|].
  pose proof Hv as Hv'. unfold vals in Hv'; cbn [map strides_of] in Hv'. injection Hv' as Hd Hv'.
  inversion Ws; inversion Ss; inversion Hw; inversion Sst; inversion Pos; subst.
  assert (Hdp : 1 <= cval d) by (rewrite Hd; apply prod_pos; assumption).
  destruct (cdiv_signed idx d) as (q & Hq & Hqv & Hqr & Hqw & Hqs); try assumption; try lia.
  rewrite Hq. cbn [bind].
  destruct (coords_inner_neg idx s st) as (cs & Hcs & Hcv); try assumption; try lia.
  rewrite Hcs. cbn [bind].
  rewrite conv_exact by (apply in_ty_between with (z := cval idx); [exact Wi|lia]).
  eexists; split; [reflexivity|].
  assert (V : vals (CI (cty idx) (cval q) :: cs) = map Z.opp (coords_of (- cval idx) (vals (n :: s)))).
  { change (vals (n :: s)) with (cval n :: vals s). cbn [coords_of map]. unfold vals at 1. cbn [map cval].
    unfold vals in Hcv at 1. rewrite Hcv, Hqv, Hd. reflexivity. }
  rewrite V.
  assert (Rk : rank (vals (n :: s)) (map Z.opp (coords_of (- cval idx) (vals (n :: s)))) = cval idx).
  { assert (L : length (coords_of (- cval idx) (vals (n :: s))) = length (vals (n :: s))).
    { change (vals (n :: s)) with (cval n :: vals s). cbn [coords_of length]. rewrite inner_of_length. reflexivity. }
    rewrite rank_dot by (rewrite map_length; exact L). rewrite dot_opp, <- rank_dot by exact L.
    rewrite coords_of_rank; [lia|exact Pos|discriminate|lia]. }
  split; [exact Rk|]. split.
  - change (vals (n :: s)) with (cval n :: vals s). cbn [coords_of]. apply Forall_map. constructor.
    + pose proof (Z.div_pos (- cval idx) (prod (vals s))). assert (1 <= prod (vals s)) by (apply prod_pos; assumption). lia.
    + eapply Forall_impl; [|apply (inner_nonneg (- cval idx) (vals s)); [lia|assumption]]. simpl. intros; lia.
  - intros B. apply rank_range in B. lia.
Qed.

(** Element access is not checked. *)
Lemma dot_nonneg a : Forall (fun z => 0 <= z) a -> forall b, Forall (fun z => 0 <= z) b -> 0 <= dot a b.
Proof.
  induction 1 as [|x l Hx Hl IH]; intros b Hb; simpl; [lia|]. destruct Hb as [|y b Hy Hb]; [lia|].
  specialize (IH b Hb). nia.
Qed.

Lemma default_index_any c is_ : default_layout c -> wfs is_ -> nonnegs (vals is_) -> length is_ = length (c_shape c) ->
  rank (dims c) (vals is_) <= 2147483647 ->
  address c is_ = Ok (padd (c_data c) (rank (dims c) (vals is_))).
Proof.
  intros D Wi Ni L R. destruct (default_wf c D) as ((Ws & Ns & (st & Gs & Wst & Lst) & K) & Sz & Nst).
  assert (Ll : length (vals is_) = length (dims c)) by (unfold dims; rewrite !vals_length; exact L).
  rewrite rank_dot in R by exact Ll. rewrite rank_dot by exact Ll. unfold strides_z in Sz, Nst. rewrite Gs in Sz, Nst.
  rewrite <- Sz in R. rewrite <- Sz.
  assert (P0 : 0 <= dot (vals st) (vals is_)).
  { apply dot_nonneg; assumption. }
  assert (G : exists i, index c is_ = Ok i /\ cval i = dot (vals st) (vals is_)).
  { assert (Lin : c_stride c = st -> exists i, linearize (c_stride c) is_ = Ok i /\ cval i = dot (vals st) (vals is_)).
    { intros ->. unfold linearize.
      destruct (linearize_from_nonneg st is_ (int 0)) as (i & Ei & Vi & Wi'); try assumption.
      - apply wfc_small_int; unfold max31; lia.
      - rewrite L, Lst. reflexivity.
      - simpl; lia.
      - exists i. simpl in Vi. split; [exact Ei|lia]. }
    unfold index, get_stride in *. destruct D as (Lg & Ne & ss & Mk). destruct (c_kind c) eqn:Ek.
    - injection Gs as Gs. apply Lin; exact Gs.
    - injection Gs as Gs. apply Lin; exact Gs.
    - injection Gs as <-. destruct is_ as [|i [|]]; simpl in L; try lia. exists i.
      split; [reflexivity|]. simpl; destruct (cval i); lia.
    - exfalso. clear - Mk. unfold make_accessor in Mk. destruct ss.
      + destruct (as_stride (c_shape c)); discriminate.
      + destruct (c_shape c) as [|? [|? [|]]]; try discriminate; destruct (as_stride _); discriminate.
    - destruct (c_shape c) as [|n0 [|n1 [|]]] eqn:Es; simpl in K; try lia.
      injection Gs as <-. destruct is_ as [|i1 [|i0 [|]]]; simpl in L; try lia.
      inversion Wi as [|? ? W1 Wi']; inversion Wi' as [|? ? W0 _]; subst.
      inversion Ws as [|? ? _ Ws']; inversion Ws' as [|? ? Wn _]; subst.
      inversion Ni as [|? ? N1 Ni']; inversion Ni' as [|? ? N0 _]; subst.
      inversion Nst as [|? ? Nn _]; subst.
      cbn [vals map dot cval int] in *.
      destruct (arith_nonneg Z.mul i1 n1) as (p & Hp & Vp & Wp & _); try assumption; try lia; [unfold max31; nia|].
      unfold cmul. rewrite Hp. cbn [bind].
      destruct (arith_nonneg Z.add i0 p) as (r & Hr & Vr & Wr & _); try assumption; try lia; try (unfold max31; nia).
      exists r. split; [exact Hr|]. rewrite Vr, Vp. lia.
    - exfalso. clear - Mk. unfold make_accessor in Mk. destruct ss.
      + destruct (as_stride (c_shape c)); discriminate.
      + destruct (c_shape c) as [|? [|? [|]]]; try discriminate; destruct (as_stride _); discriminate. }
  destruct G as (i & Ei & Vi). unfold address. rewrite Ei. cbn [bind]. rewrite Vi, cast_I64_small; [reflexivity|].
  unfold max31. lia.
Qed.

Lemma access_overrun_l {T} (m : mem T) c is_ : default_layout c -> wfs is_ -> nonnegs (vals is_) ->
  length is_ = length (c_shape c) -> rank (dims c) (vals is_) < prod (dims c) ->
  exists js, in_box (dims c) js /\ rank (dims c) js = rank (dims c) (vals is_) /\
    address c is_ = Ok (elem c js) /\
    (forall v, peek m (elem c js) = Some v -> get m c is_ = Ok v).
Proof.
  intros D Wi Ni L R. pose proof (legal_prod _ (proj1 D)) as Lp. unfold dims in R.
  pose proof (default_index_any c is_ D Wi Ni L ltac:(unfold dims, max31 in *; lia)) as A.
  assert (P0 : 0 <= rank (dims c) (vals is_)).
  { rewrite rank_dot by (unfold dims; rewrite !vals_length; exact L).
    apply dot_nonneg; [|exact Ni]. apply strides_of_nonneg. exact (proj1 (proj2 (proj1 D))). }
  destruct (default_index_surj_l c (rank (dims c) (vals is_)) D) as (js & B & E & _); [unfold dims in *; lia|].
  exists js. split; [exact B|]. split; [exact E|]. rewrite (default_elem c js D B), E.
  split; [exact A|]. intros v Pv. unfold get, ref. rewrite A. cbn [bind].
  unfold peek in Pv. unfold validb, load.
  destruct (cell m (padd (c_data c) (rank (dims c) (vals is_)))) as [[x|]|] eqn:Ec; try discriminate.
  injection Pv as ->. cbn [bind]. rewrite Ec. reflexivity.
Qed.

Lemma access_outside_l {T} (m : mem T) c is_ : default_layout c -> wfs is_ -> nonnegs (vals is_) ->
  length is_ = length (c_shape c) -> prod (dims c) <= rank (dims c) (vals is_) <= 2147483647 ->
  (forall k, prod (dims c) <= k -> ~ valid m (padd (c_data c) k)) -> get m c is_ = UB.
Proof.
  intros D Wi Ni L R V. pose proof (default_index_any c is_ D Wi Ni L (proj2 R)) as A.
  unfold get, ref. rewrite A. cbn [bind]. specialize (V _ (proj1 R)). unfold valid in V. unfold validb.
  destruct (cell m _); [exfalso; apply V; discriminate|reflexivity].
Qed.
