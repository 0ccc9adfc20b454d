From Coq Require Import ZArith List Bool Lia.
From Verif Require Import Outcome CInt CIntFacts Spec SpecFacts ShapeSpec Shape ShapeFacts ShapeFacts2
  Memory MemFacts Container ContainerSpec.
Import ListNotations.
Open Scope Z_scope.

Lemma cast_I64_small z : - max31 <= z <= max31 -> cast I64 z = z.
Proof. intros H. apply cast_id. unfold in_ty, max31 in *; simpl. lia. Qed.

(** ** The index of a coordinate is the sum of strides times coordinates *)
Lemma index_exact c is_ : wf_container c -> wfs is_ -> in_box (dims c) (vals is_) ->
  sign_ok c (map cty is_) -> absdot (strides_z c) (vals is_) <= max31 ->
  exists i, index c is_ = Ok i /\ cval i = dot (strides_z c) (vals is_) /\ wfc i.
Proof.
  intros (Ws & Ns & (st & Gs & Wst & Lst) & K) Wi B Sg R.
  unfold sign_ok in Sg. unfold strides_z in *. rewrite Gs in *.
  pose proof (in_box_length _ _ B) as L. unfold dims in L. rewrite !vals_length in L.
  pose proof (in_box_nonneg _ _ B) as Ni.
  assert (Lin : c_stride c = st -> exists i, linearize (c_stride c) is_ = Ok i /\
     cval i = dot (vals st) (vals is_) /\ wfc i).
  { intros ->. unfold linearize. destruct Sg as [Nst|[(st' & G' & Sst) Si]].
    - rewrite (absdot_dot _ _ Nst Ni) in R.
      destruct (linearize_from_nonneg st is_ (int 0)) as (i & Ei & Vi & Wi'); try assumption.
      + apply wfc_small_int; unfold max31; lia.
      + lia.
      + simpl; lia.
      + exists i. simpl in Vi. split; [exact Ei|]. split; [lia|exact Wi'].
    - injection G' as <-.
      destruct (linearize_from_signed st is_ (int 0)) as (i & Ei & Vi & Wi' & _); try assumption.
      + apply wfc_small_int; unfold max31; lia.
      + lia.
      + unfold signeds. rewrite Forall_map in Si. exact Si.
      + reflexivity.
      + exists i. simpl in Vi. split; [exact Ei|]. split; [lia|exact Wi']. }
  unfold index, get_stride in *. destruct (c_kind c) eqn:Ek.
  - injection Gs as Gs. apply Lin; exact Gs.
  - injection Gs as Gs. apply Lin; exact Gs.
  - injection Gs as <-. destruct is_ as [|i [|]]; simpl in L; try lia. exists i.
    split; [reflexivity|]. split; [simpl; destruct (cval i); lia|]. inversion Wi; assumption.
  - injection Gs as Gs. rewrite Gs. destruct is_ as [|i [|]]; simpl in L; try lia.
    destruct st as [|s [|]]; simpl in Lst; try lia.
    inversion Wi; inversion Wst; inversion Ni; subst. simpl in *.
    destruct Sg as [Nst|[(st' & G' & Sst) Si]].
    + inversion Nst; subst. destruct (arith_nonneg Z.mul i s) as (p & Hp & Vp & Wp & _); try assumption; try nia.
      exists p. split; [exact Hp|]. split; [lia|exact Wp].
    + injection G' as <-. inversion Sst; inversion Si; subst.
      destruct (arith_signed Z.mul i s) as (p & Hp & Vp & Wp & _); try assumption; [lia|].
      exists p. split; [exact Hp|]. split; [lia|exact Wp].
  - destruct (c_shape c) as [|n0 [|n1 [|]]] eqn:Es; simpl in K; try lia.
    injection Gs as <-. destruct is_ as [|i1 [|i0 [|]]]; simpl in L; try lia.
    inversion Wi as [|? ? W1 Wi']; inversion Wi' as [|? ? W0 _]; subst.
    inversion Ws as [|? ? _ Ws']; inversion Ws' as [|? ? Wn _]; subst.
    unfold dims in B. rewrite Es in B. cbn [vals map] in B. inversion B as [|? ? ? ? B1 B']; subst.
    inversion B' as [|? ? ? ? B0 _]; subst.
    cbn [vals map dot absdot cval int] in *.
    destruct (arith_nonneg Z.mul i1 n1) as (p & Hp & Vp & Wp & _); try assumption; try lia; [nia|].
    unfold cmul. rewrite Hp. cbn [bind].
    destruct (arith_nonneg Z.add i0 p) as (r & Hr & Vr & Wr & _); try assumption; try lia; try nia.
    exists r. split; [exact Hr|]. split; [|exact Wr]. rewrite Vr, Vp. lia.
  - injection Gs as Gs. apply Lin; exact Gs.
Qed.

(** ** In 64 bits *)
Definition max63 : Z := 9223372036854775807.
Lemma common_is64 t u : is64 t \/ is64 u -> is64 (common t u).
Proof. intros [[-> | ->]|[-> | ->]]; [destruct u|destruct u|destruct t|destruct t]; cbn; (left; reflexivity) || (right; reflexivity). Qed.
Lemma in_64 t z : is64 t -> 0 <= z <= max63 -> in_ty t z.
Proof. unfold in_ty, max63. intros [-> | ->]; cbn; lia. Qed.
Lemma arith_wide f a b : wfc a -> wfc b -> 0 <= cval a -> 0 <= cval b -> 0 <= f (cval a) (cval b) <= max63 ->
  is64 (cty a) \/ is64 (cty b) ->
  exists c, arith f a b = Ok c /\ cval c = f (cval a) (cval b) /\ wfc c /\ is64 (cty c).
Proof.
  intros Wa Wb Na Nb R H. pose proof (common_is64 _ _ H) as K. pose proof (in_64 _ _ K R) as I.
  eexists. split; [apply arith_exact; try assumption; right; auto|]. split; [reflexivity|]. split; [exact I|exact K].
Qed.
Lemma mul_unit d i : wfc d -> wfc i -> 0 <= cval d <= 1 -> 0 <= cval i ->
  exists c, cmul d i = Ok c /\ cval c = cval d * cval i /\ wfc c.
Proof.
  intros Wd Wi Hd Ni. assert (I : in_ty (common (cty d) (cty i)) (cval d * cval i)).
  { assert (E : cval d = 0 \/ cval d = 1) by lia. destruct E as [-> | ->]; [|rewrite Z.mul_1_l; apply in_ty_common_r; [exact Wi|right; exact Ni]].
    rewrite Z.mul_0_l. destruct (common (cty d) (cty i)); unfold in_ty; cbn; lia. }
  eexists. split; [apply arith_exact; try assumption; right; lia|]. split; [reflexivity|exact I].
Qed.
Lemma add_zero p t : wfc p -> 0 <= cval p -> exists c, cadd (CI t 0) p = Ok c /\ cval c = cval p /\ wfc c.
Proof.
  intros W N. assert (I : in_ty (common t (cty p)) (0 + cval p)) by (apply in_ty_common_r; [exact W|right; exact N]).
  eexists. split; [apply arith_exact; try assumption; [unfold wfc, in_ty; destruct t; cbn; lia|right; cbn; lia]|]. split; [reflexivity|exact I].
Qed.
Lemma linearize_wide st : forall is_ acc, wfs st -> wfs is_ -> wfc acc -> length is_ = length st ->
  nonnegs (vals st) -> nonnegs (vals is_) -> 0 <= cval acc -> wide_strides st -> is64 (cty acc) \/ cval acc = 0 ->
  cval acc + dot (vals st) (vals is_) <= max63 ->
  exists c, linearize_from acc st is_ = Ok c /\ cval c = cval acc + dot (vals st) (vals is_) /\ wfc c.
Proof.
  induction st as [|s st IH]; intros [|i is_] acc Hst His Hacc Hl Ns Ni Na Wd Ha Hb; try discriminate.
  - exists acc. cbn in *. split; [reflexivity|]. split; [lia|assumption].
  - inversion Hst as [|? ? Ws Hst']; inversion His as [|? ? Wi His']; inversion Ns as [|? ? Ps Ns']; inversion Ni as [|? ? Pi Ni']; subst.
    cbn [vals map dot linearize_from] in *. fold (vals st) (vals is_) in *.
    assert (Dn : 0 <= dot (vals st) (vals is_)) by (apply dot_nonneg; assumption).
    assert (P : exists p, cmul s i = Ok p /\ cval p = cval s * cval i /\ wfc p /\ (is64 (cty p) \/ st = [])).
    { destruct st as [|s' st'].
      - destruct Wd as [W64|Le].
        + destruct (arith_wide Z.mul s i) as (p & Hp & Vp & Wp & _); try assumption; [nia|left; exact W64|]. exists p. auto.
        + destruct (mul_unit s i) as (p & Hp & Vp & Wp); try assumption; [lia|]. exists p. auto.
      - destruct Wd as [W64 _]. destruct (arith_wide Z.mul s i) as (p & Hp & Vp & Wp & Kp); try assumption; [nia|left; exact W64|]. exists p. auto. }
    destruct P as (p & Hp & Vp & Wp & Kp). rewrite Hp, bind_ok.
    assert (A : exists a, cadd acc p = Ok a /\ cval a = cval acc + cval p /\ wfc a /\ (is64 (cty a) \/ st = [])).
    { destruct Ha as [Ha|Ha].
      - destruct (arith_wide Z.add acc p) as (a & E & Va & Wa & Ka); try assumption; try nia; [left; exact Ha|]. exists a. auto.
      - destruct Kp as [Kp|Kp].
        + destruct (arith_wide Z.add acc p) as (a & E & Va & Wa & Ka); try assumption; try nia; [right; exact Kp|]. exists a. auto.
        + destruct acc as [t z]. cbn in Ha. subst z. destruct (add_zero p t) as (a & E & Va & Wa); try assumption; [nia|]. exists a. cbn [cval]. auto. }
    destruct A as (a & Ea & Va & Wa & Ka). rewrite Ea, bind_ok.
    destruct st as [|s' st'].
    + destruct is_; [|discriminate]. cbn [linearize_from]. exists a. cbn in *. split; [reflexivity|]. split; [lia|exact Wa].
    + assert (Ln : length is_ = length (s' :: st')) by (cbn in Hl |- *; lia).
      assert (Na' : 0 <= cval a) by (rewrite Va, Vp; nia).
      assert (Ka' : is64 (cty a) \/ cval a = 0) by (destruct Ka as [Ka|Ka]; [left; exact Ka|discriminate]).
      assert (Hb' : cval a + dot (vals (s' :: st')) (vals is_) <= max63) by (rewrite Va, Vp; lia).
      destruct (IH is_ a Hst' His' Wa Ln Ns' Ni' Na' (proj2 Wd) Ka' Hb') as (c & Ec & Vc & Wc).
      exists c. split; [exact Ec|]. split; [|exact Wc]. rewrite Vc, Va, Vp. lia.
Qed.

Lemma index_far c is_ : wf_container c -> wfs is_ -> in_box (dims c) (vals is_) -> far_ok c ->
  exists i, index c is_ = Ok i /\ cval i = dot (strides_z c) (vals is_) /\ wfc i.
Proof.
  intros (Ws & Ns & (st & Gs & Wst & Lst) & K) Wi B ((st' & Gs' & Wd) & Nst & R). specialize (R _ B).
  rewrite Gs in Gs'. injection Gs' as <-. unfold strides_z in *. rewrite Gs in *.
  pose proof (in_box_length _ _ B) as L. unfold dims in L. rewrite !vals_length in L.
  pose proof (in_box_nonneg _ _ B) as Ni.
  assert (Lin : exists i, linearize st is_ = Ok i /\ cval i = dot (vals st) (vals is_) /\ wfc i).
  { unfold linearize. destruct (linearize_wide st is_ (int 0)) as (i & Ei & Vi & Wi'); try assumption.
    - apply wfc_small_int; unfold max31; lia.
    - lia.
    - cbn; lia.
    - right; reflexivity.
    - exists i. cbn in Vi. auto. }
  unfold index, get_stride in *. destruct (c_kind c) eqn:Ek.
  - injection Gs as Gs. rewrite Gs. exact Lin.
  - injection Gs as Gs. rewrite Gs. exact Lin.
  - injection Gs as <-. destruct is_ as [|i [|]]; simpl in L; try lia. exists i.
    split; [reflexivity|]. split; [simpl; destruct (cval i); lia|]. inversion Wi; assumption.
  - injection Gs as Gs. rewrite Gs. destruct is_ as [|i [|]]; simpl in L; try lia.
    destruct st as [|s [|]]; simpl in Lst; try lia.
    inversion Wi; inversion Wst; inversion Ni; inversion Nst; subst. cbn [vals map dot wide_strides] in *.
    destruct Wd as [Wd|Wd].
    + destruct (arith_wide Z.mul i s) as (p & Hp & Vp & Wp & _); try assumption; [unfold max63; nia|right; exact Wd|].
      exists p. split; [exact Hp|]. split; [lia|exact Wp].
    + assert (I : in_ty (common (cty i) (cty s)) (cval i * cval s)).
      { assert (E : cval s = 0 \/ cval s = 1) by lia. destruct E as [-> | ->]; [|rewrite Z.mul_1_r; apply in_ty_common_l; [assumption|right; assumption]].
        rewrite Z.mul_0_r. destruct (common (cty i) (cty s)); unfold in_ty; cbn; lia. }
      eexists. split; [apply arith_exact; try assumption; right; lia|]. cbn [cval]. split; [lia|exact I].
  - destruct (c_shape c) as [|n0 [|n1 [|]]] eqn:Es; simpl in K; try lia.
    injection Gs as <-. destruct is_ as [|i1 [|i0 [|]]]; simpl in L; try lia.
    inversion Wi as [|? ? W1 Wi']; inversion Wi' as [|? ? W0 _]; subst.
    inversion Ws as [|? ? _ Ws']; inversion Ws' as [|? ? Wn _]; subst.
    unfold dims in B. rewrite Es in B. cbn [vals map] in B. inversion B as [|? ? ? ? B1 B']; subst.
    inversion B' as [|? ? ? ? B0 _]; subst.
    cbn [vals map dot cval int wide_strides] in *. destruct Wd as [Wd _].
    destruct (arith_wide Z.mul i1 n1) as (p & Hp & Vp & Wp & Kp); try assumption; try lia; [unfold max63; nia|right; exact Wd|].
    unfold cmul. rewrite Hp. cbn [bind].
    destruct (arith_wide Z.add i0 p) as (r & Hr & Vr & Wr & _); try assumption; try lia; try (unfold max63; nia); [right; exact Kp|].
    exists r. split; [exact Hr|]. split; [|exact Wr]. rewrite Vr, Vp. lia.
  - injection Gs as Gs. rewrite Gs. exact Lin.
Qed.

Lemma elem_address c is_ : addressable c (map cty is_) -> wfs is_ -> in_box (dims c) (vals is_) ->
  address c is_ = Ok (elem c (vals is_)).
Proof.
  intros (W & S & [R|R]) Wi B.
  - specialize (R _ B). destruct (index_exact c is_ W Wi B S R) as (i & Ei & Vi & _).
    unfold address, elem. rewrite Ei. cbn [bind]. rewrite Vi.
    rewrite cast_I64_small; [reflexivity|]. pose proof (dot_absdot (strides_z c) (vals is_)). unfold max31. lia.
  - destruct (index_far c is_ W Wi B R) as (i & Ei & Vi & _). destruct R as (_ & Nst & R). specialize (R _ B).
    unfold address, elem. rewrite Ei. cbn [bind]. rewrite Vi. rewrite cast_id; [reflexivity|].
    pose proof (dot_nonneg _ _ Nst (in_box_nonneg _ _ B)). unfold in_ty; cbn. lia.
Qed.

Lemma ref_ok {T} (m : mem T) c is_ : addressable c (map cty is_) -> wfs is_ ->
  in_box (dims c) (vals is_) -> valid m (elem c (vals is_)) -> ref m c is_ = Ok (elem c (vals is_)).
Proof.
  intros A Wi B V. unfold ref. rewrite elem_address by assumption. cbn [bind].
  apply validb_true in V. rewrite V. reflexivity.
Qed.

(** ** Default layout *)
Lemma default_wf c : default_layout c ->
  wf_container c /\ strides_z c = strides_of (dims c) /\ nonnegs (strides_z c).
Proof.
  intros (Lg & Ne & ss & Mk).
  destruct (as_stride_ok (c_shape c) Lg Ne) as (st & As & Vst & Wst).
  assert (G : exists st', get_stride c = Ok st' /\ wfs st' /\ vals st' = strides_of (dims c) /\
    match c_kind c with
    | K1 | K1S => length (c_shape c) = 1%nat | K2 | K2S => length (c_shape c) = 2%nat | _ => True end).
  { unfold make_accessor in Mk. unfold get_stride, dims. destruct ss.
    - rewrite As in Mk. cbn [bind] in Mk. injection Mk as Ek Est. rewrite <- Ek, <- Est.
      exists st. repeat split; assumption.
    - destruct (c_shape c) as [|n0 [|n1 [|n2 s']]] eqn:Es; [congruence| | |].
      + injection Mk as Ek Est. rewrite <- Ek. eexists. split; [reflexivity|].
        split; [repeat constructor; vm_compute; discriminate|]. split; reflexivity.
      + injection Mk as Ek Est. rewrite <- Ek. eexists. split; [reflexivity|].
        split; [|split; [|reflexivity]].
        * destruct Lg as [W _]. inversion W as [|? ? _ W']; inversion W'; subst.
          constructor; [assumption|]. repeat constructor; vm_compute; discriminate.
        * simpl. rewrite !prod_cons. change (prod []) with 1. rewrite Z.mul_1_r. reflexivity.
      + rewrite As in Mk. cbn [bind] in Mk. injection Mk as Ek Est. rewrite <- Ek, <- Est.
        exists st. repeat split; assumption. }
  destruct G as (st' & Gs & W' & V' & K).
  assert (Sz : strides_z c = strides_of (dims c)) by (unfold strides_z; rewrite Gs; exact V').
  split; [|split; [exact Sz|]].
  - split; [apply Lg|]. split; [apply Lg|]. split; [|exact K]. exists st'. split; [exact Gs|]. split; [exact W'|].
    apply (f_equal (@length Z)) in V'. rewrite strides_of_length in V'. unfold dims in V'.
    rewrite !vals_length in V'. exact V'.
  - rewrite Sz. apply strides_of_nonneg. apply Lg.
Qed.

Lemma default_reach c : default_layout c -> reach_ok c.
Proof.
  intros D. destruct (default_wf c D) as (W & Sz & Nn). destruct D as (Lg & Ne & _).
  intros is_ B. rewrite absdot_dot; [|exact Nn|eapply in_box_nonneg; exact B].
  rewrite Sz, <- rank_dot by (apply in_box_length; exact B).
  pose proof (rank_range _ _ B). pose proof (legal_prod _ Lg). unfold dims, max31 in *. lia.
Qed.
Lemma default_addressable c tys : default_layout c -> addressable c tys.
Proof.
  intros D. destruct (default_wf c D) as (W & Sz & Nn).
  split; [exact W|]. split; [left; exact Nn|left; apply default_reach, D].
Qed.

Lemma default_elem c is_ : default_layout c -> in_box (dims c) is_ ->
  elem c is_ = padd (c_data c) (rank (dims c) is_).
Proof.
  intros D B. destruct (default_wf c D) as (_ & Sz & _). unfold elem. rewrite Sz.
  rewrite <- rank_dot by (apply in_box_length; exact B). reflexivity.
Qed.

Lemma default_index_rank_l c is_ : default_layout c -> wfs is_ -> in_box (dims c) (vals is_) ->
  exists i, index c is_ = Ok i /\ cval i = rank (dims c) (vals is_) /\ 0 <= cval i < prod (dims c) /\
            address c is_ = Ok (padd (c_data c) (rank (dims c) (vals is_))).
Proof.
  intros D Wi B. destruct (default_wf c D) as (W & Sz & Nn).
  destruct (default_addressable c (map cty is_) D) as (_ & S & _). pose proof (default_reach c D) as R.
  destruct (index_exact c is_ W Wi B S (R _ B)) as (i & Ei & Vi & _).
  rewrite Sz, <- rank_dot in Vi by (apply in_box_length; exact B).
  exists i. split; [exact Ei|]. split; [exact Vi|]. rewrite Vi. split; [apply rank_range; exact B|].
  rewrite elem_address by (try assumption; apply default_addressable; exact D).
  rewrite default_elem by assumption. reflexivity.
Qed.

Lemma default_index_inj_l c a b i j : default_layout c -> wfs a -> wfs b ->
  in_box (dims c) (vals a) -> in_box (dims c) (vals b) ->
  index c a = Ok i -> index c b = Ok j -> cval i = cval j -> vals a = vals b.
Proof.
  intros D Wa Wb Ba Bb Ei Ej E.
  destruct (default_index_rank_l c a D Wa Ba) as (i' & Ei' & Vi & _).
  destruct (default_index_rank_l c b D Wb Bb) as (j' & Ej' & Vj & _).
  apply (rank_inj (dims c)); try assumption. congruence.
Qed.

Lemma default_index_surj_l c r : default_layout c -> 0 <= r < prod (dims c) ->
  exists is_, in_box (dims c) is_ /\ rank (dims c) is_ = r /\
  forall cs, wfs cs -> vals cs = is_ -> exists i, index c cs = Ok i /\ cval i = r.
Proof.
  intros D Hr. assert (P : Forall (fun n => 1 <= n) (dims c)).
  { apply prod_pos_all; [apply D|lia]. }
  assert (Ne : dims c <> []).
  { destruct D as (_ & Ne & _). unfold dims. destruct (c_shape c); [congruence|discriminate]. }
  destruct (rank_surj (dims c) r P Ne Hr) as (is_ & B & E).
  exists is_. split; [exact B|]. split; [exact E|]. intros cs Wc <-.
  destruct (default_index_rank_l c cs D Wc B) as (i & Ei & Vi & _). exists i. split; [exact Ei|]. congruence.
Qed.

(** make_view and make_table without strides give default layouts. *)
Lemma make_view_default_l ss sh data : legal sh -> sh <> [] ->
  exists c, make_view ss ss sh None data = Ok c /\ default_layout c /\ c_shape c = sh /\ c_data c = data.
Proof.
  intros Lg Ne. unfold make_view.
  assert (G : exists k st, make_accessor ss ss sh None = Ok (k, st)).
  { destruct (as_stride_ok sh Lg Ne) as (st & As & _). unfold make_accessor. destruct ss.
    - rewrite As. cbn [bind]. eauto.
    - destruct sh as [|? [|? [|]]]; [congruence|eauto|eauto|]. rewrite As. cbn [bind]. eauto. }
  destruct G as (k & st & G). rewrite G. cbn [bind]. eexists. split; [reflexivity|].
  split; [|split; reflexivity]. split; [exact Lg|]. split; [exact Ne|]. exists ss. exact G.
Qed.
