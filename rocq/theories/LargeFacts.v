(** Facts about large shapes and views (C99). *)
From Coq Require Import ZArith List Bool Lia.
From Verif Require Import Outcome CInt CIntFacts Spec SpecFacts ShapeSpec Shape ShapeFacts ShapeFacts2
  Memory MemFacts Container ContainerSpec ContainerFacts ContainerFacts2 ContainerFacts3 Algo AlgoSpec AlgoFacts AlgoFacts2 AlgoFacts3 AlgoFacts4 OverlapFacts2 LargeSpec.
Import ListNotations.
Open Scope Z_scope.

Lemma large_tail n s : wfs (n :: s) -> nonnegs (vals (n :: s)) -> posprod (vals (n :: s)) <= max63 ->
  wfc n /\ 0 <= cval n /\ wfs s /\ nonnegs (vals s) /\ posprod (vals s) <= max63.
Proof.
  intros W N P. inversion W; inversion N; subst. cbn [vals map] in P. pose proof (posprod_tail_le (cval n) (map cval s)).
  repeat (split; [assumption|]). unfold vals. lia.
Qed.
Lemma large_prod s : nonnegs (vals s) -> posprod (vals s) <= max63 -> 0 <= prod (vals s) <= max63.
Proof. intros N P. split; [apply prod_nonneg; exact N|]. pose proof (prod_le_posprod _ N). lia. Qed.

(** ** Strides *)
Lemma stride_fold_large s : wfs s -> nonnegs (vals s) -> posprod (vals s) <= max63 ->
  (forall r n, s = r ++ [n] -> is64 (cty n)) ->
  exists f st, kfold_left (fun a m => f <- front a ;; x <- cmul m f ;; Ok (x :: a)) s [int 1] = Ok (f :: st) /\
    vals (f :: st) = prod (vals s) :: strides_of (vals s) /\ wfs (f :: st) /\ (s <> [] -> is64 (cty f)) /\ wide_strides (f :: st).
Proof.
  induction s as [|n s IH]; intros W N P K.
  - exists (int 1), []. split; [reflexivity|]. split; [reflexivity|]. split; [constructor; [apply wfc_small_int; unfold max31; lia|constructor]|].
    split; [intros H; contradiction|]. right. cbn. lia.
  - destruct (large_tail _ _ W N P) as (Wn & Nn & W' & N' & P').
    destruct (IH W' N' P') as (f & st & E & V & Ws & K1 & Wd).
    { intros r x ->. apply (K (n :: r)). reflexivity. }
    cbn [kfold_left]. rewrite E, bind_ok. cbn [front]. rewrite bind_ok.
    cbn [vals map] in V. injection V as Vf V. inversion Ws as [|? ? Wf Ws']; subst.
    pose proof (large_prod _ N P) as Hp. cbn [vals map] in Hp. rewrite prod_cons in Hp. fold (vals s) in Hp, Vf.
    assert (H64 : is64 (cty n) \/ is64 (cty f)).
    { destruct s as [|m s]; [left; apply (K []); reflexivity|right; apply K1; discriminate]. }
    pose proof (large_prod _ N' P') as Hp'.
    destruct (arith_wide Z.mul n f) as (d & Hd & Vd & Wdd & Kd); try assumption; [lia|rewrite Vf; lia|].
    unfold cmul. rewrite Hd, bind_ok. exists d, (f :: st). split; [reflexivity|]. split.
    + cbn [vals map strides_of]. rewrite Vd, Vf, prod_cons. fold (vals st) (vals s). f_equal. f_equal. exact V.
    + split; [constructor; [exact Wdd|exact Ws]|]. split; [intros _; exact Kd|]. split; [exact Kd|exact Wd].
Qed.

Lemma large_split s : large s -> s <> [] -> exists n r, s = n :: r /\ (forall q x, r = q ++ [x] -> is64 (cty x)).
Proof.
  intros (_ & _ & _ & L) Ne. destruct s as [|n r]; [contradiction|]. exists n, r. split; [reflexivity|].
  intros q x ->. destruct L as [L|(q' & y & E & Y)].
  - cbn in L. rewrite app_length in L. cbn in L. lia.
  - rewrite app_comm_cons in E. apply app_inj_tail in E as [_ ->]. exact Y.
Qed.

Lemma as_stride_large s : large s -> s <> [] ->
  exists st, as_stride s = Ok st /\ vals st = strides_of (vals s) /\ wfs st /\ wide_strides st.
Proof.
  intros L Ne. destruct (large_split s L Ne) as (n & r & -> & K). destruct L as (W & N & P & _).
  destruct (large_tail _ _ W N P) as (_ & _ & W' & N' & P').
  destruct (stride_fold_large r W' N' P' K) as (f & st & E & V & Ws & _ & Wd).
  exists (f :: st). split; [|split; [exact V|split; assumption]]. destruct r; exact E.
Qed.

(** ** Indexes *)
Lemma large_index dbg s is_ : large s -> s <> [] -> coord_in s is_ -> (dbg = true -> fits s is_) ->
  exists i, linear_index dbg s is_ = Ok i /\ cval i = rank (vals s) (vals is_) /\ wfc i.
Proof.
  intros L Ne C F. destruct (as_stride_large s L Ne) as (st & E & V & Ws & Wd). unfold linear_index.
  assert (HA : kassert dbg (Ok (contains s is_)) = Ok tt).
  { destruct dbg; [|reflexivity]. cbn. rewrite (contains_coord s is_); [reflexivity|apply L|exact C|apply F; reflexivity]. }
  rewrite HA, bind_ok, E, bind_ok. destruct C as [Wi B].
  pose proof (in_box_length _ _ B) as Lb. rewrite !vals_length in Lb.
  assert (Ls : length st = length s) by (rewrite <- (vals_length st), V, strides_of_length, vals_length; reflexivity).
  assert (Rk : rank (vals s) (vals is_) = dot (vals st) (vals is_)) by (rewrite V; apply rank_dot; apply in_box_length, B).
  pose proof (rank_range _ _ B) as R. destruct L as (_ & N & P & _). pose proof (large_prod _ N P) as Hp.
  unfold linearize. destruct (linearize_wide st is_ (int 0)) as (i & Ei & Vi & Wi'); try assumption.
  - apply wfc_small_int; unfold max31; lia.
  - lia.
  - rewrite V. apply strides_of_nonneg. exact N.
  - eapply in_box_nonneg; exact B.
  - cbn; lia.
  - right; reflexivity.
  - cbn [cval int]. rewrite <- Rk. lia.
  - exists i. split; [exact Ei|]. split; [rewrite Vi, Rk; cbn; lia|exact Wi'].
Qed.

Lemma large_coordinates s idx : large s -> s <> [] -> wfc idx -> 0 <= cval idx < prod (vals s) ->
  exists cs, coordinates false idx s = Ok cs /\ in_box (vals s) (vals cs) /\ rank (vals s) (vals cs) = cval idx /\
             Forall (fun c => cty c = cty idx) cs /\ wfs cs.
Proof.
  intros L Ne Wi R. unfold coordinates. cbn [kassert]. rewrite bind_ok.
  destruct (as_stride_large s L Ne) as (st & E & V & Ws & _). rewrite E, bind_ok. destruct L as (W & N & _ & _).
  assert (Hpos : Forall (fun n => 1 <= n) (vals s)) by (apply prod_pos_all; [exact N|lia]).
  assert (G : exists cs, match st, s with
    | d :: st', _ :: s' => q <- cdiv idx d ;; rest <- coords_inner idx st' s' ;; Ok (conv (cty idx) q :: rest)
    | _, _ => UB end = Ok cs /\ vals cs = coords_of (cval idx) (vals s) /\ Forall (fun c => cty c = cty idx) cs /\ wfs cs).
  { destruct s as [|n s]; [contradiction|]. destruct st as [|d st]; [discriminate|].
    cbn [vals map strides_of] in V. injection V as Hd Hv. inversion Hpos; inversion Ws; inversion W; subst.
    assert (Hdp : 1 <= cval d) by (rewrite Hd; apply prod_pos; assumption).
    destruct (cdiv_nonneg idx d) as (q & Hq & Hqv & Hqw & _); try assumption; try lia.
    rewrite Hq, bind_ok. destruct (coords_inner_ok idx s st) as (cs & Hcs & Hcv & Hct & Hcw); try assumption; try lia.
    rewrite Hcs, bind_ok.
    assert (Hrr : in_ty (cty idx) (cval q)).
    { apply in_ty_shrink with (z := cval idx); [exact Wi|]. rewrite Hqv. split; [apply Z.div_pos; lia|apply Z.div_le_upper_bound; nia]. }
    rewrite conv_exact by assumption. eexists; split; [reflexivity|]. unfold vals; cbn [map coords_of cval].
    unfold vals in Hcv. rewrite Hcv. split; [rewrite Hqv, Hd; reflexivity|]. split; constructor; first [assumption|reflexivity|exact Hrr]. }
  destruct G as (cs & E' & Vc & Tc & Wc). exists cs. split; [exact E'|]. rewrite Vc.
  assert (Nv : vals s <> []) by (destruct s; [contradiction|discriminate]).
  split; [apply coords_of_box; assumption|]. split; [apply coords_of_rank; [assumption..|lia]|split; assumption].
Qed.

(** ** Views *)
Lemma large_wf c : large_layout c ->
  wf_container c /\ strides_z c = strides_of (dims c) /\ nonnegs (strides_z c) /\ exists st, get_stride c = Ok st /\ wide_strides st.
Proof.
  intros (L & Ne & ss & Mk). destruct (as_stride_large (c_shape c) L Ne) as (st & As & Vst & Wst & Wd).
  destruct L as (Ws & Ns & Pp & L64).
  assert (G : exists st', get_stride c = Ok st' /\ wfs st' /\ vals st' = strides_of (dims c) /\ wide_strides st' /\
    match c_kind c with
    | K1 | K1S => length (c_shape c) = 1%nat | K2 | K2S => length (c_shape c) = 2%nat | _ => True end).
  { unfold make_accessor in Mk. unfold get_stride, dims. destruct ss.
    - rewrite As in Mk. cbn [bind] in Mk. injection Mk as Ek Est. rewrite <- Ek, <- Est. exists st. auto.
    - destruct (c_shape c) as [|n0 [|n1 [|n2 s']]] eqn:Es; [congruence| | |].
      + injection Mk as Ek Est. rewrite <- Ek. eexists. split; [reflexivity|].
        split; [repeat constructor; vm_compute; discriminate|]. split; [reflexivity|]. split; [right; cbn; lia|reflexivity].
      + injection Mk as Ek Est. rewrite <- Ek. eexists. split; [reflexivity|]. split; [|split; [|split; [|reflexivity]]].
        * inversion Ws as [|? ? _ W']; inversion W'; subst. constructor; [assumption|]. repeat constructor; vm_compute; discriminate.
        * simpl. rewrite !prod_cons. change (prod []) with 1. rewrite Z.mul_1_r. reflexivity.
        * split; [|right; cbn; lia]. destruct L64 as [L64|(q & y & E & Y)]; [discriminate|].
          change [n0; n1] with ([n0] ++ [n1]) in E. apply app_inj_tail in E as [_ ->]. exact Y.
      + rewrite As in Mk. cbn [bind] in Mk. injection Mk as Ek Est. rewrite <- Ek, <- Est. exists st. auto. }
  destruct G as (st' & Gs & W' & V' & Wd' & K).
  assert (Sz : strides_z c = strides_of (dims c)) by (unfold strides_z; rewrite Gs; exact V').
  split; [|split; [exact Sz|split; [|exists st'; auto]]].
  - split; [exact Ws|]. split; [exact Ns|]. split; [|exact K]. exists st'. split; [exact Gs|]. split; [exact W'|].
    apply (f_equal (@length Z)) in V'. rewrite strides_of_length in V'. unfold dims in V'. rewrite !vals_length in V'. exact V'.
  - rewrite Sz. apply strides_of_nonneg. exact Ns.
Qed.
Lemma large_elem c is_ : large_layout c -> in_box (dims c) is_ -> elem c is_ = padd (c_data c) (rank (dims c) is_).
Proof.
  intros D B. destruct (large_wf c D) as (_ & Sz & _). unfold elem. rewrite Sz, <- rank_dot by (apply in_box_length; exact B). reflexivity.
Qed.
Lemma large_addressable c tys : large_layout c -> addressable c tys.
Proof.
  intros D. destruct (large_wf c D) as (W & Sz & Nn & Wd). split; [exact W|]. split; [left; exact Nn|]. right.
  split; [exact Wd|]. split; [exact Nn|]. intros is_ B. rewrite Sz, <- rank_dot by (apply in_box_length; exact B).
  pose proof (rank_range _ _ B). destruct D as ((_ & N & P & _) & _). pose proof (large_prod _ N P). unfold dims, max63 in *. lia.
Qed.
Lemma large_view ss sh data : large sh -> sh <> [] ->
  exists v, make_view ss ss sh None data = Ok v /\ large_layout v /\ c_shape v = sh /\ c_data v = data.
Proof.
  intros L Ne. destruct (as_stride_large sh L Ne) as (st & As & _).
  assert (G : exists k st', make_accessor ss ss sh None = Ok (k, st')).
  { unfold make_accessor. destruct ss; [rewrite As; cbn [bind]; eauto|].
    destruct sh as [|? [|? [|? ?]]]; [contradiction|eauto|eauto|rewrite As; cbn [bind]; eauto]. }
  destruct G as (k & st' & E). unfold make_view. rewrite E, bind_ok. eexists. split; [reflexivity|].
  split; [|split; reflexivity]. split; [exact L|]. split; [exact Ne|]. exists ss. exact E.
Qed.


Lemma large_can_read {T} (m : mem T) c0 c : large_layout c -> dims c0 = dims c -> readable m c -> can_read m c0 c.
Proof.
  intros D E R. split; [apply large_addressable; exact D|]. unfold covers. rewrite E. split; [auto|exact R].
Qed.
Lemma large_can_write {T} (m : mem T) c0 c : large_layout c -> dims c0 = dims c -> writable m c -> can_write m c0 c.
Proof.
  intros D E Wr. split; [apply large_addressable; exact D|]. unfold covers, distinct_on. rewrite E.
  split; [auto|]. split; [|exact Wr]. intros a b Ha Hb H. rewrite !large_elem in H by assumption.
  apply padd_inj in H; [apply (rank_inj (dims c)); assumption|]. intros N. apply (Wr a Ha). unfold elem. rewrite N. reflexivity.
Qed.

(** ** Number of elements *)
Lemma numel_fold_large s : wfs s -> nonnegs (vals s) -> posprod (vals s) <= max63 ->
  (forall r n, s = r ++ [n] -> is64 (cty n)) ->
  exists f, kfold_left cmul s (int 1) = Ok f /\ cval f = prod (vals s) /\ wfc f /\ (s <> [] -> is64 (cty f)).
Proof.
  induction s as [|n s IH]; intros W N P K.
  - exists (int 1). split; [reflexivity|]. split; [reflexivity|]. split; [apply wfc_small_int; unfold max31; lia|]. intros H; contradiction.
  - destruct (large_tail _ _ W N P) as (Wn & Nn & W' & N' & P').
    destruct (IH W' N' P') as (f & E & Vf & Wf & K1).
    { intros r x ->. apply (K (n :: r)). reflexivity. }
    cbn [kfold_left]. rewrite E, bind_ok.
    pose proof (large_prod _ N P) as Hp. cbn [vals map] in Hp. rewrite prod_cons in Hp. fold (vals s) in Hp.
    assert (H64 : is64 (cty f) \/ is64 (cty n)).
    { destruct s as [|m s]; [right; apply (K []); reflexivity|left; apply K1; discriminate]. }
    pose proof (large_prod _ N' P') as Hp'. rewrite <- Vf in Hp, Hp'.
    destruct (arith_wide Z.mul f n) as (d & Hd & Vd & Wdd & Kd); try assumption; try lia.
    unfold cmul. rewrite Hd. exists d. split; [reflexivity|]. split; [|split; [exact Wdd|intros _; exact Kd]].
    cbn [vals map]. rewrite prod_cons. fold (vals s). rewrite Vd, Vf. lia.
Qed.

Lemma large_numel s : large s -> s <> [] -> exists n, numel s = Ok n /\ cty n = I32 /\ wfc n /\
  cval n mod 4294967296 = prod (vals s) mod 4294967296.
Proof.
  intros L Ne. assert (G : exists f, kfold_left cmul s (int 1) = Ok f /\ cval f = prod (vals s)).
  { destruct (large_split s L Ne) as (n & r & -> & K). destruct L as (W & N & P & [L|(q & y & E & Y)]).
    - destruct r; [|discriminate]. cbn [kfold_left bind]. destruct (large_tail _ _ W N P) as (Wn & Nn & _).
      destruct (mul_unit (int 1) n) as (d & Hd & Vd & _); try assumption; [apply wfc_small_int; unfold max31; lia|cbn; lia|].
      exists d. split; [exact Hd|]. rewrite Vd. cbn [vals map]. rewrite prod_cons. change (prod []) with 1. cbn [cval int]. lia.
    - destruct (numel_fold_large (n :: r) W N P) as (f & E' & V & _).
      + intros q' x E2. rewrite E in E2. apply app_inj_tail in E2 as [_ <-]. exact Y.
      + exists f. auto. }
  destruct G as (f & E & V). exists (conv I32 f). unfold numel. destruct s; [contradiction|]. rewrite E, bind_ok.
  split; [reflexivity|]. split; [reflexivity|]. split; [apply conv_wf|]. cbn [cval conv]. rewrite V.
  unfold cast. change (modulus I32) with 4294967296. change (tmax I32) with 2147483647. cbv zeta.
  pose proof (Z.mod_pos_bound (prod (vals (c :: s))) 4294967296 ltac:(lia)) as Hb.
  destruct (_ <=? _).
  - apply Z.mod_mod. lia.
  - rewrite <- (Z.mod_add _ 1) by lia. replace (prod (vals (c :: s)) mod 4294967296 - 4294967296 + 1 * 4294967296) with (prod (vals (c :: s)) mod 4294967296) by lia.
    apply Z.mod_mod. lia.
Qed.

(** ** Tables *)
Lemma large_table {T} (m : mem T) ss sh n : large sh -> sh <> [] -> numel sh = Ok n -> 0 <= cval n ->
  exists m' t, make_table m ss ss sh None None = Ok (m', t) /\ large_layout t /\ c_shape t = sh /\
    forall is_, in_box (vals sh) is_ -> (valid m' (elem t is_) <-> rank (vals sh) is_ < cval n).
Proof.
  intros L Ne En Hn. destruct (large_view ss sh Null L Ne) as (v & Ev & Lv & Sv & _).
  unfold make_view in Ev. destruct (make_accessor ss ss sh None) as [[k st]| | |] eqn:Mk; try discriminate. cbn [bind] in Ev.
  injection Ev as <-. unfold make_table. rewrite En. cbn [bind]. unfold new_block.
  assert (Ly : forall d, large_layout (Cn k sh st d)) by (intros d; destruct Lv as (A & B & C); split; [exact A|split; [exact B|exact C]]).
  destruct (Z.eqb_spec (cval n) 0) as [Z0|Nz].
  - cbn [bind]. rewrite Mk. cbn [bind]. eexists m, _. split; [reflexivity|]. split; [apply Ly|]. split; [reflexivity|].
    intros is_ B. pose proof (rank_range _ _ B). split; [intros V; exfalso; apply V; reflexivity|lia].
  - unfold alloc. cbn [bind]. rewrite Mk. cbn [bind]. eexists _, _. split; [reflexivity|]. split; [apply Ly|]. split; [reflexivity|].
    intros is_ B. rewrite large_elem; [|apply Ly|exact B]. unfold dims. cbn [c_data c_shape padd].
    pose proof (rank_range _ _ B) as R. rewrite Z.add_0_l. unfold valid, cell.
    destruct (Z.leb_spec 0 (rank (vals sh) is_)); [|lia]. rewrite nth_error_app2 by lia. rewrite Nat.sub_diag. cbn [nth_error].
    split.
    + intros V. destruct (Z.lt_ge_cases (rank (vals sh) is_) (cval n)) as [|G]; [assumption|]. exfalso. apply V.
      apply nth_error_None. rewrite repeat_length. lia.
    + intros Lt. apply nth_error_Some. rewrite repeat_length. lia.
Qed.

Lemma large_access {T} ss sh data is_ : large sh -> sh <> [] -> coord_in sh is_ ->
  exists v, make_view ss ss sh None data = Ok v /\ forall m : mem T,
    (forall x, get m v is_ = Ok x <-> peek m (padd data (rank (vals sh) (vals is_))) = Some x) /\
    (forall x, valid m (padd data (rank (vals sh) (vals is_))) ->
       exists m', put m v is_ x = Ok m' /\ get m' v is_ = Ok x /\
         forall p, p <> padd data (rank (vals sh) (vals is_)) -> cell m' p = cell m p).
Proof.
  intros L Ne C. destruct (large_view ss sh data L Ne) as (v & E & D & Sh & Dt). exists v. split; [exact E|]. intros m.
  assert (C' : coord_of v is_) by (unfold coord_of, dims; rewrite Sh; exact C).
  pose proof (large_elem v (vals is_) D (proj2 C')) as El. unfold dims in El. rewrite Sh, Dt in El.
  destruct (strided_access_l m v is_ (large_addressable v _ D) C') as (G & P & _). rewrite El in G, P. split; [exact G|].
  intros x V. destruct (P x V) as (m' & Ep & Pk & Fr). exists m'. split; [exact Ep|]. split; [|exact Fr].
  destruct (strided_access_l m' v is_ (large_addressable v _ D) C') as (G' & _). rewrite El in G'. apply G'. exact Pk.
Qed.

Lemma last_in_box ns : Forall (fun n => 1 <= n) ns -> in_box ns (map (fun n => n - 1) ns) /\ rank ns (map (fun n => n - 1) ns) = prod ns - 1.
Proof.
  induction 1 as [|n ns H F [B R]]; [split; [constructor|reflexivity]|]. cbn [map]. split; [constructor; [lia|exact B]|].
  rewrite rank_cons by apply map_length. rewrite R, prod_cons. lia.
Qed.

Lemma large_table_short {T} (m : mem T) ss sh n : large sh -> 2147483647 < prod (vals sh) -> numel sh = Ok n -> 0 <= cval n ->
  exists m' t, make_table m ss ss sh None None = Ok (m', t) /\ c_shape t = sh /\
    (forall is_, in_box (vals sh) is_ -> (valid m' (elem t is_) <-> rank (vals sh) is_ < cval n)) /\
    exists is_, in_box (vals sh) is_ /\ ~ valid m' (elem t is_) /\
      forall tis, wfs tis -> vals tis = is_ -> get m' t tis = UB /\ forall x, put m' t tis x = UB.
Proof.
  intros L Big En Hn. assert (Ne : sh <> []) by (intros ->; vm_compute in Big; discriminate).
  destruct (large_table m ss sh n L Ne En Hn) as (m' & t & E & D & Sh & V). exists m', t. split; [exact E|]. split; [exact Sh|].
  split; [exact V|]. destruct (last_in_box (vals sh)) as [B R]; [apply prod_pos_all; [apply L|lia]|].
  exists (map (fun n => n - 1) (vals sh)). split; [exact B|].
  assert (NV : ~ valid m' (elem t (map (fun n => n - 1) (vals sh)))).
  { rewrite V by exact B. rewrite R. destruct (large_numel sh L Ne) as (n' & E' & Ty & W & _). rewrite En in E'. injection E' as <-.
    unfold wfc, in_ty in W. rewrite Ty in W. simpl in W. lia. }
  split; [exact NV|]. intros tis W Et.
  assert (C : coord_of t tis) by (split; [exact W|unfold dims; rewrite Sh, Et; exact B]).
  destruct (strided_access_l m' t tis (large_addressable t _ D) C) as (_ & _ & U). rewrite Et in U. apply U. exact NV.
Qed.

(** ** Algorithms *)
Lemma large_fill_l {T} ss sh data v (x : T) m : large sh -> sh <> [] -> make_view ss ss sh None data = Ok v ->
  (forall k, 0 <= k < prod (vals sh) -> valid m (padd data k)) ->
  exists m', fill v x m = Ok m' /\ (forall k, 0 <= k < prod (vals sh) -> peek m' (padd data k) = Some x) /\
    (forall p, (forall k, 0 <= k < prod (vals sh) -> p <> padd data k) -> cell m' p = cell m p).
Proof.
  intros L Ne E V. destruct (large_view ss sh data L Ne) as (v' & E' & D & Sh & Dt). rewrite E in E'. injection E' as <-.
  assert (El : forall is_, in_box (vals sh) is_ -> elem v is_ = padd data (rank (vals sh) is_)).
  { intros is_ B. rewrite <- Sh, <- Dt in *. apply large_elem; assumption. }
  assert (Dm : dims v = vals sh) by (unfold dims; rewrite Sh; reflexivity).
  assert (Wr : writable m v).
  { intros is_ B. rewrite Dm in B. rewrite El by exact B. apply V. apply rank_range. exact B. }
  destruct (fill_l v x m (large_can_write m v v D eq_refl Wr)) as (m' & Ef & Vf & Fr). exists m'. split; [exact Ef|]. split.
  - intros k Hk. destruct (rank_surj (vals sh) k) as (is_ & B & <-); [apply prod_pos_all; [apply L|lia]| |exact Hk|].
    + destruct sh; [contradiction|discriminate].
    + rewrite <- El by exact B. apply Vf. rewrite Dm. exact B.
  - intros p Hp. apply Fr. intros is_ B. rewrite Dm in B. rewrite El by exact B. apply Hp. apply rank_range. exact B.
Qed.

Lemma Forall2_by_nth {X Y} (P : X -> Y -> Prop) l : forall l', length l = length l' ->
  (forall i x y, nth_error l i = Some x -> nth_error l' i = Some y -> P x y) -> Forall2 P l l'.
Proof.
  induction l as [|x l IH]; intros [|y l'] L H; try discriminate; [constructor|]. constructor; [apply (H O); reflexivity|].
  apply IH; [cbn in L; lia|]. intros i a b. apply (H (S i)).
Qed.

Lemma large_reduce_l {T A} ss sh data v (f : A -> T -> A) init m vs : large sh -> sh <> [] ->
  make_view ss ss sh None data = Ok v -> Z.of_nat (length vs) = prod (vals sh) ->
  (forall k x, nth_error vs k = Some x -> peek m (padd data (Z.of_nat k)) = Some x) ->
  reduce v f init m = Ok (fold_left f vs init, m).
Proof.
  intros L Ne E Ln V. destruct (large_view ss sh data L Ne) as (v' & E' & D & Sh & Dt). rewrite E in E'. injection E' as <-.
  assert (El : forall is_, in_box (vals sh) is_ -> elem v is_ = padd data (rank (vals sh) is_)).
  { intros is_ B. rewrite <- Sh, <- Dt in *. apply large_elem; assumption. }
  assert (Dm : dims v = vals sh) by (unfold dims; rewrite Sh; reflexivity).
  assert (Nn : nonnegs (vals sh)) by apply L.
  apply reduce_l.
  - apply large_can_read; [exact D|reflexivity|]. intros is_ B. rewrite Dm in B. unfold value. rewrite El by exact B.
    pose proof (rank_range _ _ B) as R.
    destruct (nth_error vs (Z.to_nat (rank (vals sh) is_))) as [x|] eqn:Ex.
    + exists x. specialize (V _ _ Ex). rewrite Z2Nat.id in V by lia. exact V.
    + apply nth_error_None in Ex. lia.
  - unfold values. rewrite Dm. apply Forall2_by_nth.
    + pose proof (box_length (vals sh) Nn). lia.
    + intros i is_ x Ei Ex. unfold value. rewrite El.
      * rewrite (box_nth_rank _ _ _ Nn Ei). apply V. exact Ex.
      * apply box_In. eapply nth_error_In. exact Ei.
Qed.
