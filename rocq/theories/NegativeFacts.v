(** Facts about coordinates that may be negative. *)
From Coq Require Import ZArith List Bool Lia.
From Verif Require Import Outcome CInt CIntFacts Spec SpecFacts ShapeSpec Shape ShapeFacts ShapeFacts2 Memory Container
  ContainerSpec ContainerFacts ContainerFacts2 ContainerFacts3 DebugFacts SlicerFacts3 AlgoFacts4.
Import ListNotations.
Open Scope Z_scope.

Lemma absdot_abs st is_ : nonnegs st -> absdot st is_ = dot st (map Z.abs is_).
Proof.
  intros N. revert is_. induction N as [|d st Hd N IH]; intros [|i is_]; try reflexivity. cbn [absdot dot map]. rewrite IH, Z.abs_mul. lia.
Qed.

Lemma contains_below s is_ : wfs s -> wfs is_ -> fits s is_ -> (contains s is_ = true <-> Forall2 (fun n i => cval i < cval n) s is_).
Proof.
  intros Hs Hi HF. revert Hs Hi. induction HF as [|m i s is_ Hm HF IH]; intros Hs Hi; [split; [constructor|reflexivity]|].
  inversion Hs; inversion Hi; subst. cbn [contains]. rewrite andb_true_iff, IH by assumption. rewrite conv_exact by assumption.
  assert (E : clt i (CI (cty i) (cval m)) = (cval i <? cval m)).
  { unfold clt. cbn [cty cval]. unfold wfc in *.
    rewrite (cast_id _ (cval m)) by (unfold in_ty in *; destruct (cty i); cbn in *; lia).
    rewrite (cast_id _ (cval i)) by (unfold in_ty in *; destruct (cty i); cbn in *; lia). reflexivity. }
  rewrite E, Z.ltb_lt. split; [intros []; constructor; assumption|]. intros F. inversion F; auto.
Qed.

Lemma linear_signed_l dbg s is_ : legal s -> s <> [] -> signeds s -> wfs is_ -> signeds is_ -> fits s is_ ->
  rank (vals s) (map Z.abs (vals is_)) <= 2147483647 -> Forall2 (fun n i => cval i < cval n) s is_ ->
  exists c, linear_index dbg s is_ = Ok c /\ cval c = rank (vals s) (vals is_).
Proof.
  intros Lg Ne Ss W Si Fi R B. assert (L : length is_ = length s) by (clear - Fi; induction Fi; cbn; congruence).
  assert (Ll : length (vals is_) = length (vals s)) by (rewrite !vals_length; exact L).
  unfold linear_index. replace (kassert dbg (Ok (contains s is_))) with (Ok tt : outcome unit).
  2: { destruct dbg; [|reflexivity]. cbn [kassert]. rewrite (proj2 (contains_below s is_ (legal_wf s Lg) W Fi) B). reflexivity. }
  rewrite bind_ok. destruct (as_stride_ok s Lg Ne) as (st & E & V & Ws). rewrite E, bind_ok. unfold linearize.
  assert (Lst : length st = length s) by (apply (f_equal (@length Z)) in V; rewrite vals_length, strides_of_length, vals_length in V; exact V).
  rewrite rank_dot in R by (rewrite map_length; exact Ll). rewrite <- absdot_abs in R by (apply strides_of_nonneg, legal_nonneg, Lg).
  destruct (linearize_from_signed st is_ (int 0)) as (c & Ec & Vc & _); try assumption.
  - apply wfc_small_int. unfold max31. lia.
  - lia.
  - exact (as_stride_signed s st Ss E).
  - reflexivity.
  - rewrite V. cbn [cval int]. unfold max31. lia.
  - exists c. split; [exact Ec|]. rewrite Vc, V, rank_dot by exact Ll. cbn [cval int]. lia.
Qed.

(** With assertions on and such coordinates, linear_index stops exactly when one of them is not below the extent. *)
Lemma linear_signed_aborts_l s is_ : legal s -> s <> [] -> signeds s -> wfs is_ -> signeds is_ -> fits s is_ ->
  rank (vals s) (map Z.abs (vals is_)) <= 2147483647 ->
  (linear_index true s is_ = Abort <-> ~ Forall2 (fun n i => cval i < cval n) s is_).
Proof.
  intros Lg Ne Ss W Si Fi R. split.
  - intros A B. destruct (linear_signed_l true s is_ Lg Ne Ss W Si Fi R B) as (c & E & _). congruence.
  - intros N. unfold linear_index. cbn [kassert]. destruct (contains s is_) eqn:C; [|reflexivity]. exfalso. apply N.
    apply (contains_below s is_ (legal_wf s Lg) W Fi), C.
Qed.

Lemma default_index_signed c is_ : default_layout c -> signeds (c_shape c) -> wfs is_ -> signeds is_ -> length is_ = length (c_shape c) ->
  rank (dims c) (map Z.abs (vals is_)) <= 2147483647 -> address c is_ = Ok (padd (c_data c) (rank (dims c) (vals is_))).
Proof.
  intros D Ss Wi Si L R. destruct (default_wf c D) as ((Ws & Ns & _ & K) & Sz & Nst).
  destruct (default_stride c D Ss) as (st & Gs & Wst & Sst & Lst & Vst & _). destruct D as (Lg & Ne & ss & Mk).
  assert (Ll : length (vals is_) = length (dims c)) by (unfold dims; rewrite !vals_length; exact L).
  rewrite rank_dot in R by (rewrite map_length; exact Ll). rewrite rank_dot by exact Ll.
  rewrite Sz in Nst. rewrite <- absdot_abs in R by exact Nst. rewrite <- Vst in *.
  assert (G : exists i, index c is_ = Ok i /\ cval i = dot (vals st) (vals is_)).
  { assert (Lin : c_stride c = st -> exists i, linearize (c_stride c) is_ = Ok i /\ cval i = dot (vals st) (vals is_)).
    { intros ->. unfold linearize. destruct (linearize_from_signed st is_ (int 0)) as (i & Ei & Vi & _); try assumption.
      - apply wfc_small_int; unfold max31; lia.
      - lia.
      - reflexivity.
      - exists i. split; [exact Ei|]. cbn [cval int] in Vi. lia. }
    unfold index, get_stride in *. destruct (c_kind c) eqn:Ek.
    - injection Gs as Gs. apply Lin; exact Gs.
    - injection Gs as Gs. apply Lin; exact Gs.
    - injection Gs as <-. destruct is_ as [|i [|]]; simpl in L; try lia. exists i. split; [reflexivity|]. cbn -[Z.mul Z.add]. lia.
    - exfalso. clear - Mk. unfold make_accessor in Mk. destruct ss.
      + destruct (as_stride (c_shape c)); discriminate.
      + destruct (c_shape c) as [|? [|? [|]]]; try discriminate; destruct (as_stride _); discriminate.
    - destruct (c_shape c) as [|n0 [|n1 [|]]] eqn:Es; simpl in K; try lia.
      injection Gs as <-. destruct is_ as [|i1 [|i0 [|]]]; simpl in L; try lia.
      inversion Wi as [|? ? W1 Wi']; inversion Wi' as [|? ? W0 _]; subst. inversion Si as [|? ? S1 Si']; inversion Si' as [|? ? S0 _]; subst.
      inversion Ws as [|? ? _ Ws']; inversion Ws' as [|? ? Wn _]; subst. inversion Ss as [|? ? _ Ss']; inversion Ss' as [|? ? Sn _]; subst.
      cbn [vals map dot absdot cval int] in *. rewrite !Z.abs_mul in R.
      destruct (arith_signed Z.mul i1 n1) as (p & Hp & Vp & Wp & Sp); try assumption; [unfold max31; nia|].
      unfold cmul. rewrite Hp. cbn [bind].
      destruct (arith_signed Z.add i0 p) as (r & Hr & Vr & Wr & _); try assumption; [unfold max31; nia|].
      exists r. split; [exact Hr|]. rewrite Vr, Vp. lia.
    - exfalso. clear - Mk. unfold make_accessor in Mk. destruct ss.
      + destruct (as_stride (c_shape c)); discriminate.
      + destruct (c_shape c) as [|? [|? [|]]]; try discriminate; destruct (as_stride _); discriminate. }
  destruct G as (i & Ei & Vi). unfold address. rewrite Ei, bind_ok, Vi, cast_I64_small; [reflexivity|].
  assert (G : forall a b, Z.abs (dot a b) <= absdot a b).
  { clear. induction a as [|x a IH]; intros [|y b]; cbn [dot absdot]; try lia. specialize (IH b). lia. }
  specialize (G (vals st) (vals is_)). unfold max31. lia.
Qed.

Lemma negative_inside_l {T} (m : mem T) c is_ : default_layout c -> signeds (c_shape c) -> wfs is_ -> signeds is_ -> length is_ = length (c_shape c) ->
  rank (dims c) (map Z.abs (vals is_)) <= 2147483647 -> 0 <= rank (dims c) (vals is_) < prod (dims c) ->
  exists js, in_box (dims c) js /\ rank (dims c) js = rank (dims c) (vals is_) /\ address c is_ = Ok (elem c js) /\
    (forall v, peek m (elem c js) = Some v -> get m c is_ = Ok v).
Proof.
  intros D Ss Wi Si L R B. pose proof (default_index_signed c is_ D Ss Wi Si L R) as A.
  destruct (default_index_surj_l c (rank (dims c) (vals is_)) D B) as (js & Bj & E & _).
  exists js. split; [exact Bj|]. split; [exact E|]. rewrite (default_elem c js D Bj), E.
  split; [exact A|]. intros v Pv. unfold get, ref. rewrite A. cbn [bind]. unfold peek in Pv. unfold validb, load.
  destruct (cell m (padd (c_data c) (rank (dims c) (vals is_)))) as [[x|]|] eqn:Ec; try discriminate.
  injection Pv as ->. cbn [bind]. rewrite Ec. reflexivity.
Qed.

Lemma negative_outside_l {T} (m : mem T) c is_ (v : T) : default_layout c -> signeds (c_shape c) -> wfs is_ -> signeds is_ -> length is_ = length (c_shape c) ->
  rank (dims c) (map Z.abs (vals is_)) <= 2147483647 -> ~ valid m (padd (c_data c) (rank (dims c) (vals is_))) ->
  get m c is_ = UB /\ Container.put m c is_ v = UB.
Proof.
  intros D Ss Wi Si L R V. pose proof (default_index_signed c is_ D Ss Wi Si L R) as A.
  unfold get, Container.put, ref. rewrite A. cbn [bind]. unfold valid in V. unfold validb. destruct (cell m _); [exfalso; apply V; discriminate|split; reflexivity].
Qed.
