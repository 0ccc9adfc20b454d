(** Proofs about Shape.v. *)
From Coq Require Import ZArith List Bool Lia.
From Verif Require Import Outcome CInt CIntFacts Spec SpecFacts ShapeSpec Shape.
Import ListNotations.
Open Scope Z_scope.

Lemma legal_cons n s : legal (n :: s) ->
  wfc n /\ 0 <= cval n <= max31 /\ Z.max 1 (cval n) * posprod (vals s) <= max31 /\ legal s.
Proof.
  intros (Hw & Hn & Hp). inversion Hw; inversion Hn; subst.
  unfold vals in Hp. cbn [map] in Hp. pose proof (posprod_tail_le (cval n) (map cval s)).
  pose proof (posprod_head_le (cval n) (map cval s)).
  rewrite <- posprod_cons.
  unfold legal, vals, max31. split; [assumption|]. split; [lia|]. split; [lia|].
  split; [assumption|]. split; [assumption|lia].
Qed.

Lemma legal_nonneg s : legal s -> nonnegs (vals s).
Proof. intros (_ & H & _); exact H. Qed.

Lemma legal_wf s : legal s -> wfs s.
Proof. intros (H & _ & _); exact H. Qed.

Lemma legal_prod s : legal s -> 0 <= prod (vals s) <= max31.
Proof.
  intros (Hw & Hn & Hp). split; [apply prod_nonneg; assumption|].
  pose proof (prod_le_posprod _ Hn). unfold max31. lia.
Qed.

Lemma legal_app a b : legal (a ++ b) -> legal a /\ legal b.
Proof.
  intros (Hw & Hn & Hp). unfold legal, vals, wfs, nonnegs in *. rewrite map_app in *.
  apply Forall_app in Hw, Hn. rewrite posprod_app in Hp.
  pose proof (posprod_pos (map cval a)). pose proof (posprod_pos (map cval b)).
  repeat split; try tauto; nia.
Qed.

Lemma wfc_small_int z : 0 <= z <= max31 -> wfc (int z).
Proof. intros; apply wfc_int. unfold max31 in *. lia. Qed.

(** ** numel *)
Lemma numel_fold s : legal s ->
  exists c, kfold_left cmul s (int 1) = Ok c /\ cval c = prod (vals s) /\ wfc c /\
            0 <= cval c <= max31.
Proof.
  induction s as [|n s IH]; intros H.
  - exists (int 1). split; [reflexivity|]. split; [reflexivity|].
    split; [apply wfc_small_int|]; unfold max31; simpl; lia.
  - pose proof (legal_prod _ H) as HP.
    destruct (legal_cons _ _ H) as (Hwn & Hbn & Hp & Hs).
    destruct (IH Hs) as (c & Hc & Hv & Hw & Hr).
    cbn [kfold_left]. rewrite Hc. cbn [bind].
    unfold vals in HP. cbn [map] in HP. rewrite prod_cons in HP.
    destruct (arith_nonneg Z.mul c n) as (d & Hd & Hdv & Hdw & _); try tauto; try lia.
    { rewrite Hv. unfold vals. lia. }
    exists d. split; [exact Hd|]. rewrite Hdv, Hv. unfold vals; cbn [map]. rewrite prod_cons.
    split; [lia|]. split; [exact Hdw|]. lia.
Qed.

Lemma numel_ok s : legal s -> s <> [] -> numel s = Ok (int (prod (vals s))).
Proof.
  intros H Hne. unfold numel. destruct s as [|n s]; [congruence|].
  destruct (numel_fold _ H) as (c & Hc & Hv & Hw & Hr). rewrite Hc. cbn [bind].
  rewrite conv_exact by (unfold in_ty, max31 in *; simpl; lia). rewrite Hv. reflexivity.
Qed.

(** ** as_stride *)
Lemma as_stride_fold s : legal s ->
  exists st, kfold_left (fun a m => f <- front a ;; x <- cmul m f ;; Ok (x :: a)) s [int 1] = Ok st /\
    vals st = prod (vals s) :: strides_of (vals s) /\ wfs st.
Proof.
  induction s as [|n s IH]; intros H.
  - exists [int 1]. repeat split. constructor; [apply wfc_small_int; unfold max31; lia|constructor].
  - pose proof (legal_prod _ H) as HP.
    destruct (legal_cons _ _ H) as (Hwn & Hbn & Hp & Hs).
    destruct (IH Hs) as (st & Hst & Hv & Hw).
    cbn [kfold_left]. rewrite Hst. cbn [bind].
    destruct st as [|f st]; [discriminate|]. cbn [front bind].
    unfold vals in Hv; cbn [map] in Hv. injection Hv as Hf Hv.
    inversion Hw; subst.
    pose proof (legal_prod _ Hs) as HPs.
    unfold vals in HP, HPs. cbn [map] in HP. rewrite prod_cons in HP.
    destruct (arith_nonneg Z.mul n f) as (d & Hd & Hdv & Hdw & _); try tauto; try lia.
    unfold cmul. rewrite Hd. cbn [bind]. eexists; split; [reflexivity|].
    unfold vals; cbn [map strides_of]. rewrite Hdv, Hf, Hv, prod_cons.
    split; [reflexivity|]. constructor; assumption.
Qed.

Lemma as_stride_ok s : legal s -> s <> [] ->
  exists st, as_stride s = Ok st /\ vals st = strides_of (vals s) /\ wfs st.
Proof.
  intros H Hne. destruct s as [|n s]; [congruence|].
  destruct (legal_cons _ _ H) as (_ & _ & _ & Hs).
  destruct (as_stride_fold s Hs) as (st & Hst & Hv & Hw).
  exists st. split; [|split; assumption].
  destruct s; [|exact Hst]. simpl in Hst. exact Hst.
Qed.

(** ** linearize *)
(** Sum of absolute values of the products: what must stay in range. *)
Fixpoint absdot (a b : list Z) : Z :=
  match a, b with
  | x :: a', y :: b' => Z.abs (x * y) + absdot a' b'
  | _, _ => 0
  end.

Lemma absdot_nonneg a b : 0 <= absdot a b.
Proof. revert b; induction a; intros [|]; simpl; try lia. specialize (IHa l). lia. Qed.

Lemma absdot_dot a b : nonnegs a -> nonnegs b -> absdot a b = dot a b.
Proof.
  intros Ha; revert b; induction Ha as [|x a Hx Ha IH]; intros b Hb; [reflexivity|].
  destruct Hb as [|y b Hy Hb]; [reflexivity|]. simpl. rewrite IH by assumption.
  rewrite Z.abs_eq; nia.
Qed.

Lemma dot_absdot a b : Z.abs (dot a b) <= absdot a b.
Proof. revert b; induction a; intros [|]; simpl; try lia. specialize (IHa l). lia. Qed.

Definition signeds (l : list cint) : Prop := Forall (fun c => is_signed (cty c) = true) l.

Lemma linearize_from_nonneg st : forall is_ acc,
  wfs st -> wfs is_ -> wfc acc -> length is_ = length st ->
  nonnegs (vals st) -> nonnegs (vals is_) -> 0 <= cval acc ->
  cval acc + dot (vals st) (vals is_) <= max31 ->
  exists c, linearize_from acc st is_ = Ok c /\ cval c = cval acc + dot (vals st) (vals is_) /\ wfc c.
Proof.
  induction st as [|s st IH]; intros [|i is_] acc Hst His Hacc Hl Ns Ni Na Hb; try discriminate.
  - simpl. exists acc. simpl in *. split; [reflexivity|]. split; [lia|assumption].
  - inversion Hst; inversion His; inversion Ns; inversion Ni; subst. simpl in *.
    assert (0 <= dot (vals st) (vals is_)) by (apply dot_nonneg; assumption).
    unfold vals in *.
    destruct (arith_nonneg Z.mul s i) as (p & Hp & Hpv & Hpw & _); try assumption; [nia|].
    unfold cmul. rewrite Hp. cbn [bind].
    destruct (arith_nonneg Z.add acc p) as (a & Ha & Hav & Haw & _); try assumption; try nia.
    unfold cadd. rewrite Ha. cbn [bind].
    destruct (IH is_ a) as (c & Hc & Hcv & Hcw); try assumption; try congruence; try nia.
    exists c. split; [exact Hc|]. split; [|assumption]. rewrite Hcv, Hav, Hpv. lia.
Qed.

Lemma linearize_from_signed st : forall is_ acc,
  wfs st -> wfs is_ -> wfc acc -> length is_ = length st ->
  signeds st -> signeds is_ -> is_signed (cty acc) = true ->
  Z.abs (cval acc) + absdot (vals st) (vals is_) <= max31 ->
  exists c, linearize_from acc st is_ = Ok c /\ cval c = cval acc + dot (vals st) (vals is_) /\ wfc c /\
            is_signed (cty c) = true.
Proof.
  induction st as [|s st IH]; intros [|i is_] acc Hst His Hacc Hl Ns Ni Na Hb; try discriminate.
  - simpl. exists acc. simpl in *. split; [reflexivity|]. split; [lia|]. split; assumption.
  - inversion Hst; inversion His; inversion Ns; inversion Ni; subst. simpl in *.
    pose proof (absdot_nonneg (vals st) (vals is_)).
    unfold vals in *.
    destruct (arith_signed Z.mul s i) as (p & Hp & Hpv & Hpw & Hps); try assumption; [lia|].
    unfold cmul. rewrite Hp. cbn [bind].
    destruct (arith_signed Z.add acc p) as (a & Ha & Hav & Haw & Has); try assumption; [lia|].
    unfold cadd. rewrite Ha. cbn [bind].
    destruct (IH is_ a) as (c & Hc & Hcv & Hcw & Hcs); try assumption; try congruence; [lia|].
    exists c. split; [exact Hc|]. split; [|split; assumption]. rewrite Hcv, Hav, Hpv. lia.
Qed.

Lemma coord_in_length s is_ : coord_in s is_ -> length is_ = length s.
Proof. intros [_ H]. apply in_box_length in H. unfold vals in H. rewrite !map_length in H. exact H. Qed.

Lemma vals_length l : length (vals l) = length l.
Proof. apply map_length. Qed.

Lemma linearize_rank s st is_ : legal s -> wfs st -> vals st = strides_of (vals s) ->
  coord_in s is_ ->
  exists c, linearize st is_ = Ok c /\ cval c = rank (vals s) (vals is_) /\ wfc c.
Proof.
  intros Hl Hw Hv [Hwi Hb].
  pose proof (in_box_length _ _ Hb) as Hlen.
  pose proof (rank_range _ _ Hb) as Hr. pose proof (legal_prod _ Hl) as HP.
  rewrite (rank_dot _ _ Hlen) in *. rewrite <- Hv in *.
  destruct (linearize_from_nonneg st is_ (int 0)) as (c & Hc & Hcv & Hcw); try assumption.
  - apply wfc_small_int. unfold max31. lia.
  - rewrite !vals_length in Hlen. rewrite Hlen.
    apply (f_equal (@length Z)) in Hv. rewrite strides_of_length, !vals_length in Hv. congruence.
  - rewrite Hv. apply strides_of_nonneg, legal_nonneg, Hl.
  - eapply in_box_nonneg; eassumption.
  - simpl; lia.
  - simpl. lia.
  - exists c. simpl in Hcv. split; [exact Hc|]. split; [lia|assumption].
Qed.

(** ** contains *)
Lemma contains_ok s is_ :
  wfs s -> wfs is_ -> length is_ = length s -> nonnegs (vals is_) ->
  Forall2 (fun m i => in_ty (cty i) (cval m)) s is_ ->
  (contains s is_ = true <-> in_box (vals s) (vals is_)).
Proof.
  intros Hs Hi Hl Hn HF. revert Hs Hi Hl Hn. induction HF as [|m i s is_ Hm HF IH]; intros Hs Hi Hl Hn.
  - simpl. split; [constructor|reflexivity].
  - inversion Hs; inversion Hi; inversion Hn; subst. simpl. rewrite andb_true_iff.
    specialize (IH ltac:(assumption) ltac:(assumption) ltac:(simpl in Hl; congruence) ltac:(assumption)).
    rewrite IH. rewrite conv_exact by assumption.
    assert (E : clt i (CI (cty i) (cval m)) = (cval i <? cval m)).
    { unfold clt. cbn [cty cval].
      assert (Hs' : is_signed (common (cty i) (cty i)) = true \/ (0 <= cval m)).
      { unfold in_ty in Hm. destruct (cty i); simpl in *; auto; lia. }
      assert (Hs'' : is_signed (common (cty i) (cty i)) = true \/ (0 <= cval i)) by (right; assumption).
      rewrite (cast_id _ (cval m)) by (apply in_ty_common_l; assumption).
      rewrite (cast_id _ (cval i)) by (apply in_ty_common_l; assumption). reflexivity. }
    rewrite E, Z.ltb_lt. split.
    + intros [H7 H8]. constructor; [lia|assumption].
    + intros HB. inversion HB; subst. split; [lia|assumption].
Qed.

(** In-range coordinates whose type can hold the extents pass the assertion. *)
Definition fits (s is_ : list cint) : Prop := Forall2 (fun m i => in_ty (cty i) (cval m)) s is_.

Lemma contains_coord s is_ : wfs s -> coord_in s is_ -> fits s is_ -> contains s is_ = true.
Proof.
  intros Hs [Hi Hb] Hf. apply contains_ok; try assumption.
  - apply in_box_length in Hb. rewrite !vals_length in Hb. assumption.
  - eapply in_box_nonneg; eassumption.
Qed.

Lemma linear_index_ok dbg s is_ : legal s -> s <> [] -> coord_in s is_ ->
  (dbg = true -> fits s is_) ->
  exists c, linear_index dbg s is_ = Ok c /\ cval c = rank (vals s) (vals is_) /\ wfc c.
Proof.
  intros Hl Hne Hc Hf. unfold linear_index.
  assert (HA : kassert dbg (Ok (contains s is_)) = Ok tt).
  { destruct dbg; [|reflexivity]. simpl.
    rewrite (contains_coord s is_ (legal_wf _ Hl) Hc (Hf eq_refl)). reflexivity. }
  rewrite HA. cbn [bind].
  destruct (as_stride_ok s Hl Hne) as (st & Hst & Hv & Hw). rewrite Hst. cbn [bind].
  apply linearize_rank; assumption.
Qed.

(** ** coordinates *)
Lemma coords_inner_ok idx s st :
  wfc idx -> 0 <= cval idx -> wfs s -> wfs st -> vals st = strides_of (vals s) ->
  Forall (fun n => 1 <= n) (vals s) ->
  exists cs, coords_inner idx st s = Ok cs /\ vals cs = inner_of (cval idx) (vals s) /\
             Forall (fun c => cty c = cty idx) cs /\ wfs cs.
Proof.
  intros Hi Hp. revert st; induction s as [|n s IH]; intros st Hs Hst Hv Hpos.
  - destruct st; [|discriminate]. exists []. repeat split; constructor.
  - destruct st as [|d st]; [discriminate|].
    inversion Hs; inversion Hst; inversion Hpos; subst.
    unfold vals in Hv; cbn [map strides_of] in Hv. injection Hv as Hd Hv.
    destruct (IH st) as (cs & Hcs & Hcv & Hct & Hcw); try assumption.
    assert (Hdp : 1 <= cval d) by (rewrite Hd; apply prod_pos; assumption).
    cbn [coords_inner].
    destruct (cdiv_nonneg idx d) as (q & Hq & Hqv & Hqw & _); try assumption; try lia.
    rewrite Hq. cbn [bind].
    assert (Hqn : 0 <= cval q) by (rewrite Hqv; apply Z.div_pos; lia).
    destruct (cmod_nonneg q n) as (r & Hr & Hrv & Hrw & _); try assumption; try lia.
    rewrite Hr. cbn [bind]. rewrite Hcs. cbn [bind].
    assert (Hrr : in_ty (cty idx) (cval r)).
    { apply in_ty_shrink with (z := cval idx); [exact Hi|]. rewrite Hrv.
      split; [apply Z.mod_pos_bound; lia|].
      transitivity (cval q); [apply Z.mod_le; lia|]. rewrite Hqv. apply Z.div_le_upper_bound; nia. }
    rewrite conv_exact by assumption.
    eexists; split; [reflexivity|]. unfold vals; cbn [map inner_of cval].
    unfold vals in Hcv. rewrite Hcv. split; [rewrite Hrv, Hqv, Hd; reflexivity|].
    split; constructor; first [assumption|reflexivity|exact Hrr].
Qed.

Lemma coordinates_ok dbg s idx : legal s -> s <> [] -> wfc idx -> 0 <= cval idx < prod (vals s) ->
  exists cs, coordinates dbg idx s = Ok cs /\ vals cs = coords_of (cval idx) (vals s) /\
             Forall (fun c => cty c = cty idx) cs /\ wfs cs.
Proof.
  intros Hl Hne Hi Hr. unfold coordinates.
  assert (HA : kassert dbg (n <- numel s;; Ok (clt idx n)) = Ok tt).
  { destruct dbg; [|reflexivity]. cbn [kassert].
    rewrite (numel_ok s Hl Hne). cbn [bind].
    rewrite clt_exact.
    - simpl. destruct (Z.ltb_spec (cval idx) (prod (vals s))); [reflexivity|lia].
    - assumption.
    - apply wfc_small_int, legal_prod, Hl.
    - apply compat_nonneg; simpl; lia. }
  rewrite HA. cbn [bind].
  destruct (as_stride_ok s Hl Hne) as (st & Hst & Hv & Hw). rewrite Hst. cbn [bind].
  assert (Hpos : Forall (fun n => 1 <= n) (vals s)).
  { apply prod_pos_all; [apply legal_nonneg, Hl|lia]. }
  destruct s as [|n s]; [congruence|]. destruct st as [|d st]; [discriminate|].
  unfold vals in Hv; cbn [map strides_of] in Hv. injection Hv as Hd Hv.
  inversion Hpos; inversion Hw; subst. pose proof (legal_wf _ Hl) as Hws. inversion Hws; subst.
  assert (Hdp : 1 <= cval d) by (rewrite Hd; apply prod_pos; assumption).
  destruct (cdiv_nonneg idx d) as (q & Hq & Hqv & Hqw & _); try assumption; try lia.
  rewrite Hq. cbn [bind].
  destruct (coords_inner_ok idx s st) as (cs & Hcs & Hcv & Hct & Hcw); try assumption; try lia.
  rewrite Hcs. cbn [bind].
  assert (Hrr : in_ty (cty idx) (cval q)).
  { apply in_ty_shrink with (z := cval idx); [exact Hi|]. rewrite Hqv.
    split; [apply Z.div_pos; lia|apply Z.div_le_upper_bound; nia]. }
  rewrite conv_exact by assumption.
  eexists; split; [reflexivity|]. unfold vals; cbn [map coords_of cval].
  unfold vals in Hcv. rewrite Hcv. split; [rewrite Hqv, Hd; reflexivity|].
  split; constructor; first [assumption|reflexivity|exact Hrr].
Qed.
