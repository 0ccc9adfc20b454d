(** Proofs about Shape.v: compress, equality, nbdims. *)
From Coq Require Import ZArith List Bool Lia.
From Verif Require Import Outcome CInt CIntFacts Spec SpecFacts ShapeSpec Shape ShapeFacts.
Import ListNotations.
Open Scope Z_scope.

Lemma kfold_right_prod hs : forall h, wfc h -> 0 <= cval h -> wfs hs -> nonnegs (vals hs) ->
  Z.max 1 (cval h) * posprod (vals hs) <= max31 ->
  exists c, kfold_right cmul hs h = Ok c /\ cval c = cval h * prod (vals hs) /\ wfc c.
Proof.
  induction hs as [|x hs IH]; intros h Hh Ph Hw Hn Hb.
  - exists h. split; [reflexivity|]. split; [change (prod (vals [])) with 1; lia|assumption].
  - inversion Hw; inversion Hn; subst. cbn [kfold_right].
    unfold vals in Hb |- *; cbn [map] in *. rewrite posprod_cons in Hb.
    pose proof (posprod_pos (map cval hs)) as HP.
    assert (Hx : cval h * cval x <= Z.max 1 (cval h) * (Z.max 1 (cval x) * posprod (map cval hs))).
    { assert (cval h * cval x <= Z.max 1 (cval h) * Z.max 1 (cval x)) by nia. nia. }
    destruct (arith_nonneg Z.mul h x) as (p & Hp & Hpv & Hpw & _); try assumption; [nia|].
    unfold cmul at 1. rewrite Hp. cbn [bind].
    destruct (IH p) as (c & Hc & Hcv & Hcw); try assumption.
    + rewrite Hpv. nia.
    + rewrite Hpv. unfold vals.
      assert (Z.max 1 (cval h * cval x) <= Z.max 1 (cval h) * Z.max 1 (cval x)) by nia. nia.
    + exists c. split; [exact Hc|]. split; [|assumption].
      rewrite Hcv, Hpv, prod_cons. unfold vals. lia.
Qed.

Lemma vals_firstn k l : vals (firstn k l) = firstn k (vals l).
Proof. unfold vals. symmetry. apply firstn_map. Qed.

Lemma vals_skipn k l : vals (skipn k l) = skipn k (vals l).
Proof. unfold vals. symmetry. apply skipn_map. Qed.

Lemma prod_firstn_1 n ns : merge_axes 1 (n :: ns) = n :: ns.
Proof.
  unfold merge_axes. cbn [firstn skipn]. unfold prod. cbn [fold_right]. f_equal. lia.
Qed.

Lemma compress_ok n s : legal s -> (1 <= n <= length s)%nat ->
  exists s', compress n s = Ok s' /\ vals s' = merge_axes (length s - n + 1) (vals s) /\
             legal s' /\ length s' = n.
Proof.
  intros Hl Hn. unfold compress.
  assert (E : ((0 <? n) && (n <=? length s))%nat = true).
  { rewrite andb_true_iff, Nat.ltb_lt, Nat.leb_le. lia. }
  rewrite E. destruct (Nat.eqb_spec n (length s)) as [->|Hne].
  - exists s. split; [reflexivity|]. rewrite Nat.sub_diag. cbn [Nat.add].
    destruct s as [|x s]; [simpl in Hn; lia|]. split; [|split; [assumption|reflexivity]].
    symmetry. apply (prod_firstn_1 (cval x) (vals s)).
  - set (k := (length s - n + 1)%nat).
    pose proof (firstn_skipn k s) as Happ. rewrite <- Happ in Hl.
    destruct (legal_app _ _ Hl) as [Hh Ht]. rewrite Happ in Hl.
    assert (Hlen : length (firstn k s) = k) by (apply firstn_length_le; unfold k; lia).
    destruct (firstn k s) as [|h hs] eqn:Ef; [exfalso; simpl in Hlen; unfold k in Hlen; lia|].
    destruct (legal_cons _ _ Hh) as (Hwh & Hbh & Hph & Hhs).
    destruct (kfold_right_prod hs h) as (c & Hc & Hcv & Hcw); try assumption; try lia.
    { apply legal_wf, Hhs. } { apply legal_nonneg, Hhs. }
    rewrite Hc. cbn [bind]. eexists; split; [reflexivity|].
    assert (Hvv : vals (c :: skipn k s) = merge_axes k (vals s)).
    { unfold merge_axes. rewrite <- vals_firstn, <- vals_skipn, Ef. unfold vals; cbn [map].
      rewrite prod_cons, Hcv. reflexivity. }
    split; [exact Hvv|]. split; [|simpl; rewrite skipn_length; unfold k; lia].
    split; [|split].
    + constructor; [assumption|apply legal_wf, Ht].
    + unfold vals; cbn [map]. constructor; [|apply legal_nonneg, Ht].
      rewrite Hcv. pose proof (prod_nonneg _ (legal_nonneg _ Hhs)). nia.
    + destruct Hl as (_ & _ & Hl). rewrite <- Happ in Hl. unfold vals in *.
      rewrite map_app, posprod_app in Hl. cbn [map] in *. rewrite posprod_cons in *.
      rewrite Hcv. pose proof (prod_le_posprod _ (legal_nonneg _ Hhs)).
      pose proof (prod_nonneg _ (legal_nonneg _ Hhs)).
      pose proof (posprod_pos (map cval hs)). pose proof (posprod_pos (map cval (skipn k s))).
      unfold vals in *.
      assert (Z.max 1 (cval h * prod (map cval hs)) <= Z.max 1 (cval h) * posprod (map cval hs)) by nia.
      nia.
Qed.

Lemma merge_axes_prod k ns : prod (merge_axes k ns) = prod ns.
Proof.
  unfold merge_axes. rewrite prod_cons, <- prod_app, firstn_skipn. reflexivity.
Qed.

Lemma merge_coord_rank k ns is_ : in_box ns is_ ->
  in_box (merge_axes k ns) (merge_coord k ns is_) /\
  rank (merge_axes k ns) (merge_coord k ns is_) = rank ns is_.
Proof.
  intros H. unfold merge_axes, merge_coord.
  pose proof (in_box_length _ _ H) as Hl.
  rewrite <- (firstn_skipn k ns), <- (firstn_skipn k is_) in H.
  apply in_box_app in H; [|rewrite !firstn_length; congruence]. destruct H as [Ha Hb].
  split.
  - constructor; [|assumption]. apply rank_range; assumption.
  - rewrite rank_cons by (rewrite !skipn_length; congruence).
    rewrite <- rank_app.
    + rewrite !firstn_skipn. reflexivity.
    + rewrite !firstn_length; congruence.
    + rewrite !skipn_length; congruence.
Qed.

Lemma firstn_merge j k ns : (1 <= k <= length ns)%nat -> (1 <= j)%nat ->
  merge_axes j (merge_axes k ns) = merge_axes (j + k - 1) ns.
Proof.
  intros Hk Hj. unfold merge_axes. destruct j as [|j]; [lia|]. cbn [firstn skipn].
  rewrite prod_cons, <- prod_app. f_equal.
  - f_equal. replace (S j + k - 1)%nat with (k + j)%nat by lia.
    rewrite <- (firstn_skipn k ns) at 3.
    rewrite firstn_app. rewrite firstn_length_le by lia.
    rewrite firstn_firstn. rewrite Nat.min_r by lia.
    replace (k + j - k)%nat with j by lia. reflexivity.
  - rewrite skipn_skipn. f_equal. lia.
Qed.

Lemma compress_twice m n s : legal s -> (1 <= n <= m)%nat -> (m <= length s)%nat ->
  exists a b c, compress m s = Ok a /\ compress n a = Ok b /\ compress n s = Ok c /\
                vals b = vals c.
Proof.
  intros Hl Hn Hm.
  destruct (compress_ok m s Hl) as (a & Ha & Hav & Hal & Halen); [lia|].
  destruct (compress_ok n a Hal) as (b & Hb & Hbv & Hbl & Hblen); [lia|].
  destruct (compress_ok n s Hl) as (c & Hc & Hcv & Hcl & Hclen); [lia|].
  exists a, b, c. repeat split; try assumption.
  rewrite Hbv, Hcv, Hav, firstn_merge; try lia.
  - f_equal. lia.
  - rewrite vals_length. lia.
Qed.

(** ** equality *)
Lemma all_eqb_vals a : forall b, wfs a -> wfs b -> nonnegs (vals a) -> nonnegs (vals b) ->
  length a = length b -> (all_eqb a b = true <-> vals a = vals b).
Proof.
  induction a as [|x a IH]; intros [|y b] Ha Hb Na Nb Hl; try discriminate; [simpl; tauto|].
  inversion Ha; inversion Hb; inversion Na; inversion Nb; subst. simpl.
  rewrite andb_true_iff, ceqb_exact, Z.eqb_eq; try assumption; [|apply compat_nonneg; assumption].
  rewrite IH; try assumption; [|simpl in Hl; congruence].
  unfold vals. split; [intros [-> ->]; reflexivity|intros E; injection E; tauto].
Qed.

Lemma shape_eq_ok a b : legal a -> legal b -> a <> [] -> b <> [] ->
  exists r, shape_eq a b = Ok r /\
    (r = true <-> merge_axes (length a - Nat.min (length a) (length b) + 1) (vals a)
                = merge_axes (length b - Nat.min (length a) (length b) + 1) (vals b)).
Proof.
  intros Ha Hb Na Nb. unfold shape_eq.
  set (m := Nat.min (length a) (length b)).
  assert (Hm : (1 <= m /\ m <= length a /\ m <= length b)%nat).
  { unfold m. destruct a; [congruence|]. destruct b; [congruence|]. simpl. lia. }
  destruct (compress_ok m a Ha) as (a' & Hca & Hva & Hla & Hlena); [lia|].
  destruct (compress_ok m b Hb) as (b' & Hcb & Hvb & Hlb & Hlenb); [lia|].
  rewrite Hca. cbn [bind]. rewrite Hcb. cbn [bind].
  eexists; split; [reflexivity|]. rewrite <- Hva, <- Hvb.
  apply all_eqb_vals; try apply legal_wf; try apply legal_nonneg; try assumption. congruence.
Qed.

Lemma shape_eq_refl a : legal a -> a <> [] -> shape_eq a a = Ok true.
Proof.
  intros Ha Na. destruct (shape_eq_ok a a Ha Ha Na Na) as (r & Hr & Hi).
  rewrite Hr. f_equal. apply Hi. reflexivity.
Qed.

Lemma all_eqb_sym a : forall b, all_eqb a b = all_eqb b a.
Proof. induction a as [|x a IH]; intros [|y b]; simpl; try reflexivity. rewrite IH, ceqb_sym. reflexivity. Qed.

Lemma shape_eq_sym a b : legal a -> legal b -> a <> [] -> b <> [] -> shape_eq a b = shape_eq b a.
Proof.
  intros Ha Hb Na Nb. unfold shape_eq. rewrite (Nat.min_comm (length b)).
  set (m := Nat.min (length a) (length b)).
  assert (Hm : (1 <= m /\ m <= length a /\ m <= length b)%nat).
  { unfold m. destruct a; [congruence|]. destruct b; [congruence|]. simpl. lia. }
  destruct (compress_ok m a Ha) as (a' & Hca & Hva & Hla & Hlena); [lia|].
  destruct (compress_ok m b Hb) as (b' & Hcb & Hvb & Hlb & Hlenb); [lia|].
  rewrite Hca, Hcb. cbn [bind]. rewrite all_eqb_sym. reflexivity.
Qed.

Lemma merge_axes_1 ns : ns <> [] -> merge_axes 1 ns = ns.
Proof. destruct ns; [congruence|]. intros _. apply prod_firstn_1. Qed.

Lemma shape_eq_same_order a b : legal a -> legal b -> a <> [] -> length a = length b ->
  exists r, shape_eq a b = Ok r /\ (r = true <-> vals a = vals b).
Proof.
  intros Ha Hb Na Hl.
  assert (Nb : b <> []) by (intros ->; destruct a; [congruence|discriminate]).
  destruct (shape_eq_ok a b Ha Hb Na Nb) as (r & Hr & Hi). exists r. split; [exact Hr|].
  rewrite Hi, Hl, Nat.min_id, Nat.sub_diag. cbn [Nat.add].
  rewrite !merge_axes_1; [tauto| |].
  - destruct b; [congruence|discriminate].
  - destruct a; [congruence|discriminate].
Qed.

Lemma shape_eq_numel a b : legal a -> legal b -> a <> [] -> b <> [] ->
  shape_eq a b = Ok true -> numel a = numel b.
Proof.
  intros Ha Hb Na Nb E. destruct (shape_eq_ok a b Ha Hb Na Nb) as (r & Hr & Hi).
  rewrite E in Hr. injection Hr as <-.
  rewrite !numel_ok by assumption. f_equal. f_equal.
  pose proof (proj1 Hi eq_refl) as M. apply (f_equal prod) in M. rewrite !merge_axes_prod in M. exact M.
Qed.

(** ** nbdims *)
Lemma locate_leading s : wfs s -> nonnegs (vals s) ->
  locate (fun m => negb (ceqb m (int 1))) s = leading_ones (vals s).
Proof.
  induction s as [|n s IH]; intros Hw Hn; [reflexivity|].
  inversion Hw; inversion Hn; subst. simpl.
  rewrite ceqb_exact; [|assumption|apply wfc_small_int; unfold max31; lia|apply compat_nonneg; simpl; lia].
  cbn [cval int]. destruct (Z.eqb (cval n) 1); simpl; [|reflexivity]. rewrite IH by assumption. reflexivity.
Qed.

Lemma nbdims_ok s : wfs s -> nonnegs (vals s) ->
  nbdims s = Z.of_nat (length s) - Z.of_nat (leading_ones (vals s)).
Proof.
  intros Hw Hn. unfold nbdims. destruct s as [|n s]; [reflexivity|].
  rewrite locate_leading by assumption. reflexivity.
Qed.

Lemma leading_ones_le ns : (leading_ones ns <= length ns)%nat.
Proof. induction ns as [|n ns IH]; simpl; [lia|]. destruct (n =? 1); simpl; lia. Qed.

Lemma leading_ones_all ns : leading_ones ns = length ns <-> Forall (fun n => n = 1) ns.
Proof.
  induction ns as [|n ns IH]; simpl; [split; [constructor|reflexivity]|].
  destruct (Z.eqb_spec n 1) as [->|Hn].
  - split.
    + intros E. constructor; [reflexivity|]. apply IH. lia.
    + intros H; inversion H; subst. f_equal. apply IH. assumption.
  - split; [discriminate|]. intros H; inversion H; congruence.
Qed.

Lemma nbdims_zero s : wfs s -> nonnegs (vals s) ->
  (nbdims s = 0 <-> Forall (fun n => n = 1) (vals s)).
Proof.
  intros Hw Hn. rewrite nbdims_ok by assumption. rewrite <- leading_ones_all, vals_length. lia.
Qed.

Lemma nbdims_prepend_one s : wfs s -> nonnegs (vals s) -> nbdims (int 1 :: s) = nbdims s.
Proof.
  intros Hw Hn. rewrite !nbdims_ok; try assumption.
  - unfold vals; cbn [map cval int length leading_ones]. rewrite Z.eqb_refl. lia.
  - constructor; [apply wfc_small_int; unfold max31; lia|assumption].
  - constructor; [simpl; lia|assumption].
Qed.

Lemma firstn_leading_ones ns k : (k <= leading_ones ns)%nat -> prod (firstn k ns) = 1.
Proof.
  revert k; induction ns as [|n ns IH]; intros [|k] Hk; try reflexivity.
  simpl in Hk. destruct (Z.eqb_spec n 1) as [->|]; [|lia].
  cbn [firstn]. rewrite prod_cons, IH by lia. reflexivity.
Qed.

(** Compressing to nbdims axes (when there is at least one) only drops unit axes. *)
Lemma compress_nbdims s : legal s -> 0 < nbdims s ->
  exists s', compress (Z.to_nat (nbdims s)) s = Ok s' /\
             vals s = repeat 1 (leading_ones (vals s)) ++ vals s'.
Proof.
  intros Hl Hp.
  pose proof (nbdims_ok s (legal_wf _ Hl) (legal_nonneg _ Hl)) as En.
  pose proof (leading_ones_le (vals s)) as Hle. rewrite vals_length in Hle.
  destruct (compress_ok (Z.to_nat (nbdims s)) s Hl) as (s' & Hs & Hv & _ & _); [lia|].
  exists s'. split; [exact Hs|]. rewrite Hv.
  replace (length s - Z.to_nat (nbdims s) + 1)%nat with (S (leading_ones (vals s))) by lia.
  assert (Hlt : (leading_ones (vals s) < length (vals s))%nat) by (rewrite vals_length; lia).
  clear - Hlt. induction (vals s) as [|n ns IH]; [simpl in Hlt; lia|].
  cbn [leading_ones]. destruct (Z.eqb_spec n 1) as [->|Hn].
  - cbn [leading_ones length] in Hlt. rewrite Z.eqb_refl in Hlt.
    cbn [repeat app]. f_equal. rewrite IH at 1 by lia. f_equal.
    unfold merge_axes. cbn [firstn skipn]. f_equal. rewrite (prod_cons 1). lia.
  - cbn [repeat app]. symmetry. apply merge_axes_1. discriminate.
Qed.

(** ** packaged statements used by the property files *)
Lemma strides_of_nth ns k : (k < length ns)%nat ->
  nth_error (strides_of ns) k = Some (prod (skipn (S k) ns)).
Proof.
  revert k; induction ns as [|n ns IH]; intros k Hk; [simpl in Hk; lia|].
  destruct k as [|k]; [reflexivity|]. cbn [strides_of nth_error].
  rewrite IH by (simpl in Hk; lia). reflexivity.
Qed.

Lemma as_stride_row_major_l s : legal s -> s <> [] ->
  exists st, as_stride s = Ok st /\ length st = length s /\
    forall k, (k < length s)%nat -> nth_error (vals st) k = Some (prod (skipn (S k) (vals s))).
Proof.
  intros H Hne. destruct (as_stride_ok s H Hne) as (st & Hst & Hv & Hw).
  exists st. split; [exact Hst|]. split.
  - rewrite <- (vals_length st), Hv, strides_of_length, vals_length. reflexivity.
  - intros k Hk. rewrite Hv. apply strides_of_nth. rewrite vals_length. exact Hk.
Qed.

Lemma linear_index_rank_l dbg s is_ : legal s -> s <> [] -> coord_in s is_ ->
  (dbg = true -> fits s is_) ->
  exists c, linear_index dbg s is_ = Ok c /\ cval c = rank (vals s) (vals is_).
Proof.
  intros H1 H2 H3 H4. destruct (linear_index_ok dbg s is_ H1 H2 H3 H4) as (c & Hc & Hv & _).
  exists c. split; assumption.
Qed.

Lemma coordinates_inverse_l dbg s idx : legal s -> s <> [] -> wfc idx ->
  0 <= cval idx < prod (vals s) ->
  exists cs, coordinates dbg idx s = Ok cs /\ in_box (vals s) (vals cs) /\
             rank (vals s) (vals cs) = cval idx /\ Forall (fun c => cty c = cty idx) cs /\ wfs cs.
Proof.
  intros Hl Hne Hw Hr.
  destruct (coordinates_ok dbg s idx Hl Hne Hw Hr) as (cs & Hcs & Hv & Ht & Hcw).
  assert (Hpos : Forall (fun n => 1 <= n) (vals s)).
  { apply prod_pos_all; [apply legal_nonneg, Hl|lia]. }
  assert (Hne' : vals s <> []) by (destruct s; [congruence|discriminate]).
  exists cs. split; [exact Hcs|]. rewrite Hv. split; [apply coords_of_box; assumption|].
  split; [apply coords_of_rank; [assumption|assumption|lia]|]. split; assumption.
Qed.

Lemma coordinates_linear_index_l dbg s is_ : legal s -> s <> [] -> coord_in s is_ -> (dbg = true -> fits s is_) ->
  exists c cs, linear_index dbg s is_ = Ok c /\ coordinates dbg c s = Ok cs /\ vals cs = vals is_.
Proof.
  intros Hl Hne Hc Hf.
  destruct (linear_index_ok dbg s is_ Hl Hne Hc Hf) as (c & Hli & Hv & Hw).
  destruct Hc as [Hwi Hb]. pose proof (rank_range _ _ Hb) as Hr.
  destruct (coordinates_inverse_l dbg s c Hl Hne Hw) as (cs & Hcs & Hbox & Hrk & _); [lia|].
  exists c, cs. split; [exact Hli|]. split; [exact Hcs|].
  apply (rank_inj (vals s)); [assumption|assumption|]. congruence.
Qed.

Lemma linear_index_coordinates_l dbg s idx : legal s -> s <> [] -> wfc idx ->
  0 <= cval idx < prod (vals s) -> (dbg = true -> Forall (fun n => in_ty (cty idx) n) (vals s)) ->
  exists cs c, coordinates dbg idx s = Ok cs /\ linear_index dbg s cs = Ok c /\ cval c = cval idx.
Proof.
  intros Hl Hne Hw Hr Hfit.
  destruct (coordinates_inverse_l dbg s idx Hl Hne Hw Hr) as (cs & Hcs & Hbox & Hrk & Hty & Hcw).
  assert (Hf : dbg = true -> fits s cs).
  { intros Hd. specialize (Hfit Hd). apply in_box_length in Hbox. rewrite !vals_length in Hbox. unfold fits. clear - Hfit Hty Hbox.
    revert cs Hty Hbox; induction s as [|n s IH]; intros [|c cs] Hty Hl; try discriminate; constructor.
    - inversion Hty; inversion Hfit; subst. rewrite H1. assumption.
    - inversion Hty; inversion Hfit; subst. apply IH; try assumption. simpl in Hl; congruence. }
  destruct (linear_index_ok dbg s cs Hl Hne (conj Hcw Hbox) Hf) as (c & Hc & Hv & _).
  exists cs, c. repeat split; try assumption. congruence.
Qed.

Lemma linear_index_unchecked dbg s is_ c : linear_index dbg s is_ = Ok c -> linear_index false s is_ = Ok c.
Proof. destruct dbg; [|trivial]. unfold linear_index. destruct (contains s is_); [trivial|discriminate]. Qed.
Lemma linear_index_injective_l dbg s a b c : legal s -> s <> [] ->
  coord_in s a -> coord_in s b -> linear_index dbg s a = Ok c ->
  (exists d, linear_index dbg s b = Ok d /\ cval d = cval c) -> vals a = vals b.
Proof.
  intros Hl Hne Ha Hb Ea (d & Ed & Ev). apply linear_index_unchecked in Ea. apply linear_index_unchecked in Ed.
  destruct (linear_index_ok false s a Hl Hne Ha) as (c' & Hc & Hcv & _); [discriminate|].
  destruct (linear_index_ok false s b Hl Hne Hb) as (d' & Hd & Hdv & _); [discriminate|].
  rewrite Ea in Hc; injection Hc as <-. rewrite Ed in Hd; injection Hd as <-.
  apply (rank_inj (vals s)); [apply Ha|apply Hb|congruence].
Qed.

Lemma linear_index_lex_l dbg s a b : legal s -> s <> [] -> coord_in s a -> coord_in s b ->
  (dbg = true -> fits s a /\ fits s b) ->
  exists ca cb, linear_index dbg s a = Ok ca /\ linear_index dbg s b = Ok cb /\
    (cval ca < cval cb <-> lex (vals a) (vals b)).
Proof.
  intros Hl Hne Ha Hb Hf.
  destruct (linear_index_ok dbg s a Hl Hne Ha) as (ca & Hca & Hav & _); [intros; apply Hf; assumption|].
  destruct (linear_index_ok dbg s b Hl Hne Hb) as (cb & Hcb & Hbv & _); [intros; apply Hf; assumption|].
  exists ca, cb. split; [exact Hca|]. split; [exact Hcb|].
  rewrite Hav, Hbv. symmetry. apply rank_lex; [apply Ha|apply Hb].
Qed.

Lemma numel_product_l s : legal s ->
  exists n, numel s = Ok n /\ cty n = I32 /\
    (s <> [] -> cval n = prod (vals s)) /\ (s = [] -> cval n = 0) /\
    (s <> [] -> (cval n = 0 <-> In 0 (vals s))).
Proof.
  intros Hl. destruct s as [|x s].
  - exists (int 0). repeat split; congruence.
  - rewrite numel_ok by (assumption || discriminate). eexists; split; [reflexivity|].
    split; [reflexivity|]. split; [reflexivity|]. split; [discriminate|].
    intros _. apply prod_zero_iff.
Qed.

Lemma compress_merges_l n s : legal s -> (1 <= n <= length s)%nat ->
  exists s', compress n s = Ok s' /\ length s' = n /\
    vals s' = merge_axes (length s - n + 1) (vals s) /\ legal s' /\ numel s' = numel s.
Proof.
  intros Hl Hn. destruct (compress_ok n s Hl Hn) as (s' & Hs & Hv & Hl' & Hlen).
  exists s'. split; [exact Hs|]. split; [exact Hlen|]. split; [exact Hv|]. split; [exact Hl'|].
  rewrite !numel_ok; try assumption.
  - rewrite Hv, merge_axes_prod. reflexivity.
  - destruct s; [simpl in Hn; lia|discriminate].
  - destruct s'; [simpl in Hlen; lia|discriminate].
Qed.

Lemma compress_linear_index_l dbg n s s' is_ js : legal s -> (1 <= n <= length s)%nat ->
  compress n s = Ok s' -> coord_in s is_ -> wfs js ->
  vals js = merge_coord (length s - n + 1) (vals s) (vals is_) ->
  (dbg = true -> fits s is_ /\ fits s' js) ->
  exists c d, linear_index dbg s is_ = Ok c /\ linear_index dbg s' js = Ok d /\ cval c = cval d.
Proof.
  intros Hl Hn Hs Hc Hwj Hj Hf.
  destruct (compress_ok n s Hl Hn) as (s'' & Hs' & Hv & Hl' & Hlen).
  rewrite Hs in Hs'; injection Hs' as <-.
  assert (Hne : s <> []) by (destruct s; [simpl in Hn; lia|discriminate]).
  assert (Hne' : s' <> []) by (destruct s'; [simpl in Hlen; lia|discriminate]).
  destruct (merge_coord_rank (length s - n + 1) _ _ (proj2 Hc)) as [Hbox Hrk].
  destruct (linear_index_ok dbg s is_ Hl Hne Hc) as (c & Hcc & Hcv & _); [intros Hd; apply (Hf Hd)|].
  destruct (linear_index_ok dbg s' js Hl' Hne') as (d & Hd & Hdv & _); [|intros Hd; apply (Hf Hd)|].
  - split; [assumption|]. rewrite Hv, Hj. assumption.
  - exists c, d. split; [exact Hcc|]. split; [exact Hd|]. rewrite Hcv, Hdv, Hv, Hj. congruence.
Qed.

(** Every index computation on a legal shape is exact. *)
Lemma index_arithmetic_exact_l dbg s : legal s -> s <> [] ->
  numel s = Ok (int (prod (vals s))) /\
  (exists st, as_stride s = Ok st /\
     forall k, (k < length s)%nat -> nth_error (vals st) k = Some (prod (skipn (S k) (vals s)))) /\
  (forall is_, coord_in s is_ -> (dbg = true -> fits s is_) ->
     exists c, linear_index dbg s is_ = Ok c /\ cval c = rank (vals s) (vals is_)) /\
  (forall idx, wfc idx -> 0 <= cval idx < prod (vals s) ->
     exists cs, coordinates dbg idx s = Ok cs /\ rank (vals s) (vals cs) = cval idx) /\
  (forall n, (1 <= n <= length s)%nat ->
     exists s', compress n s = Ok s' /\ vals s' = merge_axes (length s - n + 1) (vals s)).
Proof.
  intros Hl Hne. split; [apply numel_ok; assumption|]. split.
  { destruct (as_stride_row_major_l s Hl Hne) as (st & Hst & _ & H). exists st; split; assumption. }
  split. { intros; apply linear_index_rank_l; assumption. }
  split.
  - intros idx Hw Hr. destruct (coordinates_inverse_l dbg s idx Hl Hne Hw Hr) as (cs & Hcs & _ & Hk & _).
    exists cs; split; assumption.
  - intros n Hn. destruct (compress_ok n s Hl Hn) as (s' & Hs & Hv & _). exists s'; split; assumption.
Qed.

Lemma contains_iff_in_box_l s is_ :
  wfs s -> wfs is_ -> nonnegs (vals is_) -> fits s is_ ->
  (contains s is_ = true <-> in_box (vals s) (vals is_)).
Proof.
  intros Hs Hi Hn Hf. apply contains_ok; try assumption.
  apply Forall2_len in Hf. congruence.
Qed.

Lemma nbdims_l s : wfs s -> nonnegs (vals s) ->
  nbdims s = Z.of_nat (length s) - Z.of_nat (leading_ones (vals s)) /\
  (nbdims s = 0 <-> Forall (fun n => n = 1) (vals s)) /\
  nbdims (int 1 :: s) = nbdims s.
Proof.
  intros Hw Hn. split; [apply nbdims_ok; assumption|].
  split; [apply nbdims_zero; assumption|apply nbdims_prepend_one; assumption].
Qed.

(** ** boolean checks, to show that concrete shapes and coordinates meet the hypotheses *)
Definition wfsb (l : list cint) : bool := forallb (fun c => in_tyb (cty c) (cval c)) l.
Definition nonnegsb (l : list Z) : bool := forallb (Z.leb 0) l.
Definition legalb (s : list cint) : bool :=
  wfsb s && nonnegsb (vals s) && (posprod (vals s) <=? 2147483647).
Fixpoint in_boxb (ns is_ : list Z) : bool :=
  match ns, is_ with
  | [], [] => true
  | n :: ns', i :: is_' => (0 <=? i) && (i <? n) && in_boxb ns' is_'
  | _, _ => false
  end.
Definition coord_inb (s is_ : list cint) : bool := wfsb is_ && in_boxb (vals s) (vals is_).
Fixpoint fitsb (s is_ : list cint) : bool :=
  match s, is_ with
  | [], [] => true
  | m :: s', i :: is_' => in_tyb (cty i) (cval m) && fitsb s' is_'
  | _, _ => false
  end.

Lemma wfsb_ok l : wfsb l = true -> wfs l.
Proof.
  unfold wfsb, wfs. rewrite forallb_forall, Forall_forall. intros H x Hx.
  apply in_tyb_spec, H, Hx.
Qed.
Lemma nonnegsb_ok l : nonnegsb l = true -> nonnegs l.
Proof.
  unfold nonnegsb, nonnegs. rewrite forallb_forall, Forall_forall. intros H x Hx.
  apply Z.leb_le, H, Hx.
Qed.
Lemma legalb_ok s : legalb s = true -> legal s.
Proof.
  unfold legalb, legal. rewrite !andb_true_iff. intros [[H1 H2] H3].
  split; [apply wfsb_ok, H1|]. split; [apply nonnegsb_ok, H2|]. apply Z.leb_le, H3.
Qed.
Lemma in_boxb_ok ns is_ : in_boxb ns is_ = true <-> in_box ns is_.
Proof.
  revert is_; induction ns as [|n ns IH]; intros [|i is_]; simpl; split; intros H;
    try discriminate; try (inversion H; fail); try constructor.
  - rewrite !andb_true_iff in H. lia.
  - rewrite !andb_true_iff in H. apply IH. tauto.
  - inversion H; subst. rewrite !andb_true_iff. repeat split; try lia. apply IH. assumption.
Qed.
Lemma coord_inb_ok s is_ : coord_inb s is_ = true -> coord_in s is_.
Proof.
  unfold coord_inb, coord_in. rewrite andb_true_iff. intros [H1 H2].
  split; [apply wfsb_ok, H1|apply in_boxb_ok, H2].
Qed.
Lemma fitsb_ok s is_ : fitsb s is_ = true -> fits s is_.
Proof.
  unfold fits. revert is_; induction s as [|m s IH]; intros [|i is_] H; try discriminate; constructor.
  - simpl in H. rewrite andb_true_iff in H. apply in_tyb_spec. tauto.
  - simpl in H. rewrite andb_true_iff in H. apply IH. tauto.
Qed.

Ltac by_check :=
  first [ apply legalb_ok; vm_compute; reflexivity
        | apply coord_inb_ok; vm_compute; reflexivity
        | apply fitsb_ok; vm_compute; reflexivity
        | apply wfsb_ok; vm_compute; reflexivity
        | apply nonnegsb_ok; vm_compute; reflexivity
        | apply in_boxb_ok; vm_compute; reflexivity ].
