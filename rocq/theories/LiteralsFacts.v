From Coq Require Import ZArith List Bool Lia.
From Verif Require Import Outcome CInt CIntFacts Spec SpecFacts ShapeSpec Shape ShapeFacts ShapeFacts2
  Literals LiteralsSpec.
Import ListNotations.
Open Scope Z_scope.

Lemma cast_U64_mod z : cast U64 z = z mod 18446744073709551616.
Proof.
  unfold cast. simpl. pose proof (Z.mod_pos_bound z 18446744073709551616).
  destruct (z mod 18446744073709551616 <=? 18446744073709551615) eqn:E; [reflexivity|].
  apply Z.leb_gt in E. lia.
Qed.

Lemma pow10_pos n : 0 < 10 ^ Z.of_nat n.
Proof. apply Z.pow_pos_nonneg; lia. Qed.

Lemma pow10_S n : 10 ^ Z.of_nat (S n) = 10 * 10 ^ Z.of_nat n.
Proof. rewrite Nat2Z.inj_succ, Z.pow_succ_r by lia. reflexivity. Qed.

Lemma decimal_nonneg ds : Forall digit ds -> 0 <= decimal ds.
Proof.
  induction 1 as [|d ds Hd _ IH]; simpl; [lia|].
  pose proof (pow10_pos (length ds)). unfold digit in Hd. nia.
Qed.

Lemma b10_mod ds : forall v, b10_from v (chars ds) mod 18446744073709551616
  = (v * 10 ^ Z.of_nat (length ds) + decimal ds) mod 18446744073709551616.
Proof.
  induction ds as [|d ds IH]; intros v.
  - simpl. f_equal. lia.
  - cbn [chars map b10_from decimal length]. fold (chars ds). rewrite IH.
    rewrite !cast_U64_mod. rewrite pow10_S.
    replace (48 + d - 48) with d by lia.
    rewrite <- Z.add_mod by lia.
    rewrite Z.add_mod by lia. rewrite Z.mul_mod_idemp_l by lia. rewrite <- Z.add_mod by lia.
    f_equal. ring.
Qed.

Lemma b10_exact ds : Forall digit ds -> decimal ds < 18446744073709551616 ->
  b10 (chars ds) = decimal ds.
Proof.
  intros Hd Hr. pose proof (b10_mod ds 0) as H. unfold b10.
  assert (R : 0 <= b10_from 0 (chars ds) < 18446744073709551616).
  { clear. generalize (chars ds). intros l.
    assert (G : forall v, 0 <= v < 18446744073709551616 -> 0 <= b10_from v l < 18446744073709551616).
    { induction l as [|c l IH]; intros v Hv; simpl; [exact Hv|].
      apply IH. rewrite (cast_U64_mod (_ + _)). apply Z.mod_pos_bound. lia. }
    apply G. lia. }
  rewrite Z.mod_small in H by exact R. rewrite H. simpl Z.mul. rewrite Z.add_0_l.
  apply Z.mod_small. split; [apply decimal_nonneg; exact Hd|exact Hr].
Qed.

Lemma b10_wraps ds : Forall digit ds -> b10 (chars ds) = decimal ds mod 18446744073709551616.
Proof.
  intros Hd. pose proof (b10_mod ds 0) as H. unfold b10.
  assert (R : 0 <= b10_from 0 (chars ds) < 18446744073709551616).
  { clear. generalize (chars ds). intros l.
    assert (G : forall v, 0 <= v < 18446744073709551616 -> 0 <= b10_from v l < 18446744073709551616).
    { induction l as [|c l IH]; intros v Hv; simpl; [exact Hv|].
      apply IH. rewrite (cast_U64_mod (_ + _)). apply Z.mod_pos_bound. lia. }
    apply G. lia. }
  rewrite Z.mod_small in H by exact R. rewrite H. simpl Z.mul. rewrite Z.add_0_l. reflexivity.
Qed.

Lemma literal_wraps_l ds ds' : Forall digit ds -> Forall digit ds' ->
  decimal ds' = decimal ds mod 18446744073709551616 -> literal_c (chars ds) = literal_c (chars ds').
Proof.
  intros D D' E. unfold literal_c. rewrite (b10_wraps ds D), (b10_wraps ds' D'), E.
  rewrite Z.mod_mod by lia. reflexivity.
Qed.

Lemma bit_width_le v k : 0 <= v -> 0 <= k -> (bit_width v <= k <-> v < 2 ^ k).
Proof.
  intros Hv Hk. unfold bit_width. destruct (v =? 0) eqn:E.
  - apply Z.eqb_eq in E. subst. split; intros; [|lia]. apply Z.pow_pos_nonneg; lia.
  - apply Z.eqb_neq in E. rewrite (Z.log2_lt_pow2 v k) by lia. lia.
Qed.

Lemma clamp_cases v : 0 <= v < 18446744073709551616 ->
  (v <= 255 /\ clamp v = CI U8 v) \/
  (255 < v <= 65535 /\ clamp v = CI U16 v) \/
  (65536 <= v <= 524287 /\ clamp v = CI U16 (v mod 65536)) \/
  (524287 < v <= 4294967295 /\ clamp v = CI U32 v) \/
  (4294967295 < v /\ clamp v = CI U64 v).
Proof.
  intros Hv. unfold clamp.
  pose proof (bit_width_le v 8 ltac:(lia) ltac:(lia)) as H8. change (2^8) with 256 in H8.
  pose proof (bit_width_le v 19 ltac:(lia) ltac:(lia)) as H19. change (2^19) with 524288 in H19.
  pose proof (bit_width_le v 32 ltac:(lia) ltac:(lia)) as H32. change (2^32) with 4294967296 in H32.
  destruct (Z.leb_spec (bit_width v) 8).
  { left. split; [lia|]. rewrite cast_id; [reflexivity|]. unfold in_ty; simpl; lia. }
  right. destruct (Z.leb_spec (bit_width v) 19).
  { destruct (Z_le_dec v 65535).
    - left. split; [lia|]. rewrite cast_id; [reflexivity|]. unfold in_ty; simpl; lia.
    - right; left. split; [lia|]. unfold cast. cbn [modulus tmax].
      pose proof (Z.mod_pos_bound v 65536 ltac:(lia)).
      destruct (Z.leb_spec (v mod 65536) 65535); [reflexivity|lia]. }
  right; right. destruct (Z.leb_spec (bit_width v) 32).
  { left. split; [lia|]. rewrite cast_id; [reflexivity|]. unfold in_ty; simpl; lia. }
  right. split; [lia|reflexivity].
Qed.

Lemma clamp_exact_l v : 0 <= v < 18446744073709551616 -> ~ bad_width v ->
  cval (clamp v) = v /\ wfc (clamp v) /\ is_signed (cty (clamp v)) = false /\
  forall t, is_signed t = false -> in_ty t v -> width (cty (clamp v)) <= width t.
Proof.
  intros Hv Hb. unfold bad_width in Hb.
  destruct (clamp_cases v Hv) as [[R E]|[[R E]|[[R E]|[[R E]|[R E]]]]]; [| |lia| |];
    rewrite E; (split; [reflexivity|]); (split; [unfold wfc, in_ty; simpl; lia|]);
    (split; [reflexivity|]);
    intros t Ht Hi; unfold in_ty in Hi; destruct t; try discriminate Ht; simpl in *; lia.
Qed.

Lemma clamp_bad_l v : bad_width v ->
  cval (clamp v) = v mod 65536 /\ cval (clamp v) < v.
Proof.
  intros Hb. unfold bad_width in Hb.
  destruct (clamp_cases v ltac:(lia)) as [[R E]|[[R E]|[[R E]|[[R E]|[R E]]]]]; try lia.
  rewrite E. simpl cval. split; [reflexivity|].
  pose proof (Z.mod_pos_bound v 65536 ltac:(lia)). lia.
Qed.

Lemma literal_exact_l ds : Forall digit ds -> decimal ds < 18446744073709551616 ->
  ~ bad_width (decimal ds) ->
  cval (literal_c (chars ds)) = decimal ds /\ wfc (literal_c (chars ds)) /\
  is_signed (cty (literal_c (chars ds))) = false /\
  forall t, is_signed t = false -> in_ty t (decimal ds) ->
    width (cty (literal_c (chars ds))) <= width t.
Proof.
  intros Hd Hr Hb. unfold literal_c. rewrite b10_exact by assumption.
  apply clamp_exact_l; [|exact Hb]. pose proof (decimal_nonneg ds Hd). lia.
Qed.

Lemma literal_bad_l ds : Forall digit ds -> bad_width (decimal ds) ->
  cval (literal_c (chars ds)) = decimal ds mod 65536 /\ cval (literal_c (chars ds)) <> decimal ds.
Proof.
  intros Hd Hb. unfold literal_c.
  rewrite b10_exact; [|exact Hd|unfold bad_width in Hb; lia].
  destruct (clamp_bad_l _ Hb). split; [assumption|lia].
Qed.

(** Arrays. *)
Definition fine_extents (a : arr) : Prop :=
  Forall (fun n => 0 <= n < 18446744073709551616 /\ ~ bad_width n) (extents a).

Lemma scalars_prod a : scalars a = prod (extents a).
Proof. induction a; simpl; rewrite ?prod_cons; [reflexivity|lia|lia]. Qed.

Lemma mem_offset_rank a : forall is_, length is_ = length (extents a) ->
  mem_offset a is_ = rank (extents a) is_.
Proof.
  induction a as [|t IH n|t IH n]; intros is_ L; destruct is_ as [|i is_]; simpl in L; try discriminate;
    try reflexivity; injection L as L; simpl; rewrite rank_cons by exact L;
    rewrite scalars_prod, IH by exact L; reflexivity.
Qed.

Lemma vals_app a b : vals (a ++ b) = vals a ++ vals b.
Proof. apply map_app. Qed.

Lemma c_sizes a : only_c a -> fine_extents a ->
  vals (array_sizes a) = extents a /\ wfs (array_sizes a).
Proof.
  unfold fine_extents. induction a as [|t IH n|t IH n]; simpl; intros O F.
  - split; [reflexivity|constructor].
  - contradiction.
  - inversion F as [|? ? [R B] F']; subst. destruct (IH O F') as [V W].
    destruct (clamp_exact_l n R B) as (E & Wn & _). split.
    + cbn [vals map]. rewrite E. f_equal. exact V.
    + constructor; assumption.
Qed.

Lemma std_sizes a : only_std a -> fine_extents a ->
  vals (array_sizes a) = rev (extents a) /\ wfs (array_sizes a).
Proof.
  unfold fine_extents. induction a as [|t IH n|t IH n]; simpl; intros O F.
  - split; [reflexivity|constructor].
  - inversion F as [|? ? [R B] F']; subst. destruct (IH O F') as [V W].
    destruct (clamp_exact_l n R B) as (E & Wn & _). split.
    + rewrite vals_app, V. cbn [vals map]. rewrite E. reflexivity.
    + apply Forall_app. split; [exact W|]. constructor; [exact Wn|constructor].
  - contradiction.
Qed.

Lemma carray_layout_l a is_ : only_c a -> a <> Elem -> fine_extents a ->
  posprod (extents a) <= 2147483647 -> wfs is_ -> in_box (extents a) (vals is_) ->
  vals (array_sizes a) = extents a /\
  exists c, linear_index false (array_sizes a) is_ = Ok c /\ cval c = mem_offset a (vals is_).
Proof.
  intros O Ne F P W B. destruct (c_sizes a O F) as [V Ws]. split; [exact V|].
  assert (Lg : legal (array_sizes a)).
  { split; [exact Ws|]. rewrite V. split; [|exact P].
    unfold nonnegs. eapply Forall_impl; [|exact F]. simpl. intros; lia. }
  destruct (linear_index_rank_l false (array_sizes a) is_ Lg) as (c & E & Ec).
  - destruct a; [contradiction|contradiction|discriminate].
  - split; [exact W|]. rewrite V. exact B.
  - discriminate.
  - exists c. split; [exact E|]. rewrite Ec, V, mem_offset_rank; [reflexivity|].
    apply in_box_length in B. exact B.
Qed.

Lemma stdarray_layout_l n m : 2 <= n -> 2 <= m -> n <> m -> ~ bad_width n -> ~ bad_width m ->
  n * m <= 2147483647 ->
  let a := StdArray (StdArray Elem m) n in
  in_box (extents a) [1; 0] /\ in_box (vals (array_sizes a)) [1; 0] /\
  exists c, linear_index true (array_sizes a) [int 1; int 0] = Ok c /\ cval c <> mem_offset a [1; 0].
Proof.
  intros Hn Hm Ne Bn Bm P a.
  assert (F : fine_extents a).
  { repeat constructor; try assumption; nia. }
  destruct (std_sizes a ltac:(exact I) F) as [V W]. simpl rev in V.
  assert (Bx : in_box (vals (array_sizes a)) [1; 0]).
  { rewrite V. constructor; [lia|]. constructor; [lia|]. constructor. }
  split; [|split].
  - simpl. constructor; [lia|]. constructor; [lia|]. constructor.
  - exact Bx.
  - assert (Lg : legal (array_sizes a)).
    { split; [exact W|]. rewrite V. split; [repeat constructor; lia|].
      rewrite !posprod_cons. change (posprod []) with 1. rewrite !Z.max_r by lia. nia. }
    destruct (linear_index_rank_l true (array_sizes a) [int 1; int 0] Lg) as (c & E & Ec).
    + discriminate.
    + split; [|exact Bx]. repeat constructor; vm_compute; discriminate.
    + intros _. unfold fits.
      assert (L : length (array_sizes a) = 2%nat) by reflexivity.
      change (array_sizes a) with [clamp m; clamp n] in *. cbn [vals map] in V.
      injection V as V1 V2.
      constructor; [rewrite V1; unfold in_ty; simpl; nia|].
      constructor; [rewrite V2; unfold in_ty; simpl; nia|]. constructor.
    + exists c. split; [exact E|]. rewrite Ec, V.
      change ((0 * m + 1) * n + 0 <> 1 * (m * 1) + (0 * 1 + 0)). lia.
Qed.

Lemma array_length_l n : 0 <= n < 18446744073709551616 ->
  (~ bad_width n ->
     vals (array_sizes (CArray Elem n)) = [n] /\ vals (array_sizes (StdArray Elem n)) = [n]) /\
  (bad_width n ->
     vals (array_sizes (CArray Elem n)) <> [n] /\ vals (array_sizes (StdArray Elem n)) <> [n]).
Proof.
  intros R. split; intros B; cbn [array_sizes app vals map].
  - destruct (clamp_exact_l n R B) as [E _]. rewrite E. split; reflexivity.
  - destruct (clamp_bad_l n B) as [_ L]. split; intros H; injection H as H; lia.
Qed.
