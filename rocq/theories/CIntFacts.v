(** Facts on typed integers: conversions and operations are exact when nothing leaves the range. *)
From Coq Require Import ZArith List Bool Lia.
From Verif Require Import Outcome CInt.
Import ListNotations.
Open Scope Z_scope.

Definition max31 : Z := 2147483647.

Lemma tmin_tmax t : tmax t - tmin t + 1 = modulus t.
Proof. destruct t; reflexivity. Qed.

Lemma modulus_pos t : 0 < modulus t.
Proof. destruct t; reflexivity. Qed.

Lemma in_tyb_spec t z : in_tyb t z = true <-> in_ty t z.
Proof. unfold in_tyb, in_ty. rewrite andb_true_iff, !Z.leb_le. tauto. Qed.

Lemma cast_id t z : in_ty t z -> cast t z = z.
Proof.
  unfold in_ty, cast; intros H.
  destruct (Z_lt_ge_dec z 0) as [Hn|Hn].
  - assert (E : z mod modulus t = z + modulus t).
    { rewrite <- (Z.mod_add z 1) by (pose proof (modulus_pos t); lia).
      rewrite Z.mod_small; destruct t; simpl in *; lia. }
    rewrite E. destruct (Z.leb_spec (z + modulus t) (tmax t)); destruct t; simpl in *; lia.
  - rewrite Z.mod_small by (destruct t; simpl in *; lia).
    destruct (Z.leb_spec z (tmax t)); lia.
Qed.

Lemma cast_range t z : in_ty t (cast t z).
Proof.
  unfold in_ty, cast.
  pose proof (Z.mod_pos_bound z (modulus t) (modulus_pos t)).
  destruct (Z.leb_spec (z mod modulus t) (tmax t)); destruct t; simpl in *; lia.
Qed.

Lemma in_ty_common_l t u z : in_ty t z -> is_signed (common t u) = true \/ 0 <= z ->
  in_ty (common t u) z.
Proof. unfold in_ty; destruct t, u; simpl; intros; try lia; destruct H0; (discriminate || lia). Qed.

Lemma in_ty_common_r t u z : in_ty u z -> is_signed (common t u) = true \/ 0 <= z ->
  in_ty (common t u) z.
Proof. unfold in_ty; destruct t, u; simpl; intros; try lia; destruct H0; (discriminate || lia). Qed.

Lemma in_ty_common_small t u z : 0 <= z <= max31 -> in_ty (common t u) z.
Proof. unfold in_ty, max31; destruct t, u; simpl; lia. Qed.

Lemma in_ty_common_signed t u z :
  is_signed (common t u) = true -> - max31 <= z <= max31 -> in_ty (common t u) z.
Proof. unfold in_ty, max31; destruct t, u; simpl; intros; try discriminate; lia. Qed.

Lemma common_signed t u :
  is_signed t = true -> is_signed u = true -> is_signed (common t u) = true.
Proof. destruct t, u; simpl; congruence. Qed.

Lemma common_comm t u : common t u = common u t.
Proof. destruct t, u; reflexivity. Qed.

(** Operands whose conversion to the common type does not change their value. *)
Definition compat (a b : cint) : Prop :=
  is_signed (common (cty a) (cty b)) = true \/ (0 <= cval a /\ 0 <= cval b).

Lemma compat_cast_l a b : wfc a -> compat a b -> cast (common (cty a) (cty b)) (cval a) = cval a.
Proof.
  unfold compat, wfc; intros Ha Hc. apply cast_id, in_ty_common_l; [exact Ha|tauto].
Qed.

Lemma compat_cast_r a b : wfc b -> compat a b -> cast (common (cty a) (cty b)) (cval b) = cval b.
Proof.
  unfold compat, wfc; intros Ha Hc. apply cast_id, in_ty_common_r; [exact Ha|tauto].
Qed.

Lemma compat_nonneg a b : 0 <= cval a -> 0 <= cval b -> compat a b.
Proof. unfold compat; tauto. Qed.

Lemma compat_signed a b :
  is_signed (cty a) = true -> is_signed (cty b) = true -> compat a b.
Proof. intros; left; apply common_signed; assumption. Qed.

Lemma arith_exact f a b : wfc a -> wfc b -> compat a b ->
  in_ty (common (cty a) (cty b)) (f (cval a) (cval b)) ->
  arith f a b = Ok (CI (common (cty a) (cty b)) (f (cval a) (cval b))).
Proof.
  intros Ha Hb Hc Hr. unfold arith.
  rewrite (compat_cast_l a b), (compat_cast_r a b) by assumption.
  destruct (is_signed _).
  - apply in_tyb_spec in Hr. rewrite Hr. reflexivity.
  - rewrite cast_id by assumption. reflexivity.
Qed.

Lemma arith_nonneg f a b : wfc a -> wfc b -> 0 <= cval a -> 0 <= cval b ->
  0 <= f (cval a) (cval b) <= max31 ->
  exists c, arith f a b = Ok c /\ cval c = f (cval a) (cval b) /\ wfc c /\
            cty c = common (cty a) (cty b).
Proof.
  intros Ha Hb Pa Pb Hr. eexists; split; [apply arith_exact; try assumption|].
  - right; tauto.
  - apply in_ty_common_small; assumption.
  - simpl; split; [reflexivity|split; [|reflexivity]].
    unfold wfc; simpl. apply in_ty_common_small; assumption.
Qed.

Lemma arith_signed f a b : wfc a -> wfc b ->
  is_signed (cty a) = true -> is_signed (cty b) = true ->
  - max31 <= f (cval a) (cval b) <= max31 ->
  exists c, arith f a b = Ok c /\ cval c = f (cval a) (cval b) /\ wfc c /\
            is_signed (cty c) = true.
Proof.
  intros Ha Hb Pa Pb Hr. pose proof (common_signed _ _ Pa Pb) as Hs.
  eexists; split; [apply arith_exact; try assumption|].
  - apply compat_signed; assumption.
  - apply in_ty_common_signed; assumption.
  - simpl; split; [reflexivity|split; [|assumption]].
    unfold wfc; simpl. apply in_ty_common_signed; assumption.
Qed.

Lemma clt_exact a b : wfc a -> wfc b -> compat a b -> clt a b = (cval a <? cval b).
Proof. intros. unfold clt. rewrite compat_cast_l, compat_cast_r by assumption. reflexivity. Qed.

Lemma cle_exact a b : wfc a -> wfc b -> compat a b -> cle a b = (cval a <=? cval b).
Proof. intros. unfold cle. rewrite compat_cast_l, compat_cast_r by assumption. reflexivity. Qed.

Lemma ceqb_exact a b : wfc a -> wfc b -> compat a b -> ceqb a b = (cval a =? cval b).
Proof. intros. unfold ceqb. rewrite compat_cast_l, compat_cast_r by assumption. reflexivity. Qed.

Lemma ceqb_refl a : ceqb a a = true.
Proof. unfold ceqb. apply Z.eqb_refl. Qed.

Lemma ceqb_sym a b : ceqb a b = ceqb b a.
Proof. unfold ceqb. rewrite (common_comm (cty b) (cty a)). apply Z.eqb_sym. Qed.

Lemma cdiv_nonneg a b : wfc a -> wfc b -> 0 <= cval a -> 0 < cval b ->
  exists c, cdiv a b = Ok c /\ cval c = cval a / cval b /\ wfc c /\
            cty c = common (cty a) (cty b).
Proof.
  intros Ha Hb Pa Pb. unfold cdiv.
  assert (Hc : compat a b) by (apply compat_nonneg; lia).
  rewrite (compat_cast_l a b), (compat_cast_r a b) by assumption.
  destruct (Z.eqb_spec (cval b) 0); [lia|].
  rewrite Z.quot_div_nonneg by lia.
  assert (Hr : in_ty (common (cty a) (cty b)) (cval a / cval b)).
  { assert (0 <= cval a / cval b) by (apply Z.div_pos; lia).
    assert (cval a / cval b <= cval a) by (apply Z.div_le_upper_bound; nia).
    pose proof (in_ty_common_l (cty a) (cty b) (cval a) Ha (or_intror Pa)) as K.
    unfold in_ty in *. destruct (common (cty a) (cty b)); simpl in *; lia. }
  pose proof Hr as Hr'. apply in_tyb_spec in Hr. rewrite Hr. eexists; split; [reflexivity|].
  simpl. split; [reflexivity|]. split; [exact Hr'|reflexivity].
Qed.

Lemma cmod_nonneg a b : wfc a -> wfc b -> 0 <= cval a -> 0 < cval b ->
  exists c, cmod a b = Ok c /\ cval c = cval a mod cval b /\ wfc c /\
            cty c = common (cty a) (cty b).
Proof.
  intros Ha Hb Pa Pb. unfold cmod.
  assert (Hc : compat a b) by (apply compat_nonneg; lia).
  rewrite (compat_cast_l a b), (compat_cast_r a b) by assumption.
  destruct (Z.eqb_spec (cval b) 0); [lia|].
  rewrite Z.quot_div_nonneg by lia. rewrite Z.rem_mod_nonneg by lia.
  pose proof (in_ty_common_l (cty a) (cty b) (cval a) Ha (or_intror Pa)) as K.
  assert (0 <= cval a / cval b) by (apply Z.div_pos; lia).
  assert (cval a / cval b <= cval a) by (apply Z.div_le_upper_bound; nia).
  assert (0 <= cval a mod cval b) by (apply Z.mod_pos_bound; lia).
  assert (cval a mod cval b <= cval a) by (apply Z.mod_le; lia).
  assert (Hr : in_ty (common (cty a) (cty b)) (cval a / cval b)).
  { unfold in_ty in *. destruct (common (cty a) (cty b)); simpl in *; lia. }
  apply in_tyb_spec in Hr. rewrite Hr. eexists; split; [reflexivity|].
  simpl. split; [reflexivity|]. split; [|reflexivity].
  unfold wfc, in_ty in *; simpl. destruct (common (cty a) (cty b)); simpl in *; lia.
Qed.

Lemma wfc_int z : - max31 <= z <= max31 -> wfc (int z).
Proof. unfold wfc, in_ty, int, max31; simpl; lia. Qed.

Lemma conv_exact t a : in_ty t (cval a) -> conv t a = CI t (cval a).
Proof. intros. unfold conv. rewrite cast_id by assumption. reflexivity. Qed.

Lemma conv_wf t a : wfc (conv t a).
Proof. apply cast_range. Qed.

Lemma in_ty_shrink t z z' : in_ty t z -> 0 <= z' <= z -> in_ty t z'.
Proof. unfold in_ty; destruct t; simpl; lia. Qed.

(** [++i] is exact below the maximum of the type. *)
Lemma cincr_exact i : wfc i -> cval i < tmax (cty i) -> 0 <= cval i ->
  cincr i = Ok (CI (cty i) (cval i + 1)).
Proof.
  intros Hw Hlt Hn. unfold cincr, cadd.
  assert (Hone : wfc (int 1)) by (unfold wfc, in_ty; simpl; lia).
  rewrite arith_exact; try assumption.
  - simpl. unfold conv; simpl. rewrite cast_id; [reflexivity|].
    unfold wfc, in_ty in *; destruct (cty i); simpl in *; lia.
  - apply compat_nonneg; simpl; lia.
  - unfold wfc, in_ty in *; simpl. destruct (cty i); simpl in *; lia.
Qed.
