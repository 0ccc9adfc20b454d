(** Facts about slices that run backwards over axes of any extent. *)
From Coq Require Import ZArith List Bool Lia.
From Verif Require Import Outcome CInt CIntFacts Spec SpecFacts ShapeSpec Shape ShapeFacts ShapeFacts2 EndRatio
  Memory Container ContainerSpec Slicer SlicerSpec SlicerFacts SlicerFacts2 LargeSpec LargeFacts LargeSliceSpec LargeSliceFacts.
Import ListNotations.
Open Scope Z_scope.

Lemma neg_wide s : wfc s -> cval s < 0 -> in_ty (promote (cty s)) (- cval s) ->
  exists w, (if clt s (int 0) then cneg s else Ok (conv (promote (cty s)) s)) = Ok w /\ cval w = - cval s /\ wfc w.
Proof.
  intros W L I. rewrite clt_neg by assumption. destruct (Z.ltb_spec (cval s) 0); [|lia].
  pose proof (neg_signed s W L) as S. unfold cneg.
  assert (Sp : is_signed (promote (cty s)) = true) by (destruct (cty s); simpl in *; congruence).
  rewrite Sp. rewrite cast_id by (apply promote_in_ty; exact W).
  pose proof I as I'. apply in_tyb_spec in I. rewrite I. eexists. split; [reflexivity|]. split; [reflexivity|exact I'].
Qed.

Lemma count_back v s : wfc v -> 0 < cval v -> wfc s -> cval s < 0 -> in_ty (promote (cty s)) (- cval s) ->
  exists c, eval_count v s = Ok c /\ cval c = ceil_div (cval v) (- cval s) /\ wfc c.
Proof.
  intros Wv Bv Ws Bs I. unfold eval_count. rewrite ceqb_zero by assumption.
  destruct (Z.eqb_spec (cval v) 0) as [E|E]; [lia|]. unfold fix_count.
  destruct (neg_wide s Ws Bs I) as (w & Ew & Vw & Ww). rewrite Ew, bind_ok.
  destruct (cmod_nonneg v w Wv Ww ltac:(lia) ltac:(lia)) as (r & Er & Vr & Wr & _).
  destruct (cdiv_nonneg v w Wv Ww ltac:(lia) ltac:(lia)) as (q & Eq & Vq & Wq & Tq).
  rewrite Er, Eq, !bind_ok. rewrite ceqb_zero by assumption.
  pose proof (ceil_div_split (cval v) (cval w) ltac:(lia) ltac:(lia)) as CS.
  pose proof (ceil_div_bounds (cval v) (cval w) ltac:(lia) ltac:(lia)) as CB.
  assert (Q0 : 0 <= cval v / cval w) by (apply Z.div_pos; lia).
  rewrite <- Vw. rewrite <- Vr, <- Vq in CS. rewrite <- Vq in Q0.
  assert (Wb : wfc (int (if cval r =? 0 then 0 else 1))) by (destruct (cval r =? 0); [apply wf0|apply wf1]).
  assert (B0 : 0 <= cval (int (if cval r =? 0 then 0 else 1))) by (cbn; destruct (cval r =? 0); lia).
  assert (I2 : in_ty (common I32 (cty q)) (cval (int (if cval r =? 0 then 0 else 1)) + cval q)).
  { apply (in_ty_shrink _ (cval v)); [|cbn [cval int]; lia]. rewrite Tq.
    assert (Iv : in_ty (common (cty v) (cty w)) (cval v)) by (apply in_ty_common_l; [exact Wv|right; lia]).
    apply in_ty_common_r; [exact Iv|right; lia]. }
  unfold cadd. rewrite (arith_exact Z.add _ q) by (try assumption; right; split; assumption).
  eexists. split; [reflexivity|]. cbn [cval cty]. split; [rewrite CS; reflexivity|exact I2].
Qed.

Lemma backward_wide n b s bz : wfc n -> bound_is n b (cval n - 1) bz -> wfc s -> cval s < 0 -> in_ty (promote (cty s)) (- cval s) ->
  0 <= bz < cval n -> room b bz ->
  exists co ck, reindex1 n (SSlice b (Some s) None None) = Ok co /\ cval co = bz /\ wfc co /\
    reshape1 n (SSlice b (Some s) None None) = Ok ck /\ cval ck = ceil_div (bz + 1) (- cval s) /\ wfc ck.
Proof.
  intros Wn Hb Ws Sn Is Rb Rm. destruct b as [b|].
  - destruct (fix_extremum_wide n (Some b) (int 0) bz Hb wf0) as (b0 & Eb & Vb & Wb & Tb).
    cbn [reindex1 reshape1]. rewrite Eb. cbn [bind fix_extremum]. rewrite cle_pos by assumption.
    destruct (Z.leb_spec 0 (cval s)); [lia|].
    assert (I1 : in_ty (common (cty b0) U8) (cval b0 + 1)).
    { assert (Hp : in_ty (common (cty b0) U8) (cval b0)) by (apply in_ty_common_l; [exact Wb|right; lia]).
      destruct b as [x|x]; cbn [room] in Rm; cbn in Tb.
      - rewrite <- Tb in Rm. rewrite Vb in Hp |- *. unfold is64, in_ty in *. destruct (cty b0); cbn in *; destruct Rm as [Rm|[[Rm|Rm] Rl]]; try discriminate; lia.
      - rewrite Vb in Hp |- *. unfold in_ty in *. destruct (cty b0); cbn in *; lia. }
    unfold cadd. rewrite (arith_exact Z.add b0 (CI U8 1)); [|exact Wb|vm_compute; split; discriminate|right; cbn; lia|exact I1].
    cbn [bind]. set (d := CI _ _).
    destruct (count_back d s) as (x & Ex & Vx & Wx); try assumption; [unfold d; cbn; lia|].
    rewrite Ex. cbn [bind]. exists b0. eexists. split; [reflexivity|]. split; [exact Vb|]. split; [exact Wb|]. split; [reflexivity|].
    assert (Vd : cval d = bz + 1) by (unfold d; cbn [cval]; lia). rewrite Vd in Vx.
    pose proof (ceil_div_bounds (bz + 1) (- cval s) ltac:(lia) ltac:(lia)) as CB.
    assert (I2 : in_ty (common I32 (common (common (cty n) (cty b0)) (cty s))) (cval x)).
    { apply (in_ty_shrink _ (cval n)); [|lia]. apply in_ty_common_r; [|right; lia].
      apply in_ty_common_l; [|right; lia]. apply in_ty_common_l; [exact Wn|right; lia]. }
    rewrite conv_exact by exact I2. split; [exact Vx|exact I2].
  - cbn in Hb. subst bz. cbn [reindex1 reshape1]. rewrite clt_pos by assumption. destruct (Z.ltb_spec 0 (cval s)); [lia|]. unfold csub.
    destruct (arith_fits Z.sub n (int 1)) as (c & Ec & Vc & Wc & Tc); try assumption; try apply wf1; try (cbn; lia).
    destruct (count_back n s) as (x & Ex & Vx & Wx); try assumption; try lia.
    exists c, x. split; [exact Ec|]. split; [exact Vc|]. split; [exact Wc|]. split; [exact Ex|]. split; [rewrite Vx; f_equal; lia|exact Wx].
Qed.

Lemma access_back j s z : wfc j -> 0 <= cval j -> wfc s -> cty s = I64 -> cval s < 0 -> 0 <= z <= 9223372036854775807 -> cval j * - cval s <= z ->
  exists c, cmul j s = Ok c /\ cast I64 (cval c) = cval j * cval s.
Proof.
  intros Wj Pj Ws Ts Ns Bz B. destruct j as [tj j], s as [ts s]. cbn [cty cval] in *. subst ts.
  assert (R : -9223372036854775807 <= j * s <= 0) by nia.
  assert (J : in_ty I64 j) by (unfold in_ty; cbn; nia).
  unfold cmul, arith. cbn [cty cval].
  assert (T : common tj I64 = I64 \/ common tj I64 = U64) by (destruct tj; vm_compute; auto).
  destruct T as [E|E]; rewrite E; cbn [is_signed].
  - rewrite !cast_id by assumption. assert (I : in_tyb I64 (j * s) = true) by (apply in_tyb_spec; unfold in_ty; cbn; lia).
    rewrite I. eexists. split; [reflexivity|]. cbn [cval]. apply cast_id. unfold in_ty; cbn; lia.
  - eexists. split; [reflexivity|]. cbn [cval].
    assert (M : cast I64 (cast U64 (cast U64 j * cast U64 s)) = cast I64 (j * s)).
    { enough (Q : cast U64 (cast U64 j * cast U64 s) mod modulus I64 = j * s mod modulus I64) by exact (f_equal (fun r => if r <=? tmax I64 then r else r - modulus I64) Q). change (modulus I64) with (modulus U64). rewrite cast_mod.
      rewrite <- (Z.mul_mod_idemp_l _ _ (modulus U64)), <- (Z.mul_mod_idemp_r _ _ (modulus U64)) by (vm_compute; discriminate).
      rewrite !cast_mod. rewrite Z.mul_mod_idemp_r, Z.mul_mod_idemp_l by (vm_compute; discriminate). reflexivity. }
    rewrite M. apply cast_id. unfold in_ty; cbn; lia.
Qed.

Lemma backward_view st0 n b s bz data : large [n] -> bound_is n b (cval n - 1) bz -> wfc s -> cty s = I64 -> -9223372036854775807 <= cval s < 0 ->
  0 <= bz < cval n -> room b bz ->
  exists v, slice_container false false st0 (Cn K1 [n] [] data) [SSlice b (Some s) None None] = Ok v /\
    dims v = [ceil_div (bz + 1) (- cval s)] /\
    forall j, wfc j -> 0 <= cval j < ceil_div (bz + 1) (- cval s) ->
      in_box [cval n] [bz + cval j * cval s] /\ address v [j] = Ok (padd data (bz + cval j * cval s)).
Proof.
  intros Lg Hb Ws Ts Bs Bb Rm. pose proof Lg as (W & N & P & _). inversion W as [|? ? Wn _]; subst.
  assert (Pn : cval n <= 9223372036854775807).
  { pose proof (posprod_head_le (cval n) []). cbn [vals map] in P. lia. }
  destruct (backward_wide n b s bz) as (co & ck & Eco & Vco & Wco & Eck & Vck & Wck); try assumption; try lia.
  { rewrite Ts. unfold in_ty. cbn. lia. }
  destruct (large_index false [n] [co] Lg ltac:(discriminate)) as (x & Ex & Vx & _); [|discriminate|].
  { split; [constructor; [exact Wco|constructor]|]. cbn [vals map]. apply in_box_cons; [rewrite Vco; lia|apply in_box_nil]. }
  assert (Er : restride1 (int 1) (SSlice b (Some s) None None) = Ok s).
  { cbn [restride1]. unfold cmul. rewrite arith_exact; rewrite ?Ts; cbn [cty cval int]; [change (CInt.common I64 I32) with I64; rewrite ?Z.mul_1_r, <- Ts; destruct s; reflexivity|exact Ws|apply wf1| |].
    - left. cbn. rewrite Ts. reflexivity.
    - rewrite Z.mul_1_r. unfold wfc in Ws. rewrite Ts in Ws. exact Ws. }
  exists (Cn K1S [ck] [s] (padd data (cast I64 (cval x)))). split; [|split].
  - unfold slice_container. cbn [forallb is_index andb c_shape c_kind c_data get_stride bind length].
    unfold origin, slice_shape, compress. cbn [length Nat.ltb Nat.leb Nat.eqb andb bind existsb const_index orb].
    cbn [mapM2]. rewrite Eco. cbn [bind]. rewrite Ex. cbn [bind]. rewrite Eck. cbn [bind].
    unfold slice_stride, compress_stride. cbn [length Nat.sub skipn mapM2]. rewrite Er. cbn [bind].
    unfold make_view, make_accessor. cbn [andb]. reflexivity.
  - cbn [dims c_shape vals map]. rewrite Vck. reflexivity.
  - intros j Wj Bj. pose proof (ceil_div_spec (bz + 1) (- cval s) ltac:(lia)) as C.
    assert (Lj : cval j * - cval s <= bz) by nia.
    destruct (access_back j s bz) as (i & Ei & Vi); try assumption; try lia.
    split; [apply in_box_cons; [nia|apply in_box_nil]|].
    unfold address. cbn [index c_kind c_stride c_data]. rewrite Ei, bind_ok, Vi.
    assert (Xx : cast I64 (cval x) = bz).
    { assert (Q : cval x = bz) by (rewrite Vx; unfold rank; cbn [vals map rank_from]; lia).
      rewrite Q. apply cast_id. unfold in_ty; cbn; lia. }
    rewrite Xx. unfold padd. destruct data; cbn; do 2 f_equal; lia.
Qed.
