From Coq Require Import ZArith List Bool Lia.
From Verif Require Import Outcome CInt CIntFacts Spec SpecFacts ShapeSpec Shape ShapeFacts2 Memory MemFacts Container ContainerSpec
  ForEach ForEachSpec ForEachFacts Algo AlgoSpec AlgoFacts AlgoFacts2 AlgoFacts3 Sums SumsSpec.
Import ListNotations.
Open Scope Z_scope.

(** ** Arithmetic modulo the width *)
Lemma cast_modulus t z : cast t z mod modulus t = z mod modulus t.
Proof.
  unfold cast. cbv zeta. pose proof (modulus_pos t). destruct (Z.leb_spec (z mod modulus t) (tmax t)).
  - apply Z.mod_mod. lia.
  - replace (z mod modulus t - modulus t) with (z mod modulus t + (-1) * modulus t) by ring.
    rewrite Z.mod_add by lia. apply Z.mod_mod. lia.
Qed.
Lemma cast_same t z z' : z mod modulus t = z' mod modulus t -> cast t z = cast t z'.
Proof. intros E. unfold cast. rewrite E. reflexivity. Qed.

Lemma modulus_common t u : exists k, modulus (common t u) = k * modulus t.
Proof.
  destruct t, u; cbn [common promote modulus];
    first [exists 1; reflexivity|exists 256; reflexivity|exists 65536; reflexivity|exists 16777216; reflexivity
          |exists 4294967296; reflexivity|exists 281474976710656; reflexivity|exists 72057594037927936; reflexivity].
Qed.
Lemma mod_divides z z' k m : 0 < m -> 0 < k * m -> z mod (k * m) = z' mod (k * m) -> z mod m = z' mod m.
Proof.
  intros Hm Hk E. pose proof (Z.div_mod z (k * m) ltac:(lia)) as A. pose proof (Z.div_mod z' (k * m) ltac:(lia)) as B.
  rewrite E in A.
  assert (G : z = z' + (k * (z / (k * m) - z' / (k * m))) * m) by lia.
  rewrite G. apply Z.mod_add. lia.
Qed.
Lemma cast_common t u z : cast t (cast (common t u) z) = cast t z.
Proof.
  apply cast_same. destruct (modulus_common t u) as (k & E). pose proof (modulus_pos t). pose proof (modulus_pos (common t u)).
  apply (mod_divides _ _ k); [assumption|lia|]. rewrite <- E. apply cast_modulus.
Qed.
Lemma cast_add_l t x y : cast t (cast t x + y) = cast t (x + y).
Proof.
  apply cast_same. pose proof (modulus_pos t). rewrite Z.add_mod, cast_modulus, <- Z.add_mod by lia. reflexivity.
Qed.
Lemma cast_add_r t x y : cast t (x + cast t y) = cast t (x + y).
Proof. rewrite Z.add_comm, cast_add_l, Z.add_comm. reflexivity. Qed.
Lemma cast_mul t x y : cast t (cast t x * cast t y) = cast t (x * y).
Proof.
  apply cast_same. pose proof (modulus_pos t). rewrite Z.mul_mod, !cast_modulus, <- Z.mul_mod by lia. reflexivity.
Qed.

Lemma common_l_in t u z : in_ty t z -> is_signed (common t u) = true -> in_ty (common t u) z.
Proof. intros H S. apply in_ty_common_l; auto. Qed.
Lemma common_r_in t u z : in_ty u z -> is_signed (common t u) = true -> in_ty (common t u) z.
Proof. intros H S. apply in_ty_common_r; auto. Qed.

Lemma cadd_fits a b : wfc a -> wfc b -> in_ty (common (cty a) (cty b)) (cval a + cval b) ->
  cadd a b = Ok (CI (common (cty a) (cty b)) (cval a + cval b)).
Proof.
  intros Wa Wb H. unfold cadd, arith. cbv zeta. destruct (is_signed (common (cty a) (cty b))) eqn:S.
  - rewrite (cast_id _ (cval a)) by (apply common_l_in; assumption).
    rewrite (cast_id _ (cval b)) by (apply common_r_in; assumption).
    rewrite (proj2 (in_tyb_spec _ _) H). reflexivity.
  - rewrite cast_add_l, cast_add_r, cast_id by exact H. reflexivity.
Qed.
Lemma cmul_fits a b : wfc a -> wfc b -> in_ty (common (cty a) (cty b)) (cval a * cval b) ->
  cmul a b = Ok (CI (common (cty a) (cty b)) (cval a * cval b)).
Proof.
  intros Wa Wb H. unfold cmul, arith. cbv zeta. destruct (is_signed (common (cty a) (cty b))) eqn:S.
  - rewrite (cast_id _ (cval a)) by (apply common_l_in; assumption).
    rewrite (cast_id _ (cval b)) by (apply common_r_in; assumption).
    rewrite (proj2 (in_tyb_spec _ _) H). reflexivity.
  - rewrite cast_mul, cast_id by exact H. reflexivity.
Qed.

(** ** One step of a sum *)
Lemma add_to_wraps a e : is_signed (common (cty a) (cty e)) = false ->
  add_to a e = Ok (CI (cty a) (cast (cty a) (cval a + cval e))).
Proof.
  intros S. unfold add_to, cadd, arith. cbv zeta. rewrite S, bind_ok. unfold conv. cbn [cval].
  rewrite cast_common, <- (cast_common (cty a) (cty e)), cast_add_l, cast_add_r, cast_common. reflexivity.
Qed.
Lemma add_to_fits a e : wfc a -> wfc e -> in_ty (common (cty a) (cty e)) (cval a + cval e) ->
  add_to a e = Ok (CI (cty a) (cast (cty a) (cval a + cval e))).
Proof. intros Wa We H. unfold add_to. rewrite cadd_fits, bind_ok by assumption. reflexivity. Qed.
Lemma add_to_exact a e : wfc a -> wfc e -> in_ty (cty a) (cval a + cval e) ->
  add_to a e = Ok (CI (cty a) (cval a + cval e)).
Proof.
  intros Wa We H. destruct (is_signed (common (cty a) (cty e))) eqn:S.
  - rewrite add_to_fits; [rewrite cast_id by exact H; reflexivity|assumption|assumption|]. apply common_l_in; assumption.
  - rewrite add_to_wraps, cast_id by assumption. reflexivity.
Qed.
Lemma add_to_narrow a e : wfc a -> wfc e -> width (cty a) < 32 -> width (cty e) < 32 ->
  add_to a e = Ok (CI (cty a) (cast (cty a) (cval a + cval e))).
Proof.
  intros Wa We Na Ne. apply add_to_fits; try assumption. unfold wfc, in_ty in *.
  destruct a as [ta a], e as [te e]. cbn [cty cval] in *.
  destruct ta, te; cbn [width tmin tmax common promote] in *; lia.
Qed.
Lemma add_to_overflow a e : wfc a -> wfc e -> common (cty a) (cty e) = cty a -> is_signed (cty a) = true ->
  ~ in_ty (cty a) (cval a + cval e) -> add_to a e = UB.
Proof.
  intros Wa We C S H. unfold add_to, cadd, arith. cbv zeta.
  rewrite (cast_id _ (cval a)) by (apply common_l_in; [exact Wa|rewrite C; exact S]).
  rewrite (cast_id _ (cval e)) by (apply common_r_in; [exact We|rewrite C; exact S]).
  rewrite C, S. destruct (in_tyb (cty a) (cval a + cval e)) eqn:E; [|reflexivity].
  apply in_tyb_spec in E. contradiction.
Qed.

(** ** Loops whose callable may be undefined *)
Fixpoint foldo {A T} (f : A -> T -> outcome A) (vs : list T) (a : A) : outcome A :=
  match vs with [] => Ok a | v :: vs' => b <- f a v ;; foldo f vs' b end.

Lemma foldo_app {A T} (f : A -> T -> outcome A) u : forall w a, foldo f (u ++ w) a = (b <- foldo f u a ;; foldo f w b).
Proof.
  induction u as [|v u IH]; intros w a; cbn [app foldo]; [rewrite bind_ok; reflexivity|].
  rewrite bind_assoc. destruct (f a v); try reflexivity. cbn [bind]. apply IH.
Qed.

Lemma loop_run {T S} (body : list ptr -> S * mem T -> outcome (S * mem T)) c0 cs (m0 : mem T) s0 :
  live m0 c0 c0 -> Forall (live m0 c0) cs ->
  (forall ps sm sm', body ps sm = Ok sm' -> same_cells (snd sm) (snd sm')) ->
  map_containers body c0 cs (s0, m0) =
  run (fun is_ sm => body (map (fun c => elem c is_) (c0 :: cs)) sm) (box (dims c0)) (s0, m0).
Proof.
  intros L0 Ls Sm. destruct (live_wf m0 c0 L0) as [W N].
  unfold map_containers. rewrite for_each_run by assumption. unfold dims. rewrite <- tbox_vals.
  assert (G : forall l sm, (forall t, In t l -> exists pre post, tbox (c_shape c0) = pre ++ t :: post) -> same_cells m0 (snd sm) ->
    run (fun is_ sm => ps <- mapM (fun c => ref (snd sm) c is_) (c0 :: cs) ;; body ps sm) l sm =
    run (fun is_ sm => body (map (fun c => elem c is_) (c0 :: cs)) sm) (map vals l) sm).
  { induction l as [|t l IH]; intros sm Hl S0; [reflexivity|]. cbn [map run].
    destruct (Hl t (or_introl eq_refl)) as (pre & post & E).
    destruct (tbox_at _ _ _ _ W E) as (Wc & Bc & Ty & _).
    rewrite (mapM_refs m0 (snd sm) c0 (c0 :: cs) t); try assumption; [|constructor; assumption]. rewrite bind_ok.
    destruct (body _ sm) as [sm'| | |] eqn:Eb; try reflexivity. rewrite !bind_ok. apply IH.
    - intros t' I. apply Hl. right. exact I.
    - intros p. etransitivity; [apply S0|]. apply (Sm _ _ _ Eb). }
  apply G; [|apply same_refl]. intros t I. apply in_split in I. exact I.
Qed.

Lemma reduce_by_l {T A} c (f : A -> T -> outcome A) init m vs : can_read m c c -> values m c c vs ->
  reduce_by c f init m = (a <- foldo f vs init ;; Ok (a, m)).
Proof.
  intros CR V. unfold reduce_by. rewrite loop_run; [|apply can_read_live; exact CR|constructor|].
  - unfold values in V. revert init. induction V as [|is_ v l vs Hv _ IH]; intros a; [reflexivity|].
    cbn [run map foldo fst snd]. rewrite (load_peek _ _ _ Hv), bind_ok. destruct (f a v) as [b| | |]; try reflexivity.
    rewrite !bind_ok. apply IH.
  - intros ps [s mm] sm'. destruct ps as [|p [|? ?]]; try discriminate. cbn [fst snd].
    destruct (load mm p) as [v| | |]; try discriminate. rewrite bind_ok. destruct (f s v); try discriminate. rewrite bind_ok.
    intros E. injection E as <-. apply same_refl.
Qed.

Lemma dot_from_l c1 c2 init m vs1 vs2 : can_read m c1 c1 -> can_read m c1 c2 -> values m c1 c1 vs1 -> values m c1 c2 vs2 ->
  dot_from c1 c2 init m =
  (a <- foldo (fun a p => q <- cmul (fst p) (snd p) ;; add_to a q) (combine vs1 vs2) init ;; Ok (a, m)).
Proof.
  intros CR1 CR2 V1 V2. unfold dot_from. rewrite loop_run; [|apply can_read_live; exact CR1| |].
  - unfold values in *. revert vs2 V2 init. induction V1 as [|is_ v1 l vs1 H1 _ IH]; intros vs2 V2 a.
    + reflexivity.
    + inversion V2 as [|? v2 ? vs2' H2 V2']; subst. cbn [run map combine foldo fst snd].
      rewrite (load_peek _ _ _ H1), bind_ok, (load_peek _ _ _ H2), bind_ok.
      destruct (cmul v1 v2) as [q| | |]; try reflexivity. rewrite !bind_ok.
      destruct (add_to a q) as [b| | |]; try reflexivity. rewrite !bind_ok. apply IH. exact V2'.
  - constructor; [apply can_read_live; exact CR2|constructor].
  - intros ps [s mm] sm'. destruct ps as [|p [|q [|? ?]]]; try discriminate. cbn [fst snd].
    destruct (load mm p) as [v| | |]; try discriminate. rewrite bind_ok. destruct (load mm q) as [w| | |]; try discriminate.
    rewrite bind_ok. destruct (cmul v w) as [x| | |]; try discriminate. rewrite bind_ok.
    destruct (add_to s x); try discriminate. rewrite bind_ok.
    intros E. injection E as <-. apply same_refl.
Qed.

(** ** Sums *)
Lemma partial_cons t z v zs : partial_sums_in t z (v :: zs) -> in_ty t (z + v) /\ partial_sums_in t (z + v) zs.
Proof.
  intros H. split.
  - specialize (H 1%nat). cbn [firstn total length] in H. rewrite Z.add_0_r in H. apply H. lia.
  - intros k Hk. specialize (H (S k)). cbn [firstn total length] in H. rewrite Z.add_assoc in H. apply H. lia.
Qed.
Lemma partial_dec t zs : forall z, in_ty t z -> ~ partial_sums_in t z zs ->
  exists k v, nth_error zs k = Some v /\ partial_sums_in t z (firstn k zs) /\ ~ in_ty t (z + total (firstn k zs) + v).
Proof.
  induction zs as [|v zs IH]; intros z Hz H.
  - exfalso. apply H. intros k Hk. cbn [length] in Hk. replace k with 0%nat by lia. cbn. rewrite Z.add_0_r. exact Hz.
  - destruct (in_tyb t (z + v)) eqn:E.
    + apply in_tyb_spec in E. destruct (IH (z + v) E) as (k & w & Ek & Pk & Nk).
      * intros G. apply H. intros [|k] Hk; [cbn; rewrite Z.add_0_r; exact Hz|]. cbn [firstn total]. rewrite Z.add_assoc.
        apply G. cbn [length] in Hk. lia.
      * exists (S k), w. split; [exact Ek|]. split.
        -- intros [|j] Hj; [cbn; rewrite Z.add_0_r; exact Hz|]. cbn [firstn total]. rewrite Z.add_assoc. apply Pk.
           cbn [firstn length] in Hj. lia.
        -- cbn [firstn total]. rewrite Z.add_assoc. exact Nk.
    + exists 0%nat, v. split; [reflexivity|]. split.
      * intros k Hk. cbn [firstn length] in Hk. replace k with 0%nat by lia. cbn. rewrite Z.add_0_r. exact Hz.
      * cbn [firstn total]. rewrite Z.add_0_r. intros G. apply in_tyb_spec in G. congruence.
Qed.

Lemma fold_exact t vs : Forall wfc vs -> forall z, in_ty t z -> partial_sums_in t z (map cval vs) ->
  foldo add_to vs (CI t z) = Ok (CI t (z + total (map cval vs))).
Proof.
  induction 1 as [|v vs Wv _ IH]; intros z Hz P; cbn [foldo map total] in *; [rewrite Z.add_0_r; reflexivity|].
  destruct (partial_cons _ _ _ _ P) as (P1 & P2).
  rewrite (add_to_exact (CI t z) v) by assumption. rewrite bind_ok. cbn [cty cval].
  rewrite IH by assumption. rewrite Z.add_assoc. reflexivity.
Qed.

Lemma fold_step_wraps t vs : forall z,
  Forall (fun v => forall z, in_ty t z -> add_to (CI t z) v = Ok (CI t (cast t (z + cval v)))) vs ->
  in_ty t z -> foldo add_to vs (CI t z) = Ok (CI t (cast t (z + total (map cval vs)))).
Proof.
  induction vs as [|v vs IH]; intros z F Hz; cbn [foldo map total].
  - rewrite Z.add_0_r, cast_id by exact Hz. reflexivity.
  - inversion F as [|? ? Hv F']; subst. rewrite (Hv z Hz), bind_ok, (IH _ F') by apply cast_range.
    rewrite cast_add_l, Z.add_assoc. reflexivity.
Qed.

Lemma typed_wf t vs : typed t vs -> Forall wfc vs.
Proof. apply Forall_impl. tauto. Qed.

Lemma fold_overflow t e vs : typed e vs -> common t e = t -> is_signed t = true -> forall z, in_ty t z ->
  ~ partial_sums_in t z (map cval vs) -> foldo add_to vs (CI t z) = UB.
Proof.
  intros Ty C S. induction Ty as [|v vs (Tv & Wv) _ IH]; intros z Hz N; cbn [foldo map] in *.
  - exfalso. apply N. intros k Hk. cbn in Hk. replace k with 0%nat by lia. cbn. rewrite Z.add_0_r. exact Hz.
  - destruct (in_tyb t (z + cval v)) eqn:E.
    + apply in_tyb_spec in E. rewrite (add_to_exact (CI t z) v) by assumption. rewrite bind_ok. cbn [cty cval].
      apply IH; [exact E|]. intros G. apply N. intros [|k] Hk; [cbn; rewrite Z.add_0_r; exact Hz|].
      cbn [firstn total]. rewrite Z.add_assoc. apply G. cbn [length] in Hk. lia.
    + rewrite add_to_overflow; [reflexivity|exact Hz|exact Wv|rewrite Tv; exact C|exact S|].
      intros G. apply in_tyb_spec in G. cbn [cty cval] in G. congruence.
Qed.

Lemma sum_exact_l c t z m vs : can_read m c c -> values m c c vs -> Forall wfc vs -> in_ty t z ->
  partial_sums_in t z (map cval vs) -> sum_from c (CI t z) m = Ok (CI t (z + total (map cval vs)), m).
Proof. intros CR V W Hz P. unfold sum_from. rewrite (reduce_by_l _ _ _ _ _ CR V), fold_exact by assumption. reflexivity. Qed.

Lemma sum_wraps_l c t e z m vs : can_read m c c -> values m c c vs -> typed e vs -> in_ty t z ->
  is_signed (common t e) = false \/ width t < 32 /\ width e < 32 ->
  sum_from c (CI t z) m = Ok (CI t (cast t (z + total (map cval vs))), m).
Proof.
  intros CR V Ty Hz H. unfold sum_from. rewrite (reduce_by_l _ _ _ _ _ CR V), fold_step_wraps; [reflexivity| |exact Hz].
  eapply Forall_impl; [|exact Ty]. cbn beta. intros v (Tv & Wv) z' Hz'. destruct H as [S|(N1 & N2)].
  - apply (add_to_wraps (CI t z') v). rewrite Tv. exact S.
  - apply (add_to_narrow (CI t z') v); try assumption. rewrite Tv. exact N2.
Qed.

Lemma sum_overflow_l c t e z m vs : can_read m c c -> values m c c vs -> typed e vs -> in_ty t z ->
  common t e = t -> is_signed t = true -> ~ partial_sums_in t z (map cval vs) -> sum_from c (CI t z) m = UB.
Proof.
  intros CR V Ty Hz C S N. unfold sum_from. rewrite (reduce_by_l _ _ _ _ _ CR V), (fold_overflow t e) by assumption. reflexivity.
Qed.

Lemma sum_default_l c e m vs : can_read m c c -> values m c c vs -> typed e vs ->
  (partial_sums_in e 0 (map cval vs) -> sum e c m = Ok (CI e (total (map cval vs)), m)) /\
  (is_signed e = false \/ width e < 32 -> sum e c m = Ok (CI e (cast e (total (map cval vs))), m)) /\
  (is_signed e = true -> 32 <= width e -> ~ partial_sums_in e 0 (map cval vs) -> sum e c m = UB).
Proof.
  intros CR V Ty. assert (Z0 : in_ty e 0) by (destruct e; unfold in_ty; cbn; lia). unfold sum. split; [|split].
  - intros P. apply (sum_exact_l c e 0 m vs); try assumption. eapply typed_wf; exact Ty.
  - intros H. destruct (Z.ltb_spec (width e) 32) as [Hw|Hw].
    + apply (sum_wraps_l c e e 0 m vs); try assumption. right. split; assumption.
    + apply (sum_wraps_l c e e 0 m vs); try assumption. left. destruct H as [H|H]; [|lia].
      destruct e; cbn in *; try discriminate; try lia; reflexivity.
  - intros S Hw N. apply (sum_overflow_l c e e 0 m vs); try assumption. destruct e; cbn in *; try discriminate; try lia; reflexivity.
Qed.

(** ** Products *)
Lemma fold_dot t t1 t2 vs1 : typed t1 vs1 -> forall vs2, typed t2 vs2 -> forall z, in_ty t z ->
  Forall (in_ty (common t1 t2)) (products (map cval vs1) (map cval vs2)) ->
  partial_sums_in t z (products (map cval vs1) (map cval vs2)) ->
  foldo (fun a p => q <- cmul (fst p) (snd p) ;; add_to a q) (combine vs1 vs2) (CI t z) =
  Ok (CI t (z + total (products (map cval vs1) (map cval vs2)))).
Proof.
  unfold products. induction 1 as [|v1 vs1 (T1 & W1) _ IH]; intros vs2 Ty2 z Hz F P; cbn [map combine foldo total] in *;
    [rewrite Z.add_0_r; reflexivity|].
  destruct Ty2 as [|v2 vs2 (T2 & W2) Ty2]; cbn [map combine foldo total fst snd] in *; [rewrite Z.add_0_r; reflexivity|].
  inversion F as [|? ? F1 F']; subst. destruct (partial_cons _ _ _ _ P) as (P1 & P2).
  rewrite cmul_fits, bind_ok by assumption.
  rewrite (add_to_exact (CI t z)); [|exact Hz|exact F1|exact P1]. rewrite bind_ok. cbn [cty cval].
  rewrite (IH vs2 Ty2) by assumption. rewrite Z.add_assoc. reflexivity.
Qed.

Lemma dot_exact_l c1 c2 t t1 t2 z m vs1 vs2 : can_read m c1 c1 -> can_read m c1 c2 -> values m c1 c1 vs1 -> values m c1 c2 vs2 ->
  typed t1 vs1 -> typed t2 vs2 -> in_ty t z ->
  Forall (in_ty (common t1 t2)) (products (map cval vs1) (map cval vs2)) ->
  partial_sums_in t z (products (map cval vs1) (map cval vs2)) ->
  dot_from c1 c2 (CI t z) m = Ok (CI t (z + total (products (map cval vs1) (map cval vs2))), m).
Proof.
  intros CR1 CR2 V1 V2 T1 T2 Hz F P. rewrite (dot_from_l _ _ _ _ _ _ CR1 CR2 V1 V2), (fold_dot t t1 t2) by assumption. reflexivity.
Qed.

Lemma dot_default_l c1 c2 t1 t2 m vs1 vs2 : can_read m c1 c1 -> can_read m c1 c2 -> values m c1 c1 vs1 -> values m c1 c2 vs2 ->
  typed t1 vs1 -> typed t2 vs2 ->
  Forall (in_ty (common t1 t2)) (products (map cval vs1) (map cval vs2)) ->
  partial_sums_in (common t1 t2) 0 (products (map cval vs1) (map cval vs2)) ->
  dot t1 t2 c1 c2 m = Ok (CI (common t1 t2) (total (products (map cval vs1) (map cval vs2))), m).
Proof.
  intros CR1 CR2 V1 V2 T1 T2 F P. unfold dot. replace (dot_type t1 t2) with (common t1 t2) by (destruct t1, t2; reflexivity).
  apply (dot_exact_l c1 c2 (common t1 t2) t1 t2 0 m vs1 vs2); try assumption.
  destruct (common t1 t2); unfold in_ty; cbn; lia.
Qed.

Lemma inner_dot_l dbg c1 c2 init m : legal (c_shape c1) -> legal (c_shape c2) -> c_shape c1 <> [] -> dims c1 = dims c2 ->
  inner_from dbg c1 c2 init m = dot_from c1 c2 init m.
Proof.
  intros L1 L2 Ne Eq. unfold inner_from.
  assert (Hl : length (c_shape c1) = length (c_shape c2)).
  { apply (f_equal (@length Z)) in Eq. unfold dims, vals in Eq. rewrite !map_length in Eq. exact Eq. }
  destruct (shape_eq_same_order _ _ L1 L2 Ne Hl) as (r & E & H).
  assert (r = true) by (apply H; exact Eq). subst r. rewrite E, kassert_ok, bind_ok. reflexivity.
Qed.

Lemma inner_checks_l c1 c2 init m :
  inner_from false c1 c2 init m = dot_from c1 c2 init m /\
  (legal (c_shape c1) -> legal (c_shape c2) -> c_shape c1 <> [] -> length (c_shape c1) = length (c_shape c2) ->
   dims c1 <> dims c2 -> inner_from true c1 c2 init m = Abort).
Proof.
  split; [reflexivity|]. intros L1 L2 Ne Hl Eq. unfold inner_from.
  destruct (shape_eq_same_order _ _ L1 L2 Ne Hl) as (r & E & H). rewrite E.
  destruct r; [exfalso; apply Eq, H; reflexivity|]. reflexivity.
Qed.

(** ** Scans *)
Lemma total_snoc u v : total (u ++ [v]) = total u + v.
Proof. induction u as [|x u IH]; cbn [app total]; [lia|]. rewrite IH. lia. Qed.

Lemma partial_at t z vs k v : partial_sums_in t z (map cval vs) -> nth_error vs k = Some v ->
  in_ty t (z + total (map cval (firstn k vs)) + cval v) /\
  z + total (map cval (firstn k vs)) + cval v = z + total (map cval (firstn (k + 1) vs)).
Proof.
  intros P E. assert (Hk : (k < length vs)%nat) by (apply nth_error_Some; congruence).
  assert (G : z + total (map cval (firstn k vs)) + cval v = z + total (map cval (firstn (k + 1) vs))).
  { rewrite Nat.add_1_r, (firstn_snoc _ _ _ E), map_app. cbn [map]. rewrite total_snoc. lia. }
  split; [|exact G]. rewrite G, <- firstn_map. apply P. rewrite map_length. lia.
Qed.
Lemma partial_in t z vs k : partial_sums_in t z (map cval vs) -> in_ty t (z + total (map cval (firstn k vs))).
Proof.
  intros P. destruct (Nat.le_gt_cases k (length vs)) as [H|H].
  - rewrite <- firstn_map. apply P. rewrite map_length. exact H.
  - rewrite firstn_all2 by lia. specialize (P (length (map cval vs)) (Nat.le_refl _)). rewrite firstn_all in P. exact P.
Qed.

Lemma inclusive_sums_l t ot in_ out z m vs : can_read m in_ in_ -> can_write m in_ out -> no_cross_alias in_ in_ out ->
  values m in_ in_ vs -> Forall wfc vs -> partial_sums_in t z (map cval vs) ->
  exists m', inclusive_sums ot in_ out (CI t z) m = Ok m' /\
    (forall is_, in_box (dims in_) is_ ->
       value m' out is_ (CI ot (cast ot (z + total (map cval (firstn (Z.to_nat (rank (dims in_) is_) + 1) vs)))))) /\
    frame in_ out m m'.
Proof.
  intros CR CW NA V W P. destruct (live_wf m in_ (can_read_live _ _ _ CR)) as [_ Nn].
  pose (acc := fun k => CI t (z + total (map cval (firstn k vs)))).
  pose (val := fun (pre : list (list Z)) (_ : list Z) => Some (conv ot (acc (length pre + 1)%nat))).
  pose proof CW as (_ & _ & D & Vd).
  pose proof (pmem_result out val in_ m Nn D Vd) as (R & F). cbv zeta in R, F.
  exists (pmem out val m (box (dims in_))). unfold inclusive_sums.
  pose (st := fun pre : list (list Z) => (acc (length pre), pmem out val m pre)).
  replace (CI t z, m) with (st []) by (unfold st, acc; cbn [length firstn map total]; rewrite Z.add_0_r; reflexivity).
  rewrite (map_containers_inv _ in_ [out] m st).
  - split; [reflexivity|]. split; [|exact F]. intros is_ Bi.
    destruct (box_split _ _ Bi) as (pre & post & E). specialize (R pre _ post E). unfold val in R at 1.
    rewrite (rank_pre _ _ _ _ Nn E Bi) in R. exact R.
  - apply can_read_live. exact CR.
  - constructor; [apply can_write_live; exact CW|constructor].
  - intros pre. apply pmem_same.
  - intros pre is_ post E. destruct (box_split_notin _ _ _ _ Nn E) as (_ & Bi & _).
    destruct (values_at _ _ _ _ _ _ _ V E) as (v & Ev & Hv).
    assert (Hv' : value (snd (st pre)) in_ is_ v).
    { unfold value, peek, st. cbn [snd]. rewrite (pmem_read in_ in_ out val m pre is_ post); assumption. }
    cbn [map]. rewrite (load_peek _ _ _ Hv'), bind_ok. unfold st. cbn [fst snd].
    destruct (partial_at t z vs (length pre) v P Ev) as (Pv & Gv).
    rewrite add_to_exact; [|apply partial_in; exact P| |exact Pv].
    2:{ rewrite Forall_forall in W. apply W. eapply nth_error_In; exact Ev. }
    unfold acc at 1 2. cbn [cty cval]. rewrite Gv. fold (acc (length pre + 1)%nat).
    rewrite bind_ok, store_valid by (apply pmem_same, Vd, Bi). rewrite bind_ok, pmem_step, app_length.
    cbn [length]. reflexivity.
Qed.

Lemma exclusive_sums_l t ot in_ out z m vs : can_read m in_ in_ -> can_write m in_ out -> no_alias in_ in_ out ->
  values m in_ in_ vs -> Forall wfc vs -> partial_sums_in t z (map cval vs) ->
  exists m', exclusive_sums ot in_ out (CI t z) m = Ok m' /\
    (forall is_, in_box (dims in_) is_ ->
       value m' out is_ (CI ot (cast ot (z + total (map cval (firstn (Z.to_nat (rank (dims in_) is_)) vs)))))) /\
    frame in_ out m m'.
Proof.
  intros CR CW NA V W P. destruct (live_wf m in_ (can_read_live _ _ _ CR)) as [_ Nn].
  pose (acc := fun k => CI t (z + total (map cval (firstn k vs)))).
  pose (val := fun (pre : list (list Z)) (_ : list Z) => Some (conv ot (acc (length pre)))).
  pose proof CW as (_ & _ & D & Vd).
  pose proof (pmem_result out val in_ m Nn D Vd) as (R & F). cbv zeta in R, F.
  exists (pmem out val m (box (dims in_))). unfold exclusive_sums.
  pose (st := fun pre : list (list Z) => (acc (length pre), pmem out val m pre)).
  replace (CI t z, m) with (st []) by (unfold st, acc; cbn [length firstn map total]; rewrite Z.add_0_r; reflexivity).
  rewrite (map_containers_inv _ in_ [out] m st).
  - split; [reflexivity|]. split; [|exact F]. intros is_ Bi.
    destruct (box_split _ _ Bi) as (pre & post & E). specialize (R pre _ post E). unfold val in R at 1.
    rewrite (rank_pre _ _ _ _ Nn E Bi) in R. exact R.
  - apply can_read_live. exact CR.
  - constructor; [apply can_write_live; exact CW|constructor].
  - intros pre. apply pmem_same.
  - intros pre is_ post E. destruct (box_split_notin _ _ _ _ Nn E) as (_ & Bi & _).
    destruct (values_at _ _ _ _ _ _ _ V E) as (v & Ev & Hv).
    cbn [map]. unfold st. cbn [fst snd].
    rewrite store_valid by (apply pmem_same, Vd, Bi). rewrite bind_ok.
    assert (Hv' : value (upd (pmem out val m pre) (elem out is_) (conv ot (acc (length pre)))) in_ is_ v).
    { unfold value. rewrite peek_upd_other by (apply not_eq_sym, NA; assumption). unfold peek.
      rewrite (pmem_read in_ in_ out val m pre is_ post); try assumption. intros a b Ha Hb _. apply NA; assumption. }
    rewrite (load_peek _ _ _ Hv'), bind_ok.
    destruct (partial_at t z vs (length pre) v P Ev) as (Pv & Gv).
    rewrite add_to_exact; [|apply partial_in; exact P| |exact Pv].
    2:{ rewrite Forall_forall in W. apply W. eapply nth_error_In; exact Ev. }
    unfold acc at 1 2. cbn [cty cval]. rewrite Gv. fold (acc (length pre + 1)%nat).
    rewrite bind_ok, pmem_step, app_length. cbn [length]. reflexivity.
Qed.
