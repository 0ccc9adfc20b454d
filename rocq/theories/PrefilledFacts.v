(** Lemmas on mixed compile-time / run-time extents. *)
From Coq Require Import ZArith String List Bool Lia Permutation.
From Verif Require Import Outcome CInt CIntFacts Spec SpecFacts ShapeSpec Shape ShapeFacts ShapeFacts2
  Prefilled PrefilledSpec.
Import ListNotations.
Open Scope Z_scope.

Lemma axis_id_eqb_spec a b : axis_id_eqb a b = true <-> a = b.
Proof.
  destruct a as [x|s], b as [y|t]; simpl.
  - rewrite Z.eqb_eq. split; [intros ->; reflexivity|intros [= ->]; reflexivity].
  - split; discriminate.
  - split; discriminate.
  - rewrite String.eqb_eq. split; [intros ->; reflexivity|intros [= ->]; reflexivity].
Qed.

Lemma axis_id_eqb_refl a : axis_id_eqb a a = true.
Proof. apply axis_id_eqb_spec; reflexivity. Qed.

Lemma axis_id_eq_dec (a b : axis_id) : {a = b} + {a <> b}.
Proof.
  destruct (axis_id_eqb a b) eqn:E.
  - left. apply axis_id_eqb_spec, E.
  - right. intros H. apply axis_id_eqb_spec in H. congruence.
Qed.

(** ** map_descriptor *)
Fixpoint index_from (k : Z) (ds : list desc) : list Z :=
  match ds with
  | [] => []
  | d :: ds' => if is_dynamic d then k :: index_from (k + 1) ds' else -1 :: index_from k ds'
  end.
Fixpoint stored_from (i : nat) (ds : list desc) : list nat :=
  match ds with
  | [] => []
  | d :: ds' => if is_dynamic d then i :: stored_from (S i) ds' else stored_from (S i) ds'
  end.

Lemma is_dynamic_static d : is_dynamic d = false <-> exists c, acont d = CStatic c.
Proof.
  unfold is_dynamic. destruct (acont d) as [|t|c]; split; intros H; try discriminate; eauto;
  destruct H; discriminate.
Qed.

Lemma is_dynamic_runtime d : is_dynamic d = true <-> runtime d.
Proof.
  unfold is_dynamic, runtime. destruct (acont d) as [|t|c]; split; intros H; try reflexivity;
  try discriminate; try (intros c' H'; discriminate). exfalso. apply (H c). reflexivity.
Qed.

Lemma map_fold ds : forall m,
  fold_left map_step ds m =
  {| count := count m + Z.of_nat (nb_runtime ds); curr := curr m + Z.of_nat (nb_runtime ds);
     index := index m ++ index_from (curr m) ds;
     stored := stored m ++ stored_from (length (index m)) ds |}.
Proof.
  induction ds as [|d ds IH]; intros m; simpl.
  - rewrite !app_nil_r, !Z.add_0_r. destruct m; reflexivity.
  - rewrite IH. unfold map_step, is_dynamic.
    destruct (acont d) as [|t|c]; cbn [count curr index stored]; rewrite <- ?app_assoc, ?app_length;
    cbn [app length]; rewrite ?Nat.add_1_r; f_equal; lia.
Qed.

Lemma map_descriptor_eq ds :
  map_descriptor ds = {| count := Z.of_nat (nb_runtime ds); curr := Z.of_nat (nb_runtime ds);
                         index := index_from 0 ds; stored := stored_from 0 ds |}.
Proof. unfold map_descriptor. rewrite map_fold. reflexivity. Qed.

Lemma index_from_length ds : forall k, length (index_from k ds) = length ds.
Proof. induction ds as [|d ds IH]; intros k; simpl; [reflexivity|]. destruct (is_dynamic d); simpl; rewrite IH; reflexivity. Qed.

Lemma stored_from_length ds : forall i, length (stored_from i ds) = nb_runtime ds.
Proof.
  induction ds as [|d ds IH]; intros i; simpl; [reflexivity|].
  unfold is_dynamic. destruct (acont d); simpl; rewrite IH; reflexivity.
Qed.

Lemma runtime_types_length ds : length (runtime_types ds) = nb_runtime ds.
Proof. induction ds as [|d ds IH]; simpl; [reflexivity|]. destruct (acont d); simpl; rewrite IH; reflexivity. Qed.

Lemma nb_runtime_le ds : (nb_runtime ds <= length ds)%nat.
Proof. induction ds as [|d ds IH]; simpl; [lia|]. destruct (acont d); simpl; lia. Qed.

(** ** Reading *)
Lemma interleave_length ds : forall st, length st = nb_runtime ds -> length (interleave ds st) = length ds.
Proof.
  induction ds as [|d ds IH]; intros st Hl; simpl in *; [reflexivity|].
  destruct (acont d); [destruct st; [discriminate|]..|]; simpl; rewrite IH; simpl in *; lia.
Qed.

(** Index [k + j] of the whole storage is index [j] of the remaining storage. *)
Lemma nth_interleave ds : forall k n i d,
  nth_error (index_from (Z.of_nat k) ds) n = Some i -> nth_error ds n = Some d ->
  (i = -1 /\ (exists c, acont d = CStatic c) \/
   i >= Z.of_nat k /\ i < Z.of_nat k + Z.of_nat (nb_runtime ds) /\ runtime d) /\
  forall st, length st = nb_runtime ds ->
    nth_error (interleave ds st) n =
    if i =? -1 then match acont d with CStatic c => Some c | _ => None end
    else nth_error st (Z.to_nat i - k).
Proof.
  induction ds as [|e ds IH]; intros k n i d Hi Hd; [destruct n; discriminate|].
  destruct n as [|n].
  - cbn [index_from nth_error] in *. injection Hd as ->.
    unfold is_dynamic in Hi. destruct (acont d) as [|t|c] eqn:E; cbn [nth_error] in Hi; injection Hi as <-.
    + split.
      * right. cbn [nb_runtime]. rewrite E. split; [lia|split; [lia|]]. intros c; congruence.
      * intros st Hl. cbn [interleave nb_runtime] in *. rewrite E in *.
        destruct st as [|v st]; [discriminate|].
        destruct (Z.eqb_spec (Z.of_nat k) (-1)); [lia|].
        replace (Z.to_nat (Z.of_nat k) - k)%nat with O by lia. reflexivity.
    + split.
      * right. cbn [nb_runtime]. rewrite E. split; [lia|split; [lia|]]. intros c; congruence.
      * intros st Hl. cbn [interleave nb_runtime] in *. rewrite E in *.
        destruct st as [|v st]; [discriminate|].
        destruct (Z.eqb_spec (Z.of_nat k) (-1)); [lia|].
        replace (Z.to_nat (Z.of_nat k) - k)%nat with O by lia. reflexivity.
    + split; [left; eauto|]. intros st Hl. cbn [interleave]. rewrite E. reflexivity.
  - cbn [index_from nth_error] in *. unfold is_dynamic in Hi.
    assert (Hcase : (exists c, acont e = CStatic c) \/ runtime e).
    { unfold runtime. destruct (acont e) eqn:E; [right|right|left]; eauto; intros; discriminate. }
    destruct Hcase as [[c Hc]|Hr].
    + rewrite Hc in Hi. cbn [nth_error] in Hi. destruct (IH k n i d Hi Hd) as [H1 H2].
      cbn [nb_runtime interleave]. rewrite Hc. split; [exact H1|]. intros st Hl. cbn [nth_error]. auto.
    + assert (Hi' : nth_error (index_from (Z.of_nat (S k)) ds) n = Some i).
      { replace (Z.of_nat (S k)) with (Z.of_nat k + 1) by lia.
        revert Hi. destruct (acont e) as [| |c] eqn:E; intros Hi; [exact Hi|exact Hi|exfalso; apply (Hr _ E)]. }
      destruct (IH (S k) n i d Hi' Hd) as [H1 H2].
      assert (Hn : nb_runtime (e :: ds) = S (nb_runtime ds)).
      { cbn [nb_runtime]. destruct (acont e) eqn:E; [reflexivity..|exfalso; apply (Hr _ E)]. }
      rewrite Hn. split.
      * destruct H1 as [H1|(H3 & H4 & H5)]; [left; exact H1|right]. split; [lia|split; [lia|exact H5]].
      * intros st Hl. destruct st as [|v st]; [discriminate|]. injection Hl as Hl.
        assert (HI : interleave (e :: ds) (v :: st) = v :: interleave ds st).
        { cbn [interleave]. destruct (acont e) eqn:E; [reflexivity..|exfalso; apply (Hr _ E)]. }
        rewrite HI. cbn [nth_error]. rewrite H2 by exact Hl.
        destruct (Z.eqb_spec i (-1)); [reflexivity|].
        destruct H1 as [[H1 _]|(H3 & H4 & H5)]; [lia|].
        replace (Z.to_nat i - k)%nat with (S (Z.to_nat i - S k)) by lia. reflexivity.
Qed.

Lemma wfp_length p : wfp p -> length (pstore p) = nb_runtime (pdesc p).
Proof. intros [H _]. rewrite <- runtime_types_length, <- H, map_length. reflexivity. Qed.

Definition values (p : prefilled) : list cint := interleave (pdesc p) (pstore p).

Lemma values_length p : wfp p -> length (values p) = length (pdesc p).
Proof. intros H. apply interleave_length, wfp_length, H. Qed.

Lemma nth_index ds n d : nth_error ds n = Some d -> exists i, nth_error (index_from 0 ds) n = Some i.
Proof.
  intros H. destruct (nth_error (index_from 0 ds) n) eqn:E; [eauto|].
  apply nth_error_None in E. rewrite index_from_length in E.
  apply nth_error_None in E. congruence.
Qed.

Lemma pget_ok p n : wfp p ->
  pget p n = match nth_error (values p) n with Some v => Ok v | None => UB end.
Proof.
  intros H. unfold pget. rewrite map_descriptor_eq. cbn [index].
  destruct (nth_error (pdesc p) n) as [d|] eqn:Ed.
  - destruct (nth_index _ _ _ Ed) as (i & Ei). rewrite Ei.
    destruct (nth_interleave (pdesc p) 0 n i d Ei Ed) as [H1 H2].
    unfold values. rewrite (H2 _ (wfp_length p H)). rewrite Nat.sub_0_r.
    destruct (i =? -1); [|reflexivity]. destruct (acont d); reflexivity.
  - apply nth_error_None in Ed. rewrite <- (values_length p H) in Ed.
    apply nth_error_None in Ed. rewrite Ed. reflexivity.
Qed.

Lemma mapM_seq_nth {A} (f : nat -> outcome A) (l : list A) : forall k n,
  (forall j, (j < n)%nat -> exists v, nth_error l j = Some v /\ f (k + j)%nat = Ok v) -> length l = n ->
  mapM f (seq k n) = Ok l.
Proof.
  induction l as [|x l IH]; intros k n H Hl; subst n; [reflexivity|].
  cbn [length seq mapM].
  destruct (H O ltac:(simpl; lia)) as (v & Hv & Hf). injection Hv as <-.
  rewrite Nat.add_0_r in Hf. rewrite Hf. cbn [bind].
  rewrite (IH (S k) (length l)); [reflexivity| |reflexivity].
  intros j Hj. destruct (H (S j) ltac:(simpl; lia)) as (v & Hv & Hf'). exists v.
  split; [exact Hv|]. rewrite <- Hf'. f_equal. lia.
Qed.

Lemma to_values_ok p : wfp p -> to_values p = Ok (values p).
Proof.
  intros H. unfold to_values. apply mapM_seq_nth; [|apply values_length, H].
  intros j Hj. rewrite pget_ok by exact H. cbn [Nat.add].
  destruct (nth_error (values p) j) as [v|] eqn:E; [eauto|].
  apply nth_error_None in E. rewrite values_length in E by exact H. lia.
Qed.

Lemma pcontains_ok ds n d : nth_error ds n = Some d -> pcontains ds n = Ok (is_dynamic d).
Proof.
  intros Hd. unfold pcontains. rewrite map_descriptor_eq. cbn [index].
  destruct (nth_index _ _ _ Hd) as (i & Ei). rewrite Ei.
  destruct (nth_interleave ds 0 n i d Ei Hd) as [[[-> H]|(H1 & H2 & H3)] _].
  - apply is_dynamic_static in H. rewrite H. reflexivity.
  - apply is_dynamic_runtime in H3. rewrite H3. destruct (Z.eqb_spec i (-1)); [lia|reflexivity].
Qed.

(** ** Writing *)
Lemma replace_nth_length {A} n (x : A) l : length (replace_nth n x l) = length l.
Proof. revert n; induction l as [|y l IH]; intros [|n]; simpl; congruence. Qed.

Lemma replace_nth_same {A} n (x : A) l : (n < length l)%nat -> nth_error (replace_nth n x l) n = Some x.
Proof. revert n; induction l as [|y l IH]; intros [|n] H; simpl in *; try lia; [reflexivity|apply IH; lia]. Qed.

Lemma replace_nth_other {A} n m (x : A) l : n <> m -> nth_error (replace_nth n x l) m = nth_error l m.
Proof.
  revert n m; induction l as [|y l IH]; intros [|n] [|m] H; simpl; try reflexivity; try congruence.
  apply IH. congruence.
Qed.

Lemma interleave_replace ds : forall st n k j d v, length st = nb_runtime ds ->
  nth_error (index_from (Z.of_nat k) ds) n = Some j -> nth_error ds n = Some d -> runtime d ->
  interleave ds (replace_nth (Z.to_nat j - k) v st) = replace_nth n v (interleave ds st) /\
  nth_error (runtime_types ds) (Z.to_nat j - k) = Some (axis_type d).
Proof.
  induction ds as [|e ds IH]; intros st n k j d v Hl Hj Hd Hr; [destruct n; discriminate|].
  destruct (nth_interleave _ _ _ _ _ Hj Hd) as [[[_ [c Hc]]|(B1 & B2 & _)] _];
    [exfalso; apply (Hr _ Hc)|].
  destruct n as [|n].
  - cbn [nth_error] in Hd. injection Hd as ->.
    assert (Dd : is_dynamic d = true) by (apply is_dynamic_runtime; exact Hr).
    cbn [index_from] in Hj. rewrite Dd in Hj. cbn [nth_error] in Hj. injection Hj as <-.
    replace (Z.to_nat (Z.of_nat k) - k)%nat with O by lia.
    cbn [nb_runtime interleave runtime_types] in *.
    destruct (acont d) as [|t|c] eqn:E; [| |exfalso; apply (Hr _ E)];
    (destruct st as [|w st]; [discriminate|]; split; reflexivity).
  - cbn [nth_error] in Hd. cbn [index_from] in Hj.
    assert (Hcase : (exists c, acont e = CStatic c) \/ runtime e).
    { unfold runtime. destruct (acont e) eqn:E; [right|right|left]; eauto; intros; discriminate. }
    destruct Hcase as [[c Hc]|He].
    + assert (De : is_dynamic e = false) by (apply is_dynamic_static; eauto).
      rewrite De in Hj. cbn [nth_error] in Hj. cbn [nb_runtime interleave runtime_types] in *.
      rewrite Hc in *. destruct (IH st n k j d v Hl Hj Hd Hr) as [E1 E2].
      rewrite E1. split; [reflexivity|exact E2].
    + assert (De : is_dynamic e = true) by (apply is_dynamic_runtime; exact He).
      rewrite De in Hj. cbn [nth_error] in Hj.
      replace (Z.of_nat k + 1) with (Z.of_nat (S k)) in Hj by lia.
      destruct (nth_interleave _ _ _ _ _ Hj Hd) as [[[_ [c Hc]]|(B3 & B4 & _)] _];
        [exfalso; apply (Hr _ Hc)|].
      replace (Z.to_nat j - k)%nat with (S (Z.to_nat j - S k)) by lia.
      cbn [nb_runtime interleave runtime_types] in *.
      destruct (acont e) as [|t|c] eqn:E; [| |exfalso; apply (He _ E)];
      (destruct st as [|w st]; [discriminate|]; injection Hl as Hl;
       destruct (IH st n (S k) j d v Hl Hj Hd Hr) as [E1 E2]; cbn [replace_nth nth_error];
       rewrite E1; split; [reflexivity|exact E2]).
Qed.

Lemma map_cty_replace l : forall j v old, nth_error l j = Some old -> cty v = cty old ->
  map cty (replace_nth j v l) = map cty l.
Proof.
  induction l as [|x l IH]; intros [|j] v old Hn Ht; simpl in *; try discriminate.
  - injection Hn as ->. rewrite Ht. reflexivity.
  - rewrite (IH j v old); auto.
Qed.

Lemma Forall_replace {A} (P : A -> Prop) l : forall j v, Forall P l -> P v -> Forall P (replace_nth j v l).
Proof.
  induction l as [|x l IH]; intros [|j] v Hl Hv; simpl; try assumption; inversion Hl; subst;
  constructor; auto.
Qed.

Lemma pset_ok p n d v : wfp p -> nth_error (pdesc p) n = Some d -> runtime d ->
  exists p', pset p n v = Ok p' /\ pdesc p' = pdesc p /\ wfp p' /\
             values p' = replace_nth n (conv (axis_type d) v) (values p).
Proof.
  intros Hw Hd Hr. unfold pset. rewrite map_descriptor_eq. cbn [index].
  destruct (nth_index _ _ _ Hd) as (i & Ei). rewrite Ei.
  destruct (nth_interleave (pdesc p) 0 n i d Ei Hd) as [[[_ [c Hc]]|(H1 & H2 & H3)] H4];
    [exfalso; apply (Hr _ Hc)|].
  destruct (Z.eqb_spec i (-1)) as [|Hi]; [lia|].
  pose proof (wfp_length p Hw) as Hlen.
  destruct (nth_error (pstore p) (Z.to_nat i)) as [old|] eqn:Eo.
  2:{ apply nth_error_None in Eo. lia. }
  destruct (interleave_replace (pdesc p) (pstore p) n 0 i d (conv (cty old) v) Hlen Ei Hd Hr) as [E1 E2].
  rewrite Nat.sub_0_r in *.
  assert (Ht : cty old = axis_type d).
  { destruct Hw as [Hw _]. rewrite <- Hw in E2. rewrite nth_error_map, Eo in E2. injection E2 as E2. exact E2. }
  eexists. split; [reflexivity|]. cbn [pdesc]. split; [reflexivity|]. split.
  - destruct Hw as [Hw1 Hw2]. split; cbn [pdesc pstore].
    + rewrite (map_cty_replace _ _ _ old Eo) by reflexivity. exact Hw1.
    + apply Forall_replace; [exact Hw2|apply conv_wf].
  - unfold values. cbn [pdesc pstore]. rewrite E1, Ht. reflexivity.
Qed.

(** ** Default construction *)
Lemma storage_map ds : forall pre,
  map (fun q => match nth_error (pre ++ ds) q with
                | Some d => CI (stored_t (acont d)) 0
                | None => CI I32 0
                end) (stored_from (length pre) ds)
  = map (fun t => CI t 0) (runtime_types ds).
Proof.
  induction ds as [|d ds IH]; intros pre; [reflexivity|].
  assert (Hnext : stored_from (S (length pre)) ds = stored_from (length (pre ++ [d])) ds).
  { rewrite app_length, Nat.add_1_r. reflexivity. }
  specialize (IH (pre ++ [d])). rewrite <- app_assoc in IH. cbn [app] in IH.
  cbn [stored_from runtime_types]. unfold is_dynamic, axis_type.
  destruct (acont d) as [|t|c] eqn:E; cbn [map]; rewrite Hnext, IH; [f_equal..|reflexivity];
  rewrite nth_error_app2 by lia; rewrite Nat.sub_diag; cbn [nth_error]; rewrite E; reflexivity.
Qed.

Lemma make_storage_eq ds : make_storage ds = map (fun t => CI t 0) (runtime_types ds).
Proof. unfold make_storage. rewrite map_descriptor_eq. apply (storage_map ds []). Qed.

Lemma pdefault_wfp ds : wfp (pdefault ds).
Proof.
  unfold wfp, pdefault. cbn [pdesc pstore]. rewrite make_storage_eq. split.
  - rewrite map_map. cbn [cty]. apply map_id.
  - apply Forall_map, Forall_forall. intros t _. unfold wfc, in_ty. destruct t; simpl; lia.
Qed.

Definition default_value (d : desc) : cint :=
  match acont d with CStatic c => c | _ => CI (axis_type d) 0 end.

Lemma pdefault_values ds : values (pdefault ds) = map default_value ds.
Proof.
  unfold values, pdefault. cbn [pdesc pstore]. rewrite make_storage_eq.
  induction ds as [|d ds IH]; [reflexivity|]. cbn [runtime_types interleave map].
  unfold default_value at 1. destruct (acont d) eqn:E; cbn [map]; rewrite IH; reflexivity.
Qed.

Lemma values_inj p q : wfp p -> wfp q -> pdesc p = pdesc q -> values p = values q -> p = q.
Proof.
  intros Hp Hq Hd Hv. destruct p as [dp sp], q as [dq sq]. cbn [pdesc] in Hd. subst dq.
  pose proof (wfp_length _ Hp) as Lp. pose proof (wfp_length _ Hq) as Lq.
  unfold values in Hv. cbn [pdesc pstore] in *. f_equal.
  clear Hp Hq. revert sp sq Lp Lq Hv.
  induction dp as [|d ds IH]; intros sp sq Lp Lq Hv; cbn [nb_runtime interleave] in *.
  - destruct sp, sq; try discriminate; reflexivity.
  - destruct (acont d); [destruct sp, sq; try discriminate; injection Hv as -> Hv; f_equal; apply IH; auto..|].
    injection Hv as Hv. apply IH; auto.
Qed.
