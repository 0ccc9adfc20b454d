(** Extents of user types: reduction to the library's own. *)
From Coq Require Import ZArith String List Bool Lia Permutation.
From Verif Require Import Outcome CInt CIntFacts ShapeSpec Shape Prefilled PrefilledSpec PrefilledFacts PrefilledFacts2 PrefilledFacts3
  NamedSize NamedSizeSpec Extension ExtensionSpec.
Import ListNotations.
Open Scope Z_scope.

Definition wf_desc (d : desc) : Prop := match acont d with CStatic s => wfc s | _ => True end.

(** A value of the type of [s] other than [s]. *)
Definition other (s : cint) : cint := CI (cty s) (if cval s =? 0 then 1 else 0).

Lemma cast_small t z : 0 <= z <= 1 -> cast t z = z.
Proof. intros H. apply cast_id. destruct t; unfold in_ty; cbn; lia. Qed.

Lemma other_differs s : wfc s -> ceqb (other s) s = false.
Proof.
  intros W. unfold ceqb, other. cbn [cty cval].
  assert (cast (common (cty s) (cty s)) (cval s) = cval s) as ->.
  { apply cast_id. unfold wfc in W. destruct s as [t z]. cbn [cty cval] in *. destruct t; unfold in_ty in *; cbn in *; lia. }
  destruct (Z.eqb_spec (cval s) 0) as [E|E].
  - rewrite cast_small by lia. rewrite E. reflexivity.
  - rewrite cast_small by lia. apply Z.eqb_neq. lia.
Qed.

Section Own.
Context {X : Type} (c : custom X).

Definition std (def : cint) (d : desc) (v : xextent X) : extent :=
  match v with
  | Std e => e
  | Own x => match acont d with
             | CStatic s => match x_eq c with
                            | Some q => if q x s then EJoker else EInt (other s)
                            | None => EJoker
                            end
             | _ => match x_dim c with Some f => EInt (f x def) | None => EJoker end
             end
  end.

Lemma axis_std dbg def i v p d : wfp p -> nth_error (pdesc p) i = Some d -> wf_desc d ->
  xcompiles c dbg d v = true -> xconstruct_axis c dbg def i v p = construct_axis dbg def i (std def d v) p.
Proof.
  intros W Hd Wd Hc. unfold xconstruct_axis, construct_axis. rewrite (pcontains_ok _ _ _ Hd). cbn [bind].
  unfold is_dynamic. unfold xcompiles, is_dynamic in Hc. unfold wf_desc in Wd. unfold std.
  destruct v as [e|x]; [|destruct (acont d) as [| t | s] eqn:E].
  - destruct (acont d) as [| t | s] eqn:E; [reflexivity..|]. rewrite (pget_ok p i) by exact W.
    rewrite (nth_static p i d s W Hd E). cbn [bind xagrees]. destruct (ext_is_joker e); reflexivity.
  - cbn [xdimension]. destruct (x_dim c); [reflexivity|discriminate].
  - cbn [xdimension]. destruct (x_dim c); [reflexivity|discriminate].
  - rewrite (pget_ok p i) by exact W. rewrite (nth_static p i d s W Hd E). cbn [bind xagrees].
    destruct dbg; [|reflexivity]. cbn [negb orb] in Hc. destruct (x_eq c) as [q|]; [|discriminate].
    unfold kassert. cbn [bind]. destruct (q x s); cbn [ext_is_joker ext_eqb]; [reflexivity|].
    rewrite (other_differs s Wd). reflexivity.
Qed.

Lemma std_denies def d v : sane_desc d -> wf_desc d -> sane_given v -> xcompiles c true d v = true ->
  (contradictsb d (std def d v) = true <-> denies c d v).
Proof.
  intros Sd Wd Sv Hc. unfold denies, std, xcompiles, is_dynamic in *. destruct v as [e|x].
  - rewrite contradictsb_spec by assumption. destruct (acont d); tauto.
  - unfold contradictsb, wf_desc in *. destruct (acont d) as [| t | s]; [destruct (x_dim c); split; (discriminate || tauto)..|].
    cbn [negb orb] in Hc. destruct (x_eq c) as [q|]; [|discriminate]. destruct (q x s) eqn:E; split.
    + discriminate.
    + intros (q' & [= <-] & H). congruence.
    + intros _. exists q. auto.
    + intros _. rewrite (other_differs s Wd). reflexivity.
Qed.

Lemma std_holds dbg def d v : xcompiles c dbg d v = true -> holds c def d v (expected def d (std def d v)).
Proof.
  unfold xcompiles, is_dynamic, holds, expected, std. destruct v as [e|x]; destruct (acont d) as [| t | s]; try reflexivity.
  - intros _. destruct e; eexists; (split; [constructor|reflexivity]).
  - intros _. destruct e; eexists; (split; [constructor|reflexivity]).
  - destruct (x_dim c) as [f|] eqn:E; [|discriminate]. intros _. eexists. split; [econstructor; exact E|reflexivity].
  - destruct (x_dim c) as [f|] eqn:E; [|discriminate]. intros _. eexists. split; [econstructor; exact E|reflexivity].
Qed.

Lemma supports_compiles dbg d v : supports c dbg d v <-> xcompiles c dbg d v = true.
Proof.
  unfold supports, xcompiles, is_dynamic. destruct v; [tauto|].
  destruct (acont d).
  - destruct (x_dim c); split; (congruence || discriminate || tauto).
  - destruct (x_dim c); split; (congruence || discriminate || tauto).
  - destruct dbg; cbn [negb orb].
    + destruct (x_eq c); split; intros H.
      * reflexivity.
      * discriminate.
      * exfalso. apply (H eq_refl). reflexivity.
      * discriminate.
    + split; [reflexivity|discriminate].
Qed.

Fixpoint stds (def : cint) (ds : list desc) (vs : list (xextent X)) : list extent :=
  match ds, vs with
  | d :: ds', v :: vs' => std def d v :: stds def ds' vs'
  | _, _ => []
  end.

Lemma from_std dbg def vs : forall i p, wfp p -> Forall wf_desc (pdesc p) ->
  (i + length vs = length (pdesc p))%nat ->
  forallb (fun q => xcompiles c dbg (fst q) (snd q)) (combine (skipn i (pdesc p)) vs) = true ->
  xconstruct_from c dbg def i vs p = construct_from dbg def i (stds def (skipn i (pdesc p)) vs) p.
Proof.
  induction vs as [|v vs IH]; intros i p W Wd Hl Hc.
  - cbn. destruct (skipn i (pdesc p)); reflexivity.
  - cbn [length] in Hl. destruct (nth_error (pdesc p) i) as [d|] eqn:Hd; [|apply nth_error_None in Hd; lia].
    rewrite (skipn_cons_nth _ _ _ Hd) in *. cbn [combine forallb fst snd] in Hc. apply andb_true_iff in Hc.
    destruct Hc as [C1 C2]. cbn [xconstruct_from stds construct_from].
    assert (Wf : wf_desc d) by (rewrite Forall_forall in Wd; apply Wd; eapply nth_error_In, Hd).
    rewrite (axis_std dbg def i v p d W Hd Wf C1).
    destruct (construct_axis_ok dbg def i (std def d v) p d W Hd) as [A B].
    destruct (dbg && contradictsb d (std def d v)).
    + rewrite (A eq_refl). reflexivity.
    + destruct (B eq_refl) as (p' & E & Hp & W' & _). rewrite E. cbn [bind].
      rewrite IH; [rewrite Hp; reflexivity|exact W'|rewrite Hp; exact Wd|rewrite Hp; lia|rewrite Hp; exact C2].
Qed.

Lemma stds_length def ds : forall vs, length vs = length ds -> length (stds def ds vs) = length ds.
Proof. induction ds as [|d ds IH]; intros [|v vs] H; try discriminate; [reflexivity|]. cbn. rewrite IH by (cbn in H; lia). reflexivity. Qed.

Lemma stds_nth def ds : forall vs i d v, nth_error ds i = Some d -> nth_error vs i = Some v ->
  nth_error (stds def ds vs) i = Some (std def d v).
Proof.
  induction ds as [|d ds IH]; intros [|v vs] [|i] d' v' H1 H2; try discriminate; cbn in *.
  - congruence.
  - apply IH; assumption.
Qed.

Lemma padded_length ds (vs : list (xextent X)) : (length vs <= length ds)%nat -> length (padded ds vs) = length ds.
Proof. intros H. unfold padded. rewrite app_length, repeat_length. lia. Qed.

Lemma own_in (v : xextent X) : is_own v = true <-> exists x : X, v = Own x.
Proof. destruct v; cbn; split; intros H; try discriminate; try (destruct H; discriminate); eauto. Qed.

Lemma accepted_iff dbg ds vs : accepted c dbg ds vs <->
  (length vs <=? length ds)%nat && (x_size c || negb (existsb is_own vs)) &&
  forallb (fun p => xcompiles c dbg (fst p) (snd p)) (combine ds (padded ds vs)) = true.
Proof.
  unfold accepted. rewrite !andb_true_iff, Nat.leb_le, orb_true_iff, negb_true_iff, forallb_forall.
  split.
  - intros (A & B & D). split; [split; [exact A|]|].
    + destruct (x_size c) eqn:E; [left; reflexivity|right]. apply Bool.not_true_iff_false. intros H.
      apply existsb_exists in H. destruct H as (v & Hin & Hv). apply own_in in Hv. destruct Hv as [x ->].
      specialize (B x Hin). discriminate.
    + intros [d v] Hin. apply In_nth_error in Hin. destruct Hin as [i Hi]. cbn [fst snd]. apply supports_compiles.
      assert (G : nth_error ds i = Some d /\ nth_error (padded ds vs) i = Some v).
      { clear -Hi. revert Hi. generalize (padded ds vs). revert i. induction ds as [|e es IH]; intros [|i] [|w ws] H;
          cbn in *; try discriminate; [split; congruence|apply IH, H]. }
      destruct G as [G1 G2]. apply (D i d v G1 G2).
  - intros ((A & B) & D). split; [exact A|]. split.
    + intros x Hin. destruct B as [B|B]; [exact B|]. exfalso. apply Bool.not_true_iff_false in B. apply B.
      apply existsb_exists. exists (Own x). split; [exact Hin|reflexivity].
    + intros i d v G1 G2. apply supports_compiles. apply (D (d, v)).
      assert (G : nth_error (combine ds (padded ds vs)) i = Some (d, v)).
      { clear -G1 G2. revert G1 G2. generalize (padded ds vs). revert i. induction ds as [|e es IH]; intros [|i] [|w ws] G1 G2;
          cbn in *; try discriminate; [congruence|apply IH; assumption]. }
      eapply nth_error_In, G.
Qed.

(** *** Positional values *)
Lemma xconstruct_std dbg ds def vs : Forall wf_desc ds -> accepted c dbg ds vs ->
  xconstruct c dbg ds def vs = construct_from dbg def 0 (stds def ds (padded ds vs)) (pdefault ds).
Proof.
  intros Wd Ha. pose proof Ha as Hb. apply accepted_iff in Hb. unfold xconstruct. fold (padded ds vs). rewrite Hb.
  apply andb_true_iff in Hb. destruct Hb as [_ Hc]. destruct Ha as (Hl & _).
  exact (from_std dbg def (padded ds vs) 0 (pdefault ds) (pdefault_wfp ds) Wd (padded_length ds vs Hl) Hc).
Qed.

Lemma accepted_compiles dbg ds vs i d v : accepted c dbg ds vs -> nth_error ds i = Some d ->
  nth_error (padded ds vs) i = Some v -> xcompiles c dbg d v = true.
Proof. intros (_ & _ & H) H1 H2. apply supports_compiles, (H i d v H1 H2). Qed.

Lemma sane_wf ds : Forall sane_desc ds -> Forall wf_desc ds.
Proof. apply Forall_impl. intros d. unfold sane_desc, wf_desc, sane. destruct (acont d); tauto. Qed.

Lemma sane_padded ds (vs : list (xextent X)) : Forall sane_given vs -> forall i v, nth_error (padded ds vs) i = Some v -> sane_given v.
Proof.
  intros H i v Hv. apply nth_error_In in Hv. apply in_app_or in Hv. destruct Hv as [Hv|Hv].
  - apply repeat_spec in Hv. subst v. exact sane_one.
  - rewrite Forall_forall in H. apply H, Hv.
Qed.

Lemma clash_denies def ds : forall ws, length ws = length ds -> Forall sane_desc ds ->
  (forall i v, nth_error ws i = Some v -> sane_given v) ->
  (forall i d v, nth_error ds i = Some d -> nth_error ws i = Some v -> xcompiles c true d v = true) ->
  (clash ds (stds def ds ws) = true <->
   exists i d v, nth_error ds i = Some d /\ nth_error ws i = Some v /\ denies c d v).
Proof.
  induction ds as [|d ds IH]; intros [|w ws] Hl Sd Sv Hc; try discriminate.
  - cbn. split; [discriminate|]. intros ([|i] & d & v & H & _); discriminate.
  - inversion Sd as [|d' l' S1 S2]; subst. cbn [stds clash]. rewrite orb_true_iff.
    assert (W1 : wf_desc d) by (pose proof (sane_wf [d] (Forall_cons d S1 (Forall_nil _))) as H; inversion H; assumption).
    rewrite (std_denies def d w S1 W1 (Sv O w eq_refl) (Hc O d w eq_refl eq_refl)).
    assert (HI : clash ds (stds def ds ws) = true <->
      exists i d v, nth_error ds i = Some d /\ nth_error ws i = Some v /\ denies c d v).
    { apply IH; [cbn in Hl; lia|exact S2|intros i v H; apply (Sv (S i)), H
                |intros i e v H1 H2; apply (Hc (S i)); assumption]. }
    rewrite HI.
    split.
    + intros [H|(i & e & v & H)]; [exists O, d, w; auto|exists (S i), e, v; exact H].
    + intros ([|i] & e & v & H1 & H2 & H3).
      * cbn in H1, H2. injection H1 as <-. injection H2 as <-. left; exact H3.
      * right. exists i, e, v. auto.
Qed.

Lemma own_total_l dbg ds def vs : Forall sane_desc ds -> accepted c dbg ds vs ->
  (exists p, xconstruct c dbg ds def vs = Ok p /\ pdesc p = ds /\ wfp p /\
     forall i d v, nth_error ds i = Some d -> nth_error (padded ds vs) i = Some v ->
       exists r, pget p i = Ok r /\ holds c def d v r) \/
  (dbg = true /\ xconstruct c dbg ds def vs = Abort).
Proof.
  intros Sd Ha. rewrite (xconstruct_std dbg ds def vs (sane_wf ds Sd) Ha).
  pose proof Ha as (Hl & _). pose proof (padded_length ds vs Hl) as HL.
  destruct (construct_full_ok dbg ds def _ (stds_length def ds _ HL)) as [A B].
  destruct (dbg && clash ds (stds def ds (padded ds vs))) eqn:E.
  - right. apply andb_true_iff in E. split; [tauto|apply A; reflexivity].
  - left. destruct (B eq_refl) as (p & H1 & H2 & H3 & H4). exists p. split; [exact H1|]. split; [exact H2|].
    split; [exact H3|]. intros i d v Hd Hv. exists (expected def d (std def d v)). split.
    + rewrite pget_ok by exact H3. rewrite H4. rewrite (nth_map2 _ _ _ _ _ _ Hd (stds_nth def ds _ i d v Hd Hv)). reflexivity.
    + apply (std_holds dbg). apply (accepted_compiles dbg ds vs i d v Ha Hd Hv).
Qed.

Lemma own_abort_iff_l ds def vs : Forall sane_desc ds -> Forall sane_given vs -> accepted c true ds vs ->
  (xconstruct c true ds def vs = Abort <->
   exists i d v, nth_error ds i = Some d /\ nth_error (padded ds vs) i = Some v /\ denies c d v).
Proof.
  intros Sd Sv Ha. rewrite (xconstruct_std true ds def vs (sane_wf ds Sd) Ha).
  pose proof Ha as (Hl & _). pose proof (padded_length ds vs Hl) as HL.
  destruct (construct_full_ok true ds def _ (stds_length def ds _ HL)) as [A B]. cbn [andb] in *.
  rewrite <- (clash_denies def ds (padded ds vs) HL Sd (sane_padded ds vs Sv)
    (fun i d v => accepted_compiles true ds vs i d v Ha)).
  destruct (clash ds _) eqn:E.
  - split; [reflexivity|intros _; apply A; reflexivity].
  - split; [|discriminate]. intros H. destruct (B eq_refl) as (p & H1 & _). congruence.
Qed.

Lemma own_rejected_iff_l dbg ds def vs : Forall sane_desc ds ->
  (xconstruct c dbg ds def vs = UB <-> ~ accepted c dbg ds vs).
Proof.
  intros Sd. split.
  - intros H Ha. destruct (own_total_l dbg ds def vs Sd Ha) as [(p & E & _)|[_ E]]; congruence.
  - intros H. unfold xconstruct. fold (padded ds vs).
    destruct ((length vs <=? length ds)%nat && (x_size c || negb (existsb is_own vs)) &&
              forallb (fun p => xcompiles c dbg (fst p) (snd p)) (combine ds (padded ds vs))) eqn:E; [|reflexivity].
    exfalso. apply H, accepted_iff, E.
Qed.

End Own.
