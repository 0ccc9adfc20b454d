(** Facts about the run-time access of mixed shapes, for property C12, continued. *)
From Coq Require Import ZArith List Bool Lia.
From Verif Require Import Outcome CInt CIntFacts Spec ShapeSpec Shape Prefilled PrefilledSpec PrefilledFacts PrefilledFacts3.
Import ListNotations.
Open Scope Z_scope.

Lemma pget_stored p j e : wfp p -> nth_error (pdesc p) j = Some e -> runtime e ->
  exists x, nth_error (pstore p) (nb_runtime (firstn j (pdesc p))) = Some x /\ pget p j = Ok x.
Proof.
  intros Hw He Hr. pose proof (wfp_length p Hw) as Hl. unfold pget. rewrite He, map_descriptor_eq. cbn [index].
  rewrite (index_from_nth _ 0 _ _ He). rewrite (proj2 (is_dynamic_runtime e) Hr).
  set (k := nb_runtime (firstn j (pdesc p))) in *.
  destruct (Z.eqb_spec (0 + Z.of_nat k) (-1)); [lia|]. replace (Z.to_nat (0 + Z.of_nat k)) with k by lia.
  assert (Hk : (k < length (pstore p))%nat).
  { rewrite Hl. subst k. clear - He Hr. revert j He. induction (pdesc p) as [|d ds IH]; intros [|j] He; try discriminate.
    - injection He as ->. cbn [firstn nb_runtime]. destruct (acont e) eqn:E; [lia..|exfalso; apply (Hr _ E)].
    - cbn [nth_error firstn nb_runtime] in *. specialize (IH _ He). destruct (acont d); lia. }
  destruct (nth_error (pstore p) k) as [x|] eqn:E; [exists x; auto|apply nth_error_None in E; lia].
Qed.

Lemma pindex_static_l p i d c : wfp p -> (0 < nb_runtime (pdesc p))%nat ->
  nth_error (pdesc p) i = Some d -> acont d = CStatic c -> pindex true p i = Abort.
Proof.
  intros Hw Hr Hd Hc. unfold pindex. rewrite fully_static_nb.
  destruct (Nat.eqb_spec (nb_runtime (pdesc p)) 0); [lia|].
  assert (Hlt : (i <? length (pdesc p))%nat = true).
  { apply Nat.ltb_lt. apply nth_error_Some. congruence. }
  rewrite Hlt, kassert_ok. cbn [bind]. rewrite (pcontains_ok _ _ _ Hd).
  assert (Hdyn : is_dynamic d = false) by (unfold is_dynamic; rewrite Hc; reflexivity).
  rewrite Hdyn. reflexivity.
Qed.

Lemma pindex_counts_l dbg p i j e : wfp p -> (dbg = true -> exists d, nth_error (pdesc p) i = Some d /\ runtime d) ->
  nth_error (pdesc p) j = Some e -> runtime e ->
  nb_runtime (firstn j (pdesc p)) = i \/ nb_runtime (pdesc p) = 1%nat -> pindex dbg p i = pget p j.
Proof.
  intros Hw Hd He Hr Hij. destruct (pget_stored p j e Hw He Hr) as (x & Hx & Hg).
  pose proof (wfp_length p Hw) as Hl.
  assert (Hk : (nb_runtime (firstn j (pdesc p)) < length (pstore p))%nat) by (apply nth_error_Some; congruence).
  rewrite Hg. unfold pindex. rewrite fully_static_nb. destruct (Nat.eqb_spec (nb_runtime (pdesc p)) 0); [lia|].
  assert (Hend : match pstore p with
     | [y] => Ok y | l => match nth_error l i with Some y => Ok y | None => UB end end = Ok x).
  { destruct (pstore p) as [|y [|z l]] eqn:Es; cbn [length] in *; [lia| |].
    - destruct (nb_runtime (firstn j (pdesc p))) as [|k]; [cbn in Hx; congruence|lia].
    - destruct Hij as [Hij|Hij]; [|lia]. rewrite <- Hij, Hx. reflexivity. }
  destruct dbg; [|cbn [kassert bind]; exact Hend].
  destruct (Hd eq_refl) as (d & Hd1 & Hd2).
  assert (Hlt : (i <? length (pdesc p))%nat = true).
  { apply Nat.ltb_lt. apply nth_error_Some. congruence. }
  rewrite Hlt, kassert_ok. cbn [bind]. rewrite (pcontains_ok _ _ _ Hd1).
  rewrite (proj2 (is_dynamic_runtime d) Hd2), kassert_ok. exact Hend.
Qed.

(** Extents that are 0 but one that is 1. *)
Fixpoint mark (k : nat) (ts : list ity) : list cint :=
  match ts with
  | [] => []
  | t :: ts' => match k with O => CI t 1 :: map (fun u => CI u 0) ts' | S k' => CI t 0 :: mark k' ts' end
  end.

Lemma mark_types ts : forall k, map cty (mark k ts) = ts.
Proof.
  induction ts as [|t ts IH]; intros [|k]; cbn; try reflexivity; f_equal; [|apply IH].
  rewrite map_map. apply map_id.
Qed.

Lemma mark_wf ts : forall k, Forall wfc (mark k ts).
Proof.
  induction ts as [|t ts IH]; intros [|k]; cbn; try constructor.
  - destruct t; unfold wfc, in_ty; cbn; lia.
  - apply Forall_map, Forall_forall. intros u _. destruct u; unfold wfc, in_ty; cbn; lia.
  - destruct t; unfold wfc, in_ty; cbn; lia.
  - apply IH.
Qed.

Lemma mark_nth ts : forall k i x, nth_error (mark k ts) i = Some x -> cval x = if (i =? k)%nat then 1 else 0.
Proof.
  induction ts as [|t ts IH]; intros k i x H; [destruct k, i; discriminate H|]. destruct k as [|k], i as [|i]; cbn in *.
  - injection H as <-. reflexivity.
  - rewrite nth_error_map in H. destruct (nth_error ts i); [|discriminate]. injection H as <-. reflexivity.
  - injection H as <-. reflexivity.
  - apply IH, H.
Qed.

Lemma nb_firstn_le ds i : (nb_runtime (firstn i ds) <= i)%nat.
Proof.
  revert i. induction ds as [|d ds IH]; intros [|i]; cbn; try lia. specialize (IH i). destruct (acont d); lia.
Qed.

Lemma nb_firstn_all ds : forall i, (i < length ds)%nat -> nb_runtime (firstn i ds) = i -> all_runtime (firstn i ds).
Proof.
  induction ds as [|d ds IH]; intros [|i] Hi H; cbn in *; try constructor; try lia.
  - intros c E. rewrite E in H. pose proof (nb_firstn_le ds i). lia.
  - apply IH; [lia|]. pose proof (nb_firstn_le ds i). destruct (acont d); lia.
Qed.

Lemma pindex_iff_l ds i d : nth_error ds i = Some d -> runtime d -> (2 <= nb_runtime ds)%nat ->
  ((forall p, wfp p -> pdesc p = ds -> pindex true p i = pget p i) <-> all_runtime (firstn i ds)).
Proof.
  intros Hd Hr H2.
  assert (Hi : (i < length ds)%nat) by (apply nth_error_Some; congruence). split.
  - intros H. apply nb_firstn_all; [exact Hi|].
    destruct (Nat.eq_dec (nb_runtime (firstn i ds)) i) as [E|E]; [exact E|exfalso].
    set (k := nb_runtime (firstn i ds)) in *.
    set (p := {| pdesc := ds; pstore := mark k (runtime_types ds) |}).
    assert (Hw : wfp p) by (split; [apply mark_types|apply mark_wf]).
    pose proof (H p Hw eq_refl) as Heq.
    destruct (pget_stored p i d Hw Hd Hr) as (x & Hx & Hg). rewrite Hg in Heq.
    change (nb_runtime (firstn i (pdesc p))) with k in Hx.
    pose proof (mark_nth _ _ _ _ Hx) as Vx. rewrite Nat.eqb_refl in Vx.
    pose proof (wfp_length p Hw) as Hl. change (pdesc p) with ds in Hl.
    unfold pindex in Heq. rewrite fully_static_nb in Heq. change (pdesc p) with ds in Heq.
    destruct (Nat.eqb_spec (nb_runtime ds) 0); [lia|].
    rewrite (proj2 (Nat.ltb_lt _ _) Hi), kassert_ok in Heq. cbn [bind] in Heq. rewrite (pcontains_ok _ _ _ Hd) in Heq.
    rewrite (proj2 (is_dynamic_runtime d) Hr), kassert_ok in Heq. cbn [bind] in Heq.
    assert (Hn : nth_error (pstore p) i = Some x).
    { destruct (pstore p) as [|y [|z l]]; cbn [length] in Hl; try lia.
      destruct (nth_error (y :: z :: l) i); congruence. }
    pose proof (mark_nth _ _ _ _ Hn) as Vy. destruct (Nat.eqb_spec i k); [lia|]. lia.
  - intros Ha p Hw Hp. apply (pindex_counts_l true p i i d); rewrite ?Hp; eauto.
    left. rewrite all_runtime_nb by exact Ha. rewrite firstn_length. lia.
Qed.
