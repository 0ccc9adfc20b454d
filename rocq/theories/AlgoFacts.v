From Coq Require Import ZArith List Bool Lia.
From Verif Require Import Outcome CInt CIntFacts Spec SpecFacts ShapeSpec Shape ShapeFacts ShapeFacts2
  ForEach ForEachSpec ForEachFacts Memory MemFacts Container ContainerSpec ContainerFacts ContainerFacts2
  Algo AlgoSpec.
Import ListNotations.
Open Scope Z_scope.

(** ** Loops *)
Lemma run_inv {A S} (step : A -> S -> outcome S) (st : list A -> S) l :
  (forall pre c post, l = pre ++ c :: post -> step c (st pre) = Ok (st (pre ++ [c]))) ->
  run step l (st []) = Ok (st l).
Proof.
  intros H. assert (G : forall post pre, l = pre ++ post -> run step post (st pre) = Ok (st l)).
  { induction post as [|c post IH]; intros pre E; simpl.
    - rewrite app_nil_r in E. subst. reflexivity.
    - rewrite (H pre c post E). cbn [bind]. apply IH. rewrite E, <- app_assoc. reflexivity. }
  apply (G l []). reflexivity.
Qed.

(** The typed coordinate of a loop. *)
Lemma tbox_at ds pre c post : wfs ds -> tbox ds = pre ++ c :: post ->
  wfs c /\ in_box (vals ds) (vals c) /\ map cty c = map cty ds /\
  box (vals ds) = map vals pre ++ vals c :: map vals post.
Proof.
  intros W E. assert (I : In c (tbox ds)) by (rewrite E; apply in_elt).
  pose proof (tbox_wfs ds W) as TW. pose proof (tbox_types ds) as TT.
  rewrite Forall_forall in TW, TT. split; [apply TW; exact I|]. split; [|split; [apply TT; exact I|]].
  - apply box_In. rewrite <- tbox_vals. apply in_map. exact I.
  - rewrite <- tbox_vals, E, map_app. reflexivity.
Qed.

Lemma mapM_ok {A B} (f : A -> outcome B) (g : A -> B) l :
  (forall x, In x l -> f x = Ok (g x)) -> mapM f l = Ok (map g l).
Proof.
  induction l as [|x l IH]; intros H; simpl; [reflexivity|].
  rewrite (H x) by (left; reflexivity). cbn [bind]. rewrite IH by (intros; apply H; right; assumption). reflexivity.
Qed.

Lemma can_read_live {T} (m : mem T) c0 c : can_read m c0 c -> live m c0 c.
Proof.
  intros (A & B & C). split; [exact A|]. split; [exact B|]. intros is_ Hi. destruct (C is_ Hi) as (v & Hv).
  eapply peek_valid; exact Hv.
Qed.
Lemma can_write_live {T} (m : mem T) c0 c : can_write m c0 c -> live m c0 c.
Proof. intros (A & B & _ & C). split; [exact A|]. split; assumption. Qed.

Lemma ref_at {T} (m m' : mem T) c0 c is_ : live m c0 c -> same_cells m m' -> wfs is_ ->
  map cty is_ = ctypes c0 -> in_box (dims c0) (vals is_) -> ref m' c is_ = Ok (elem c (vals is_)).
Proof.
  intros (A & Cv & V) S W Ty B. apply ref_ok; [rewrite Ty; exact A|exact W|apply Cv; exact B|].
  apply S, V, B.
Qed.

Lemma mapM_refs {T} (m m' : mem T) c0 cs is_ : Forall (live m c0) cs -> same_cells m m' -> wfs is_ ->
  map cty is_ = ctypes c0 -> in_box (dims c0) (vals is_) ->
  mapM (fun c => ref m' c is_) cs = Ok (map (fun c => elem c (vals is_)) cs).
Proof.
  intros L S W Ty B. apply mapM_ok. intros c Hc. rewrite Forall_forall in L. eapply ref_at; eauto.
Qed.

Lemma same_refl {T} (m : mem T) : same_cells m m. Proof. intros p. tauto. Qed.

Lemma live_wf {T} (m : mem T) c : live m c c -> wfs (c_shape c) /\ nonnegs (dims c).
Proof. intros ((W & _) & _). split; apply W. Qed.

(** The generic loops: a state and a memory that are functions of the coordinates done so far. *)
Lemma map_containers_inv {T S} (body : list ptr -> S * mem T -> outcome (S * mem T)) c0 cs m0
    (st : list (list Z) -> S * mem T) :
  live m0 c0 c0 -> Forall (live m0 c0) cs ->
  (forall pre, same_cells m0 (snd (st pre))) ->
  (forall pre is_ post, box (dims c0) = pre ++ is_ :: post ->
     body (map (fun c => elem c is_) (c0 :: cs)) (st pre) = Ok (st (pre ++ [is_]))) ->
  map_containers body c0 cs (st []) = Ok (st (box (dims c0))).
Proof.
  intros L0 Ls Sm Hb. destruct (live_wf m0 c0 L0) as [W N].
  unfold map_containers. rewrite for_each_run by assumption.
  pose (st' := fun l => st (map vals l)).
  change (st []) with (st' []). unfold dims. rewrite <- tbox_vals.
  change (st (map vals (tbox (c_shape c0)))) with (st' (tbox (c_shape c0))).
  apply run_inv. intros pre c post E.
  destruct (tbox_at _ _ _ _ W E) as (Wc & Bc & Ty & Eb).
  rewrite (mapM_refs m0 (snd (st' pre)) c0 (c0 :: cs) c); try assumption; [|constructor; assumption|apply Sm].
  rewrite bind_ok. unfold st'. rewrite map_app. eapply Hb. exact Eb.
Qed.

Lemma map_index_inv {T S} (body : ptr -> list cint -> S * mem T -> outcome (S * mem T)) c0 m0
    (st : list (list Z) -> S * mem T) :
  live m0 c0 c0 -> (forall pre, same_cells m0 (snd (st pre))) ->
  (forall pre is_ post tis, box (dims c0) = pre ++ is_ :: post ->
     wfs tis -> vals tis = is_ -> map cty tis = ctypes c0 ->
     body (elem c0 is_) tis (st pre) = Ok (st (pre ++ [is_]))) ->
  map_index body c0 (st []) = Ok (st (box (dims c0))).
Proof.
  intros L0 Sm Hb. destruct (live_wf m0 c0 L0) as [W N].
  unfold map_index. rewrite for_each_run by assumption.
  pose (st' := fun l => st (map vals l)).
  change (st []) with (st' []). unfold dims. rewrite <- tbox_vals.
  change (st (map vals (tbox (c_shape c0)))) with (st' (tbox (c_shape c0))).
  apply run_inv. intros pre c post E.
  destruct (tbox_at _ _ _ _ W E) as (Wc & Bc & Ty & Eb).
  rewrite (ref_at m0 (snd (st' pre)) c0 c0 c); try assumption; [|apply Sm].
  rewrite bind_ok. unfold st'. rewrite map_app. eapply Hb; try eassumption. reflexivity.
Qed.

(** ** Writes along a prefix of the coordinates *)
Section Writes.
  Context {T : Type} (o : container) (val : list (list Z) -> list Z -> option T).
  Fixpoint pwrites (pre l : list (list Z)) : list (ptr * option T) :=
    match l with
    | [] => []
    | c :: l' => (elem o c, val pre c) :: pwrites (pre ++ [c]) l'
    end.

  Lemma pwrites_app l : forall pre c, pwrites pre (l ++ [c]) = pwrites pre l ++ [(elem o c, val (pre ++ l) c)].
  Proof.
    induction l as [|x l IH]; intros pre c; simpl; [rewrite app_nil_r; reflexivity|].
    rewrite IH, <- app_assoc. reflexivity.
  Qed.

  Lemma pwrites_fst l : forall pre, map fst (pwrites pre l) = map (elem o) l.
  Proof. induction l as [|x l IH]; intros pre; simpl; [reflexivity|]. f_equal. apply IH. Qed.

  Lemma pwrites_In l : forall pre a c b, l = a ++ c :: b -> In (elem o c, val (pre ++ a) c) (pwrites pre l).
  Proof.
    induction l as [|x l IH]; intros pre a c b E; [destruct a; discriminate|].
    destruct a as [|y a]; simpl in E; injection E as <- E; simpl.
    - left. subst. rewrite app_nil_r. reflexivity.
    - right. specialize (IH (pre ++ [x]) a c b E). rewrite <- app_assoc in IH. exact IH.
  Qed.

  Lemma pwrites_src l : forall pre q v, In (q, v) (pwrites pre l) -> exists c, In c l /\ q = elem o c.
  Proof.
    induction l as [|x l IH]; intros pre q v H; simpl in H; [contradiction|]. destruct H as [E|H].
    - injection E as <- _. exists x. simpl. auto.
    - destruct (IH _ _ _ H) as (c & Hc & ->). exists c. simpl. auto.
  Qed.

  Definition pmem (m0 : mem T) (pre : list (list Z)) : mem T := apply_writes (pwrites [] pre) m0.

  Lemma pmem_step m0 pre c :
    pmem m0 (pre ++ [c]) = match val pre c with Some v => upd (pmem m0 pre) (elem o c) v | None => pmem m0 pre end.
  Proof. unfold pmem. rewrite pwrites_app, apply_app. simpl. reflexivity. Qed.

  Lemma pmem_same m0 pre : same_cells m0 (pmem m0 pre).
  Proof. intros p. unfold valid, pmem. symmetry. apply apply_valid. Qed.

  Lemma pmem_other m0 pre p : (forall c, In c pre -> p <> elem o c) -> cell (pmem m0 pre) p = cell m0 p.
  Proof.
    intros H. unfold pmem. apply apply_other. intros q v Hq ->.
    destruct (pwrites_src _ _ _ _ Hq) as (c & Hc & E). exact (H c Hc E).
  Qed.

  Lemma NoDup_elem c0 l : distinct_on c0 o -> Forall (in_box (dims c0)) l -> NoDup l -> NoDup (map (elem o) l).
  Proof.
    intros D F N. induction N as [|x l Hx N IH]; simpl; [constructor|]. inversion F; subst.
    constructor; [|apply IH; assumption]. intros H. apply in_map_iff in H. destruct H as (y & E & Hy).
    apply Hx. rewrite Forall_forall in H2. rewrite <- (D y x (H2 _ Hy) H1 E). exact Hy.
  Qed.

  Lemma apply_none (ws : list (ptr * option T)) : forall m p, NoDup (map fst ws) -> In (p, None) ws ->
    cell (apply_writes ws m) p = cell m p.
  Proof.
    intros m p N H. apply apply_other. intros q v Hq ->.
    clear -N H Hq. induction ws as [|[x y] ws IH]; simpl in *; [contradiction|].
    inversion N; subst. destruct H as [E|H], Hq as [E'|Hq].
    - congruence.
    - injection E as -> ->. apply H2. apply in_map_iff. exists (p, Some v). auto.
    - injection E' as -> ->. apply H2. apply in_map_iff. exists (p, @None T). auto.
    - apply IH; assumption.
  Qed.

  Lemma pmem_result c0 m0 : nonnegs (dims c0) -> distinct_on c0 o ->
    (forall is_, in_box (dims c0) is_ -> valid m0 (elem o is_)) ->
    let m' := pmem m0 (box (dims c0)) in
    (forall pre is_ post, box (dims c0) = pre ++ is_ :: post ->
       match val pre is_ with
       | Some v => value m' o is_ v
       | None => cell m' (elem o is_) = cell m0 (elem o is_)
       end) /\ frame c0 o m0 m'.
  Proof.
    intros Nn D V m'. split; [|split].
    - intros pre is_ post E.
      assert (B : in_box (dims c0) is_) by (apply box_In; rewrite E; apply in_elt).
      assert (Nd : NoDup (map fst (pwrites [] (box (dims c0))))).
      { rewrite pwrites_fst. apply NoDup_elem with c0; [exact D| |apply box_NoDup; exact Nn].
        apply Forall_forall. intros x. apply box_In. }
      pose proof (pwrites_In _ [] pre is_ post E) as I. simpl in I.
      unfold value, peek, m', pmem. destruct (val pre is_) as [v|].
      + rewrite (apply_in _ m0 _ v Nd I) by (apply V; exact B). reflexivity.
      + apply apply_none; assumption.
    - apply pmem_same.
    - intros p Hp. apply pmem_other. intros c Hc. apply Hp. apply box_In. exact Hc.
  Qed.
End Writes.

(** A coordinate is not among those done before it. *)
Lemma box_split_notin ns pre c post : nonnegs ns -> box ns = pre ++ c :: post ->
  ~ In c pre /\ in_box ns c /\ forall x, In x pre -> in_box ns x /\ x <> c.
Proof.
  intros N E. pose proof (box_NoDup ns N) as Nd. rewrite E in Nd. apply NoDup_remove in Nd.
  assert (Nc : ~ In c pre) by (intros H; apply (proj2 Nd); apply in_or_app; auto).
  split; [exact Nc|]. split; [apply box_In; rewrite E; apply in_elt|].
  intros x Hx. split; [apply box_In; rewrite E; apply in_or_app; auto|]. intros ->. exact (Nc Hx).
Qed.

Lemma pmem_read {T} c0 i o val (m0 : mem T) pre is_ post : nonnegs (dims c0) -> no_cross_alias c0 i o ->
  box (dims c0) = pre ++ is_ :: post -> cell (pmem o val m0 pre) (elem i is_) = cell m0 (elem i is_).
Proof.
  intros N A E. apply pmem_other. intros x Hx.
  destruct (box_split_notin _ _ _ _ N E) as (_ & B & P). destruct (P x Hx) as [Bx Ne].
  apply A; auto.
Qed.

Lemma box_split ns is_ : in_box ns is_ -> exists pre post, box ns = pre ++ is_ :: post.
Proof. intros B. apply box_In in B. apply in_split. exact B. Qed.

(** The coordinates before a coordinate are the [rank] first ones. *)
Lemma box_split_rank ns pre is_ post : nonnegs ns -> box ns = pre ++ is_ :: post ->
  pre = firstn (Z.to_nat (rank ns is_)) (box ns).
Proof.
  intros N E. pose proof (box_rank_zrange ns N) as R.
  assert (L : Z.of_nat (length pre) = rank ns is_).
  { assert (G : nth_error (zrange 0 (length (box ns))) (length pre) = Some (rank ns is_)).
    { rewrite <- R, E, map_app. cbn [map]. rewrite nth_error_app2 by (rewrite map_length; lia). rewrite map_length, Nat.sub_diag. reflexivity. }
    assert (Z0 : forall k s n, nth_error (zrange s k) n = if (n <? k)%nat then Some (s + Z.of_nat n) else None).
    { clear. induction k as [|k IH]; intros s [|n]; simpl; try reflexivity.
      - rewrite Z.add_0_r. reflexivity.
      - rewrite IH. change (S n <? S k)%nat with (n <? k)%nat. destruct (n <? k)%nat; [f_equal; lia|reflexivity]. }
    rewrite Z0 in G. destruct (length pre <? length (box ns))%nat; [|discriminate]. injection G as G. lia. }
  rewrite E. rewrite <- L, Nat2Z.id. rewrite firstn_app, Nat.sub_diag, firstn_all. simpl. rewrite app_nil_r. reflexivity.
Qed.
