From Coq Require Import ZArith List Bool Lia Sorted.
From Verif Require Import Outcome CInt CIntFacts Spec SpecFacts ShapeSpec Shape ShapeFacts ForEach ForEachSpec.
Import ListNotations.
Open Scope Z_scope.

(** Typed coordinates visited by the loops. *)
Fixpoint tbox (ds : list cint) : list (list cint) :=
  match ds with
  | [] => [[]]
  | m :: ds' => flat_map (fun i => map (cons (CI (cty m) i)) (tbox ds')) (zrange 0 (Z.to_nat (cval m)))
  end.

Lemma tbox_vals ds : map vals (tbox ds) = box (vals ds).
Proof.
  induction ds as [|m ds IH]; [reflexivity|]. cbn [tbox vals map box].
  rewrite flat_map_concat_map, concat_map, map_map, flat_map_concat_map.
  f_equal. apply map_ext. intros i. rewrite map_map. unfold vals at 1.
  change (map cval ds) with (vals ds). rewrite <- IH, map_map. reflexivity.
Qed.

Lemma tbox_types ds : Forall (fun c => map cty c = map cty ds) (tbox ds).
Proof.
  induction ds as [|m ds IH]; [repeat constructor|]. cbn [tbox].
  apply Forall_flat_map. apply Forall_forall. intros i _.
  apply Forall_map. eapply Forall_impl; [|exact IH]. simpl. intros c E. f_equal. exact E.
Qed.

Lemma tbox_wfs ds : wfs ds -> Forall wfs (tbox ds).
Proof.
  induction 1 as [|m ds Hm _ IH]; [repeat constructor|]. cbn [tbox].
  apply Forall_flat_map. apply Forall_forall. intros i Hi. apply zrange_In in Hi.
  apply Forall_map. eapply Forall_impl; [|exact IH]. intros c Hc. constructor; [|exact Hc].
  unfold wfc in *; simpl. eapply in_ty_shrink; [exact Hm|]. lia.
Qed.

Lemma run_app {A S} (f : A -> S -> outcome S) a b s :
  run f (a ++ b) s = bind (run f a s) (run f b).
Proof.
  revert s. induction a as [|x a IH]; intros s; [reflexivity|]. simpl. rewrite bind_assoc.
  destruct (f x s); simpl; auto.
Qed.

Lemma run_map {A B S} (g : B -> A) (f : A -> S -> outcome S) l s :
  run f (map g l) s = run (fun b => f (g b)) l s.
Proof. revert s. induction l as [|x l IH]; intros s; simpl; [reflexivity|]. destruct (f (g x) s); simpl; auto. Qed.

Lemma run_flat_map {A B S} (g : B -> list A) (f : A -> S -> outcome S) l s :
  run f (flat_map g l) s = run (fun b => run f (g b)) l s.
Proof.
  revert s. induction l as [|x l IH]; intros s; simpl; [reflexivity|].
  rewrite run_app. destruct (run f (g x) s); simpl; auto.
Qed.

Lemma run_ext {A S} (f g : A -> S -> outcome S) l s :
  (forall c s, In c l -> f c s = g c s) -> run f l s = run g l s.
Proof.
  revert s. induction l as [|x l IH]; intros s H; simpl; [reflexivity|].
  rewrite H by (left; reflexivity). destruct (g x s); simpl; auto. apply IH. intros; apply H; right; assumption.
Qed.

(** One loop runs its body over 0, 1, ..., m-1. *)
Lemma loop_run {S} m (body : cint -> S -> outcome S) : wfc m -> 0 <= cval m ->
  forall k i s, 0 <= i -> i + Z.of_nat k = cval m ->
  loop (Datatypes.S k) m (CI (cty m) i) body s =
  run (fun z => body (CI (cty m) z)) (zrange i k) s.
Proof.
  intros W P. induction k as [|k IH]; intros i s Hi Hk.
  - simpl. rewrite clt_exact; [|unfold wfc in *; simpl; eapply in_ty_shrink; [exact W|lia]|exact W|right; simpl; lia].
    simpl. destruct (Z.ltb_spec i (cval m)); [lia|reflexivity].
  - assert (Wi : wfc (CI (cty m) i)) by (unfold wfc in *; simpl; eapply in_ty_shrink; [exact W|lia]).
    change (loop (Datatypes.S (Datatypes.S k)) m (CI (cty m) i) body s) with
      (if clt (CI (cty m) i) m then
         s' <- body (CI (cty m) i) s ;; i' <- cincr (CI (cty m) i) ;; loop (Datatypes.S k) m i' body s'
       else Ok s).
    rewrite clt_exact; [|exact Wi|exact W|right; simpl; lia].
    cbn [cval]. destruct (Z.ltb_spec i (cval m)); [|lia].
    cbn [zrange run]. destruct (body (CI (cty m) i) s); try reflexivity. cbn [bind].
    rewrite cincr_exact; [|exact Wi|unfold wfc, in_ty in W; simpl; lia|simpl; lia].
    cbn [bind cty cval]. apply IH; lia.
Qed.

Lemma loop_full {S} m (body : cint -> S -> outcome S) s : wfc m -> 0 <= cval m ->
  loop (fuel_of m) m (CI (cty m) 0) body s =
  run (fun z => body (CI (cty m) z)) (zrange 0 (Z.to_nat (cval m))) s.
Proof. intros W P. unfold fuel_of. apply loop_run; try assumption; lia. Qed.

Lemma for_each_pile {S} (f : list cint -> S -> outcome S) ds : wfs ds -> nonnegs (vals ds) ->
  forall is_ s,
  pile (fun acc m => fun is_ s => loop (fuel_of m) m (CI (cty m) 0) (fun i => acc (is_ ++ [i])) s)
       ds f is_ s
  = run (fun c => f (is_ ++ c)) (tbox ds) s.
Proof.
  induction ds as [|m ds IH]; intros W P is_ s.
  - simpl. rewrite app_nil_r. destruct (f is_ s); reflexivity.
  - inversion W; inversion P; subst. cbn [pile fold_right].
    rewrite loop_full by assumption. cbn [tbox]. rewrite run_flat_map.
    apply run_ext. intros z s' _. unfold pile in IH. rewrite IH by assumption.
    rewrite run_map. apply run_ext. intros c s'' _. rewrite <- app_assoc. reflexivity.
Qed.

Lemma for_each_run {S} (f : list cint -> S -> outcome S) ds s : wfs ds -> nonnegs (vals ds) ->
  for_each ds f s = run f (tbox ds) s.
Proof. intros W P. unfold for_each. rewrite for_each_pile by assumption. reflexivity. Qed.

(** for_until *)
Lemma run_until_app {A S} (f : A -> S -> outcome (bool * S)) a b s :
  run_until f (a ++ b) s =
  (r <- run_until f a s ;; if fst r then Ok r else run_until f b (snd r)).
Proof.
  revert s. induction a as [|x a IH]; intros s; [reflexivity|]. simpl.
  destruct (f x s) as [[[|] s']| | |]; simpl; auto.
Qed.

Lemma run_until_map {A B S} (g : B -> A) (f : A -> S -> outcome (bool * S)) l s :
  run_until f (map g l) s = run_until (fun b => f (g b)) l s.
Proof.
  revert s. induction l as [|x l IH]; intros s; simpl; [reflexivity|].
  destruct (f (g x) s) as [[[|] s']| | |]; simpl; auto.
Qed.

Lemma run_until_flat_map {A B S} (g : B -> list A) (f : A -> S -> outcome (bool * S)) l s :
  run_until f (flat_map g l) s = run_until (fun b => run_until f (g b)) l s.
Proof.
  revert s. induction l as [|x l IH]; intros s; simpl; [reflexivity|].
  rewrite run_until_app. destruct (run_until f (g x) s) as [[[|] s']| | |]; simpl; auto.
Qed.

Lemma run_until_ext {A S} (f g : A -> S -> outcome (bool * S)) l s :
  (forall c s, In c l -> f c s = g c s) -> run_until f l s = run_until g l s.
Proof.
  revert s. induction l as [|x l IH]; intros s H; simpl; [reflexivity|].
  rewrite H by (left; reflexivity). destruct (g x s) as [[[|] s']| | |]; simpl; auto.
  apply IH. intros; apply H; right; assumption.
Qed.

Lemma loop_until_run {S} m (body : cint -> bool * S -> outcome (bool * S)) : wfc m -> 0 <= cval m ->
  forall k i s, 0 <= i -> i + Z.of_nat k = cval m ->
  loop_until (Datatypes.S k) m (CI (cty m) i) body (false, s) =
  run_until (fun z s => body (CI (cty m) z) (false, s)) (zrange i k) s.
Proof.
  intros W P. induction k as [|k IH]; intros i s Hi Hk.
  - simpl. rewrite clt_exact; [|unfold wfc in *; simpl; eapply in_ty_shrink; [exact W|lia]|exact W|right; simpl; lia].
    simpl. destruct (Z.ltb_spec i (cval m)); [lia|reflexivity].
  - assert (Wi : wfc (CI (cty m) i)) by (unfold wfc in *; simpl; eapply in_ty_shrink; [exact W|lia]).
    change (loop_until (Datatypes.S (Datatypes.S k)) m (CI (cty m) i) body (false, s)) with
      (if negb false && clt (CI (cty m) i) m then
         s' <- body (CI (cty m) i) (false, s) ;; i' <- cincr (CI (cty m) i) ;;
         loop_until (Datatypes.S k) m i' body s'
       else Ok (false, s)).
    rewrite clt_exact; [|exact Wi|exact W|right; simpl; lia].
    cbn [cval]. destruct (Z.ltb_spec i (cval m)); [|lia].
    cbn [zrange run_until negb andb].
    destruct (body (CI (cty m) i) (false, s)) as [[b s']| | |]; try reflexivity. cbn [bind fst].
    rewrite cincr_exact; [|exact Wi|unfold wfc, in_ty in W; simpl; lia|simpl; lia].
    cbn [bind cty cval]. destruct b.
    + simpl. reflexivity.
    + cbn [snd]. apply IH; lia.
Qed.

Lemma for_until_pile {S} (f : list cint -> S -> outcome (bool * S)) ds : wfs ds -> nonnegs (vals ds) ->
  forall is_ s,
  pile (fun acc m => fun is_ s =>
          loop_until (fuel_of m) m (CI (cty m) 0) (fun i => acc (is_ ++ [i])) s)
       ds (fun is_ fs => f is_ (snd fs)) is_ (false, s)
  = run_until (fun c => f (is_ ++ c)) (tbox ds) s.
Proof.
  induction ds as [|m ds IH]; intros W P is_ s.
  - simpl. rewrite app_nil_r. destruct (f is_ s) as [[[|] s']| | |]; reflexivity.
  - inversion W; inversion P; subst. cbn [pile fold_right]. unfold fuel_of.
    rewrite loop_until_run; [|assumption|assumption|lia|lia].
    cbn [tbox]. rewrite run_until_flat_map.
    apply run_until_ext. intros z s' _. unfold pile in IH. rewrite IH by assumption.
    rewrite run_until_map. apply run_until_ext. intros c s'' _. rewrite <- app_assoc. reflexivity.
Qed.

Lemma for_until_run {S} (f : list cint -> S -> outcome (bool * S)) ds s : wfs ds -> nonnegs (vals ds) ->
  for_until ds f s = run_until f (tbox ds) s.
Proof. intros W P. unfold for_until. rewrite for_until_pile by assumption. reflexivity. Qed.

(** The list of coordinates is sorted. *)
Lemma box_Forall_length ns : Forall (fun c => length c = length ns) (box ns).
Proof. apply Forall_forall. intros c Hc. apply box_In in Hc. apply in_box_length in Hc. exact Hc. Qed.

Lemma SS_app {A} (R : A -> A -> Prop) a b : StronglySorted R a -> StronglySorted R b ->
  (forall x y, In x a -> In y b -> R x y) -> StronglySorted R (a ++ b).
Proof.
  intros Ha Hb H. induction Ha as [|x a Ha IH Hx]; [exact Hb|]. simpl. constructor.
  - apply IH. intros; apply H; [right|]; assumption.
  - apply Forall_app. split; [exact Hx|]. apply Forall_forall. intros y Hy. apply H; [left; reflexivity|exact Hy].
Qed.

Lemma box_sorted ns : StronglySorted lex (box ns).
Proof.
  induction ns as [|n ns IH]; [repeat constructor|]. cbn [box].
  assert (G : forall k s, StronglySorted lex (flat_map (fun i => map (cons i) (box ns)) (zrange s k))).
  { induction k as [|k IHk]; intros s; simpl; [constructor|]. apply SS_app.
    - clear IHk. induction IH as [|x l Hl IHl Hx]; simpl; constructor; [exact IHl|].
      apply Forall_map. eapply Forall_impl; [|exact Hx]. intros y. apply lex_tail.
    - apply IHk.
    - intros x y Hx Hy. apply in_map_iff in Hx. destruct Hx as (x' & <- & Hx).
      apply in_flat_map in Hy. destruct Hy as (j & Hj & Hy). apply in_map_iff in Hy.
      destruct Hy as (y' & <- & Hy). apply zrange_In in Hj. apply lex_head; [lia|].
      apply box_In, in_box_length in Hx. apply box_In, in_box_length in Hy. congruence. }
  apply G.
Qed.

Lemma tbox_visits ds : nonnegs (vals ds) -> visits_all ds (tbox ds).
Proof.
  intros P. unfold visits_all. rewrite tbox_vals.
  split; [intros c; apply box_In|]. split; [apply box_NoDup; exact P|].
  split; [apply box_sorted|]. split; [|apply tbox_types].
  rewrite <- (map_length vals), tbox_vals. apply box_length. exact P.
Qed.

Lemma for_each_visits_l ds : wfs ds -> nonnegs (vals ds) ->
  exists trace, visits_all ds trace /\
    forall (S : Type) (f : list cint -> S -> outcome S) (s : S), for_each ds f s = run f trace s.
Proof.
  intros W P. exists (tbox ds). split; [apply tbox_visits; exact P|].
  intros S f s. apply for_each_run; assumption.
Qed.

Lemma for_each_zero_l ds : wfs ds -> nonnegs (vals ds) -> In 0 (vals ds) ->
  forall (S : Type) (f : list cint -> S -> outcome S) (s : S), for_each ds f s = Ok s.
Proof.
  intros W P Z0 S f s. rewrite for_each_run by assumption.
  destruct (tbox_visits ds P) as (_ & _ & _ & L & _). apply prod_zero_iff in Z0. rewrite Z0 in L.
  destruct (tbox ds); [reflexivity|simpl in L; lia].
Qed.

Lemma for_until_visits_l ds : wfs ds -> nonnegs (vals ds) ->
  exists trace, visits_all ds trace /\
    forall (S : Type) (f : list cint -> S -> outcome (bool * S)) (s : S),
      for_until ds f s = run_until f trace s.
Proof.
  intros W P. exists (tbox ds). split; [apply tbox_visits; exact P|].
  intros S f s. apply for_until_run; assumption.
Qed.

Lemma run_record {A} (l : list A) acc : run (fun c s => Ok (s ++ [c])) l acc = Ok (acc ++ l).
Proof.
  revert acc. induction l as [|x l IH]; intros acc; simpl; [rewrite app_nil_r; reflexivity|].
  rewrite IH, <- app_assoc. reflexivity.
Qed.

Lemma run_until_record {A} (p : A -> bool) (l : list A) acc :
  exists calls, run_until (fun c s => Ok (p c, s ++ [c])) l acc = Ok (existsb p l, acc ++ calls) /\
    ((existsb p l = false /\ calls = l) \/
     (existsb p l = true /\ exists before hit rest,
        calls = before ++ [hit] /\ l = before ++ hit :: rest /\ p hit = true /\
        forall c, In c before -> p c = false)).
Proof.
  revert acc. induction l as [|x l IH]; intros acc; simpl.
  - exists []. rewrite app_nil_r. split; [reflexivity|]. left. split; reflexivity.
  - destruct (p x) eqn:E; simpl.
    + exists [x]. split; [reflexivity|]. right. split; [reflexivity|].
      exists [], x, l. repeat split; try assumption. intros c [].
    + destruct (IH (acc ++ [x])) as (calls & R & H). exists (x :: calls).
      rewrite R, <- app_assoc. split; [reflexivity|].
      destruct H as [[H1 H2]|(H1 & b & h & r & H2 & H3 & H4 & H5)].
      * left. split; [exact H1|]. f_equal; exact H2.
      * right. split; [exact H1|]. exists (x :: b), h, r. subst. repeat split; try assumption.
        intros c [<-|Hc]; [exact E|]. apply H5; exact Hc.
Qed.

Lemma for_until_first_l ds (p : list cint -> bool) : wfs ds -> nonnegs (vals ds) ->
  exists trace, visits_all ds trace /\
  exists found calls,
    for_until ds (fun c s => Ok (p c, s ++ [c])) [] = Ok (found, calls) /\
    (found = false -> calls = trace /\ forall c, In c trace -> p c = false) /\
    (found = true -> exists before hit rest,
        calls = before ++ [hit] /\ trace = before ++ hit :: rest /\ p hit = true /\
        forall c, In c before -> p c = false).
Proof.
  intros W P. exists (tbox ds). split; [apply tbox_visits; exact P|].
  rewrite for_until_run by assumption.
  destruct (run_until_record p (tbox ds) []) as (calls & R & H).
  exists (existsb p (tbox ds)), calls. split; [exact R|]. split; intros F; rewrite F in H.
  - destruct H as [[_ H]|[H _]]; [|discriminate]. split; [exact H|].
    intros c Hc. destruct (p c) eqn:E; [|reflexivity].
    assert (T : existsb p (tbox ds) = true) by (apply existsb_exists; eauto). congruence.
  - destruct H as [[H _]|[_ H]]; [discriminate|exact H].
Qed.
