(** Facts about function objects (C74). *)
From Coq Require Import ZArith List Bool Lia.
From Verif Require Import Outcome CInt CIntFacts Spec SpecFacts ShapeSpec Shape ShapeFacts ShapeFacts2
  ForEach ForEachSpec ForEachFacts Memory MemFacts Container ContainerSpec ContainerFacts ContainerFacts2
  ContainerFacts3 Algo AlgoSpec AlgoFacts AlgoFacts2 AlgoFacts3 AlgoFacts4 Search Calls CallSpec CallFacts CallFacts2
  Objects ObjectSpec.
Import ListNotations.
Open Scope Z_scope.

(** ** Lists of objects *)
Section Lists.
Context {Q : Type}.
Lemma set_length (os : list Q) : forall i q, length (set_object os i q) = length os.
Proof. induction os as [|x os IH]; intros [|i] q; cbn; auto. Qed.
Lemma set_same (os : list Q) : forall i q, (i < length os)%nat -> nth_error (set_object os i q) i = Some q.
Proof. induction os as [|x os IH]; intros [|i] q H; cbn in *; try lia; auto. apply IH. lia. Qed.
Lemma set_other (os : list Q) : forall i j q, i <> j -> nth_error (set_object os i q) j = nth_error os j.
Proof. induction os as [|x os IH]; intros [|i] [|j] q H; cbn in *; auto; try congruence. Qed.
Lemma set_set (os : list Q) : forall i q q', set_object (set_object os i q) i q' = set_object os i q'.
Proof. induction os as [|x os IH]; intros [|i] q q'; cbn; f_equal; auto. Qed.
Lemma set_id (os : list Q) : forall i q, nth_error os i = Some q -> set_object os i q = os.
Proof. induction os as [|x os IH]; intros [|i] q H; cbn in *; try discriminate; [congruence|]. f_equal. apply IH, H. Qed.
Lemma set_comm (os : list Q) : forall i j q q', i <> j ->
  set_object (set_object os i q) j q' = set_object (set_object os j q') i q.
Proof. induction os as [|x os IH]; intros [|i] [|j] q q' H; cbn; f_equal; auto; congruence. Qed.
Lemma nth_lt (os : list Q) i q : nth_error os i = Some q -> (i < length os)%nat.
Proof. intros H. apply nth_error_Some. congruence. Qed.

Lemma invoke_set {A R} (f : operator Q A R) os i : (i < length os)%nat -> forall a q,
  invoke f i a (set_object os i q) = (r <- call f a q ;; Ok (fst r, set_object os i (snd r))).
Proof.
  intros H a q. unfold invoke. rewrite set_same by exact H. destruct (call f a q) as [r| | |]; cbn [bind]; try reflexivity.
  rewrite set_set. reflexivity.
Qed.
Lemma copy_ok (os : list Q) i q : nth_error os i = Some q -> copy_object i os = Ok (os ++ [q], length os).
Proof. intros H. unfold copy_object. rewrite H. reflexivity. Qed.
Lemma app_last (os : list Q) q : nth_error (os ++ [q]) (length os) = Some q.
Proof. rewrite nth_error_app2 by lia. rewrite Nat.sub_diag. reflexivity. Qed.
Lemma app_lt (os : list Q) q i x : nth_error os i = Some x -> nth_error (os ++ [q]) i = Some x.
Proof. intros H. rewrite nth_error_app1 by (eapply nth_lt; exact H). exact H. Qed.
Lemma unaffected_copy (os : list Q) q q' : unaffected os (set_object (os ++ [q]) (length os) q').
Proof. intros i x H. rewrite set_other by (pose proof (nth_lt _ _ _ H); lia). apply app_lt, H. Qed.
Lemma changed_set (os : list Q) i q q' : nth_error os i = Some q -> only_changed i q' os (set_object os i q').
Proof. intros H. split; [apply set_same; eapply nth_lt; exact H|]. intros j x N Hx. rewrite set_other by congruence. exact Hx. Qed.
Lemma new_last (os os1 : list Q) q : (length os <= length os1)%nat -> new_object os (os1 ++ [q]) (length os1) q.
Proof. intros H. split; [exact H|apply app_last]. Qed.
End Lists.

(** ** Calls on a part of a state are calls on that part *)
Section Embed.
Context {Q S : Type} (emb : Q -> S).

Lemma map_calls_emb {A B} (f : A -> Q -> outcome (B * Q)) (g : A -> S -> outcome (B * S)) :
  (forall a q, g a (emb q) = (r <- f a q ;; Ok (fst r, emb (snd r)))) ->
  forall vs q, map_calls g vs (emb q) = (r <- map_calls f vs q ;; Ok (fst r, emb (snd r))).
Proof.
  intros H. induction vs as [|v vs IH]; intros q; [reflexivity|]. cbn [map_calls]. rewrite H.
  destruct (f v q) as [[b q1]| | |]; cbn [bind fst snd]; try reflexivity. rewrite IH.
  destruct (map_calls f vs q1) as [[bs q2]| | |]; reflexivity.
Qed.
Lemma fold_calls_emb {A V} (f : A -> V -> Q -> outcome (A * Q)) (g : A -> V -> S -> outcome (A * S)) :
  (forall a v q, g a v (emb q) = (r <- f a v q ;; Ok (fst r, emb (snd r)))) ->
  forall vs a q, fold_calls g vs a (emb q) = (r <- fold_calls f vs a q ;; Ok (fst r, emb (snd r))).
Proof.
  intros H. induction vs as [|v vs IH]; intros a q; [reflexivity|]. cbn [fold_calls]. rewrite H.
  destruct (f a v q) as [[a1 q1]| | |]; cbn [bind fst snd]; try reflexivity. apply IH.
Qed.
Lemma ask_until_emb {A} stop (f : A -> Q -> outcome (bool * Q)) (g : A -> S -> outcome (bool * S)) :
  (forall a q, g a (emb q) = (r <- f a q ;; Ok (fst r, emb (snd r)))) ->
  forall vs q, ask_until stop g vs (emb q) = (r <- ask_until stop f vs q ;; Ok (fst r, emb (snd r))).
Proof.
  intros H. induction vs as [|v vs IH]; intros q; [reflexivity|]. cbn [ask_until]. rewrite H.
  destruct (f v q) as [[b q1]| | |]; cbn [bind fst snd]; try reflexivity. destruct (Bool.eqb b stop); [reflexivity|apply IH].
Qed.
Lemma ask_first_emb {A} (f : A -> Q -> outcome (bool * Q)) (g : A -> S -> outcome (bool * S)) :
  (forall a q, g a (emb q) = (r <- f a q ;; Ok (fst r, emb (snd r)))) ->
  forall vs q, ask_first g vs (emb q) = (r <- ask_first f vs q ;; Ok (fst r, emb (snd r))).
Proof.
  intros H. induction vs as [|v vs IH]; intros q; [reflexivity|]. cbn [ask_first]. rewrite H.
  destruct (f v q) as [[[|] q1]| | |]; cbn [bind fst snd]; try reflexivity. rewrite IH.
  destruct (ask_first f vs q1) as [[k q2]| | |]; reflexivity.
Qed.
Lemma scan_calls_emb {A D V} (f1 : A -> D -> Q -> outcome (A * Q)) (g1 : A -> D -> S -> outcome (A * S))
    (f2 : V -> Q -> outcome (D * Q)) (g2 : V -> S -> outcome (D * S)) :
  (forall a d q, g1 a d (emb q) = (r <- f1 a d q ;; Ok (fst r, emb (snd r)))) ->
  (forall v q, g2 v (emb q) = (r <- f2 v q ;; Ok (fst r, emb (snd r)))) ->
  forall vs s q, scan_calls g1 g2 vs s (emb q) = (r <- scan_calls f1 f2 vs s q ;; Ok (fst r, emb (snd r))).
Proof.
  intros H1 H2. induction vs as [|v vs IH]; intros s q; [reflexivity|]. cbn [scan_calls]. rewrite H2.
  destruct (f2 v q) as [[d q1]| | |]; cbn [bind fst snd]; try reflexivity. rewrite H1.
  destruct (f1 s d q1) as [[s1 q2]| | |]; cbn [bind fst snd]; try reflexivity. rewrite IH.
  destruct (scan_calls f1 f2 vs s1 q2) as [[ss q3]| | |]; reflexivity.
Qed.
Lemma bisect_emb {T} dbg (f : T -> Q -> outcome (bool * Q)) (g : T -> S -> outcome (bool * S)) c m :
  (forall a q, g a (emb q) = (r <- f a q ;; Ok (fst r, emb (snd r)))) ->
  forall fuel count first it q, bisect_call dbg g c m fuel count first it (emb q) =
    (r <- bisect_call dbg f c m fuel count first it q ;; Ok (fst r, emb (snd r))).
Proof.
  intros H. induction fuel as [|n IH]; intros count first it q; cbn [bisect_call].
  - destruct (clt (int 0) count); reflexivity.
  - destruct (clt (int 0) count); [|reflexivity].
    destruct (cdiv count (int 2)) as [st| | |]; cbn [bind]; try reflexivity.
    destruct (cadd first st) as [it'| | |]; cbn [bind]; try reflexivity.
    destruct (coordinates dbg it' (c_shape c)) as [pos| | |]; cbn [bind]; try reflexivity.
    destruct (get m c pos) as [e| | |]; cbn [bind]; try reflexivity. rewrite H.
    destruct (f e q) as [[[|] q1]| | |]; cbn [bind fst snd]; try reflexivity; [|apply IH].
    destruct (cincr it') as [it2| | |]; cbn [bind]; try reflexivity.
    destruct (cadd st (int 1)) as [s1| | |]; cbn [bind]; try reflexivity.
    destruct (csub count s1) as [c1| | |]; cbn [bind]; try reflexivity. apply IH.
Qed.
Lemma lower_bound_emb {T} dbg (f : T -> T -> Q -> outcome (bool * Q)) (g : T -> T -> S -> outcome (bool * S)) c x m :
  (forall a b q, g a b (emb q) = (r <- f a b q ;; Ok (fst r, emb (snd r)))) ->
  forall q, lower_bound_call dbg g c x (emb q) m = (r <- lower_bound_call dbg f c x q m ;; Ok (fst r, emb (snd r))).
Proof.
  intros H q. unfold lower_bound_call. destruct (c_numel c) as [n| | |]; cbn [bind]; try reflexivity.
  destruct (ceqb n (int 0)); [reflexivity|].
  rewrite (bisect_emb dbg (fun e => f e x) (fun e => g e x)) by (intros; apply H).
  destruct (bisect_call dbg (fun e => f e x) c m (bisect_fuel n) n (int 0) (int 0) q) as [[fi q1]| | |]; cbn [bind fst snd]; try reflexivity.
  destruct (bound_result dbg c n fi) as [p| | |]; reflexivity.
Qed.
Lemma upper_bound_emb {T} dbg (f : T -> T -> Q -> outcome (bool * Q)) (g : T -> T -> S -> outcome (bool * S)) c x m :
  (forall a b q, g a b (emb q) = (r <- f a b q ;; Ok (fst r, emb (snd r)))) ->
  forall q, upper_bound_call dbg g c x (emb q) m = (r <- upper_bound_call dbg f c x q m ;; Ok (fst r, emb (snd r))).
Proof.
  intros H q. unfold upper_bound_call. destruct (c_numel c) as [n| | |]; cbn [bind]; try reflexivity.
  rewrite (bisect_emb dbg (fun e q => b <- f x e q ;; Ok (negb (fst b), snd b)) (fun e q => b <- g x e q ;; Ok (negb (fst b), snd b))).
  - destruct (bisect_call dbg _ c m (bisect_fuel n) n (int 0) (int 0) q) as [[fi q1]| | |]; cbn [bind fst snd]; try reflexivity.
    destruct (bound_result dbg c n fi) as [p| | |]; reflexivity.
  - intros a q'. rewrite H. destruct (f x a q') as [[b q1]| | |]; reflexivity.
Qed.
End Embed.

(** ** One object *)
Section One.
Context {T Q : Type}.
Implicit Types os : list Q.

Lemma agrees_bind {A A' B} (g : A -> A') (x : outcome A) (y : outcome B) P :
  agrees (r <- x ;; Ok (g r)) y P -> agrees x y (fun r => P (g r)).
Proof. destruct x; cbn [bind agrees]; auto. Qed.

Lemma transform_obj_l (f : operator Q (list T) T) i out c0 cs m rows os q : nth_error os i = Some q ->
  can_write m out out -> Forall (can_read m out) (c0 :: cs) ->
  Forall (fun i => no_cross_alias out i out) (c0 :: cs) -> arguments m out (c0 :: cs) rows ->
  agrees (map_calls (call f) rows q) (transform_obj f i out c0 cs os m)
    (fun r om => only_changed i (snd r) os (fst om) /\ values (snd om) out out (fst r) /\ frame out out m (snd om)).
Proof.
  intros Hq W R N A. pose proof (transform_call_l (invoke f i) out c0 cs m rows os W R N A) as H.
  rewrite <- (set_id os i q Hq) in H at 1.
  rewrite (map_calls_emb (set_object os i) (call f)) in H by (intros; apply invoke_set; eapply nth_lt; exact Hq).
  apply agrees_bind in H. eapply agrees_imp; [exact H|]. intros [bs q'] [os' m'] _. cbn [fst snd]. intros (-> & V & F).
  split; [eapply changed_set; exact Hq|]. auto.
Qed.

Lemma mapM_load m cs is_ (vs : list T) : Forall2 (fun c v => value m c is_ v) cs vs ->
  mapM (load m) (map (fun c => elem c is_) cs) = Ok vs.
Proof.
  induction 1 as [|c v cs vs H _ IH]; [reflexivity|]. cbn [map mapM]. rewrite (load_peek _ _ _ H), bind_ok, IH, bind_ok. reflexivity.
Qed.

Lemma for_each_obj_l (f : operator Q (list T) (option T)) i c0 cs m rows os q : nth_error os i = Some q ->
  can_write m c0 c0 -> Forall (can_read m c0) (c0 :: cs) -> Forall (fun i => no_cross_alias c0 i c0) (c0 :: cs) ->
  arguments m c0 (c0 :: cs) rows ->
  agrees (map_calls (call f) rows q) (for_each_obj f i c0 cs os m)
    (fun r omj => only_changed i (snd r) os (fst (fst omj)) /\ new_object os (fst (fst omj)) (snd omj) (snd r) /\
       written m c0 c0 (fst r) (snd (fst omj)) /\ frame c0 c0 m (snd (fst omj))).
Proof.
  intros Hq W R N A.
  pose proof (map_containers_calls c0 c0 cs (c0 :: cs) m (invoke f i)
    (fun ps om => match ps with
                  | o :: _ => vs <- mapM (load (snd om)) ps ;; r <- invoke f i vs (fst om) ;;
                              match fst r with
                              | Some v => put o v (snd r) (snd om)
                              | None => Ok (snd r, snd om)
                              end
                  | [] => UB
                  end) rows os) as H.
  assert (H' := H (can_write_live _ _ _ W) (live_all _ _ _ (Forall_inv_tail R)) (proj1 (proj2 (proj2 W))) (proj2 (proj2 (proj2 W))) N A).
  clear H. assert (G : forall is_ m' vs s, in_box (dims c0) is_ -> same_cells m m' -> Forall2 (fun c v => value m' c is_ v) (c0 :: cs) vs ->
     (vs <- mapM (load m') (map (fun c => elem c is_) (c0 :: cs)) ;; r <- invoke f i vs s ;;
       match fst r with Some v => put (elem c0 is_) v (snd r) m' | None => Ok (snd r, m') end) =
     (r <- invoke f i vs s ;; Ok (snd r, match fst r with Some v => upd m' (elem c0 is_) v | None => m' end))).
  { intros is_ m' vs s B Sm Hv. rewrite (mapM_load _ _ _ _ Hv), bind_ok.
    destruct (invoke f i vs s) as [[[v|] s1]| | |]; cbn [bind fst snd]; try reflexivity.
    unfold put. rewrite store_valid by (apply Sm; apply W; exact B). reflexivity. }
  specialize (H' G). rewrite <- (set_id os i q Hq) in H' at 1.
  rewrite (map_calls_emb (set_object os i) (call f)) in H' by (intros; apply invoke_set; eapply nth_lt; exact Hq).
  apply agrees_bind in H'.
  match type of H' with agrees _ ?y _ =>
    change (for_each_obj f i c0 cs os m) with (' (os1, m1) <- y ;; ' (os2, j) <- copy_object i os1 ;; Ok ((os2, m1), j));
    destruct (map_calls (call f) rows q) as [[ws q']| | |], y as [[os' m']| | |]
  end; cbn [agrees bind fst snd] in *; try contradiction; try exact I. destruct H' as (-> & Hw & Hf).
  assert (E : nth_error (set_object os i q') i = Some q') by (apply set_same; eapply nth_lt; exact Hq).
  rewrite (copy_ok _ _ _ E). cbn [bind agrees fst snd]. split; [|split; [apply new_last; rewrite set_length; lia|auto]].
  split; [apply app_lt, E|]. intros j x Nj Hx. apply app_lt. rewrite set_other by congruence. exact Hx.
Qed.

Lemma run_map_calls {A B S} (g : A -> S -> outcome (B * S)) l : forall s,
  run (fun a s => r <- g a s ;; Ok (snd r)) l s = (r <- map_calls g l s ;; Ok (snd r)).
Proof.
  induction l as [|a l IH]; intros s; [reflexivity|]. cbn [run map_calls]. destruct (g a s) as [[b s1]| | |]; cbn [bind snd]; try reflexivity.
  rewrite IH. destruct (map_calls g l s1) as [[bs s2]| | |]; reflexivity.
Qed.

Lemma for_each_shape_on_l (f : operator Q (list cint) unit) i sh os q : nth_error os i = Some q -> wfs sh -> nonnegs (vals sh) ->
  exists trace, visits_all sh trace /\
  agrees (map_calls (call f) trace q) (for_each_shape_on f i sh os)
    (fun r oj => unaffected os (fst oj) /\ new_object os (fst oj) (snd oj) (snd r)) /\
  agrees (map_calls (call f) trace q) (for_each_shape_obj f i sh os) (fun r os' => unaffected os os').
Proof.
  intros Hq W N. exists (tbox sh). split; [apply tbox_visits; exact N|].
  assert (H : agrees (map_calls (call f) (tbox sh) q) (for_each_shape_on f i sh os)
    (fun r oj => unaffected os (fst oj) /\ new_object os (fst oj) (snd oj) (snd r))).
  { unfold for_each_shape_on. rewrite (copy_ok _ _ _ Hq), bind_ok. rewrite for_each_run by assumption. rewrite run_map_calls.
    rewrite <- (set_id (os ++ [q]) (length os) q (app_last os q)) at 1.
    rewrite (map_calls_emb (set_object (os ++ [q]) (length os)) (call f)) by (intros; apply invoke_set; rewrite app_length; cbn; lia).
    destruct (map_calls (call f) (tbox sh) q) as [[us q']| | |]; cbn [bind agrees fst snd]; try exact I.
    assert (E : nth_error (set_object (os ++ [q]) (length os) q') (length os) = Some q') by (apply set_same; rewrite app_length; cbn; lia).
    rewrite (copy_ok _ _ _ E). cbn [agrees fst snd]. split; [|apply new_last; rewrite set_length, app_length; lia].
    intros k x Hx. apply app_lt. apply unaffected_copy. exact Hx. }
  split; [exact H|]. unfold for_each_shape_obj.
  destruct (map_calls (call f) (tbox sh) q) as [r| | |], (for_each_shape_on f i sh os) as [[os' j]| | |]; cbn [agrees bind] in *; try contradiction; try exact I.
  apply H.
Qed.
End One.

Section Index.
Context {T Q : Type}.
Implicit Types os : list Q.

Lemma index_loop (f : operator Q (T * list cint) (option T)) i c m vs os q : nth_error os i = Some q ->
  can_write m c c -> can_read m c c -> values m c c vs ->
  agrees (map_calls (call f) (combine vs (tbox (c_shape c))) q)
    (for_each_index
      (fun o is_ om => v <- load (snd om) o ;; r <- invoke f i (v, is_) (fst om) ;;
                       match fst r with
                       | Some v' => put o v' (snd r) (snd om)
                       | None => Ok (snd r, snd om)
                       end) c (os, m))
    (fun r om => fst om = set_object os i (snd r) /\ written m c c (fst r) (snd om) /\ frame c c m (snd om)).
Proof.
  intros Hq CW CR V. pose proof (can_write_live _ _ _ CW) as L. destruct (live_wf m c L) as [W N].
  unfold for_each_index. rewrite for_each_run by assumption.
  set (step := fun (t : list cint) (vs : list T) (s : list Q) => match vs with v :: _ => invoke f i (v, t) s | [] => UB end).
  set (body := fun (is_ : list cint) (sm : list Q * mem T) => p <- ref (snd sm) c is_ ;; v <- load (snd sm) p ;;
    r <- invoke f i (v, is_) (fst sm) ;; match fst r with Some v' => put p v' (snd r) (snd sm) | None => Ok (snd r, snd sm) end).
  assert (Na : Forall (fun i => no_cross_alias c i c) [c]) by (constructor; [apply distinct_no_cross; apply CW|constructor]).
  assert (Hb : forall t m' (vs : list T) s, wfs t -> map cty t = ctypes c -> in_box (dims c) (vals t) ->
    same_cells m m' -> Forall2 (fun c v => value m' c (vals t) v) [c] vs ->
    body t (s, m') = (r <- step t vs s ;; Ok (snd r, match fst r with Some v => upd m' (elem c (vals t)) v | None => m' end))).
  { intros t m' us s Wt Ty Bt Sm Hv. unfold body, step. destruct (Forall2_1 _ _ _ Hv) as (v & -> & Hv1). cbn [fst snd].
    rewrite (ref_at m m' c c t) by assumption. rewrite bind_ok, (load_peek _ _ _ Hv1), bind_ok.
    destruct (invoke f i (v, t) s) as [[[w|] s1]| | |]; cbn [bind fst snd]; try reflexivity.
    unfold put. rewrite store_valid by (apply Sm; apply CW; exact Bt). reflexivity. }
  pose proof (run_calls c c [c] m step body (proj1 (proj2 (proj2 CW))) (proj2 (proj2 (proj2 CW))) Na Hb
    (tbox (c_shape c)) (map (fun v => [v]) vs) os m (tbox_ready c W) (tbox_nodup c N) (same_refl m)) as R.
  pose proof (values_arguments m c c vs V) as Ar. unfold arguments, dims in Ar. rewrite <- tbox_vals in Ar. apply Forall2_map_l in Ar.
  specialize (R Ar).
  assert (E : forall l us s, map_calls (fun p s => step (fst p) (snd p) s) (combine l (map (fun v => [v]) us)) s =
    map_calls (invoke f i) (combine us l) s).
  { induction l as [|t l IH]; intros [|u us] s; try reflexivity. cbn [map combine map_calls fst snd]. unfold step at 1.
    destruct (invoke f i (u, t) s) as [[w s1]| | |]; cbn [bind]; try reflexivity. rewrite IH. reflexivity. }
  rewrite E in R. rewrite <- (set_id os i q Hq) in R at 1.
  rewrite (map_calls_emb (set_object os i) (call f)) in R by (intros; apply invoke_set; eapply nth_lt; exact Hq).
  apply agrees_bind in R. eapply agrees_imp; [exact R|]. intros [ws q1] [os2 m2] _. cbn [fst snd]. intros (E1 & Hw & Hs & Hf).
  split; [exact E1|]. split; [|split; [exact Hs|]].
  - unfold written, dims. rewrite <- tbox_vals. apply Forall2_map_l. exact Hw.
  - intros p Hp. apply Hf. intros t Ht. apply Hp. apply box_In. unfold dims. rewrite <- tbox_vals. apply in_map. exact Ht.
Qed.

Lemma for_each_index_on_l (f : operator Q (T * list cint) (option T)) i c m vs os q : nth_error os i = Some q ->
  can_write m c c -> can_read m c c -> values m c c vs ->
  agrees (map_calls (call f) (combine vs (tbox (c_shape c))) q) (for_each_index_on f i c os m)
    (fun r omj => only_changed i (snd r) os (fst (fst omj)) /\ new_object os (fst (fst omj)) (snd omj) (snd r) /\
       written m c c (fst r) (snd (fst omj)) /\ frame c c m (snd (fst omj))).
Proof.
  intros Hq CW CR V. pose proof (index_loop f i c m vs os q Hq CW CR V) as H.
  match type of H with agrees _ ?y _ =>
    change (for_each_index_on f i c os m) with (' (os1, m1) <- y ;; ' (os2, j) <- copy_object i os1 ;; Ok ((os2, m1), j));
    destruct (map_calls (call f) (combine vs (tbox (c_shape c))) q) as [[ws q']| | |], y as [[os' m']| | |]
  end; cbn [agrees bind fst snd] in *; try contradiction; try exact I. destruct H as (-> & Hw & Hf).
  assert (E : nth_error (set_object os i q') i = Some q') by (apply set_same; eapply nth_lt; exact Hq).
  rewrite (copy_ok _ _ _ E). cbn [bind agrees fst snd]. split; [|split; [apply new_last; rewrite set_length; lia|auto]].
  split; [apply app_lt, E|]. intros j x Nj Hx. apply app_lt. rewrite set_other by congruence. exact Hx.
Qed.

Lemma for_each_index_l (f : operator Q (T * list cint) (option T)) i c m vs os q : nth_error os i = Some q ->
  can_write m c c -> can_read m c c -> values m c c vs ->
  exists trace, visits_all (c_shape c) trace /\
  agrees (map_calls (call f) (combine vs trace) q) (for_each_index_on f i c os m)
    (fun r omj => only_changed i (snd r) os (fst (fst omj)) /\ new_object os (fst (fst omj)) (snd omj) (snd r) /\
       written m c c (fst r) (snd (fst omj)) /\ frame c c m (snd (fst omj))) /\
  agrees (map_calls (call f) (combine vs trace) q) (for_each_index_obj f i c os m)
    (fun r omj => unaffected os (fst (fst omj)) /\ new_object os (fst (fst omj)) (snd omj) (snd r) /\
       written m c c (fst r) (snd (fst omj)) /\ frame c c m (snd (fst omj))).
Proof.
  intros Hq CW CR V. destruct (live_wf m c (can_write_live _ _ _ CW)) as [W N].
  exists (tbox (c_shape c)). split; [apply tbox_visits; exact N|]. split; [apply for_each_index_on_l; assumption|].
  unfold for_each_index_obj. rewrite (copy_ok _ _ _ Hq), bind_ok.
  eapply agrees_imp; [apply (for_each_index_on_l f (length os) c m vs (os ++ [q]) q); auto; apply app_last|].
  intros [ws q'] [[os' m'] j] _. cbn [fst snd]. intros ([_ O] & R). split; [|destruct R as ([Hj Ej] & R); split; [split; [rewrite app_length in Hj; lia|exact Ej]|exact R]].
  intros k x Hx. apply O; [pose proof (nth_lt _ _ _ Hx); lia|apply app_lt, Hx].
Qed.
End Index.

(** ** Objects taken by value *)
Section Value.
Context {T Q : Type}.
Implicit Types os : list Q.

Lemma copied os q : (length os < length (os ++ [q]))%nat. Proof. rewrite app_length. cbn. lia. Qed.

Lemma reduce_obj_l {A} c (f : operator Q (A * T) A) i init os q m vs : nth_error os i = Some q -> can_read m c c -> values m c c vs ->
  agrees (fold_calls (fun a v => call f (a, v)) vs init q) (reduce_obj c f i init os m)
    (fun r aom => fst (fst aom) = fst r /\ snd aom = m /\ unaffected os (snd (fst aom))).
Proof.
  intros Hq CR V. unfold reduce_obj. rewrite (copy_ok _ _ _ Hq), bind_ok. rewrite (reduce_call_l c _ init _ m vs CR V).
  rewrite <- (set_id (os ++ [q]) (length os) q (app_last os q)) at 1.
  rewrite (fold_calls_emb (set_object (os ++ [q]) (length os)) (fun a v => call f (a, v))) by (intros; apply invoke_set; apply copied).
  destruct (fold_calls (fun a v => call f (a, v)) vs init q) as [[a q']| | |]; cbn [bind agrees fst snd]; try exact I.
  split; [reflexivity|]. split; [reflexivity|apply unaffected_copy].
Qed.

Lemma find_if_obj_l c (f : operator Q T bool) i os q m vs : nth_error os i = Some q -> can_read m c c ->
  Forall (fun n => n <= 2147483648) (dims c) -> values m c c vs ->
  agrees (ask_first (call f) vs q) (find_if_obj c f i os m)
    (fun r p => found_at (c_shape c) (box (dims c)) (fst r) (fst p) /\ unaffected os (snd p)).
Proof.
  intros Hq CR L V. unfold find_if_obj. rewrite (copy_ok _ _ _ Hq), bind_ok.
  pose proof (find_if_call_l c (invoke f (length os)) (os ++ [q]) m vs CR L V) as H.
  rewrite <- (set_id (os ++ [q]) (length os) q (app_last os q)) in H at 1.
  rewrite (ask_first_emb (set_object (os ++ [q]) (length os)) (call f)) in H by (intros; apply invoke_set; apply copied).
  apply agrees_bind in H. eapply agrees_imp; [exact H|]. intros [k q'] [p os'] _. cbn [fst snd]. intros (-> & F).
  split; [exact F|apply unaffected_copy].
Qed.
Lemma find_last_if_obj_l st c (f : operator Q T bool) i os q m vs : nth_error os i = Some q ->
  default_layout c -> Forall (fun n => cty n <> U32) (c_shape c) -> readable m c -> values m c c vs ->
  agrees (ask_first (call f) (rev vs) q) (find_last_if_obj st c f i os m)
    (fun r p => found_at (c_shape c) (rev (box (dims c))) (fst r) (fst p) /\ unaffected os (snd p)).
Proof.
  intros Hq D Sg R V. unfold find_last_if_obj. rewrite (copy_ok _ _ _ Hq), bind_ok.
  pose proof (find_last_if_call_l st c (invoke f (length os)) (os ++ [q]) m vs D Sg R V) as H.
  rewrite <- (set_id (os ++ [q]) (length os) q (app_last os q)) in H at 1.
  rewrite (ask_first_emb (set_object (os ++ [q]) (length os)) (call f)) in H by (intros; apply invoke_set; apply copied).
  apply agrees_bind in H. eapply agrees_imp; [exact H|]. intros [k q'] [p os'] _. cbn [fst snd]. intros (-> & F).
  split; [exact F|apply unaffected_copy].
Qed.

Lemma agrees_of_emb {A B} (x : outcome (A * Q)) (emb : Q -> B) (P : A * Q -> A * B -> Prop) : (forall r q', P (r, q') (r, emb q')) ->
  agrees x (r <- x ;; Ok (fst r, emb (snd r))) P.
Proof. intros H. destruct x as [[r q']| | |]; cbn [bind agrees fst snd]; auto. Qed.

Lemma lower_bound_obj_l dbg (f : operator Q (T * T) bool) i c x os q m : nth_error os i = Some q ->
  agrees (lower_bound_call dbg (fun a b => call f (a, b)) c x q m) (lower_bound_obj dbg f i c x os m)
    (fun r p => fst p = fst r /\ unaffected os (snd p)).
Proof.
  intros Hq. unfold lower_bound_obj. rewrite (copy_ok _ _ _ Hq), bind_ok.
  rewrite <- (set_id (os ++ [q]) (length os) q (app_last os q)) at 1.
  rewrite (lower_bound_emb (set_object (os ++ [q]) (length os)) dbg (fun a b => call f (a, b))) by (intros; apply invoke_set; apply copied).
  apply agrees_of_emb. intros r q'. split; [reflexivity|apply unaffected_copy].
Qed.
Lemma upper_bound_obj_l dbg (f : operator Q (T * T) bool) i c x os q m : nth_error os i = Some q ->
  agrees (upper_bound_call dbg (fun a b => call f (a, b)) c x q m) (upper_bound_obj dbg f i c x os m)
    (fun r p => fst p = fst r /\ unaffected os (snd p)).
Proof.
  intros Hq. unfold upper_bound_obj. rewrite (copy_ok _ _ _ Hq), bind_ok.
  rewrite <- (set_id (os ++ [q]) (length os) q (app_last os q)) at 1.
  rewrite (upper_bound_emb (set_object (os ++ [q]) (length os)) dbg (fun a b => call f (a, b))) by (intros; apply invoke_set; apply copied).
  apply agrees_of_emb. intros r q'. split; [reflexivity|apply unaffected_copy].
Qed.
Lemma binary_search_obj_l dbg (f : operator Q (T * T) bool) i c x os q m : nth_error os i = Some q ->
  agrees (first <- lower_bound_call dbg (fun a b => call f (a, b)) c x q m ;;
          match fst first with
          | None => Ok false
          | Some pos => e <- get m c pos ;; r <- call f (x, e) q ;; Ok (negb (fst r))
          end)
    (binary_search_obj dbg f i c x os m) (fun b p => fst p = b /\ unaffected os (snd p)).
Proof.
  intros Hq. unfold binary_search_obj. rewrite (copy_ok _ _ _ Hq), bind_ok.
  pose proof (lower_bound_obj_l dbg f (length os) c x (os ++ [q]) q m (app_last os q)) as H.
  destruct (lower_bound_call dbg (fun a b => call f (a, b)) c x q m) as [[first q1]| | |],
    (lower_bound_obj dbg f (length os) c x (os ++ [q]) m) as [[first' os2]| | |]; cbn [agrees bind fst snd] in *; try contradiction; try exact I.
  destruct H as [-> U]. assert (U0 : unaffected os os2) by (intros k y Hy; apply U, app_lt, Hy).
  destruct first as [pos|]; [|cbn [agrees fst snd]; auto].
  destruct (get m c pos) as [e| | |]; cbn [bind agrees]; try exact I.
  unfold invoke. rewrite (U _ _ (app_last os q)). destruct (call f (x, e) q) as [[b q2]| | |]; cbn [bind agrees fst snd]; try exact I.
  split; [reflexivity|]. intros k y Hy. rewrite set_other by (pose proof (nth_lt _ _ _ Hy); lia). apply U0, Hy.
Qed.
End Value.

(** ** Two objects taken by value *)
Section Two.
Context {T Q : Type}.
Implicit Types os : list Q.

Definition emb2 os (q1 q2 : Q) (s : Q * Q) : list Q :=
  set_object (set_object ((os ++ [q1]) ++ [q2]) (length os) (fst s)) (S (length os)) (snd s).
Lemma emb2_len os q1 q2 s : length (emb2 os q1 q2 s) = S (S (length os)).
Proof. unfold emb2. rewrite !set_length, !app_length. cbn. lia. Qed.
Lemma emb2_start os q1 q2 : (os ++ [q1]) ++ [q2] = emb2 os q1 q2 (q1, q2).
Proof.
  unfold emb2. cbn [fst snd]. rewrite (set_id _ (length os) q1) by (apply app_lt, app_last).
  symmetry. apply set_id. replace (S (length os)) with (length (os ++ [q1])) by (rewrite app_length; cbn; lia). apply app_last.
Qed.
Lemma emb2_first {A R} (f : operator Q A R) os q1 q2 a s :
  invoke f (length os) a (emb2 os q1 q2 s) = (r <- with_first (call f) a s ;; Ok (fst r, emb2 os q1 q2 (snd r))).
Proof.
  unfold emb2 at 1. rewrite set_comm by lia. rewrite invoke_set by (rewrite set_length, !app_length; cbn; lia).
  unfold with_first. destruct (call f a (fst s)) as [[r q]| | |]; cbn [bind fst snd]; try reflexivity.
  unfold emb2. cbn [fst snd]. rewrite set_comm by lia. reflexivity.
Qed.
Lemma emb2_second {A R} (f : operator Q A R) os q1 q2 a s :
  invoke f (S (length os)) a (emb2 os q1 q2 s) = (r <- with_second (call f) a s ;; Ok (fst r, emb2 os q1 q2 (snd r))).
Proof.
  unfold emb2 at 1. rewrite invoke_set by (rewrite set_length, !app_length; cbn; lia).
  unfold with_second. destruct (call f a (snd s)) as [[r q]| | |]; cbn [bind fst snd]; reflexivity.
Qed.
Lemma emb2_unaffected os q1 q2 s : unaffected os (emb2 os q1 q2 s).
Proof.
  intros i x H. pose proof (nth_lt _ _ _ H). unfold emb2. rewrite !set_other by lia. apply app_lt, app_lt, H.
Qed.
Lemma copies os i k q1 q2 : nth_error os i = Some q1 -> nth_error os k = Some q2 ->
  copy_object i os = Ok (os ++ [q1], length os) /\
  copy_object k (os ++ [q1]) = Ok (emb2 os q1 q2 (q1, q2), S (length os)).
Proof.
  intros H1 H2. split; [apply copy_ok, H1|]. rewrite <- emb2_start. rewrite (copy_ok _ _ q2) by (apply app_lt, H2).
  rewrite app_length. cbn [length]. rewrite Nat.add_1_r. reflexivity.
Qed.

Section Reduce.
Context {A B : Type} (R : operator Q (A * B) A) (F : operator Q (T * T) B).
Definition pair_step (a : A) (p : T * T) (s : Q * Q) : outcome (A * (Q * Q)) :=
  d <- with_second (call F) p s ;; with_first (call R) (a, fst d) (snd d).
Lemma pair_step_emb os q1 q2 a p s :
  (d <- invoke F (S (length os)) (fst p, snd p) (emb2 os q1 q2 s) ;; invoke R (length os) (a, fst d) (snd d)) =
  (r <- pair_step a p s ;; Ok (fst r, emb2 os q1 q2 (snd r))).
Proof.
  rewrite <- surjective_pairing. rewrite emb2_second. unfold pair_step.
  destruct (with_second (call F) p s) as [[d s1]| | |]; cbn [bind fst snd]; try reflexivity. rewrite emb2_first. reflexivity.
Qed.

Lemma transform_reduce_obj_l c1 c2 init i k os q1 q2 m vs1 vs2 : nth_error os i = Some q1 -> nth_error os k = Some q2 ->
  can_read m c1 c1 -> can_read m c1 c2 -> values m c1 c1 vs1 -> values m c1 c2 vs2 ->
  agrees (fold_calls pair_step (combine vs1 vs2) init (q1, q2)) (transform_reduce_obj c1 c2 init R i F k os m)
    (fun r aom => fst (fst aom) = fst r /\ snd aom = m /\ unaffected os (snd (fst aom))).
Proof.
  intros H1 H2 CR1 CR2 V1 V2. unfold transform_reduce_obj. destruct (copies os i k q1 q2 H1 H2) as [E1 E2].
  rewrite E1, bind_ok, E2, bind_ok. rewrite (transform_reduce_call_l c1 c2 init _ _ _ m vs1 vs2) by assumption.
  rewrite (fold_calls_emb (emb2 os q1 q2) pair_step) by (intros; apply pair_step_emb).
  destruct (fold_calls pair_step (combine vs1 vs2) init (q1, q2)) as [[a s]| | |]; cbn [bind agrees fst snd]; try exact I.
  split; [reflexivity|]. split; [reflexivity|apply emb2_unaffected].
Qed.
Lemma inner_product_obj_l dbg c1 c2 init i k os q1 q2 m vs1 vs2 : nth_error os i = Some q1 -> nth_error os k = Some q2 ->
  can_read m c1 c1 -> can_read m c1 c2 -> values m c1 c1 vs1 -> values m c1 c2 vs2 ->
  legal (c_shape c1) -> legal (c_shape c2) -> c_shape c1 <> [] -> dims c1 = dims c2 ->
  agrees (fold_calls pair_step (combine vs1 vs2) init (q1, q2)) (inner_product_obj dbg c1 c2 init R i F k os m)
    (fun r aom => fst (fst aom) = fst r /\ snd aom = m /\ unaffected os (snd (fst aom))).
Proof.
  intros H1 H2 CR1 CR2 V1 V2 L1 L2 Ne D. unfold inner_product_obj. destruct (copies os i k q1 q2 H1 H2) as [E1 E2].
  rewrite E1, bind_ok, E2, bind_ok. rewrite (inner_product_call_l dbg c1 c2 init _ _ _ m vs1 vs2) by assumption.
  rewrite (fold_calls_emb (emb2 os q1 q2) pair_step) by (intros; apply pair_step_emb).
  destruct (fold_calls pair_step (combine vs1 vs2) init (q1, q2)) as [[a s]| | |]; cbn [bind agrees fst snd]; try exact I.
  split; [reflexivity|]. split; [reflexivity|apply emb2_unaffected].
Qed.
End Reduce.

Section Scan.
Context {B : Type} (f1 : operator Q (T * B) T) (f2 : operator Q T B).
Lemma scan_emb os q1 q2 vs init :
  scan_calls (fun a b => invoke f1 (length os) (a, b)) (invoke f2 (S (length os))) vs init (emb2 os q1 q2 (q1, q2)) =
  (r <- scan_calls (fun a b => with_first (call f1) (a, b)) (with_second (call f2)) vs init (q1, q2) ;;
   Ok (fst r, emb2 os q1 q2 (snd r))).
Proof. apply (scan_calls_emb (emb2 os q1 q2)); intros; [apply emb2_first|apply emb2_second]. Qed.

Lemma inclusive_obj_l in_ out init i k os q1 q2 m vs : nth_error os i = Some q1 -> nth_error os k = Some q2 ->
  can_read m in_ in_ -> can_write m in_ out -> no_cross_alias in_ in_ out -> values m in_ in_ vs ->
  agrees (scan_calls (fun a b => with_first (call f1) (a, b)) (with_second (call f2)) vs init (q1, q2))
    (inclusive_scan_obj in_ out init f1 i f2 k os m)
    (fun r sm => unaffected os (snd (fst sm)) /\ values (snd sm) in_ out (fst r) /\ frame in_ out m (snd sm)).
Proof.
  intros H1 H2 CR CW NA V. unfold inclusive_scan_obj. destruct (copies os i k q1 q2 H1 H2) as [E1 E2].
  rewrite E1, bind_ok, E2, bind_ok.
  pose proof (inclusive_call_l in_ out init (fun a b => invoke f1 (length os) (a, b)) (invoke f2 (S (length os)))
    (emb2 os q1 q2 (q1, q2)) m vs CR CW NA V) as H.
  rewrite scan_emb in H. apply agrees_bind in H. eapply agrees_imp; [exact H|].
  intros [ws s] [[a os'] m'] _. cbn [fst snd]. intros (-> & R). split; [apply emb2_unaffected|exact R].
Qed.
Lemma exclusive_obj_l in_ out init i k os q1 q2 m vs : nth_error os i = Some q1 -> nth_error os k = Some q2 ->
  can_read m in_ in_ -> can_write m in_ out -> no_alias in_ in_ out -> values m in_ in_ vs ->
  agrees (scan_calls (fun a b => with_first (call f1) (a, b)) (with_second (call f2)) vs init (q1, q2))
    (exclusive_scan_obj in_ out init f1 i f2 k os m)
    (fun r sm => unaffected os (snd (fst sm)) /\ values (snd sm) in_ out (firstn (length vs) (init :: fst r)) /\
       frame in_ out m (snd sm)).
Proof.
  intros H1 H2 CR CW NA V. unfold exclusive_scan_obj. destruct (copies os i k q1 q2 H1 H2) as [E1 E2].
  rewrite E1, bind_ok, E2, bind_ok.
  pose proof (exclusive_call_l in_ out init (fun a b => invoke f1 (length os) (a, b)) (invoke f2 (S (length os)))
    (emb2 os q1 q2 (q1, q2)) m vs CR CW NA V) as H.
  rewrite scan_emb in H. apply agrees_bind in H. eapply agrees_imp; [exact H|].
  intros [ws s] [[a os'] m'] _. cbn [fst snd]. intros (-> & R). split; [apply emb2_unaffected|exact R].
Qed.
End Scan.
End Two.

(** ** Objects whose operator must be const *)
Section Const.
Context {T Q : Type}.
Implicit Types os : list Q.

Lemma constant_calls_l {A R} (f : A -> Q -> outcome R) : forall vs q,
  map_calls (call (Constant f)) vs q = (ws <- mapM (fun v => f v q) vs ;; Ok (ws, q)).
Proof.
  induction vs as [|v vs IH]; intros q; [reflexivity|]. cbn [map_calls mapM call]. destruct (f v q); cbn [bind]; try reflexivity.
  rewrite IH. destruct (mapM (fun v => f v q) vs); reflexivity.
Qed.

Lemma start_copy os i q : nth_error os i = Some q ->
  copy_object i os = Ok (set_object (os ++ [q]) (length os) q, length os).
Proof. intros H. rewrite (set_id (os ++ [q]) (length os) q (app_last os q)). apply copy_ok, H. Qed.

Lemma generate_obj_l (f : list cint -> Q -> outcome T) i out os q m : nth_error os i = Some q -> can_write m out out ->
  exists trace, visits_all (c_shape out) trace /\
  agrees (map_calls (call (Constant f)) trace q) (generate_obj (Constant f) i out os m)
    (fun r om => unaffected os (fst om) /\ values (snd om) out out (fst r) /\ frame out out m (snd om)).
Proof.
  intros Hq CW. unfold generate_obj. cbn [is_const]. rewrite bind_ok, (start_copy _ _ _ Hq), bind_ok.
  destruct (generate_call_l (invoke (Constant f) (length os)) out m (set_object (os ++ [q]) (length os) q) CW) as (tr & Vt & H).
  exists tr. split; [exact Vt|].
  rewrite (map_calls_emb (set_object (os ++ [q]) (length os)) (call (Constant f))) in H by (intros; apply invoke_set, copied).
  apply agrees_bind in H. eapply agrees_imp; [exact H|]. intros [ws q'] [os' m'] _. cbn [fst snd]. intros (-> & R).
  split; [apply unaffected_copy|exact R].
Qed.
Lemma copy_if_obj_l (f : T -> Q -> outcome bool) i out in_ os q m vs : nth_error os i = Some q ->
  can_write m out out -> can_read m out in_ -> no_cross_alias out in_ out -> values m out in_ vs ->
  agrees (map_calls (call (Constant f)) vs q) (copy_if_obj (Constant f) i out in_ os m)
    (fun r om => unaffected os (fst om) /\ frame out out m (snd om) /\
       written m out out (map (fun p : T * bool => if snd p then Some (fst p) else None) (combine vs (fst r))) (snd om)).
Proof.
  intros Hq CW CR NA V. unfold copy_if_obj. cbn [is_const]. rewrite bind_ok, (start_copy _ _ _ Hq), bind_ok.
  pose proof (copy_if_call_l (invoke (Constant f) (length os)) out in_ m vs (set_object (os ++ [q]) (length os) q) CW CR NA V) as H.
  rewrite (map_calls_emb (set_object (os ++ [q]) (length os)) (call (Constant f))) in H by (intros; apply invoke_set, copied).
  apply agrees_bind in H. eapply agrees_imp; [exact H|]. intros [ws q'] [os' m'] _. cbn [fst snd]. intros (-> & R).
  split; [apply unaffected_copy|exact R].
Qed.
Lemma replace_if_obj_l (f : T -> Q -> outcome bool) i x out os q m vs : nth_error os i = Some q ->
  can_write m out out -> can_read m out out -> values m out out vs ->
  agrees (map_calls (call (Constant f)) vs q) (replace_if_obj out (Constant f) i x os m)
    (fun r om => unaffected os (fst om) /\ frame out out m (snd om) /\
       written m out out (map (fun b : bool => if b then Some x else None) (fst r)) (snd om)).
Proof.
  intros Hq CW CR V. unfold replace_if_obj. cbn [is_const]. rewrite bind_ok, (start_copy _ _ _ Hq), bind_ok.
  pose proof (replace_if_call_l (invoke (Constant f) (length os)) x out m vs (set_object (os ++ [q]) (length os) q) CW CR V) as H.
  rewrite (map_calls_emb (set_object (os ++ [q]) (length os)) (call (Constant f))) in H by (intros; apply invoke_set, copied).
  apply agrees_bind in H. eapply agrees_imp; [exact H|]. intros [ws q'] [os' m'] _. cbn [fst snd]. intros (-> & R).
  split; [apply unaffected_copy|exact R].
Qed.

Lemma predicates_obj_l c (f : T -> Q -> outcome bool) i os q m vs : nth_error os i = Some q -> can_read m c c -> values m c c vs ->
  agrees (ask_until false (call (Constant f)) vs q) (all_of_obj c (Constant f) i os m)
    (fun r bom => fst (fst bom) = negb (fst r) /\ snd bom = m /\ unaffected os (snd (fst bom))) /\
  agrees (ask_until true (call (Constant f)) vs q) (any_of_obj c (Constant f) i os m)
    (fun r bom => fst (fst bom) = fst r /\ snd bom = m /\ unaffected os (snd (fst bom))) /\
  agrees (ask_until true (call (Constant f)) vs q) (none_of_obj c (Constant f) i os m)
    (fun r bom => fst (fst bom) = negb (fst r) /\ snd bom = m /\ unaffected os (snd (fst bom))) /\
  (prod (dims c) < 2 ^ 64 ->
   agrees (map_calls (call (Constant f)) vs q) (count_if_obj c (Constant f) i os m)
     (fun r bom => fst (fst bom) = yes (fst r) /\ snd bom = m /\ unaffected os (snd (fst bom)))).
Proof.
  intros Hq CR V. unfold all_of_obj, any_of_obj, none_of_obj, count_if_obj. cbn [is_const].
  rewrite !bind_ok, (start_copy _ _ _ Hq), !bind_ok.
  rewrite (all_of_call_l c _ _ m vs CR V), (any_of_call_l c _ _ m vs CR V), (none_of_call_l c _ _ m vs CR V).
  rewrite !(ask_until_emb (set_object (os ++ [q]) (length os)) _ (call (Constant f))) by (intros; apply invoke_set, copied).
  repeat match goal with |- _ /\ _ => split end.
  - destruct (ask_until false (call (Constant f)) vs q) as [[b q']| | |]; cbn [bind agrees fst snd]; try exact I.
    repeat split; apply unaffected_copy.
  - destruct (ask_until true (call (Constant f)) vs q) as [[b q']| | |]; cbn [bind agrees fst snd]; try exact I.
    repeat split; apply unaffected_copy.
  - destruct (ask_until true (call (Constant f)) vs q) as [[b q']| | |]; cbn [bind agrees fst snd]; try exact I.
    repeat split; apply unaffected_copy.
  - intros P. rewrite (count_if_call_l c _ _ m vs CR V P).
    rewrite !(map_calls_emb (set_object (os ++ [q]) (length os)) (call (Constant f))) by (intros; apply invoke_set, copied).
    destruct (map_calls (call (Constant f)) vs q) as [[b q']| | |]; cbn [bind agrees fst snd]; try exact I.
    repeat split; apply unaffected_copy.
Qed.

Lemma not_emb (f : T -> Q -> outcome bool) os q : forall a q0,
  (r <- invoke (Constant f) (length os) a (set_object (os ++ [q]) (length os) q0) ;; Ok (negb (fst r), snd r)) =
  (r <- (r <- call (Constant f) a q0 ;; Ok (negb (fst r), snd r)) ;; Ok (fst r, set_object (os ++ [q]) (length os) (snd r))).
Proof.
  intros a q0. rewrite invoke_set by apply copied. destruct (call (Constant f) a q0) as [[b q1]| | |]; reflexivity.
Qed.
Lemma find_if_not_obj_l c (f : T -> Q -> outcome bool) i os q m vs : nth_error os i = Some q -> can_read m c c ->
  Forall (fun n => n <= 2147483648) (dims c) -> values m c c vs ->
  agrees (ask_first (fun x q => r <- call (Constant f) x q ;; Ok (negb (fst r), snd r)) vs q) (find_if_not_obj c (Constant f) i os m)
    (fun r p => found_at (c_shape c) (box (dims c)) (fst r) (fst p) /\ unaffected os (snd p)).
Proof.
  intros Hq CR L V. unfold find_if_not_obj. cbn [is_const]. rewrite bind_ok, (start_copy _ _ _ Hq), bind_ok.
  pose proof (find_if_not_call_l c (invoke (Constant f) (length os)) (set_object (os ++ [q]) (length os) q) m vs CR L V) as H.
  rewrite (ask_first_emb (set_object (os ++ [q]) (length os)) (fun x q => r <- call (Constant f) x q ;; Ok (negb (fst r), snd r))) in H
    by apply not_emb.
  apply agrees_bind in H. eapply agrees_imp; [exact H|]. intros [k q'] [p os'] _. cbn [fst snd]. intros (-> & F).
  split; [exact F|apply unaffected_copy].
Qed.
Lemma find_last_if_not_obj_l st c (f : T -> Q -> outcome bool) i os q m vs : nth_error os i = Some q ->
  default_layout c -> Forall (fun n => cty n <> U32) (c_shape c) -> readable m c -> values m c c vs ->
  agrees (ask_first (fun x q => r <- call (Constant f) x q ;; Ok (negb (fst r), snd r)) (rev vs) q)
    (find_last_if_not_obj st c (Constant f) i os m)
    (fun r p => found_at (c_shape c) (rev (box (dims c))) (fst r) (fst p) /\ unaffected os (snd p)).
Proof.
  intros Hq D Sg R V. unfold find_last_if_not_obj. cbn [is_const]. rewrite bind_ok, (start_copy _ _ _ Hq), bind_ok.
  pose proof (find_last_if_not_call_l st c (invoke (Constant f) (length os)) (set_object (os ++ [q]) (length os) q) m vs D Sg R V) as H.
  rewrite (ask_first_emb (set_object (os ++ [q]) (length os)) (fun x q => r <- call (Constant f) x q ;; Ok (negb (fst r), snd r))) in H
    by apply not_emb.
  apply agrees_bind in H. eapply agrees_imp; [exact H|]. intros [k q'] [p os'] _. cbn [fst snd]. intros (-> & F).
  split; [exact F|apply unaffected_copy].
Qed.
End Const.
