From Coq Require Import ZArith List Bool Lia.
From Verif Require Import Outcome CInt CIntFacts Spec SpecFacts ShapeSpec Shape ShapeFacts ShapeFacts2
  ForEach ForEachSpec ForEachFacts Memory MemFacts Container ContainerSpec ContainerFacts ContainerFacts2
  ContainerFacts3 Algo AlgoSpec AlgoFacts AlgoFacts2 AlgoFacts3 AlgoFacts4 ReverseFacts Calls CallSpec CallFacts.
Import ListNotations.
Open Scope Z_scope.

(** ** Readers *)
Lemma read_calls {T S} (c0 : container) cs (m : mem T) (g : list T -> S -> outcome S)
    (body : list ptr -> S * mem T -> outcome (S * mem T)) rows s :
  live m c0 c0 -> Forall (live m c0) cs -> arguments m c0 (c0 :: cs) rows ->
  (forall is_ vs s, in_box (dims c0) is_ -> Forall2 (fun c v => value m c is_ v) (c0 :: cs) vs ->
     body (map (fun c => elem c is_) (c0 :: cs)) (s, m) = (s' <- g vs s ;; Ok (s', m))) ->
  map_containers body c0 cs (s, m) = (s' <- run g rows s ;; Ok (s', m)).
Proof.
  intros L0 Ls Ar Hb. destruct (live_wf m c0 L0) as [W N].
  unfold map_containers. rewrite for_each_run by assumption.
  unfold arguments, dims in Ar. rewrite <- tbox_vals in Ar. apply Forall2_map_l in Ar.
  pose proof (tbox_ready c0 W) as Rd. revert s. induction Ar as [|t vs l rows Hv _ IH]; intros s; [reflexivity|].
  inversion Rd as [|? ? (Wt & Ty & Bt) Rd']; subst. cbn [run snd].
  rewrite (mapM_refs m m c0 (c0 :: cs) t); try assumption; [|constructor; assumption|apply same_refl].
  rewrite bind_ok, (Hb (vals t) vs s Bt Hv).
  destruct (g vs s) as [s1| | |]; cbn [bind]; [|reflexivity|reflexivity|reflexivity]. apply IH. exact Rd'.
Qed.

Lemma run_pre {A A' S} (h : A -> A') (g : A' -> S -> outcome S) l : forall s,
  run g (map h l) s = run (fun a => g (h a)) l s.
Proof.
  induction l as [|a l IH]; intros s; [reflexivity|]. cbn [map run].
  destruct (g (h a) s) as [s1| | |]; cbn [bind]; [|reflexivity|reflexivity|reflexivity]. apply IH.
Qed.

Lemma run_fold_calls {A V Q} (f : A -> V -> Q -> outcome (A * Q)) vs : forall a q,
  run (fun v (aq : A * Q) => f (fst aq) v (snd aq)) vs (a, q) = fold_calls f vs a q.
Proof.
  induction vs as [|v vs IH]; intros a q; [reflexivity|]. cbn [run fold_calls fst snd].
  destruct (f a v q) as [[a1 q1]| | |]; cbn [bind]; [|reflexivity|reflexivity|reflexivity]. apply IH.
Qed.

Lemma reduce_call_l {T A Q} c (f : A -> T -> Q -> outcome (A * Q)) init q m vs : can_read m c c -> values m c c vs ->
  reduce_call c f init q m = (r <- fold_calls f vs init q ;; Ok (r, m)).
Proof.
  intros CR V. unfold reduce_call.
  rewrite (read_calls c [] m (fun row aq => match row with [v] => f (fst aq) v (snd aq) | _ => UB end) _
    (map (fun v => [v]) vs)).
  - rewrite run_pre, <- run_fold_calls. reflexivity.
  - apply can_read_live. exact CR.
  - constructor.
  - apply values_arguments. exact V.
  - intros is_ row [a q'] B Hv. destruct (Forall2_1 _ _ _ Hv) as (v & -> & Hv1). cbn [map fst snd].
    rewrite (load_peek _ _ _ Hv1), bind_ok. reflexivity.
Qed.

Lemma fold_stop {T Q} (stop : bool) vs (q : Q) (g : bool -> T -> Q -> outcome (bool * Q)) :
  (forall e q, g stop e q = Ok (stop, q)) -> fold_calls g vs stop q = Ok (stop, q).
Proof. intros H. induction vs as [|v vs IH]; [reflexivity|]. cbn [fold_calls]. rewrite H, bind_ok. exact IH. Qed.

Lemma fold_until {T Q} (stop : bool) (f : T -> Q -> outcome (bool * Q)) (g : bool -> T -> Q -> outcome (bool * Q)) vs :
  (forall e q, g stop e q = Ok (stop, q)) -> (forall e q, g (negb stop) e q = f e q) -> forall q,
  fold_calls g vs (negb stop) q =
  (r <- ask_until stop f vs q ;; Ok (if fst r then stop else negb stop, snd r)).
Proof.
  intros H1 H2. induction vs as [|v vs IH]; intros q; [reflexivity|]. cbn [fold_calls ask_until]. rewrite H2.
  destruct (f v q) as [[b q1]| | |]; cbn [bind]; [|reflexivity|reflexivity|reflexivity].
  destruct (Bool.eqb b stop) eqn:E.
  - apply eqb_prop in E. subst. rewrite bind_ok. cbn [fst snd]. apply fold_stop. exact H1.
  - assert (b = negb stop) by (destruct b, stop; try discriminate; reflexivity). subst. apply IH.
Qed.

Lemma all_of_call_l {T Q} c (f : T -> Q -> outcome (bool * Q)) q m vs : can_read m c c -> values m c c vs ->
  all_of_call c f q m = (r <- ask_until false f vs q ;; Ok ((negb (fst r), snd r), m)).
Proof.
  intros CR V. unfold all_of_call. rewrite (reduce_call_l c _ _ q m vs CR V).
  change true with (negb false) . rewrite (fold_until false f) by reflexivity.
  destruct (ask_until false f vs q) as [[b q1]| | |]; try reflexivity.
Qed.
Lemma any_of_call_l {T Q} c (f : T -> Q -> outcome (bool * Q)) q m vs : can_read m c c -> values m c c vs ->
  any_of_call c f q m = (r <- ask_until true f vs q ;; Ok (r, m)).
Proof.
  intros CR V. unfold any_of_call. rewrite (reduce_call_l c _ _ q m vs CR V).
  change false with (negb true). rewrite (fold_until true f) by reflexivity.
  destruct (ask_until true f vs q) as [[b q1]| | |]; try reflexivity. destruct b; reflexivity.
Qed.
Lemma none_of_call_l {T Q} c (f : T -> Q -> outcome (bool * Q)) q m vs : can_read m c c -> values m c c vs ->
  none_of_call c f q m = (r <- ask_until true f vs q ;; Ok ((negb (fst r), snd r), m)).
Proof.
  intros CR V. unfold none_of_call. rewrite (any_of_call_l c f q m vs CR V).
  destruct (ask_until true f vs q) as [[b q1]| | |]; reflexivity.
Qed.

Lemma count_fold {T Q} (f : T -> Q -> outcome (bool * Q)) vs : forall a q, 0 <= a ->
  a + Z.of_nat (length vs) < 2 ^ 64 ->
  fold_calls (fun a e q => r <- f e q ;; Ok (size_add a (fst r), snd r)) vs a q =
  (r <- map_calls f vs q ;; Ok (a + yes (fst r), snd r)).
Proof.
  induction vs as [|v vs IH]; intros a q Ha Hl; [cbn [fold_calls map_calls bind fst snd]; unfold yes; cbn; rewrite Z.add_0_r; reflexivity|].
  cbn [fold_calls map_calls]. destruct (f v q) as [[b q1]| | |]; cbn [bind fst snd]; try reflexivity.
  cbn [length] in Hl. rewrite IH.
  - destruct (map_calls f vs q1) as [[bs q2]| | |]; cbn [bind fst snd]; try reflexivity. f_equal. f_equal.
    unfold size_add, yes. destruct b; cbn [filter length]; rewrite Z.mod_small by lia; lia.
  - unfold size_add. apply Z.mod_pos_bound. reflexivity.
  - unfold size_add. destruct b; rewrite Z.mod_small by lia; lia.
Qed.

Lemma count_if_call_l {T Q} c (f : T -> Q -> outcome (bool * Q)) q m vs : can_read m c c -> values m c c vs ->
  prod (dims c) < 2 ^ 64 ->
  count_if_call c f q m = (r <- map_calls f vs q ;; Ok ((yes (fst r), snd r), m)).
Proof.
  intros CR V P. unfold count_if_call. rewrite (reduce_call_l c _ _ q m vs CR V), count_fold.
  - destruct (map_calls f vs q) as [[bs q1]| | |]; reflexivity.
  - lia.
  - destruct (live_wf m c (can_read_live _ _ _ CR)) as [_ N].
    rewrite <- (Forall2_len _ _ _ V), box_length by exact N. lia.
Qed.

Lemma transform_reduce_call_l {T A B Q} c1 c2 (init : A) (R : A -> B -> Q -> outcome (A * Q))
    (F : T -> T -> Q -> outcome (B * Q)) q m vs1 vs2 :
  can_read m c1 c1 -> can_read m c1 c2 -> values m c1 c1 vs1 -> values m c1 c2 vs2 ->
  transform_reduce_call c1 c2 init R F q m =
  (r <- fold_calls (fun a p q => d <- F (fst p) (snd p) q ;; R a (fst d) (snd d)) (combine vs1 vs2) init q ;; Ok (r, m)).
Proof.
  intros CR1 CR2 V1 V2. unfold transform_reduce_call.
  rewrite (read_calls c1 [c2] m (fun row aq => match row with
     | [v; w] => d <- F v w (snd aq) ;; R (fst aq) (fst d) (snd d) | _ => UB end) _
    (map (fun p => [fst p; snd p]) (combine vs1 vs2))).
  - rewrite run_pre, <- run_fold_calls. reflexivity.
  - apply can_read_live. exact CR1.
  - constructor; [apply can_read_live; exact CR2|constructor].
  - apply values_arguments2; assumption.
  - intros is_ row [a q'] Bx Hv. inversion Hv as [|? v ? row' H1 Hv']; subst.
    destruct (Forall2_1 _ _ _ Hv') as (w & -> & H2). cbn [map fst snd].
    rewrite (load_peek _ _ _ H1), bind_ok, (load_peek _ _ _ H2), bind_ok.
    destruct (F v w q') as [[d q1]| | |]; reflexivity.
Qed.

Lemma inner_product_call_l {T A B Q} dbg c1 c2 (init : A) (R : A -> B -> Q -> outcome (A * Q))
    (F : T -> T -> Q -> outcome (B * Q)) q m vs1 vs2 :
  can_read m c1 c1 -> can_read m c1 c2 -> values m c1 c1 vs1 -> values m c1 c2 vs2 ->
  legal (c_shape c1) -> legal (c_shape c2) -> c_shape c1 <> [] -> dims c1 = dims c2 ->
  inner_product_call dbg c1 c2 init R F q m =
  (r <- fold_calls (fun a p q => d <- F (fst p) (snd p) q ;; R a (fst d) (snd d)) (combine vs1 vs2) init q ;; Ok (r, m)).
Proof.
  intros CR1 CR2 V1 V2 L1 L2 Ne Eq. unfold inner_product_call.
  assert (Hl : length (c_shape c1) = length (c_shape c2)).
  { apply (f_equal (@length Z)) in Eq. unfold dims, vals in Eq. rewrite !map_length in Eq. exact Eq. }
  destruct (shape_eq_same_order _ _ L1 L2 Ne Hl) as (r & E & H).
  assert (r = true) by (apply H; exact Eq). subst r. rewrite E, kassert_ok, bind_ok.
  apply transform_reduce_call_l; assumption.
Qed.

(** A failed assertion makes no call. *)
Lemma inner_product_call_abort_l {T A B Q} c1 c2 (init : A) (R : A -> B -> Q -> outcome (A * Q))
    (F : T -> T -> Q -> outcome (B * Q)) q (m : mem T) :
  legal (c_shape c1) -> legal (c_shape c2) -> c_shape c1 <> [] ->
  length (c_shape c1) = length (c_shape c2) -> dims c1 <> dims c2 ->
  inner_product_call true c1 c2 init R F q m = Abort.
Proof.
  intros L1 L2 Ne Hl Eq. unfold inner_product_call.
  destruct (shape_eq_same_order _ _ L1 L2 Ne Hl) as (r & E & H). rewrite E.
  destruct r; [exfalso; apply Eq, H; reflexivity|]. reflexivity.
Qed.

(** ** Scans *)
Lemma scan_inclusive {T D Q} (f1 : T -> D -> Q -> outcome (T * Q)) (f2 : T -> Q -> outcome (D * Q)) vs : forall s q,
  agrees (scan_calls f1 f2 vs s q)
    (map_calls (fun v sq => d <- f2 v (snd sq) ;; r <- f1 (fst sq) (fst d) (snd d) ;; Ok (Some (fst r), r)) vs (s, q))
    (fun x y => fst y = map Some (fst x) /\ snd (snd y) = snd x).
Proof.
  induction vs as [|v vs IH]; intros s q; cbn [scan_calls map_calls]; [split; reflexivity|].
  cbn [fst snd]. destruct (f2 v q) as [[d q1]| | |]; cbn [bind fst snd agrees]; try exact I.
  destruct (f1 s d q1) as [[s1 q2]| | |]; cbn [bind fst snd agrees]; try exact I.
  specialize (IH s1 q2). destruct (scan_calls f1 f2 vs s1 q2) as [[ss q3]| | |],
    (map_calls _ vs (s1, q2)) as [[ws [s4 q4]]| | |]; cbn [agrees bind fst snd] in *; try exact I; try contradiction.
  destruct IH as [-> ->]. split; reflexivity.
Qed.

Lemma scan_exclusive {T D Q} (f1 : T -> D -> Q -> outcome (T * Q)) (f2 : T -> Q -> outcome (D * Q)) vs : forall s q,
  agrees (scan_calls f1 f2 vs s q)
    (map_calls (fun v sq => d <- f2 v (snd sq) ;; r <- f1 (fst sq) (fst d) (snd d) ;; Ok (Some (fst sq), r)) vs (s, q))
    (fun x y => fst y = map Some (firstn (length vs) (s :: fst x)) /\ snd (snd y) = snd x).
Proof.
  induction vs as [|v vs IH]; intros s q; cbn [scan_calls map_calls]; [split; reflexivity|].
  cbn [fst snd]. destruct (f2 v q) as [[d q1]| | |]; cbn [bind fst snd agrees]; try exact I.
  destruct (f1 s d q1) as [[s1 q2]| | |]; cbn [bind fst snd agrees]; try exact I.
  specialize (IH s1 q2). destruct (scan_calls f1 f2 vs s1 q2) as [[ss q3]| | |],
    (map_calls _ vs (s1, q2)) as [[ws [s4 q4]]| | |]; cbn [agrees bind fst snd] in *; try exact I; try contradiction.
  destruct IH as [-> ->]. split; reflexivity.
Qed.

Lemma written_values {T} (m : mem T) c0 o ws m' : written m c0 o (map Some ws) m' -> values m' c0 o ws.
Proof.
  unfold written, values. generalize (box (dims c0)). induction ws as [|w ws IH]; intros bx H; inversion H; subst;
    constructor; [assumption|]. apply IH. assumption.
Qed.

Lemma agrees_trans {A B C} (x : outcome A) (y : outcome B) (z : outcome C) P R :
  agrees x y P -> agrees y z R -> agrees x z (fun a c => exists b, P a b /\ R b c).
Proof. destruct x, y, z; simpl; try tauto. eauto. Qed.

Lemma inclusive_call_l {T B Q} in_ out (init : T) (f1 : T -> B -> Q -> outcome (T * Q)) (f2 : T -> Q -> outcome (B * Q))
    q m vs : can_read m in_ in_ -> can_write m in_ out -> no_cross_alias in_ in_ out -> values m in_ in_ vs ->
  agrees (scan_calls f1 f2 vs init q) (inclusive_scan_call in_ out init f1 f2 q m)
    (fun r sm => snd (fst sm) = snd r /\ values (snd sm) in_ out (fst r) /\ frame in_ out m (snd sm)).
Proof.
  intros CR CW NA V. unfold inclusive_scan_call.
  pose proof (map_containers_calls in_ out [out] [in_] m
    (head_step UB (fun v sq => d <- f2 v (snd sq) ;; r <- f1 (fst sq) (fst d) (snd d) ;; Ok (Some (fst r), r)))
    (fun ps sm => match ps with
                  | [i; o] => v <- load (snd sm) i ;;
                              d <- f2 v (snd (fst sm)) ;; r <- f1 (fst (fst sm)) (fst d) (snd d) ;;
                              put o (fst r) r (snd sm)
                  | _ => UB
                  end) (map (fun v => [v]) vs) (init, q)) as R.
  rewrite map_calls_head in R.
  eapply agrees_imp; [eapply agrees_trans; [exact (scan_inclusive f1 f2 vs init q)|apply R]|].
  - apply can_read_live. exact CR.
  - constructor; [apply can_write_live; exact CW|constructor].
  - apply CW.
  - apply CW.
  - constructor; [exact NA|constructor].
  - apply values_arguments. exact V.
  - intros is_ m' vs' [s q'] B' Sm Hv; destruct (Forall2_1 _ _ _ Hv) as (v & -> & Hv1);
      cbn [map fst snd head_step]; rewrite (load_peek _ _ _ Hv1), bind_ok;
      destruct (f2 v q') as [[d q1]| | |]; cbn [bind fst snd]; try reflexivity;
      destruct (f1 s d q1) as [[s1 q2]| | |]; cbn [bind fst snd]; try reflexivity;
      unfold put; rewrite store_valid by (apply Sm; apply CW; exact B'); reflexivity.
  - intros [ss q1] [[s2 q2] m2] _ ((ws & [s3 q3]) & (E1 & E2) & (E3 & Hw & Hf)).
  cbn [fst snd] in *. subst. injection E3 as -> ->. split; [reflexivity|]. split; [|exact Hf].
  apply (written_values m). exact Hw.
Qed.

Lemma exclusive_call_l {T B Q} in_ out (init : T) (f1 : T -> B -> Q -> outcome (T * Q)) (f2 : T -> Q -> outcome (B * Q))
    q m vs : can_read m in_ in_ -> can_write m in_ out -> no_alias in_ in_ out -> values m in_ in_ vs ->
  agrees (scan_calls f1 f2 vs init q) (exclusive_scan_call in_ out init f1 f2 q m)
    (fun r sm => snd (fst sm) = snd r /\ values (snd sm) in_ out (firstn (length vs) (init :: fst r)) /\
       frame in_ out m (snd sm)).
Proof.
  intros CR CW NA V. unfold exclusive_scan_call.
  pose proof (map_containers_calls in_ out [out] [in_] m
    (head_step UB (fun v sq => d <- f2 v (snd sq) ;; r <- f1 (fst sq) (fst d) (snd d) ;; Ok (Some (fst sq), r)))
    (fun ps sm => match ps with
                  | [i; o] => m' <- store (snd sm) o (fst (fst sm)) ;; v <- load m' i ;;
                              d <- f2 v (snd (fst sm)) ;; r <- f1 (fst (fst sm)) (fst d) (snd d) ;;
                              Ok (r, m')
                  | _ => UB
                  end) (map (fun v => [v]) vs) (init, q)) as R.
  rewrite map_calls_head in R.
  eapply agrees_imp; [eapply agrees_trans; [exact (scan_exclusive f1 f2 vs init q)|apply R]|].
  - apply can_read_live. exact CR.
  - constructor; [apply can_write_live; exact CW|constructor].
  - apply CW.
  - apply CW.
  - constructor; [exact (no_alias_cross _ _ _ NA)|constructor].
  - apply values_arguments. exact V.
  - intros is_ m' vs' [s q'] B' Sm Hv; destruct (Forall2_1 _ _ _ Hv) as (v & -> & Hv1);
      cbn [map fst snd head_step]; rewrite store_valid by (apply Sm; apply CW; exact B'); rewrite bind_ok;
      assert (Hv2 : value (upd m' (elem out is_) s) in_ is_ v)
        by (unfold value; rewrite peek_upd_other by (apply not_eq_sym, NA; assumption); exact Hv1);
      rewrite (load_peek _ _ _ Hv2), bind_ok;
      destruct (f2 v q') as [[d q1]| | |]; cbn [bind fst snd]; try reflexivity;
      destruct (f1 s d q1) as [[s1 q2]| | |]; cbn [bind fst snd]; reflexivity.
  - intros [ss q1] [[s2 q2] m2] _ ((ws & [s3 q3]) & (E1 & E2) & (E3 & Hw & Hf)).
  cbn [fst snd] in *. subst. injection E3 as -> ->. split; [reflexivity|]. split; [|exact Hf].
  apply (written_values m). exact Hw.
Qed.

(** ** Searches *)
Lemma find_if_call_at {T Q} c (f : T -> Q -> outcome (bool * Q)) q m (E : list Z -> ptr) vs : wfs (c_shape c) -> nonnegs (dims c) ->
  Forall (fun n => n <= 2147483648) (dims c) ->
  (forall is_, wfs is_ -> map cty is_ = ctypes c -> in_box (dims c) (vals is_) -> address c is_ = Ok (E (vals is_))) ->
  Forall2 (fun is_ v => peek m (E is_) = Some v) (box (dims c)) vs ->
  agrees (ask_first f vs q) (find_if_call c f q m)
    (fun r p => snd p = snd r /\ found_at (c_shape c) (box (dims c)) (fst r) (fst p)).
Proof.
  intros W Nn Fd Ad V.
  unfold find_if_call. rewrite for_until_run by assumption. rewrite agrees_map_r.
  unfold dims in V. rewrite <- tbox_vals in V.
  apply (proj1 (Forall2_map_l vals (fun is_ v => peek m (E is_) = Some v) _ _)) in V.
  unfold dims. rewrite <- tbox_vals. pose proof (tbox_ready c W) as Rd.
  assert (G : forall pos q, agrees (ask_first f vs q)
    (run_until (fun is_ pq => p <- ref m c is_ ;; v <- load m p ;; r <- f v (snd pq) ;;
       if fst r then Ok (true, (map (fun i => conv I32 (conv U64 i)) is_, snd r))
       else Ok (false, (fst pq, snd r))) (tbox (c_shape c)) (pos, q))
    (fun r p => snd (snd p) = snd r /\
       found_at (c_shape c) (map vals (tbox (c_shape c))) (fst r) (if fst p then Some (fst (snd p)) else None))).
  2:{ eapply agrees_imp; [apply (G [] q)|]. intros [k q1] [b [pos q2]] _. cbn [fst snd]. auto. }
  induction V as [|t v l vs Hv _ IH]; intros pos q'; [split; [reflexivity|exact I]|].
  inversion Rd as [|? ? (Wt & Ty & Bt) Rd']; subst. cbn [ask_first run_until].
  assert (Rf : ref m c t = Ok (E (vals t))).
  { unfold ref. rewrite (Ad t Wt Ty Bt), bind_ok. rewrite (proj2 (validb_true m _) (peek_valid _ _ _ Hv)). reflexivity. }
  rewrite Rf, bind_ok, (load_peek _ _ _ Hv), bind_ok. cbn [snd].
  destruct (f v q') as [[b q1]| | |]; cbn [bind agrees fst snd]; try exact I. destruct b; cbn [bind fst snd agrees].
  - split; [reflexivity|]. destruct (to_pos_ok _ _ Wt Bt Fd) as (Ev & Et & Wp). fold (to_pos t). cbn [found_at].
    split; [|split; [exact Wp|cbn [map nth_error]; congruence]].
    rewrite Et. clear -Bt. assert (Hl : length t = length (c_shape c)).
    { apply in_box_length in Bt. unfold dims, vals in Bt. rewrite !map_length in Bt. congruence. }
    revert Hl. clear. generalize (c_shape c). induction t as [|x t IH]; intros [|y s] H; try discriminate; [reflexivity|].
    simpl. f_equal. apply IH. simpl in H. congruence.
  - specialize (IH Rd' pos q1). destruct (ask_first f vs q1) as [[k q2]| | |],
      (run_until _ l (pos, q1)) as [[b2 [p2 q3]]| | |]; cbn [agrees bind fst snd] in *; try exact I; try contradiction.
    destruct IH as [-> H]. split; [reflexivity|]. destruct k as [k|], b2; cbn [option_map found_at] in *; try contradiction; [|exact I].
    destruct H as (H1 & H2 & H3). auto.
Qed.

Lemma find_if_call_l {T Q} c (f : T -> Q -> outcome (bool * Q)) q m vs : can_read m c c ->
  Forall (fun n => n <= 2147483648) (dims c) -> values m c c vs ->
  agrees (ask_first f vs q) (find_if_call c f q m)
    (fun r p => snd p = snd r /\ found_at (c_shape c) (box (dims c)) (fst r) (fst p)).
Proof.
  intros CR Fd V. pose proof (can_read_live _ _ _ CR) as L. destruct (live_wf m c L) as [W Nn].
  apply (find_if_call_at c f q m (elem c)); try assumption.
  intros is_ Wi Ty B. destruct L as (A & _ & _). apply elem_address; [rewrite Ty; exact A|exact Wi|exact B].
Qed.

Lemma find_if_not_call_l {T Q} c (f : T -> Q -> outcome (bool * Q)) q m vs : can_read m c c ->
  Forall (fun n => n <= 2147483648) (dims c) -> values m c c vs ->
  agrees (ask_first (fun x q => r <- f x q ;; Ok (negb (fst r), snd r)) vs q) (find_if_not_call c f q m)
    (fun r p => snd p = snd r /\ found_at (c_shape c) (box (dims c)) (fst r) (fst p)).
Proof. apply find_if_call_l. Qed.

Lemma zrange_rev n : rev (zrange 0 n) = map (fun r => Z.of_nat n - 1 - r) (zrange 0 n).
Proof.
  induction n as [|n IH]; [reflexivity|]. replace (S n) with (n + 1)%nat by lia. rewrite zrange_app at 1.
  cbn [zrange]. rewrite rev_app_distr. cbn [rev app]. rewrite IH. replace (n + 1)%nat with (S n) by lia.
  cbn [zrange map]. f_equal; [lia|]. change (0 + 1) with (1 + 0). rewrite <- (zrange_shift 1 0 n), map_map. apply map_ext. intros a. lia.
Qed.

Lemma box_mirror ns : nonnegs ns -> map (mirror_coord ns) (box ns) = rev (box ns).
Proof.
  intros N.
  assert (Inj : forall a b, Forall (in_box ns) a -> Forall (in_box ns) b -> map (rank ns) a = map (rank ns) b -> a = b).
  { induction a as [|x a IH]; intros [|y b] Fa Fb E; try discriminate; [reflexivity|]. cbn [map] in E.
    injection E as E1 E. inversion Fa; inversion Fb; subst. f_equal; [apply (rank_inj ns); assumption|apply IH; assumption]. }
  assert (Fb : Forall (in_box ns) (box ns)) by (apply Forall_forall; intros x; apply box_In).
  apply Inj.
  - apply Forall_forall. intros x Hx. apply in_map_iff in Hx. destruct Hx as (y & <- & Hy). apply mirror_box, box_In. exact Hy.
  - apply Forall_rev. exact Fb.
  - rewrite map_rev, map_map, (box_rank_zrange ns N), zrange_rev.
    rewrite (map_ext_in _ (fun x => Z.of_nat (length (box ns)) - 1 - rank ns x)).
    + rewrite <- (map_map (rank ns) (fun r => Z.of_nat (length (box ns)) - 1 - r)), (box_rank_zrange ns N). reflexivity.
    + intros x Hx. rewrite (box_length ns N). apply mirror_rank, box_In. exact Hx.
Qed.

Lemma Forall2_rev {A B} (P : A -> B -> Prop) l r : Forall2 P l r -> Forall2 P (rev l) (rev r).
Proof. induction 1; [constructor|]. cbn [rev]. apply Forall2_app; [assumption|]. constructor; [assumption|constructor]. Qed.

Lemma nth_error_map' {A B} (g : A -> B) l k y : nth_error l k = Some y -> nth_error (map g l) k = Some (g y).
Proof. intros H. rewrite nth_error_map, H. reflexivity. Qed.

Lemma find_last_if_call_l {T Q} ss c (f : T -> Q -> outcome (bool * Q)) q m vs : default_layout c ->
  Forall (fun n => cty n <> U32) (c_shape c) -> readable m c -> values m c c vs ->
  agrees (ask_first f (rev vs) q) (find_last_if_call ss c f q m)
    (fun r p => snd p = snd r /\ found_at (c_shape c) (rev (box (dims c))) (fst r) (fst p)).
Proof.
  intros D S R V. destruct (reverse_typed_l ss c D S) as (rc & Er & Sh & Ad).
  assert (Ed : dims rc = dims c) by (unfold dims; rewrite Sh; reflexivity).
  pose proof D as (Lg & Ne & _). pose proof Lg as (Wf & N & _). fold (dims c) in N.
  assert (Ty32 : forall is_, map cty is_ = ctypes rc -> Forall (fun i => cty i <> U32) is_).
  { intros is_ E. unfold ctypes in E. rewrite Sh in E. revert E. clear -S. revert is_. induction S as [|n s Hn S IH];
      intros [|i is_] E; try discriminate; constructor; cbn in E; [congruence|]. apply IH. congruence. }
  assert (Fd : Forall (fun n => n <= 2147483648) (dims c)).
  { eapply Forall_impl; [|exact (legal_dims c Lg)]. intros n Hn. cbv beta in *. unfold max31 in Hn. lia. }
  assert (G : agrees (ask_first f (rev vs) q) (find_if_call rc f q m)
    (fun r p => snd p = snd r /\ found_at (c_shape c) (box (dims c)) (fst r) (fst p))).
  { rewrite <- Ed, <- Sh. apply (find_if_call_at rc f q m (fun is_ => elem c (mirror_coord (dims c) is_))).
    - rewrite Sh. exact Wf.
    - rewrite Ed. exact N.
    - rewrite Ed. exact Fd.
    - intros is_ Wi Ti Bi. rewrite Ed in Bi. apply Ad; [split; assumption|apply Ty32; exact Ti].
    - rewrite Ed. apply (Forall2_map_l (mirror_coord (dims c)) (fun is_ v => value m c is_ v)). rewrite (box_mirror (dims c) N).
      apply Forall2_rev. exact V. }
  unfold find_last_if_call. rewrite Er, bind_ok.
  destruct (ask_first f (rev vs) q) as [[k q1]| | |], (find_if_call rc f q m) as [[r q2]| | |]; cbn [agrees bind fst snd] in *;
    try exact I; try contradiction.
  destruct G as [-> H].
  destruct k as [k|], r as [pos|]; cbn [found_at] in H; try contradiction; [|split; [reflexivity|exact I]].
  destruct H as (Ty & Wp & Hn). assert (B : in_box (dims c) (vals pos)) by (apply box_In; eapply nth_error_In; exact Hn).
  destruct (mirror_pos_any (c_shape c) pos Lg Wp Ty B) as (ps & Eps & Vps & Tps & Wps). fold (dims c) in Vps.
  rewrite Eps. cbn [bind agrees fst snd found_at]. split; [reflexivity|]. split; [exact Tps|].
  split; [exact Wps|rewrite <- (box_mirror (dims c) N), Vps; apply nth_error_map'; exact Hn].
Qed.

Lemma find_last_if_not_call_l {T Q} ss c (f : T -> Q -> outcome (bool * Q)) q m vs : default_layout c ->
  Forall (fun n => cty n <> U32) (c_shape c) -> readable m c -> values m c c vs ->
  agrees (ask_first (fun x q => r <- f x q ;; Ok (negb (fst r), snd r)) (rev vs) q) (find_last_if_not_call ss c f q m)
    (fun r p => snd p = snd r /\ found_at (c_shape c) (rev (box (dims c))) (fst r) (fst p)).
Proof. apply find_last_if_call_l. Qed.
