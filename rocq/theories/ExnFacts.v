From Coq Require Import ZArith List Bool Lia.
From Verif Require Import Outcome CInt CIntFacts Spec SpecFacts ShapeSpec Shape ShapeFacts ShapeFacts2
  ForEach ForEachSpec ForEachFacts Memory MemFacts Container ContainerSpec ContainerFacts ContainerFacts2
  ContainerFacts3 Algo AlgoSpec AlgoFacts AlgoFacts2 AlgoFacts3 AlgoFacts4 Calls CallSpec CallFacts CallFacts2 Exn ExnSpec.
Import ListNotations.
Open Scope Z_scope.

(** ** The loops *)
Lemma loop_exn_run {S} m (body : cint -> S -> outcome (bool * S)) : wfc m -> 0 <= cval m ->
  forall k i s, 0 <= i -> i + Z.of_nat k = cval m ->
  loop_exn (Datatypes.S k) m (CI (cty m) i) body s =
  run_until (fun z s => body (CI (cty m) z) s) (zrange i k) s.
Proof.
  intros W P. induction k as [|k IH]; intros i s Hi Hk.
  - simpl. rewrite clt_exact; [|unfold wfc in *; simpl; eapply in_ty_shrink; [exact W|lia]|exact W|right; simpl; lia].
    simpl. destruct (Z.ltb_spec i (cval m)); [lia|reflexivity].
  - assert (Wi : wfc (CI (cty m) i)) by (unfold wfc in *; simpl; eapply in_ty_shrink; [exact W|lia]).
    change (loop_exn (Datatypes.S (Datatypes.S k)) m (CI (cty m) i) body s) with
      (if clt (CI (cty m) i) m then
         r <- body (CI (cty m) i) s ;;
         if fst r then Ok r else i' <- cincr (CI (cty m) i) ;; loop_exn (Datatypes.S k) m i' body (snd r)
       else Ok (false, s)).
    rewrite clt_exact; [|exact Wi|exact W|right; simpl; lia].
    cbn [cval]. destruct (Z.ltb_spec i (cval m)); [|lia].
    cbn [zrange run_until].
    destruct (body (CI (cty m) i) s) as [[b s']| | |]; try reflexivity. cbn [bind fst].
    destruct b; [reflexivity|].
    rewrite cincr_exact; [|exact Wi|unfold wfc, in_ty in W; simpl; lia|simpl; lia].
    cbn [bind cty cval snd]. apply IH; lia.
Qed.

Lemma for_each_exn_pile {S} (f : list cint -> S -> outcome (bool * S)) ds : wfs ds -> nonnegs (vals ds) ->
  forall is_ s,
  pile (fun acc m => fun is_ s => loop_exn (fuel_of m) m (CI (cty m) 0) (fun i => acc (is_ ++ [i])) s)
       ds f is_ s
  = run_until (fun c => f (is_ ++ c)) (tbox ds) s.
Proof.
  induction ds as [|m ds IH]; intros W P is_ s.
  - simpl. rewrite app_nil_r. destruct (f is_ s) as [[[|] s']| | |]; reflexivity.
  - inversion W; inversion P; subst. cbn [pile fold_right]. unfold fuel_of.
    rewrite loop_exn_run; [|assumption|assumption|lia|lia].
    cbn [tbox]. rewrite run_until_flat_map.
    apply run_until_ext. intros z s' _. unfold pile in IH. rewrite IH by assumption.
    rewrite run_until_map. apply run_until_ext. intros c s'' _. rewrite <- app_assoc. reflexivity.
Qed.

Lemma for_each_exn_run {S} (f : list cint -> S -> outcome (bool * S)) ds s : wfs ds -> nonnegs (vals ds) ->
  for_each_exn ds f s = run_until f (tbox ds) s.
Proof. intros W P. unfold for_each_exn. rewrite for_each_exn_pile by assumption. reflexivity. Qed.

(** ** An exception as a flag that switches the calls off *)
Definition muted {A S T} (F : A -> S * mem T -> outcome (bool * (S * mem T))) (t : A) (xm : (bool * S) * mem T)
  : outcome ((bool * S) * mem T) :=
  if fst (fst xm) then Ok xm
  else r <- F t (snd (fst xm), snd xm) ;; Ok ((fst r, fst (snd r)), snd (snd r)).

Lemma run_muted {A S T} (F : A -> S * mem T -> outcome (bool * (S * mem T))) l s m :
  run (muted F) l ((true, s), m) = Ok ((true, s), m).
Proof. induction l as [|t l IH]; [reflexivity|]. cbn [run]. unfold muted at 1. cbn [fst bind]. exact IH. Qed.

Lemma run_until_muted {A S T} (F : A -> S * mem T -> outcome (bool * (S * mem T))) l : forall s m,
  run_until F l (s, m) = (r <- run (muted F) l ((false, s), m) ;; Ok (fst (fst r), (snd (fst r), snd r))).
Proof.
  induction l as [|t l IH]; intros s m; [reflexivity|]. cbn [run_until run]. unfold muted at 1. cbn [fst snd].
  destruct (F t (s, m)) as [[[|] [s1 m1]]| | |]; cbn [bind fst snd]; try reflexivity.
  - rewrite run_muted. reflexivity.
  - apply IH.
Qed.

(** Steps with a write each, until one throws. *)
Fixpoint steps {A W S} (f : A -> S -> outcome (W * (bool * S))) (vs : list A) (s : S) : outcome (list W * (bool * S)) :=
  match vs with
  | [] => Ok ([], (false, s))
  | v :: vs' => r <- f v s ;;
      if fst (snd r) then Ok ([fst r], snd r)
      else r' <- steps f vs' (snd (snd r)) ;; Ok (fst r :: fst r', snd r')
  end.

Definition mute {A T S} (step : A -> S -> outcome (option T * (bool * S))) (v : A) (xs : bool * S)
  : outcome (option T * (bool * S)) :=
  if fst xs then Ok (None, xs) else step v (snd xs).

Lemma map_calls_mute {A T S} (step : A -> S -> outcome (option T * (bool * S))) l : forall s,
  map_calls (mute step) l (true, s) = Ok (repeat None (length l), (true, s)).
Proof. induction l as [|a l IH]; intros s; [reflexivity|]. cbn [map_calls]. unfold mute at 1. cbn [fst bind]. rewrite IH. reflexivity. Qed.

Lemma steps_mute {A T S} (step : A -> S -> outcome (option T * (bool * S))) l : forall s,
  agrees (steps step l s) (map_calls (mute step) l (false, s))
    (fun r r' => snd r' = snd r /\ then_nothing (fst r) (fst r')).
Proof.
  induction l as [|a l IH]; intros s; cbn [steps map_calls].
  - split; [reflexivity|]. exists 0%nat. reflexivity.
  - unfold mute at 1. cbn [fst snd]. destruct (step a s) as [[w [[|] s1]]| | |]; cbn [bind fst snd agrees]; try exact I.
    + rewrite map_calls_mute. cbn [bind fst snd]. split; [reflexivity|]. exists (length l). reflexivity.
    + specialize (IH s1). destruct (steps step l s1) as [[ws xs]| | |],
        (map_calls (mute step) l (false, s1)) as [[ws' xs']| | |]; cbn [bind agrees fst snd] in *; try exact I; try contradiction.
      destruct IH as [-> [k ->]]. split; [reflexivity|]. exists k. reflexivity.
Qed.

Section RunExn.
Context {T S : Type} (c0 o : container) (rs : list container) (m0 : mem T).
Variable step : list cint -> list T -> S -> outcome (option T * (bool * S)).
Variable body : list cint -> S * mem T -> outcome (bool * (S * mem T)).
Hypothesis L0 : live m0 c0 c0.
Hypothesis Di : distinct_on c0 o.
Hypothesis Va : forall is_, in_box (dims c0) is_ -> valid m0 (elem o is_).
Hypothesis Na : Forall (fun i => no_cross_alias c0 i o) rs.
Hypothesis Hb : forall t m' vs s, wfs t -> map cty t = ctypes c0 -> in_box (dims c0) (vals t) ->
  same_cells m0 m' -> Forall2 (fun c v => value m' c (vals t) v) rs vs ->
  body t (s, m') =
  (r <- step t vs s ;;
   Ok (fst (snd r), (snd (snd r), match fst r with Some v => upd m' (elem o (vals t)) v | None => m' end))).

Lemma run_exn rows s : Forall2 (fun t vs => Forall2 (fun c v => value m0 c (vals t) v) rs vs) (tbox (c_shape c0)) rows ->
  agrees (steps (fun p s => step (fst p) (snd p) s) (combine (tbox (c_shape c0)) rows) s)
    (for_each_exn (c_shape c0) body (s, m0))
    (fun r xsm => fst xsm = fst (snd r) /\ fst (snd xsm) = snd (snd r) /\
       (exists all, then_nothing (fst r) all /\ written m0 c0 o all (snd (snd xsm))) /\
       frame c0 o m0 (snd (snd xsm))).
Proof using L0 Di Va Na Hb.
  intros Ar. destruct (live_wf m0 c0 L0) as [W N]. rewrite for_each_exn_run by assumption.
  rewrite run_until_muted, agrees_map_r.
  pose proof (run_calls c0 o rs m0 (fun t => mute (step t)) (muted body) Di Va Na) as R.
  assert (Hb' : forall t m' vs xs, wfs t -> map cty t = ctypes c0 -> in_box (dims c0) (vals t) ->
    same_cells m0 m' -> Forall2 (fun c v => value m' c (vals t) v) rs vs ->
    muted body t (xs, m') = (r <- mute (step t) vs xs ;;
      Ok (snd r, match fst r with Some v => upd m' (elem o (vals t)) v | None => m' end))).
  { intros t m' vs [[|] s'] Wt Ty Bt Sm Hv; unfold muted, mute; cbn [fst snd bind]; [reflexivity|].
    rewrite (Hb t m' vs s' Wt Ty Bt Sm Hv). destruct (step t vs s') as [[w [b s1]]| | |]; reflexivity. }
  specialize (R Hb' (tbox (c_shape c0)) rows (false, s) m0 (tbox_ready c0 W) (tbox_nodup c0 N) (same_refl m0) Ar).
  eapply agrees_imp.
  - eapply agrees_trans; [|exact R].
    pose proof (steps_mute (fun p s => step (fst p) (snd p) s) (combine (tbox (c_shape c0)) rows) s) as M. exact M.
  - intros [ws [x s1]] [[x' s2] m2] _ ((all & xs) & (E1 & Tn) & (E2 & Hw & Hs & Hf)). cbn [fst snd] in *. subst xs.
    injection E2 as -> ->. split; [reflexivity|]. split; [reflexivity|]. split.
    + exists all. split; [exact Tn|]. unfold written, dims. rewrite <- tbox_vals. apply Forall2_map_l. exact Hw.
    + split; [exact Hs|]. intros p Hp. apply Hf. intros t Ht. apply Hp. apply box_In. unfold dims.
      rewrite <- tbox_vals. apply in_map. exact Ht.
Qed.
End RunExn.

Lemma steps_combine {T W S A} (step : list T -> S -> outcome (W * (bool * S))) (l : list A) rows : length l = length rows ->
  forall s, steps (fun p s => step (snd p) s) (combine l rows) s = steps step rows s.
Proof.
  revert rows. induction l as [|t l IH]; intros [|vs rows] Hl s; try discriminate; [reflexivity|]. cbn [combine steps snd].
  destruct (step vs s) as [[w [[|] s1]]| | |]; cbn [bind fst snd]; try reflexivity. rewrite IH; [reflexivity|].
  simpl in Hl. congruence.
Qed.

Lemma map_exn_steps {T S} (c0 o : container) cs rs (m : mem T) (step : list T -> S -> outcome (option T * (bool * S)))
    (body : list ptr -> S * mem T -> outcome (bool * (S * mem T))) rows s :
  live m c0 c0 -> Forall (live m c0) cs -> distinct_on c0 o ->
  (forall is_, in_box (dims c0) is_ -> valid m (elem o is_)) ->
  Forall (fun i => no_cross_alias c0 i o) rs -> arguments m c0 rs rows ->
  (forall is_ m' vs s, in_box (dims c0) is_ -> same_cells m m' -> Forall2 (fun c v => value m' c is_ v) rs vs ->
     body (map (fun c => elem c is_) (c0 :: cs)) (s, m') =
     (r <- step vs s ;;
      Ok (fst (snd r), (snd (snd r), match fst r with Some v => upd m' (elem o is_) v | None => m' end)))) ->
  agrees (steps step rows s) (map_exn body c0 cs (s, m))
    (fun r xsm => fst xsm = fst (snd r) /\ fst (snd xsm) = snd (snd r) /\
       (exists all, then_nothing (fst r) all /\ written m c0 o all (snd (snd xsm))) /\
       frame c0 o m (snd (snd xsm))).
Proof.
  intros L0 Ls Di Va Na Ar Hb. unfold map_exn.
  unfold arguments, dims in Ar. rewrite <- tbox_vals in Ar. apply Forall2_map_l in Ar.
  pose proof (run_exn c0 o rs m (fun _ => step)
    (fun is_ sm => ps <- mapM (fun c => ref (snd sm) c is_) (c0 :: cs) ;; body ps sm) L0 Di Va Na) as R.
  cbv beta in R.
  assert (E : forall A (l : list A) k (P : A -> list T -> Prop), Forall2 P l k -> length l = length k)
    by (intros A l k P; induction 1; simpl; congruence).
  rewrite <- (steps_combine step (tbox (c_shape c0)) rows) by (eapply E; exact Ar).
  apply R; [|exact Ar].
  intros t m' vs s' Wt Ty Bt Sm Hv. cbn [snd]. rewrite (mapM_refs m m' c0 (c0 :: cs) t); try assumption.
  - rewrite bind_ok. apply Hb; assumption.
  - constructor; assumption.
Qed.

(** ** Callables *)
Definition answer {A B T Q} (w : A -> B -> option T) (f : A -> Q -> outcome (option B * Q)) (v : A) (q : Q)
  : outcome (option T * (bool * Q)) :=
  r <- f v q ;; Ok (match fst r with Some b => (w v b, (false, snd r)) | None => (None, (true, snd r)) end).

(** Trailing writes of nothing do not count. *)
Lemma then_nothing_none {T} (ws all : list (option T)) : then_nothing (ws ++ [None]) all -> then_nothing ws all.
Proof. intros [k ->]. exists (S k). rewrite <- app_assoc. reflexivity. Qed.

Lemma answer_steps {A B T Q} (w : A -> B -> option T) (f : A -> Q -> outcome (option B * Q)) vs : forall q,
  agrees (calls_throw f vs q) (steps (answer w f) vs q)
    (fun r r' => snd (fst r) = fst (snd r') /\ snd r = snd (snd r') /\
       exists tl, fst r' = map (fun p => w (fst p) (snd p)) (combine vs (fst (fst r))) ++ tl /\ (tl = [] \/ tl = [None])).
Proof.
  induction vs as [|v vs IH]; intros q; cbn [calls_throw steps].
  - split; [reflexivity|]. split; [reflexivity|]. exists []. auto.
  - unfold answer at 1. destruct (f v q) as [[[b|] q1]| | |]; cbn [bind fst snd agrees]; try exact I.
    + specialize (IH q1). destruct (calls_throw f vs q1) as [[[bs x] q2]| | |], (steps (answer w f) vs q1) as [[ws [y q3]]| | |];
        cbn [bind agrees fst snd] in *; try exact I; try contradiction.
      destruct IH as (-> & -> & tl & -> & Htl). split; [reflexivity|]. split; [reflexivity|]. exists tl. auto.
    + split; [reflexivity|]. split; [reflexivity|]. exists [None]. auto.
Qed.

Lemma then_nothing_tl {T} (ws tl all : list (option T)) : tl = [] \/ tl = [None] -> then_nothing (ws ++ tl) all -> then_nothing ws all.
Proof. intros [-> | ->]; [rewrite app_nil_r; auto|apply then_nothing_none]. Qed.

Lemma calls_throw_length {A B Q} (f : A -> Q -> outcome (option B * Q)) vs : forall q r,
  calls_throw f vs q = Ok r -> (length (fst (fst r)) <= length vs)%nat.
Proof.
  induction vs as [|v vs IH]; intros q r; cbn [calls_throw]; [intros [= <-]; cbn; lia|].
  destruct (f v q) as [[[b|] q1]| | |]; cbn [bind]; try discriminate.
  - destruct (calls_throw f vs q1) as [[bx q2]| | |] eqn:E; cbn [bind]; try discriminate. intros [= <-]. cbn.
    specialize (IH _ _ E). cbn in IH. lia.
  - intros [= <-]. cbn. lia.
Qed.

Lemma map_snd_combine {A B C} (g : B -> C) (l : list A) (k : list B) : (length k <= length l)%nat ->
  map (fun p => g (snd p)) (combine l k) = map g k.
Proof.
  revert k. induction l as [|a l IH]; intros [|b k] H; try reflexivity; [simpl in H; lia|]. cbn. f_equal. apply IH. simpl in H. lia.
Qed.

Lemma transform_exn_l {T Q} (f : list T -> Q -> outcome (option T * Q)) out c0 cs (m : mem T) rows q :
  can_write m out out -> Forall (can_read m out) (c0 :: cs) ->
  Forall (fun i => no_cross_alias out i out) (c0 :: cs) -> arguments m out (c0 :: cs) rows ->
  agrees (calls_throw f rows q) (transform_exn f out c0 cs q m)
    (fun r xqm => fst xqm = snd (fst r) /\ fst (snd xqm) = snd r /\
       (exists all, then_nothing (map Some (fst (fst r))) all /\ written m out out all (snd (snd xqm))) /\
       frame out out m (snd (snd xqm))).
Proof.
  intros CW CR NA Ar. unfold transform_exn.
  eapply agrees_imp.
  - eapply agrees_trans; [exact (answer_steps (fun _ b => Some b) f rows q)|].
    apply (map_exn_steps out out (c0 :: cs) (c0 :: cs)).
    + apply can_write_live. exact CW.
    + apply live_all. exact CR.
    + apply CW.
    + apply CW.
    + exact NA.
    + exact Ar.
    + intros is_ m' vs s B Sm Hv. cbn [map fst snd].
      pose proof (mapM_load_unique m' is_ (c0 :: cs) vs Hv) as G. cbn [map] in G. rewrite G, bind_ok. unfold answer.
      destruct (f vs s) as [[[w|] s1]| | |]; cbn [bind fst snd]; try reflexivity.
      unfold put_exn. rewrite store_valid by (apply Sm; apply CW; exact B). reflexivity.
  - intros [[bs x] q1] [y [q2 m2]] E ((ws & [z q3]) & (E1 & E2 & tl & E3 & Htl) & (E4 & E5 & (all & Tn & Hw) & Hf)).
    cbn [fst snd] in *. subst. split; [reflexivity|]. split; [reflexivity|]. split; [|exact Hf]. exists all. split; [|exact Hw].
    pose proof (calls_throw_length _ _ _ _ E) as Hl. cbn [fst] in Hl.
    apply (then_nothing_tl _ tl _ Htl) in Tn. rewrite (map_snd_combine (@Some T)) in Tn by exact Hl. exact Tn.
Qed.

Definition only {T S W} (d : outcome (W * (bool * S))) (g : T -> S -> outcome (W * (bool * S))) (vs : list T) (s : S) :=
  match vs with v :: _ => g v s | [] => d end.
Lemma steps_only {T S W} d (g : T -> S -> outcome (W * (bool * S))) vs : forall s,
  steps (only d g) (map (fun v => [v]) vs) s = steps g vs s.
Proof.
  induction vs as [|v vs IH]; intros s; [reflexivity|]. cbn [map steps only].
  destruct (g v s) as [[w [[|] s1]]| | |]; cbn [bind fst snd]; try reflexivity. rewrite IH. reflexivity.
Qed.

Lemma copy_if_exn_l {T Q} (f : T -> Q -> outcome (option bool * Q)) out in_ (m : mem T) vs q :
  can_write m out out -> can_read m out in_ -> no_cross_alias out in_ out -> values m out in_ vs ->
  agrees (calls_throw f vs q) (copy_if_exn f out in_ q m)
    (fun r xqm => fst xqm = snd (fst r) /\ fst (snd xqm) = snd r /\
       (exists all, then_nothing (map (fun p : T * bool => if snd p then Some (fst p) else None) (combine vs (fst (fst r)))) all /\
          written m out out all (snd (snd xqm))) /\
       frame out out m (snd (snd xqm))).
Proof.
  intros CW CR NA V. unfold copy_if_exn.
  eapply agrees_imp.
  - eapply agrees_trans; [exact (answer_steps (fun v (b : bool) => if b then Some v else None) f vs q)|].
    rewrite <- (steps_only UB (answer (fun v (b : bool) => if b then Some v else None) f)).
    apply (map_exn_steps out out [in_] [in_]).
    + apply can_write_live. exact CW.
    + constructor; [apply can_read_live; exact CR|constructor].
    + apply CW.
    + apply CW.
    + constructor; [exact NA|constructor].
    + apply values_arguments. exact V.
    + intros is_ m' vs' s B Sm Hv. destruct (Forall2_1 _ _ _ Hv) as (v & -> & Hv1). cbn [map fst snd only].
      rewrite (load_peek _ _ _ Hv1), bind_ok. unfold answer.
      destruct (f v s) as [[[[|]|] s1]| | |]; cbn [bind fst snd]; try reflexivity.
      unfold put_exn. rewrite store_valid by (apply Sm; apply CW; exact B). reflexivity.
  - intros [[bs x] q1] [y [q2 m2]] E ((ws & [z q3]) & (E1 & E2 & tl & E3 & Htl) & (E4 & E5 & (all & Tn & Hw) & Hf)).
    cbn [fst snd] in *. subst. split; [reflexivity|]. split; [reflexivity|]. split; [|exact Hf]. exists all. split; [|exact Hw].
    exact (then_nothing_tl _ tl _ Htl Tn).
Qed.

Lemma replace_if_exn_l {T Q} (f : T -> Q -> outcome (option bool * Q)) x0 out (m : mem T) vs q :
  can_write m out out -> can_read m out out -> values m out out vs ->
  agrees (calls_throw f vs q) (replace_if_exn out f x0 q m)
    (fun r xqm => fst xqm = snd (fst r) /\ fst (snd xqm) = snd r /\
       (exists all, then_nothing (map (fun b : bool => if b then Some x0 else None) (fst (fst r))) all /\
          written m out out all (snd (snd xqm))) /\
       frame out out m (snd (snd xqm))).
Proof.
  intros CW CR V. unfold replace_if_exn.
  eapply agrees_imp.
  - eapply agrees_trans; [exact (answer_steps (fun _ (b : bool) => if b then Some x0 else None) f vs q)|].
    rewrite <- (steps_only UB (answer (fun _ (b : bool) => if b then Some x0 else None) f)).
    apply (map_exn_steps out out [] [out]).
    + apply can_write_live. exact CW.
    + constructor.
    + apply CW.
    + apply CW.
    + constructor; [apply distinct_no_cross; apply CW|constructor].
    + apply values_arguments. exact V.
    + intros is_ m' vs' s B Sm Hv. destruct (Forall2_1 _ _ _ Hv) as (v & -> & Hv1). cbn [map fst snd only].
      rewrite (load_peek _ _ _ Hv1), bind_ok. unfold answer.
      destruct (f v s) as [[[[|]|] s1]| | |]; cbn [bind fst snd]; try reflexivity.
      unfold put_exn. rewrite store_valid by (apply Sm; apply CW; exact B). reflexivity.
  - intros [[bs x] q1] [y [q2 m2]] E ((ws & [z q3]) & (E1 & E2 & tl & E3 & Htl) & (E4 & E5 & (all & Tn & Hw) & Hf)).
    cbn [fst snd] in *. subst. split; [reflexivity|]. split; [reflexivity|]. split; [|exact Hf]. exists all. split; [|exact Hw].
    pose proof (calls_throw_length _ _ _ _ E) as Hl. cbn [fst] in Hl.
    apply (then_nothing_tl _ tl _ Htl) in Tn.
    rewrite (map_snd_combine (fun b : bool => if b then Some x0 else None)) in Tn by exact Hl. exact Tn.
Qed.

Lemma generate_exn_l {T Q} (f : list cint -> Q -> outcome (option T * Q)) out (m : mem T) q : can_write m out out ->
  exists trace, visits_all (c_shape out) trace /\
  agrees (calls_throw f trace q) (generate_exn f out q m)
    (fun r xqm => fst xqm = snd (fst r) /\ fst (snd xqm) = snd r /\
       (exists all, then_nothing (map Some (fst (fst r))) all /\ written m out out all (snd (snd xqm))) /\
       frame out out m (snd (snd xqm))).
Proof.
  intros CW. pose proof (can_write_live _ _ _ CW) as L. destruct (live_wf m out L) as [W N].
  exists (tbox (c_shape out)). split; [apply tbox_visits; exact N|].
  unfold generate_exn, map_index_exn.
  pose proof (run_exn out out [] m (fun t _ => answer (fun _ b => Some b) f t)
    (fun is_ sm => p <- ref (snd sm) out is_ ;; r <- f is_ (fst sm) ;;
       match fst r with Some v => put_exn p v (snd r) (snd sm) | None => Ok (true, (snd r, snd sm)) end)
    L (proj1 (proj2 (proj2 CW))) (proj2 (proj2 (proj2 CW))) (Forall_nil _)) as R.
  assert (Hb : forall t m' (vs : list T) s, wfs t -> map cty t = ctypes out -> in_box (dims out) (vals t) ->
    same_cells m m' -> Forall2 (fun c v => value m' c (vals t) v) [] vs ->
    (p <- ref (snd (s, m')) out t ;; r <- f t (fst (s, m')) ;;
       match fst r with Some v => put_exn p v (snd r) (snd (s, m')) | None => Ok (true, (snd r, snd (s, m'))) end) =
    (r <- answer (fun _ b => Some b) f t s ;;
      Ok (fst (snd r), (snd (snd r), match fst r with Some v => upd m' (elem out (vals t)) v | None => m' end)))).
  { intros t m' vs s Wt Ty Bt Sm _. cbn [fst snd]. rewrite (ref_at m m' out out t) by assumption. rewrite bind_ok. unfold answer.
    destruct (f t s) as [[[w|] s1]| | |]; cbn [bind fst snd]; try reflexivity.
    unfold put_exn. rewrite store_valid by (apply Sm; apply CW; exact Bt). reflexivity. }
  specialize (R Hb (map (fun _ => []) (tbox (c_shape out))) q).
  assert (Ar : Forall2 (fun t vs => Forall2 (fun c v => value m c (vals t) v) [] vs) (tbox (c_shape out))
     (map (fun _ => []) (tbox (c_shape out)))).
  { generalize (tbox (c_shape out)). clear. induction l; cbn [map]; constructor; [constructor|assumption]. }
  specialize (R Ar).
  assert (E : forall l q, steps (fun (p : list cint * list T) s => answer (fun _ b => Some b) f (fst p) s)
      (combine l (map (fun _ => []) l)) q = steps (answer (fun _ b => Some b) f) l q).
  { intros l. induction l as [|t l IH]; intros q'; [reflexivity|]. cbn [map combine steps fst].
    destruct (answer _ f t q') as [[w [[|] q1]]| | |]; cbn [bind fst snd]; try reflexivity. rewrite IH. reflexivity. }
  rewrite E in R.
  eapply agrees_imp; [eapply agrees_trans; [exact (answer_steps (fun _ b => Some b) f (tbox (c_shape out)) q)|exact R]|].
  intros [[bs x] q1] [y [q2 m2]] Em ((ws & [z q3]) & (E1 & E2 & tl & E3 & Htl) & (E4 & E5 & (all & Tn & Hw) & Hf)).
  cbn [fst snd] in *. subst. split; [reflexivity|]. split; [reflexivity|]. split; [|exact Hf]. exists all. split; [|exact Hw].
  pose proof (calls_throw_length _ _ _ _ Em) as Hl. cbn [fst] in Hl.
  apply (then_nothing_tl _ tl _ Htl) in Tn. rewrite (map_snd_combine (@Some T)) in Tn by exact Hl. exact Tn.
Qed.

(** ** for_each *)
Lemma leaves_steps {A T Q} (f : A -> Q -> outcome ((T * bool) * Q)) vs : forall q,
  agrees (leaves_throw f vs q) (steps (fun v q => r <- f v q ;; Ok (Some (fst (fst r)), (snd (fst r), snd r))) vs q)
    (fun r r' => snd (fst r) = fst (snd r') /\ snd r = snd (snd r') /\ fst r' = map Some (fst (fst r))).
Proof.
  induction vs as [|v vs IH]; intros q; cbn [leaves_throw steps]; [cbn; auto|].
  destruct (f v q) as [[[b x] q1]| | |]; cbn [bind fst snd agrees]; try exact I. destruct x; cbn [bind fst snd agrees].
  - auto.
  - specialize (IH q1). destruct (leaves_throw f vs q1) as [[[bs x] q2]| | |], (steps _ vs q1) as [[ws [y q3]]| | |];
      cbn [bind agrees fst snd] in *; try exact I; try contradiction. destruct IH as (-> & -> & ->). auto.
Qed.

Lemma for_each_exn_l {T Q} (f : T -> Q -> outcome ((T * bool) * Q)) c (m : mem T) vs q :
  can_write m c c -> can_read m c c -> values m c c vs ->
  agrees (leaves_throw f vs q) (for_each_elems_exn f c q m)
    (fun r xqm => fst xqm = snd (fst r) /\ fst (snd xqm) = snd r /\
       (exists all, then_nothing (map Some (fst (fst r))) all /\ written m c c all (snd (snd xqm))) /\
       frame c c m (snd (snd xqm))).
Proof.
  intros CW CR V. unfold for_each_elems_exn.
  eapply agrees_imp.
  - eapply agrees_trans; [exact (leaves_steps f vs q)|].
    rewrite <- (steps_only UB (fun v q => r <- f v q ;; Ok (Some (fst (fst r)), (snd (fst r), snd r)))).
    apply (map_exn_steps c c [] [c]).
    + apply can_write_live. exact CW.
    + constructor.
    + apply CW.
    + apply CW.
    + constructor; [apply distinct_no_cross; apply CW|constructor].
    + apply values_arguments. exact V.
    + intros is_ m' vs' s B Sm Hv. destruct (Forall2_1 _ _ _ Hv) as (v & -> & Hv1). cbn [map fst snd only].
      rewrite (load_peek _ _ _ Hv1), bind_ok.
      destruct (f v s) as [[[w x] s1]| | |]; cbn [bind fst snd]; try reflexivity.
      rewrite store_valid by (apply Sm; apply CW; exact B). reflexivity.
  - intros [[bs x] q1] [y [q2 m2]] E ((ws & [z q3]) & (E1 & E2 & E3) & (E4 & E5 & (all & Tn & Hw) & Hf)).
    cbn [fst snd] in *. subst. split; [reflexivity|]. split; [reflexivity|]. split; [|exact Hf]. exists all. auto.
Qed.

(** ** Scans *)
Definition inclusive_step {T D Q} (f1 : T -> D -> Q -> outcome (option T * Q)) (f2 : T -> Q -> outcome (option D * Q)) (v : T)
    (sq : T * Q) : outcome (option T * (bool * (T * Q))) :=
  d <- f2 v (snd sq) ;;
  match fst d with
  | None => Ok (None, (true, (fst sq, snd d)))
  | Some x => r <- f1 (fst sq) x (snd d) ;;
              Ok (match fst r with None => (None, (true, (fst sq, snd r))) | Some s => (Some s, (false, (s, snd r))) end)
  end.
Definition exclusive_step {T D Q} (f1 : T -> D -> Q -> outcome (option T * Q)) (f2 : T -> Q -> outcome (option D * Q)) (v : T)
    (sq : T * Q) : outcome (option T * (bool * (T * Q))) :=
  d <- f2 v (snd sq) ;;
  match fst d with
  | None => Ok (Some (fst sq), (true, (fst sq, snd d)))
  | Some x => r <- f1 (fst sq) x (snd d) ;;
              Ok (Some (fst sq), match fst r with None => (true, (fst sq, snd r)) | Some s => (false, (s, snd r)) end)
  end.

Lemma inclusive_steps {T D Q} (f1 : T -> D -> Q -> outcome (option T * Q)) (f2 : T -> Q -> outcome (option D * Q)) vs : forall s q,
  agrees (scan_throw f1 f2 vs s q) (steps (inclusive_step f1 f2) vs (s, q))
    (fun r r' => snd (fst r) = fst (snd r') /\ snd r = snd (snd (snd r')) /\
       exists tl, fst r' = map Some (fst (fst r)) ++ tl /\ (tl = [] \/ tl = [None])).
Proof.
  induction vs as [|v vs IH]; intros s q; cbn [scan_throw steps].
  - split; [reflexivity|]. split; [reflexivity|]. exists []. auto.
  - unfold inclusive_step at 1. cbn [fst snd]. destruct (f2 v q) as [[[d|] q1]| | |]; cbn [bind fst snd agrees]; try exact I.
    2: { split; [reflexivity|]. split; [reflexivity|]. exists [None]. auto. }
    destruct (f1 s d q1) as [[[s1|] q2]| | |]; cbn [bind fst snd agrees]; try exact I.
    2: { split; [reflexivity|]. split; [reflexivity|]. exists [None]. auto. }
    specialize (IH s1 q2). destruct (scan_throw f1 f2 vs s1 q2) as [[[bs x] q3]| | |],
      (steps (inclusive_step f1 f2) vs (s1, q2)) as [[ws [y [s4 q4]]]| | |]; cbn [bind agrees fst snd] in *; try exact I; try contradiction.
    destruct IH as (-> & -> & tl & -> & Htl). split; [reflexivity|]. split; [reflexivity|]. exists tl. auto.
Qed.

Lemma exclusive_steps {T D Q} (f1 : T -> D -> Q -> outcome (option T * Q)) (f2 : T -> Q -> outcome (option D * Q)) vs : forall s q,
  agrees (scan_throw f1 f2 vs s q) (steps (exclusive_step f1 f2) vs (s, q))
    (fun r r' => snd (fst r) = fst (snd r') /\ snd r = snd (snd (snd r')) /\
       fst r' = map Some (firstn (length vs) (s :: fst (fst r)))).
Proof.
  induction vs as [|v vs IH]; intros s q; cbn [scan_throw steps]; [cbn; auto|].
  unfold exclusive_step at 1. cbn [fst snd]. destruct (f2 v q) as [[[d|] q1]| | |]; cbn [bind fst snd agrees]; try exact I.
  2: { split; [reflexivity|]. split; [reflexivity|]. cbn. destruct (length vs); reflexivity. }
  destruct (f1 s d q1) as [[[s1|] q2]| | |]; cbn [bind fst snd agrees]; try exact I.
  2: { split; [reflexivity|]. split; [reflexivity|]. cbn. destruct (length vs); reflexivity. }
  specialize (IH s1 q2). destruct (scan_throw f1 f2 vs s1 q2) as [[[bs x] q3]| | |],
    (steps (exclusive_step f1 f2) vs (s1, q2)) as [[ws [y [s4 q4]]]| | |]; cbn [bind agrees fst snd] in *; try exact I; try contradiction.
  destruct IH as (-> & -> & ->). split; [reflexivity|]. split; [reflexivity|]. reflexivity.
Qed.

Lemma inclusive_exn_l {T B Q} in_ out (init : T) (f1 : T -> B -> Q -> outcome (option T * Q)) (f2 : T -> Q -> outcome (option B * Q))
    q m vs : can_read m in_ in_ -> can_write m in_ out -> no_cross_alias in_ in_ out -> values m in_ in_ vs ->
  agrees (scan_throw f1 f2 vs init q) (inclusive_scan_exn in_ out init f1 f2 q m)
    (fun r xsm => fst xsm = snd (fst r) /\ snd (fst (snd xsm)) = snd r /\
       (exists all, then_nothing (map Some (fst (fst r))) all /\ written m in_ out all (snd (snd xsm))) /\
       frame in_ out m (snd (snd xsm))).
Proof.
  intros CR CW NA V. unfold inclusive_scan_exn.
  eapply agrees_imp.
  - eapply agrees_trans; [exact (inclusive_steps f1 f2 vs init q)|].
    rewrite <- (steps_only UB (inclusive_step f1 f2)). apply (map_exn_steps in_ out [out] [in_]).
    + apply can_read_live. exact CR.
    + constructor; [apply can_write_live; exact CW|constructor].
    + apply CW.
    + apply CW.
    + constructor; [exact NA|constructor].
    + apply values_arguments. exact V.
    + intros is_ m' vs' [s q'] B' Sm Hv. destruct (Forall2_1 _ _ _ Hv) as (v & -> & Hv1).
      cbn [map fst snd only]. rewrite (load_peek _ _ _ Hv1), bind_ok. unfold inclusive_step. cbn [fst snd].
      destruct (f2 v q') as [[[d|] q1]| | |]; cbn [bind fst snd]; try reflexivity.
      destruct (f1 s d q1) as [[[s1|] q2]| | |]; cbn [bind fst snd]; try reflexivity.
      unfold put_exn. rewrite store_valid by (apply Sm; apply CW; exact B'). reflexivity.
  - intros [[ss x] q1] [y [[s2 q2] m2]] _ ((ws & [z [s3 q3]]) & (E1 & E2 & tl & E3 & Htl) & (E4 & E5 & (all & Tn & Hw) & Hf)).
    cbn [fst snd] in *. subst. injection E5 as -> ->. split; [reflexivity|]. split; [reflexivity|]. split; [|exact Hf].
    exists all. split; [|exact Hw]. exact (then_nothing_tl _ tl _ Htl Tn).
Qed.

Lemma exclusive_exn_l {T B Q} in_ out (init : T) (f1 : T -> B -> Q -> outcome (option T * Q)) (f2 : T -> Q -> outcome (option B * Q))
    q m vs : can_read m in_ in_ -> can_write m in_ out -> no_alias in_ in_ out -> values m in_ in_ vs ->
  agrees (scan_throw f1 f2 vs init q) (exclusive_scan_exn in_ out init f1 f2 q m)
    (fun r xsm => fst xsm = snd (fst r) /\ snd (fst (snd xsm)) = snd r /\
       (exists all, then_nothing (map Some (firstn (length vs) (init :: fst (fst r)))) all /\
          written m in_ out all (snd (snd xsm))) /\
       frame in_ out m (snd (snd xsm))).
Proof.
  intros CR CW NA V. unfold exclusive_scan_exn.
  eapply agrees_imp.
  - eapply agrees_trans; [exact (exclusive_steps f1 f2 vs init q)|].
    rewrite <- (steps_only UB (exclusive_step f1 f2)). apply (map_exn_steps in_ out [out] [in_]).
    + apply can_read_live. exact CR.
    + constructor; [apply can_write_live; exact CW|constructor].
    + apply CW.
    + apply CW.
    + constructor; [exact (no_alias_cross _ _ _ NA)|constructor].
    + apply values_arguments. exact V.
    + intros is_ m' vs' [s q'] B' Sm Hv. destruct (Forall2_1 _ _ _ Hv) as (v & -> & Hv1).
      cbn [map fst snd only]. rewrite store_valid by (apply Sm; apply CW; exact B'). rewrite bind_ok.
      assert (Hv2 : value (upd m' (elem out is_) s) in_ is_ v)
        by (unfold value; rewrite peek_upd_other by (apply not_eq_sym, NA; assumption); exact Hv1).
      rewrite (load_peek _ _ _ Hv2), bind_ok. unfold exclusive_step. cbn [fst snd].
      destruct (f2 v q') as [[[d|] q1]| | |]; cbn [bind fst snd]; try reflexivity.
      destruct (f1 s d q1) as [[[s1|] q2]| | |]; cbn [bind fst snd]; reflexivity.
  - intros [[ss x] q1] [y [[s2 q2] m2]] _ ((ws & [z [s3 q3]]) & (E1 & E2 & E3) & (E4 & E5 & (all & Tn & Hw) & Hf)).
    cbn [fst snd] in *. subst. injection E5 as -> ->. split; [reflexivity|]. split; [reflexivity|]. split; [|exact Hf].
    exists all. split; [exact Tn|exact Hw].
Qed.

(** ** reduce *)
Lemma reduce_exn_l {T A Q} c (f : A -> T -> Q -> outcome (option A * Q)) init q (m : mem T) vs :
  can_read m c c -> values m c c vs ->
  reduce_exn c f init q m = (r <- fold_throw f vs init q ;; Ok (snd (fst r), ((fst (fst r), snd r), m))).
Proof.
  intros CR V. unfold reduce_exn, map_exn. pose proof (can_read_live _ _ _ CR) as L. destruct (live_wf m c L) as [W N].
  rewrite for_each_exn_run by assumption.
  unfold values, dims in V. rewrite <- tbox_vals in V. apply (proj1 (Forall2_map_l vals (value m c) _ _)) in V.
  pose proof (tbox_ready c W) as Rd. revert init q. induction V as [|t v l vs Hv V IH]; intros init q; [reflexivity|].
  inversion Rd as [|? ? (Wt & Ty & Bt) Rd']; subst. cbn [run_until fold_throw].
  change (fun c1 : container => ref (snd (init, q, m)) c1 t) with (fun c1 : container => ref m c1 t).
  rewrite (mapM_refs m m c [c] t); try assumption; [|constructor; [exact L|constructor]|apply same_refl].
  cbn [map bind snd fst]. rewrite (load_peek _ _ _ Hv), bind_ok.
  destruct (f init v q) as [[[a|] q1]| | |]; cbn [bind fst snd]; try reflexivity. apply IH. exact Rd'.
Qed.
