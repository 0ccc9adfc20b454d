(** Facts about assignments that convert (C94). *)
From Coq Require Import ZArith QArith List Bool Lia.
From Coq Require Import Floats.SpecFloat.
From Verif Require Import Outcome CInt CIntFacts Spec SpecFacts ShapeSpec Shape ShapeFacts ShapeFacts2 ForEach ForEachSpec ForEachFacts
  Memory MemFacts Container ContainerSpec ContainerFacts ContainerFacts2 ContainerFacts3 Algo AlgoSpec AlgoFacts AlgoFacts2 AlgoFacts3
  Interp IeeeSpec Mixed Convert ConvertSpec ConvertFacts Assign AssignSpec.
Import ListNotations.
Open Scope Z_scope.

(** ** Conversions *)
Definition done {A} (r : outcome A) : bool := match r with Ok _ => true | _ => false end.
Lemma refused_dec t v : {refused t v} + {~ refused t v}.
Proof.
  destruct t as [i|f], v as [z|x]; try (right; intros []; fail). cbn [refused].
  destruct (convert (AInt i) (NFloat x)) as [w| | |] eqn:E.
  - right. intros N. rewrite (convert_ub i x N) in E. discriminate.
  - exfalso. destruct (convert_ok_or_ub (AInt i) (NFloat x)) as [H|[w H]]; congruence.
  - left. intros (q & z & H). destruct (convert_ok (AInt i) (NFloat x) (ex_intro _ q (ex_intro _ z H))) as (w & Ew & _). congruence.
  - exfalso. destruct (convert_ok_or_ub (AInt i) (NFloat x)) as [H|[w H]]; congruence.
Qed.
Lemma refused_ub t v : refused t v -> convert t v = UB.
Proof. destruct t as [i|f], v as [z|x]; try contradiction. apply convert_ub. Qed.
Lemma accepted_ok t v : ~ refused t v -> exists w, convert t v = Ok w /\ becomes t v w.
Proof.
  intros N. destruct (convert_ok_or_ub t v) as [H|[w H]].
  - exfalso. destruct t as [i|f], v as [z|x]; try discriminate H. apply N. cbn [refused]. intros (q & z & G).
    destruct (convert_ok (AInt i) (NFloat x) (ex_intro _ q (ex_intro _ z G))) as (w & Ew & _). congruence.
  - exists w. split; [exact H|]. split.
    + intros C. destruct (convert_ok t v C) as (w' & E & Cw). congruence.
    + destruct t as [i|f], v as [z|x]; try exact I. intros V. destruct x; try discriminate V; cbn [convert to_ftype] in H; congruence.
Qed.
Lemma ok_accepted t v w : convert t v = Ok w -> ~ refused t v.
Proof. intros E N. rewrite (refused_ub t v N) in E. discriminate. Qed.

(** ** Loops *)
Lemma run_good {A S} (step : A -> S -> outcome S) (good : A -> bool) (st : list A -> S) l :
  (forall pre c post, l = pre ++ c :: post -> step c (st pre) = if good c then Ok (st (pre ++ [c])) else UB) ->
  run step l (st []) = if forallb good l then Ok (st l) else UB.
Proof.
  intros H. assert (G : forall post pre, l = pre ++ post -> run step post (st pre) = if forallb good post then Ok (st l) else UB).
  { induction post as [|c post IH]; intros pre E; cbn [run forallb].
    - rewrite app_nil_r in E. subst. reflexivity.
    - rewrite (H pre c post E). destruct (good c); [|reflexivity]. cbn [bind andb]. apply IH. rewrite E, <- app_assoc. reflexivity. }
  apply (G l []). reflexivity.
Qed.
Lemma forallb_map {A B} (f : A -> B) g l : forallb g (map f l) = forallb (fun x => g (f x)) l.
Proof. induction l as [|x l IH]; [reflexivity|]. cbn. rewrite IH. reflexivity. Qed.
Lemma map_containers_good {T S} (body : list ptr -> S * mem T -> outcome (S * mem T)) c0 cs m0 (good : list Z -> bool)
    (st : list (list Z) -> S * mem T) :
  live m0 c0 c0 -> Forall (live m0 c0) cs -> (forall pre, same_cells m0 (snd (st pre))) ->
  (forall pre is_ post, box (dims c0) = pre ++ is_ :: post ->
     body (map (fun c => elem c is_) (c0 :: cs)) (st pre) = if good is_ then Ok (st (pre ++ [is_])) else UB) ->
  map_containers body c0 cs (st []) = if forallb good (box (dims c0)) then Ok (st (box (dims c0))) else UB.
Proof.
  intros L0 Ls Sm Hb. destruct (live_wf m0 c0 L0) as [W N].
  unfold map_containers. rewrite for_each_run by assumption.
  pose (st' := fun l => st (map vals l)). change (st []) with (st' []). unfold dims. rewrite <- tbox_vals, forallb_map.
  change (st (map vals (tbox (c_shape c0)))) with (st' (tbox (c_shape c0))).
  apply (run_good _ (fun c => good (vals c)) st'). intros pre c post E.
  destruct (tbox_at _ _ _ _ W E) as (Wc & Bc & Ty & Eb).
  rewrite (mapM_refs m0 (snd (st' pre)) c0 (c0 :: cs) c); try assumption; [|constructor; assumption|apply Sm].
  rewrite bind_ok. unfold st'. rewrite map_app. eapply Hb. exact Eb.
Qed.
Lemma map_index_good {T S} (body : ptr -> list cint -> S * mem T -> outcome (S * mem T)) c0 m0 (good : list Z -> bool)
    (st : list (list Z) -> S * mem T) :
  live m0 c0 c0 -> (forall pre, same_cells m0 (snd (st pre))) ->
  (forall pre is_ post tis, box (dims c0) = pre ++ is_ :: post -> wfs tis -> vals tis = is_ -> map cty tis = ctypes c0 ->
     body (elem c0 is_) tis (st pre) = if good is_ then Ok (st (pre ++ [is_])) else UB) ->
  map_index body c0 (st []) = if forallb good (box (dims c0)) then Ok (st (box (dims c0))) else UB.
Proof.
  intros L0 Sm Hb. destruct (live_wf m0 c0 L0) as [W N].
  unfold map_index. rewrite for_each_run by assumption.
  pose (st' := fun l => st (map vals l)). change (st []) with (st' []). unfold dims. rewrite <- tbox_vals, forallb_map.
  change (st (map vals (tbox (c_shape c0)))) with (st' (tbox (c_shape c0))).
  apply (run_good _ (fun c => good (vals c)) st'). intros pre c post E.
  destruct (tbox_at _ _ _ _ W E) as (Wc & Bc & Ty & Eb).
  rewrite (ref_at m0 (snd (st' pre)) c0 c0 c); try assumption; [|apply Sm].
  rewrite bind_ok. unfold st'. rewrite map_app. eapply Hb; try eassumption. reflexivity.
Qed.

(** The element at a coordinate gets [g vs is_] converted, or stays. *)
Section Loop.
Variables (t : atype) (out : container) (cs rs : list container) (m : mem number) (g : list number -> list Z -> option number).
Variable body : list ptr -> unit * mem number -> outcome (unit * mem number).
Hypothesis CW : can_write m out out.
Hypothesis L : Forall (live m out) cs.
Hypothesis CR : Forall (can_read m out) rs.
Hypothesis NA : Forall (fun i => no_cross_alias out i out) rs.
Hypothesis Hb : forall is_ m' vs, in_box (dims out) is_ -> same_cells m m' -> Forall2 (fun c v => value m' c is_ v) rs vs ->
  body (map (fun c => elem c is_) (out :: cs)) (tt, m') =
  match g vs is_ with Some v => nassign t (elem out is_) v (tt, m') | None => Ok (tt, m') end.

Let given (is_ : list Z) : option number :=
  match mapM (load m) (map (fun c => elem c is_) rs) with Ok vs => g vs is_ | _ => None end.
Let val (_ : list (list Z)) (is_ : list Z) : option number :=
  match given is_ with Some v => match convert t v with Ok w => Some w | _ => None end | None => None end.
Let good (is_ : list Z) : bool := match given is_ with Some v => done (convert t v) | None => true end.

Lemma loop_runs : run_map (map_containers body out cs (tt, m)) =
  if forallb good (box (dims out)) then Ok (pmem out val m (box (dims out))) else UB.
Proof using All.
  destruct (live_wf m out (can_write_live _ _ _ CW)) as [_ Nn]. unfold run_map. change (tt, m) with (tt, pmem out val m []).
  rewrite (map_containers_good body out cs m good (fun pre => (tt, pmem out val m pre))).
  - destruct (forallb good (box (dims out))); reflexivity.
  - apply can_write_live. exact CW.
  - exact L.
  - intros pre. apply pmem_same.
  - intros pre is_ post E. destruct (box_split_notin _ _ _ _ Nn E) as (_ & B & _).
    destruct (mapM_load m out is_ rs B CR) as (vs & El & Hv).
    rewrite (Hb is_ (pmem out val m pre) vs B (pmem_same _ _ _ _)).
    + rewrite pmem_step. assert (Ev : given is_ = g vs is_) by (unfold given; rewrite El; reflexivity).
      unfold good, val at 3. rewrite Ev. destruct (g vs is_) as [v|]; [|reflexivity].
      unfold nassign. destruct (convert_ok_or_ub t v) as [->|[w ->]]; [reflexivity|]. rewrite bind_ok. cbn [done].
      apply (assign_valid m _ out out); [exact CW|exact B|apply pmem_same].
    + clearbody val. clear -Hv NA E Nn. induction Hv as [|c v cs' vs Hc _ IH]; [constructor|]. inversion NA; subst.
      constructor; [|apply IH; assumption]. unfold value, peek. rewrite (pmem_read out c out val m pre is_ post); assumption.
Qed.
Lemma given_at is_ vs : Forall2 (fun c v => value m c is_ v) rs vs -> given is_ = g vs is_.
Proof using. intros Hv. unfold given. rewrite (mapM_load_unique m is_ rs vs Hv). reflexivity. Qed.
Lemma loop_converts :
  (forall is_ vs v, in_box (dims out) is_ -> Forall2 (fun c v => value m c is_ v) rs vs -> g vs is_ = Some v -> ~ refused t v) ->
  exists m', run_map (map_containers body out cs (tt, m)) = Ok m' /\
    (forall is_ vs, in_box (dims out) is_ -> Forall2 (fun c v => value m c is_ v) rs vs ->
       match g vs is_ with
       | Some v => exists w, value m' out is_ w /\ becomes t v w /\ convert t v = Ok w
       | None => cell m' (elem out is_) = cell m (elem out is_)
       end) /\ frame out out m m'.
Proof using All.
  intros Acc. destruct (live_wf m out (can_write_live _ _ _ CW)) as [_ Nn].
  pose proof CW as (_ & _ & D & V). pose proof (pmem_result out val out m Nn D V) as (R & F). cbv zeta in R, F.
  exists (pmem out val m (box (dims out))). rewrite loop_runs.
  assert (G : forallb good (box (dims out)) = true).
  { apply forallb_forall. intros is_ I. apply box_In in I. destruct (mapM_load m out is_ rs I CR) as (vs & El & Hv).
    unfold good. rewrite (given_at is_ vs Hv). destruct (g vs is_) as [v|] eqn:Eg; [|reflexivity].
    destruct (accepted_ok t v (Acc is_ vs v I Hv Eg)) as (w & -> & _). reflexivity. }
  rewrite G. split; [reflexivity|]. split; [|exact F]. intros is_ vs B Hv.
  destruct (box_split _ _ B) as (pre & post & E). specialize (R pre is_ post E). unfold val in R at 1.
  rewrite (given_at is_ vs Hv) in R. destruct (g vs is_) as [v|] eqn:Eg; [|exact R].
  destruct (accepted_ok t v (Acc is_ vs v B Hv Eg)) as (w & Ew & Bw). rewrite Ew in R. exists w. split; [exact R|]. split; [exact Bw|exact Ew].
Qed.
Lemma loop_refused is_ vs v : in_box (dims out) is_ -> Forall2 (fun c v => value m c is_ v) rs vs -> g vs is_ = Some v -> refused t v ->
  run_map (map_containers body out cs (tt, m)) = UB.
Proof using All.
  intros B Hv Eg Rf. rewrite loop_runs. assert (G : forallb good (box (dims out)) = false); [|rewrite G; reflexivity].
  destruct (forallb good (box (dims out))) eqn:G; [|reflexivity]. rewrite forallb_forall in G. specialize (G is_ (proj2 (box_In _ _) B)).
  unfold good in G. rewrite (given_at is_ vs Hv), Eg, (refused_ub t v Rf) in G. discriminate.
Qed.
End Loop.

(** ** Algorithms *)
Section Algorithms.
Variables (t : atype) (out : container) (m : mem number).
Hypothesis CW : can_write m out out.

Section Transform.
Variables (f : list number -> number) (c0 : container) (cs : list container).
Hypothesis CR : Forall (can_read m out) (c0 :: cs).
Hypothesis NA : Forall (fun i => no_cross_alias out i out) (c0 :: cs).
Lemma transform_body is_ m' vs : in_box (dims out) is_ -> same_cells m m' -> Forall2 (fun c v => value m' c is_ v) (c0 :: cs) vs ->
  (fun ps sm => match ps with o :: ins => vs <- mapM (load (snd sm)) ins ;; nassign t o (f vs) sm | [] => UB end)
    (map (fun c => elem c is_) (out :: c0 :: cs)) (tt, m') =
  match Some (f vs) with Some v => nassign t (elem out is_) v (tt, m') | None => Ok (tt, m') end.
Proof using. intros _ _ Hv. cbn [map snd]. pose proof (mapM_load_unique m' is_ (c0 :: cs) vs Hv) as G. cbn [map] in G. rewrite G. reflexivity. Qed.
Lemma inputs_live : Forall (live m out) (c0 :: cs).
Proof using CR. eapply Forall_impl; [|exact CR]. intros c. apply can_read_live. Qed.
Lemma ntransform_fun :
  (forall is_ vs, in_box (dims out) is_ -> Forall2 (fun c v => value m c is_ v) (c0 :: cs) vs -> ~ refused t (f vs)) ->
  exists m', ntransform t f out c0 cs m = Ok m' /\
    (forall is_ vs, in_box (dims out) is_ -> Forall2 (fun c v => value m c is_ v) (c0 :: cs) vs ->
       exists w, value m' out is_ w /\ becomes t (f vs) w /\ convert t (f vs) = Ok w) /\ frame out out m m'.
Proof using All.
  intros Acc. refine (loop_converts t out (c0 :: cs) (c0 :: cs) m (fun vs _ => Some (f vs)) _ CW inputs_live CR NA transform_body _).
  intros is_ vs v B Hv E. injection E as <-. exact (Acc is_ vs B Hv).
Qed.
Lemma ntransform_l :
  (forall is_ vs, in_box (dims out) is_ -> Forall2 (fun c v => value m c is_ v) (c0 :: cs) vs -> ~ refused t (f vs)) ->
  exists m', ntransform t f out c0 cs m = Ok m' /\
    (forall is_ vs, in_box (dims out) is_ -> Forall2 (fun c v => value m c is_ v) (c0 :: cs) vs ->
       exists w, value m' out is_ w /\ becomes t (f vs) w) /\ frame out out m m'.
Proof using All.
  intros Acc. destruct (ntransform_fun Acc) as (m' & E & R & F). exists m'. split; [exact E|]. split; [|exact F].
  intros is_ vs B Hv. destruct (R is_ vs B Hv) as (w & Hw & Bw & _). eauto.
Qed.
Lemma ntransform_refused_l is_ vs : in_box (dims out) is_ -> Forall2 (fun c v => value m c is_ v) (c0 :: cs) vs -> refused t (f vs) ->
  ntransform t f out c0 cs m = UB.
Proof using All.
  intros B Hv Rf. exact (loop_refused t out (c0 :: cs) (c0 :: cs) m (fun vs _ => Some (f vs)) _ CW inputs_live CR NA transform_body
    is_ vs (f vs) B Hv eq_refl Rf).
Qed.
End Transform.

Section Copy.
Variable in_ : container.
Hypothesis CR : can_read m out in_.
Hypothesis NA : no_cross_alias out in_ out.
Lemma one_read : Forall (can_read m out) [in_]. Proof using CR. constructor; [exact CR|constructor]. Qed.
Lemma one_na : Forall (fun i => no_cross_alias out i out) [in_]. Proof using NA. constructor; [exact NA|constructor]. Qed.
Lemma ncopy_fun : (forall is_ v, in_box (dims out) is_ -> value m in_ is_ v -> ~ refused t v) ->
  exists m', ncopy t out in_ m = Ok m' /\
    (forall is_ v, in_box (dims out) is_ -> value m in_ is_ v -> exists w, value m' out is_ w /\ becomes t v w /\ convert t v = Ok w) /\ frame out out m m'.
Proof using All.
  intros Acc. destruct (ntransform_fun (fun vs => hd (NInt 0) vs) in_ [] one_read one_na) as (m' & E & R & F).
  - intros is_ vs B Hv. destruct (Forall2_1 _ _ _ Hv) as (v & -> & Hv1). exact (Acc is_ v B Hv1).
  - exists m'. split; [exact E|]. split; [|exact F]. intros is_ v B Hv. exact (R is_ [v] B ltac:(constructor; [exact Hv|constructor])).
Qed.
Lemma ncopy_l : (forall is_ v, in_box (dims out) is_ -> value m in_ is_ v -> ~ refused t v) ->
  exists m', ncopy t out in_ m = Ok m' /\
    (forall is_ v, in_box (dims out) is_ -> value m in_ is_ v -> exists w, value m' out is_ w /\ becomes t v w) /\ frame out out m m'.
Proof using All.
  intros Acc. destruct (ncopy_fun Acc) as (m' & E & R & F). exists m'. split; [exact E|]. split; [|exact F].
  intros is_ v B Hv. destruct (R is_ v B Hv) as (w & Hw & Bw & _). eauto.
Qed.
Lemma ncopy_refused_l is_ v : in_box (dims out) is_ -> value m in_ is_ v -> refused t v -> ncopy t out in_ m = UB.
Proof using All.
  intros B Hv Rf. exact (ntransform_refused_l (fun vs => hd (NInt 0) vs) in_ [] one_read one_na is_ [v] B ltac:(constructor; [exact Hv|constructor]) Rf).
Qed.

Variable f : number -> bool.
Let g (vs : list number) (_ : list Z) : option number := match vs with v :: _ => if f v then Some v else None | [] => None end.
Lemma copy_if_body is_ m' vs : in_box (dims out) is_ -> same_cells m m' -> Forall2 (fun c v => value m' c is_ v) [in_] vs ->
  (fun ps sm => match ps with [o; i] => v <- load (snd sm) i ;; if f v then nassign t o v sm else Ok sm | _ => UB end)
    (map (fun c => elem c is_) [out; in_]) (tt, m') =
  match g vs is_ with Some v => nassign t (elem out is_) v (tt, m') | None => Ok (tt, m') end.
Proof using.
  intros _ _ Hv. destruct (Forall2_1 _ _ _ Hv) as (v & -> & Hv1). cbn [map snd]. rewrite (load_peek _ _ _ Hv1), bind_ok. unfold g.
  destruct (f v); reflexivity.
Qed.
Lemma one_live : Forall (live m out) [in_]. Proof using CR. constructor; [apply can_read_live, CR|constructor]. Qed.
Lemma ncopy_if_l : (forall is_ v, in_box (dims out) is_ -> value m in_ is_ v -> f v = true -> ~ refused t v) ->
  exists m', ncopy_if t f out in_ m = Ok m' /\
    (forall is_ v, in_box (dims out) is_ -> value m in_ is_ v ->
       if f v then exists w, value m' out is_ w /\ becomes t v w else cell m' (elem out is_) = cell m (elem out is_)) /\
    frame out out m m'.
Proof using All.
  intros Acc. destruct (loop_converts t out [in_] [in_] m g _ CW one_live one_read one_na copy_if_body) as (m' & E & R & F).
  - intros is_ vs v B Hv Eg. destruct (Forall2_1 _ _ _ Hv) as (u & -> & Hu). unfold g in Eg. destruct (f u) eqn:Fu; [|discriminate].
    injection Eg as <-. exact (Acc is_ u B Hu Fu).
  - exists m'. split; [exact E|]. split; [|exact F]. intros is_ v B Hv.
    pose proof (R is_ [v] B ltac:(constructor; [exact Hv|constructor])) as G. unfold g in G. destruct (f v); [|exact G].
    destruct G as (w & Hw & Bw & _). eauto.
Qed.
Lemma ncopy_if_refused_l is_ v : in_box (dims out) is_ -> value m in_ is_ v -> f v = true -> refused t v -> ncopy_if t f out in_ m = UB.
Proof using All.
  intros B Hv Fv Rf. apply (loop_refused t out [in_] [in_] m g _ CW one_live one_read one_na copy_if_body is_ [v] v B); [|unfold g; rewrite Fv; reflexivity|exact Rf].
  constructor; [exact Hv|constructor].
Qed.
End Copy.

Lemma fill_body v is_ m' vs : in_box (dims out) is_ -> same_cells m m' -> Forall2 (fun c v => value m' c is_ v) [] vs ->
  (fun ps sm => match ps with [o] => nassign t o v sm | _ => UB end) (map (fun c => elem c is_) [out]) (tt, m') =
  match Some v with Some v => nassign t (elem out is_) v (tt, m') | None => Ok (tt, m') end.
Proof using. reflexivity. Qed.
Lemma nfill_l v : (forall is_, in_box (dims out) is_ -> ~ refused t v) -> exists m', nfill t out v m = Ok m' /\
  (forall is_, in_box (dims out) is_ -> exists w, value m' out is_ w /\ becomes t v w) /\ frame out out m m'.
Proof using All.
  intros Acc. destruct (loop_converts t out [] [] m (fun _ _ => Some v) _ CW (Forall_nil _) (Forall_nil _) (Forall_nil _) (fill_body v)) as (m' & E & R & F).
  - intros is_ vs u B Hv Eg. injection Eg as <-. exact (Acc is_ B).
  - exists m'. split; [exact E|]. split; [|exact F]. intros is_ B. destruct (R is_ [] B ltac:(constructor)) as (w & Hw & Bw & _). eauto.
Qed.
Lemma nfill_refused_l v is_ : in_box (dims out) is_ -> refused t v -> nfill t out v m = UB.
Proof using All.
  intros B Rf. exact (loop_refused t out [] [] m (fun _ _ => Some v) _ CW (Forall_nil _) (Forall_nil _) (Forall_nil _) (fill_body v)
    is_ [] v B (Forall2_nil _) eq_refl Rf).
Qed.

Section Replace.
Variables (f : number -> bool) (new : number).
Hypothesis CR : can_read m out out.
Let g (vs : list number) (_ : list Z) : option number := match vs with v :: _ => if f v then Some new else None | [] => None end.
Lemma replace_body is_ m' vs : in_box (dims out) is_ -> same_cells m m' -> Forall2 (fun c v => value m' c is_ v) [out] vs ->
  (fun ps sm => match ps with [o] => v <- load (snd sm) o ;; if f v then nassign t o new sm else Ok sm | _ => UB end)
    (map (fun c => elem c is_) [out]) (tt, m') =
  match g vs is_ with Some v => nassign t (elem out is_) v (tt, m') | None => Ok (tt, m') end.
Proof using.
  intros _ _ Hv. destruct (Forall2_1 _ _ _ Hv) as (v & -> & Hv1). cbn [map snd]. rewrite (load_peek _ _ _ Hv1), bind_ok. unfold g.
  destruct (f v); reflexivity.
Qed.
Lemma out_na : Forall (fun i => no_cross_alias out i out) [out].
Proof using CW. constructor; [apply distinct_no_cross, CW|constructor]. Qed.
Lemma nreplace_if_l : (forall is_ v, in_box (dims out) is_ -> value m out is_ v -> f v = true -> ~ refused t new) ->
  exists m', nreplace_if t out f new m = Ok m' /\
    (forall is_ v, in_box (dims out) is_ -> value m out is_ v ->
       if f v then exists w, value m' out is_ w /\ becomes t new w else value m' out is_ v) /\ frame out out m m'.
Proof using All.
  intros Acc. destruct (loop_converts t out [] [out] m g _ CW (Forall_nil _) (one_read out CR) out_na replace_body) as (m' & E & R & F).
  - intros is_ vs v B Hv Eg. destruct (Forall2_1 _ _ _ Hv) as (u & -> & Hu). unfold g in Eg. destruct (f u) eqn:Fu; [|discriminate].
    injection Eg as <-. exact (Acc is_ u B Hu Fu).
  - exists m'. split; [exact E|]. split; [|exact F]. intros is_ v B Hv.
    pose proof (R is_ [v] B ltac:(constructor; [exact Hv|constructor])) as G. unfold g in G. destruct (f v); [destruct G as (w & Hw & Bw & _); eauto|].
    unfold value, peek. rewrite G. exact Hv.
Qed.
Lemma nreplace_if_refused_l is_ v : in_box (dims out) is_ -> value m out is_ v -> f v = true -> refused t new -> nreplace_if t out f new m = UB.
Proof using All.
  intros B Hv Fv Rf.
  apply (loop_refused t out [] [out] m g _ CW (Forall_nil _) (one_read out CR) out_na replace_body is_ [v] new B); [|unfold g; rewrite Fv; reflexivity|exact Rf].
  constructor; [exact Hv|constructor].
Qed.
End Replace.

Section Generate.
Variable f : list cint -> number.
Let val (_ : list (list Z)) (is_ : list Z) : option number :=
  match convert t (f (retype (ctypes out) is_)) with Ok w => Some w | _ => None end.
Let good (is_ : list Z) : bool := done (convert t (f (retype (ctypes out) is_))).
Lemma generate_runs : ngenerate t f out m = if forallb good (box (dims out)) then Ok (pmem out val m (box (dims out))) else UB.
Proof using All.
  destruct (live_wf m out (can_write_live _ _ _ CW)) as [_ Nn]. unfold ngenerate, run_map. change (tt, m) with (tt, pmem out val m []).
  rewrite (map_index_good _ out m good (fun pre => (tt, pmem out val m pre))).
  - destruct (forallb good (box (dims out))); reflexivity.
  - apply can_write_live, CW.
  - intros pre. apply pmem_same.
  - intros pre is_ post tis E W <- Ty. destruct (box_split_notin _ _ _ _ Nn E) as (_ & B & _). rewrite pmem_step.
    assert (Ev : val pre (vals tis) = match convert t (f tis) with Ok w => Some w | _ => None end) by (unfold val; rewrite <- Ty, retype_id; reflexivity).
    rewrite Ev. unfold good, nassign. rewrite <- Ty, retype_id.
    destruct (convert_ok_or_ub t (f tis)) as [->|[w ->]]; [reflexivity|]. rewrite bind_ok. cbn [done].
    apply (assign_valid m _ out out); [exact CW|exact B|apply pmem_same].
Qed.
Lemma ngenerate_l :
  (forall tis, wfs tis -> map cty tis = ctypes out -> in_box (dims out) (vals tis) -> ~ refused t (f tis)) ->
  exists m', ngenerate t f out m = Ok m' /\
    (forall tis, wfs tis -> map cty tis = ctypes out -> in_box (dims out) (vals tis) ->
       exists w, value m' out (vals tis) w /\ becomes t (f tis) w) /\ frame out out m m'.
Proof using All.
  intros Acc. destruct (live_wf m out (can_write_live _ _ _ CW)) as [_ Nn]. pose proof CW as (Ad & _ & D & V).
  pose proof (pmem_result out val out m Nn D V) as (R & F). cbv zeta in R, F.
  exists (pmem out val m (box (dims out))). rewrite generate_runs.
  assert (G : forallb good (box (dims out)) = true).
  { apply forallb_forall. intros is_ I. apply box_In in I. destruct (typed_coord out is_ (proj1 Ad) I) as (tis & W & <- & Ty).
    unfold good. rewrite <- Ty, retype_id. destruct (accepted_ok t (f tis) (Acc tis W Ty I)) as (w & -> & _). reflexivity. }
  rewrite G. split; [reflexivity|]. split; [|exact F]. intros tis W Ty B.
  destruct (box_split _ _ B) as (pre & post & E). specialize (R pre _ post E). unfold val in R at 1. rewrite <- Ty, retype_id in R.
  destruct (accepted_ok t (f tis) (Acc tis W Ty B)) as (w & Ew & Bw). rewrite Ew in R. exists w. split; assumption.
Qed.
Lemma ngenerate_refused_l tis : wfs tis -> map cty tis = ctypes out -> in_box (dims out) (vals tis) -> refused t (f tis) -> ngenerate t f out m = UB.
Proof using All.
  intros W Ty B Rf. rewrite generate_runs. destruct (forallb good (box (dims out))) eqn:G; [|reflexivity].
  rewrite forallb_forall in G. specialize (G _ (proj2 (box_In _ _) B)). unfold good in G. rewrite <- Ty, retype_id, (refused_ub t _ Rf) in G. discriminate.
Qed.
End Generate.
End Algorithms.

(** ** Copies *)
Lemma accepts_representable t v q : number_value v = Some q -> representable t q -> ~ refused t v.
Proof.
  intros V R N. destruct t as [i|g], v as [z|x]; try contradiction.
  apply N. exact (representable_convertible (AInt i) (NFloat x) q V R).
Qed.
Lemma ncopy_exact_l t out in_ m : can_write m out out -> can_read m out in_ -> no_cross_alias out in_ out ->
  (forall is_ v, in_box (dims out) is_ -> value m in_ is_ v -> exists q, number_value v = Some q /\ representable t q) ->
  exists m', ncopy t out in_ m = Ok m' /\
    (forall is_ v q, in_box (dims out) is_ -> value m in_ is_ v -> number_value v = Some q ->
       exists w p, value m' out is_ w /\ value_of_type t w /\ number_value w = Some p /\ (p == q)%Q) /\ frame out out m m'.
Proof.
  intros CW CR NA Rp. destruct (ncopy_l t out m CW in_ CR NA) as (m' & E & R & F).
  { intros is_ v B Hv. destruct (Rp is_ v B Hv) as (q & Vq & Rq). exact (accepts_representable t v q Vq Rq). }
  exists m'. split; [exact E|]. split; [|exact F]. intros is_ v q B Hv Vq.
  destruct (Rp is_ v B Hv) as (q' & Vq' & Rq). assert (q' = q) by congruence. subst q'.
  destruct (R is_ v B Hv) as (w & Hw & C & _). specialize (C (representable_convertible t v q Vq Rq)).
  destruct (representable_same t v w q Vq Rq C) as (p & Vp & Ep). exists w, p. split; [exact Hw|]. split; [|split; assumption].
  destruct t as [i|g], v as [z|x], w as [y|y]; try contradiction; apply C.
Qed.
Lemma value_representable t v q : value_of_type t v -> number_value v = Some q -> representable t q.
Proof. intros T V. exists v, q. split; [exact T|]. split; [exact V|reflexivity]. Qed.
Lemma representable_eq t p q : (p == q)%Q -> representable t p -> representable t q.
Proof. intros E (v & r & T & V & H). exists v, r. split; [exact T|]. split; [exact V|]. rewrite H. exact E. Qed.
Lemma same_live {T} (m m' : mem T) c0 c : same_cells m m' -> can_write m c0 c -> can_write m' c0 c.
Proof. intros S (A & B & C & D). split; [exact A|]. split; [exact B|]. split; [exact C|]. intros is_ H. apply S, D, H. Qed.
Lemma round_trip_l t u a b m : can_write m a a -> can_write m b b -> can_read m b a -> dims a = dims b -> ctypes a = ctypes b ->
  no_alias a a b ->
  (forall is_ v, in_box (dims a) is_ -> value m a is_ v -> value_of_type u v /\ exists q, number_value v = Some q /\ representable t q) ->
  exists m1 m2, ncopy t b a m = Ok m1 /\ ncopy u a b m1 = Ok m2 /\
    (forall is_ v q, in_box (dims a) is_ -> value m a is_ v -> number_value v = Some q ->
       exists w p, value m2 a is_ w /\ value_of_type u w /\ number_value w = Some p /\ (p == q)%Q).
Proof.
  intros Wa Wb Rd D Ty Na Rp.
  assert (N1 : no_cross_alias b a b) by (intros x y Hx Hy _; apply Na; rewrite D; assumption).
  destruct (ncopy_exact_l t b a m Wb Rd N1) as (m1 & E1 & R1 & F1).
  { intros is_ v B Hv. apply (Rp is_ v); [rewrite D; exact B|exact Hv]. }
  assert (At : forall is_, in_box (dims a) is_ -> exists v q w p, value m a is_ v /\ value_of_type u v /\ number_value v = Some q /\
     value m1 b is_ w /\ number_value w = Some p /\ (p == q)%Q).
  { intros is_ B. assert (B' := B). rewrite D in B'. destruct (proj2 (proj2 Rd) is_ B') as (v & Hv). destruct (Rp is_ v B Hv) as (Tv & q & Vq & _).
    destruct (R1 is_ v q B' Hv Vq) as (w & p & Hw & _ & Vp & Ep). exists v, q, w, p. auto 10. }
  destruct (ncopy_exact_l u a b m1) as (m2 & E2 & R2 & F2).
  - exact (same_live m m1 a a (proj1 F1) Wa).
  - destruct Wb as (Ab & _ & _). split; [rewrite Ty; exact Ab|]. split; [intros is_ B; rewrite <- D; exact B|].
    intros is_ B. destruct (At is_ B) as (v & q & w & p & _ & _ & _ & Hw & _). eauto.
  - intros x y Hx Hy _ Ee. exact (Na y x Hy Hx (eq_sym Ee)).
  - intros is_ w B Hw. destruct (At is_ B) as (v & q & w' & p & Hv & Tv & Vq & Hw' & Vp & Ep).
    assert (w' = w) by (unfold value in *; congruence). subst w'. exists p. split; [exact Vp|].
    apply (representable_eq u q p); [symmetry; exact Ep|]. exact (value_representable u v q Tv Vq).
  - exists m1, m2. split; [exact E1|]. split; [exact E2|]. intros is_ v q B Hv Vq.
    destruct (At is_ B) as (v' & q' & w & p & Hv' & Tv & Vq' & Hw & Vp & Ep). assert (v' = v) by (unfold value in *; congruence). subst v'.
    assert (q' = q) by congruence. subst q'. destruct (R2 is_ w p B Hw Vp) as (w2 & p2 & Hw2 & T2 & V2 & E3).
    exists w2, p2. split; [exact Hw2|]. split; [exact T2|]. split; [exact V2|]. rewrite E3. exact Ep.
Qed.

(** Rounding and truncation keep the order. *)
Lemma ncopy_order_l t out in_ m : can_write m out out -> can_read m out in_ -> no_cross_alias out in_ out -> dims in_ = dims out ->
  (forall is_ v, in_box (dims out) is_ -> value m in_ is_ v -> convertible t v /\ match t, v with AInt _, NInt _ => False | _, _ => True end) ->
  in_order m in_ -> exists m', ncopy t out in_ m = Ok m' /\ in_order m' out.
Proof.
  intros CW CR NA D C O. destruct (ncopy_fun t out m CW in_ CR NA) as (m' & E & R & F).
  { intros is_ v B Hv Rf. destruct (C is_ v B Hv) as [Cv _]. destruct (convert_ok t v Cv) as (w & Ew & _). exact (ok_accepted t v w Ew Rf). }
  exists m'. split; [exact E|]. intros is_ js w w' p p' Bi Bj Rk Hw Hw' Vp Vp'.
  destruct (proj2 (proj2 CR) is_ Bi) as (v & Hv). destruct (proj2 (proj2 CR) js Bj) as (v' & Hv').
  destruct (R is_ v Bi Hv) as (x & Hx & _ & Ex). destruct (R js v' Bj Hv') as (x' & Hx' & _ & Ex').
  assert (x = w) by (unfold value in *; congruence). assert (x' = w') by (unfold value in *; congruence). subst x x'.
  destruct (C is_ v Bi Hv) as [Cv Mv]. destruct (C js v' Bj Hv') as [Cv' Mv'].
  destruct (converted_value_defined t v Cv Mv) as (q & Vq). destruct (converted_value_defined t v' Cv' Mv') as (q' & Vq').
  eapply (convert_le t v v' w w' q q' p p'); try eassumption.
  refine (O is_ js v v' q q' _ _ _ Hv Hv' Vq Vq'); rewrite D; assumption.
Qed.
