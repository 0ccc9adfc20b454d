From Coq Require Import ZArith List Bool Lia.
From Verif Require Import Outcome CInt CIntFacts Spec SpecFacts ShapeSpec Shape ShapeFacts ShapeFacts2
  ForEach ForEachSpec ForEachFacts Memory MemFacts Container ContainerSpec ContainerFacts ContainerFacts2
  ContainerFacts3 Algo AlgoSpec AlgoFacts AlgoFacts2 AlgoFacts3 AlgoFacts4 Calls CallSpec.
Import ListNotations.
Open Scope Z_scope.

Lemma agrees_imp {A B} (x : outcome A) (y : outcome B) (P P' : A -> B -> Prop) :
  agrees x y P -> (forall a b, x = Ok a -> P a b -> P' a b) -> agrees x y P'.
Proof. destruct x, y; simpl; auto. Qed.

Lemma agrees_map {A A' B} (g : A -> A') (x : outcome A) (y : outcome B) P :
  agrees (a <- x ;; Ok (g a)) y P <-> agrees x y (fun a b => P (g a) b).
Proof. destruct x, y; simpl; tauto. Qed.

Lemma agrees_map_r {A B B'} (g : B -> B') (x : outcome A) (y : outcome B) P :
  agrees x (b <- y ;; Ok (g b)) P <-> agrees x y (fun a b => P a (g b)).
Proof. destruct x, y; simpl; tauto. Qed.

Lemma bind_pair {A B C} (x : outcome (A * B)) (k : A -> B -> outcome C) :
  (' (a, b) <- x ;; k a b) = (r <- x ;; k (fst r) (snd r)).
Proof. destruct x as [[a b]| | |]; reflexivity. Qed.

Lemma Forall2_imp {A B} (P R : A -> B -> Prop) l r :
  (forall a b, In a l -> P a b -> R a b) -> Forall2 P l r -> Forall2 R l r.
Proof.
  intros H F. induction F as [|a b l r Hab _ IH]; constructor.
  - apply H; [left; reflexivity|exact Hab].
  - apply IH. intros x y Hx. apply H. right. exact Hx.
Qed.

Lemma Forall2_map_l {A A' B} (g : A -> A') (P : A' -> B -> Prop) l r :
  Forall2 P (map g l) r <-> Forall2 (fun a b => P (g a) b) l r.
Proof.
  split.
  - revert r. induction l as [|a l IH]; intros r H; inversion H; subst; constructor; auto.
  - induction 1; simpl; constructor; assumption.
Qed.

Section Run.
Context {T S : Type} (c0 o : container) (rs : list container) (m0 : mem T).
Variable step : list cint -> list T -> S -> outcome (option T * S).
Variable body : list cint -> S * mem T -> outcome (S * mem T).
Hypothesis Di : distinct_on c0 o.
Hypothesis Va : forall is_, in_box (dims c0) is_ -> valid m0 (elem o is_).
Hypothesis Na : Forall (fun i => no_cross_alias c0 i o) rs.
Hypothesis Hb : forall t m' vs s, wfs t -> map cty t = ctypes c0 -> in_box (dims c0) (vals t) ->
  same_cells m0 m' -> Forall2 (fun c v => value m' c (vals t) v) rs vs ->
  body t (s, m') =
  (r <- step t vs s ;;
   Ok (snd r, match fst r with Some v => upd m' (elem o (vals t)) v | None => m' end)).

Lemma run_calls : forall l rows s m1,
  Forall (fun t => wfs t /\ map cty t = ctypes c0 /\ in_box (dims c0) (vals t)) l -> NoDup (map vals l) ->
  same_cells m0 m1 -> Forall2 (fun t vs => Forall2 (fun c v => value m1 c (vals t) v) rs vs) l rows ->
  agrees (map_calls (fun p s => step (fst p) (snd p) s) (combine l rows) s) (run body l (s, m1))
    (fun ws sm => fst sm = snd ws /\
       Forall2 (fun t w => match w with
                           | Some v => value (snd sm) o (vals t) v
                           | None => cell (snd sm) (elem o (vals t)) = cell m1 (elem o (vals t))
                           end) l (fst ws) /\
       same_cells m1 (snd sm) /\
       forall p, (forall t, In t l -> p <> elem o (vals t)) -> cell (snd sm) p = cell m1 p).
Proof using Di Va Na Hb.
  induction l as [|t l IH]; intros rows s m1 Fl Nd Sm Fr.
  - inversion Fr; subst. simpl. split; [reflexivity|]. split; [constructor|]. split; [apply same_refl|reflexivity].
  - inversion Fr as [|? vs ? rows' Hvs Fr']; subst. inversion Fl as [|? ? (Wt & Ty & Bt) Fl']; subst.
    cbn [map] in Nd. inversion Nd as [|? ? Nt Nd']; subst.
    cbn [combine map_calls run fst snd]. rewrite (Hb t m1 vs s Wt Ty Bt Sm Hvs).
    destruct (step t vs s) as [[w s1]| | |]; cbn [bind fst snd agrees]; try exact I.
    set (m2 := match w with Some v => upd m1 (elem o (vals t)) v | None => m1 end).
    assert (Ot : forall p, p <> elem o (vals t) -> cell m2 p = cell m1 p).
    { intros p Hp. unfold m2. destruct w; [|reflexivity]. apply cell_upd_other. congruence. }
    assert (S2 : same_cells m1 m2).
    { intros p. unfold m2. destruct w; [|tauto]. symmetry. unfold valid. apply valid_upd. }
    assert (S02 : same_cells m0 m2) by (intros p; split; intros Hp; [apply S2, Sm, Hp|apply Sm, S2, Hp]).
    assert (Df : forall t', In t' l -> vals t' <> vals t).
    { intros t' Hin E. apply Nt. rewrite <- E. apply in_map. exact Hin. }
    assert (Bl : forall t', In t' l -> in_box (dims c0) (vals t')).
    { intros t' Hin. rewrite Forall_forall in Fl'. apply Fl'. exact Hin. }
    assert (Fr2 : Forall2 (fun t vs => Forall2 (fun c v => value m2 c (vals t) v) rs vs) l rows').
    { apply (Forall2_imp (fun t vs => Forall2 (fun c v => value m1 c (vals t) v) rs vs)); [|exact Fr'].
      intros t' vs' Hin. apply Forall2_imp. intros c v Hc. unfold value, peek. rewrite Ot; [tauto|].
      rewrite Forall_forall in Na. apply (Na c Hc); [apply Bl; exact Hin|exact Bt|apply Df; exact Hin]. }
    specialize (IH rows' s1 m2 Fl' Nd' S02 Fr2).
    destruct (map_calls _ (combine l rows') s1) as [[ws s2]| | |], (run body l (s1, m2)) as [[s3 m3]| | |];
      cbn [bind fst snd agrees] in *; try exact I; try contradiction.
    destruct IH as (-> & Hw & Hs & Hf). split; [reflexivity|].
    assert (Lt : cell m3 (elem o (vals t)) = cell m2 (elem o (vals t))).
    { apply Hf. intros t' Hin E. apply (Df t' Hin). apply Di; [apply Bl; exact Hin|exact Bt|congruence]. }
    split; [constructor|split].
    + unfold value, peek. destruct w as [v|].
      * rewrite Lt. unfold m2. rewrite cell_upd_same by (apply Sm, Va, Bt). reflexivity.
      * exact Lt.
    + apply (Forall2_imp (fun t w => match w with
        | Some v => value m3 o (vals t) v
        | None => cell m3 (elem o (vals t)) = cell m2 (elem o (vals t)) end)); [|exact Hw].
      intros t' [v|] Hin; [tauto|]. intros ->. apply Ot. intros E. apply (Df t' Hin).
      apply Di; [apply Bl; exact Hin|exact Bt|exact E].
    + intros p. split; intros Hp; [apply Hs, S2, Hp|apply S2, Hs, Hp].
    + intros p Hp. rewrite Hf by (intros t' Hin; apply Hp; right; exact Hin). apply Ot. apply Hp. left. reflexivity.
Qed.
End Run.

Lemma tbox_ready c : wfs (c_shape c) ->
  Forall (fun t => wfs t /\ map cty t = ctypes c /\ in_box (dims c) (vals t)) (tbox (c_shape c)).
Proof.
  intros W. apply Forall_forall. intros t Ht. destruct (in_split _ _ Ht) as (pre & post & E).
  destruct (tbox_at _ _ _ _ W E) as (Wt & Bt & Ty & _). auto.
Qed.

Lemma tbox_nodup c : nonnegs (dims c) -> NoDup (map vals (tbox (c_shape c))).
Proof. intros N. rewrite tbox_vals. apply box_NoDup. exact N. Qed.

(** map over containers: [rs] are read, [o] may be written at the current coordinate. *)
Lemma map_containers_calls {T S} (c0 o : container) cs rs (m : mem T) (step : list T -> S -> outcome (option T * S))
    (body : list ptr -> S * mem T -> outcome (S * mem T)) rows s :
  live m c0 c0 -> Forall (live m c0) cs -> distinct_on c0 o ->
  (forall is_, in_box (dims c0) is_ -> valid m (elem o is_)) ->
  Forall (fun i => no_cross_alias c0 i o) rs -> arguments m c0 rs rows ->
  (forall is_ m' vs s, in_box (dims c0) is_ -> same_cells m m' -> Forall2 (fun c v => value m' c is_ v) rs vs ->
     body (map (fun c => elem c is_) (c0 :: cs)) (s, m') =
     (r <- step vs s ;; Ok (snd r, match fst r with Some v => upd m' (elem o is_) v | None => m' end))) ->
  agrees (map_calls step rows s) (map_containers body c0 cs (s, m))
    (fun ws sm => fst sm = snd ws /\ written m c0 o (fst ws) (snd sm) /\ frame c0 o m (snd sm)).
Proof.
  intros L0 Ls Di Va Na Ar Hb. destruct (live_wf m c0 L0) as [W N].
  unfold map_containers. rewrite for_each_run by assumption.
  unfold arguments, dims in Ar. rewrite <- tbox_vals in Ar. apply Forall2_map_l in Ar.
  pose proof (run_calls c0 o rs m (fun _ => step)
    (fun is_ sm => ps <- mapM (fun c => ref (snd sm) c is_) (c0 :: cs) ;; body ps sm) Di Va Na) as R.
  assert (Hb' : forall t m' vs s, wfs t -> map cty t = ctypes c0 -> in_box (dims c0) (vals t) ->
    same_cells m m' -> Forall2 (fun c v => value m' c (vals t) v) rs vs ->
    (ps <- mapM (fun c => ref (snd (s, m')) c t) (c0 :: cs) ;; body ps (s, m')) =
    (r <- step vs s ;; Ok (snd r, match fst r with Some v => upd m' (elem o (vals t)) v | None => m' end))).
  { intros t m' vs s' Wt Ty Bt Sm Hv. cbn [snd]. rewrite (mapM_refs m m' c0 (c0 :: cs) t); try assumption.
    - rewrite bind_ok. apply Hb; assumption.
    - constructor; assumption. }
  specialize (R Hb' (tbox (c_shape c0)) rows s m (tbox_ready c0 W) (tbox_nodup c0 N) (same_refl m) Ar).
  assert (E : map_calls (fun p s => step (snd p) s) (combine (tbox (c_shape c0)) rows) s = map_calls step rows s).
  { clear -Ar. revert s. induction Ar as [|t vs l rows _ _ IH]; intros s; [reflexivity|]. cbn [combine map_calls snd].
    destruct (step vs s) as [[w s1]| | |]; cbn [bind]; [|reflexivity|reflexivity|reflexivity]. rewrite IH. reflexivity. }
  cbn [snd] in R. rewrite E in R.
  eapply agrees_imp; [exact R|]. intros [ws s1] [s2 m2] _. cbn [fst snd]. intros (E1 & Hw & Hs & Hf).
  split; [exact E1|]. split; [|split; [exact Hs|]].
  - unfold written, dims. rewrite <- tbox_vals. apply Forall2_map_l. exact Hw.
  - intros p Hp. apply Hf. intros t Ht. apply Hp. apply box_In. unfold dims. rewrite <- tbox_vals. apply in_map. exact Ht.
Qed.

Lemma live_all {T} (m : mem T) c0 cs : Forall (can_read m c0) cs -> Forall (live m c0) cs.
Proof. apply Forall_impl. intros c. apply can_read_live. Qed.

Lemma map_calls_map {A B C Q} (f : A -> Q -> outcome (B * Q)) (g : A -> B -> C) l : forall q,
  map_calls (fun a q => r <- f a q ;; Ok (g a (fst r), snd r)) l q =
  (r <- map_calls f l q ;; Ok (map (fun p => g (fst p) (snd p)) (combine l (fst r)), snd r)).
Proof.
  induction l as [|a l IH]; intros q; [reflexivity|]. cbn [map_calls].
  destruct (f a q) as [[b q1]| | |]; cbn [bind fst snd]; [|reflexivity|reflexivity|reflexivity].
  rewrite IH. destruct (map_calls f l q1) as [[bs q2]| | |]; reflexivity.
Qed.

Lemma map_calls_pre {A A' B Q} (g : A -> A') (f : A' -> Q -> outcome (B * Q)) l : forall q,
  map_calls f (map g l) q = map_calls (fun a q => f (g a) q) l q.
Proof.
  induction l as [|a l IH]; intros q; [reflexivity|]. cbn [map map_calls].
  destruct (f (g a) q) as [[b q1]| | |]; cbn [bind]; [|reflexivity|reflexivity|reflexivity]. rewrite IH. reflexivity.
Qed.

Lemma map_calls_length {A B Q} (f : A -> Q -> outcome (B * Q)) l : forall q r,
  map_calls f l q = Ok r -> length (fst r) = length l.
Proof.
  induction l as [|a l IH]; intros q r H; cbn [map_calls] in H; [injection H as <-; reflexivity|].
  destruct (f a q) as [[b q1]| | |]; cbn [bind] in H; try discriminate.
  destruct (map_calls f l q1) as [[bs q2]| | |] eqn:E; cbn [bind] in H; try discriminate. injection H as <-.
  cbn [fst length]. f_equal. exact (IH _ _ E).
Qed.

Lemma written_somes {A T} (m : mem T) c0 o (l : list A) ws m' : length ws = length l ->
  written m c0 o (map (fun p => Some (snd p)) (combine l ws)) m' -> values m' c0 o ws.
Proof.
  unfold written, values. generalize (box (dims c0)). revert l. induction ws as [|w ws IH]; intros [|a l] bx Hl H;
    try discriminate; cbn [combine map] in H; inversion H; subst; constructor; [assumption|]. apply (IH l); [|assumption].
  simpl in Hl. congruence.
Qed.

(** ** Writers *)
Lemma transform_call_l {T Q} (f : list T -> Q -> outcome (T * Q)) out c0 cs (m : mem T) rows q :
  can_write m out out -> Forall (can_read m out) (c0 :: cs) ->
  Forall (fun i => no_cross_alias out i out) (c0 :: cs) -> arguments m out (c0 :: cs) rows ->
  agrees (map_calls f rows q) (transform_call f out c0 cs q m)
    (fun r qm => fst qm = snd r /\ values (snd qm) out out (fst r) /\ frame out out m (snd qm)).
Proof.
  intros CW CR NA Ar. unfold transform_call.
  pose proof (map_containers_calls out out (c0 :: cs) (c0 :: cs) m
    (fun vs q => r <- f vs q ;; Ok (Some (fst r), snd r))
    (fun ps qm => match ps with
                  | o :: ins => vs <- mapM (load (snd qm)) ins ;; r <- f vs (fst qm) ;; put o (fst r) (snd r) (snd qm)
                  | [] => UB end) rows q) as R.
  rewrite (map_calls_map f (fun _ b => Some b)) in R. rewrite agrees_map in R.
  eapply agrees_imp; [apply R|].
  - apply can_write_live. exact CW.
  - apply live_all. exact CR.
  - apply CW.
  - apply CW.
  - exact NA.
  - exact Ar.
  - intros is_ m' vs s B Sm Hv. cbn [map fst snd].
    pose proof (mapM_load_unique m' is_ (c0 :: cs) vs Hv) as G. cbn [map] in G. rewrite G, bind_ok.
    destruct (f vs s) as [[w s1]| | |]; cbn [bind fst snd]; try reflexivity.
    unfold put. rewrite store_valid by (apply Sm; apply CW; exact B). reflexivity.
  - intros [ws q1] [q2 m2] Em. cbn [fst snd]. intros (E & Hw & Hf).
    split; [exact E|]. split; [|exact Hf]. eapply written_somes; [|exact Hw]. exact (map_calls_length _ _ _ _ Em).
Qed.

(** One container read. *)
Lemma values_arguments {T} (m : mem T) c0 c vs : values m c0 c vs -> arguments m c0 [c] (map (fun v => [v]) vs).
Proof.
  unfold values, arguments. induction 1 as [|is_ v l vs Hv _ IH]; cbn [map]; constructor; [|exact IH].
  constructor; [exact Hv|constructor].
Qed.
Lemma values_arguments2 {T} (m : mem T) c0 c d vs ws : values m c0 c vs -> values m c0 d ws ->
  arguments m c0 [c; d] (map (fun p => [fst p; snd p]) (combine vs ws)).
Proof.
  unfold values, arguments. intros H. revert ws. induction H as [|is_ v l vs Hv _ IH]; intros ws H'; inversion H'; subst;
    cbn [combine map fst snd]; constructor; [|apply IH; assumption].
  constructor; [exact Hv|]. constructor; [assumption|constructor].
Qed.

Definition head_step {T S} (d : outcome (option T * S)) (g : T -> S -> outcome (option T * S)) (vs : list T) (s : S) :=
  match vs with v :: _ => g v s | [] => d end.

Lemma map_calls_head {T S} d (g : T -> S -> outcome (option T * S)) vs s :
  map_calls (head_step d g) (map (fun v => [v]) vs) s = map_calls g vs s.
Proof. rewrite map_calls_pre. reflexivity. Qed.

Lemma copy_if_call_l {T Q} (f : T -> Q -> outcome (bool * Q)) out in_ (m : mem T) vs q :
  can_write m out out -> can_read m out in_ -> no_cross_alias out in_ out -> values m out in_ vs ->
  agrees (map_calls f vs q) (copy_if_call f out in_ q m)
    (fun r qm => fst qm = snd r /\ frame out out m (snd qm) /\
       written m out out (map (fun p : T * bool => if snd p then Some (fst p) else None) (combine vs (fst r))) (snd qm)).
Proof.
  intros CW CR NA V. unfold copy_if_call.
  pose proof (map_containers_calls out out [in_] [in_] m
    (head_step UB (fun v q => r <- f v q ;; Ok (if fst r then Some v else None, snd r)))
    (fun ps qm => match ps with
                  | [o; i] => v <- load (snd qm) i ;; r <- f v (fst qm) ;;
                              if fst r then v' <- load (snd qm) i ;; put o v' (snd r) (snd qm)
                              else Ok (snd r, snd qm)
                  | _ => UB
                  end) (map (fun v => [v]) vs) q) as R.
  rewrite map_calls_head, (map_calls_map f (fun v b => if (b : bool) then Some v else None)) in R. rewrite agrees_map in R.
  eapply agrees_imp; [apply R|].
  - apply can_write_live. exact CW.
  - constructor; [apply can_read_live; exact CR|constructor].
  - apply CW.
  - apply CW.
  - constructor; [exact NA|constructor].
  - apply values_arguments. exact V.
  - intros is_ m' vs' s B Sm Hv. destruct (Forall2_1 _ _ _ Hv) as (v & -> & Hv1). cbn [map fst snd head_step].
    rewrite (load_peek _ _ _ Hv1), bind_ok.
    destruct (f v s) as [[w s1]| | |]; cbn [bind fst snd]; try reflexivity. destruct w; [|reflexivity].
    unfold put. rewrite store_valid by (apply Sm; apply CW; exact B). reflexivity.
  - intros [ws q1] [q2 m2] Em. cbn [fst snd]. intros (E & Hw & Hf). auto.
Qed.

Lemma replace_if_call_l {T Q} (f : T -> Q -> outcome (bool * Q)) x out (m : mem T) vs q :
  can_write m out out -> can_read m out out -> values m out out vs ->
  agrees (map_calls f vs q) (replace_if_call out f x q m)
    (fun r qm => fst qm = snd r /\ frame out out m (snd qm) /\
       written m out out (map (fun b : bool => if b then Some x else None) (fst r)) (snd qm)).
Proof.
  intros CW CR V. unfold replace_if_call.
  pose proof (map_containers_calls out out [] [out] m
    (head_step UB (fun v q => r <- f v q ;; Ok (if fst r then Some x else None, snd r)))
    (fun ps qm => match ps with
                  | [o] => v <- load (snd qm) o ;; r <- f v (fst qm) ;;
                           if fst r then put o x (snd r) (snd qm) else Ok (snd r, snd qm)
                  | _ => UB
                  end) (map (fun v => [v]) vs) q) as R.
  rewrite map_calls_head, (map_calls_map f (fun _ b => if (b : bool) then Some x else None)) in R. rewrite agrees_map in R.
  eapply agrees_imp; [apply R|].
  - apply can_write_live. exact CW.
  - constructor.
  - apply CW.
  - apply CW.
  - constructor; [apply distinct_no_cross; apply CW|constructor].
  - apply values_arguments. exact V.
  - intros is_ m' vs' s B Sm Hv. destruct (Forall2_1 _ _ _ Hv) as (v & -> & Hv1). cbn [map fst snd head_step].
    rewrite (load_peek _ _ _ Hv1), bind_ok.
    destruct (f v s) as [[w s1]| | |]; cbn [bind fst snd]; try reflexivity. destruct w; [|reflexivity].
    unfold put. rewrite store_valid by (apply Sm; apply CW; exact B). reflexivity.
  - intros [ws q1] [q2 m2] Em. cbn [fst snd]. intros (E & Hw & Hf). split; [exact E|]. split; [exact Hf|].
    pose proof (map_calls_length _ _ _ _ Em) as Hl. cbn [fst] in Hl.
    replace (map (fun b : bool => if b then Some x else None) ws) with
      (map (fun p : T * bool => if snd p then Some x else None) (combine vs ws)); [exact Hw|].
    clear -Hl. revert vs Hl. induction ws as [|b ws IH]; intros [|v vs] Hl; try discriminate; [reflexivity|].
    cbn [combine map snd]. f_equal. apply IH. simpl in Hl. congruence.
Qed.

Lemma generate_call_l {T Q} (f : list cint -> Q -> outcome (T * Q)) out (m : mem T) q : can_write m out out ->
  exists trace, visits_all (c_shape out) trace /\
  agrees (map_calls f trace q) (generate_call f out q m)
    (fun r qm => fst qm = snd r /\ values (snd qm) out out (fst r) /\ frame out out m (snd qm)).
Proof.
  intros CW. pose proof (can_write_live _ _ _ CW) as L. destruct (live_wf m out L) as [W N].
  exists (tbox (c_shape out)). split; [apply tbox_visits; exact N|].
  unfold generate_call, map_index. rewrite for_each_run by assumption.
  pose proof (run_calls out out [] m (fun t _ q => r <- f t q ;; Ok (Some (fst r), snd r))
    (fun is_ sm => p <- ref (snd sm) out is_ ;; r <- f is_ (fst sm) ;; put p (fst r) (snd r) (snd sm))) as R.
  specialize (R (proj1 (proj2 (proj2 CW))) (proj2 (proj2 (proj2 CW))) (Forall_nil _)).
  assert (Hb : forall t m' (vs : list T) s, wfs t -> map cty t = ctypes out -> in_box (dims out) (vals t) ->
    same_cells m m' -> Forall2 (fun c v => value m' c (vals t) v) [] vs ->
    (p <- ref (snd (s, m')) out t ;; r <- f t (fst (s, m')) ;; put p (fst r) (snd r) (snd (s, m'))) =
    (r <- (r <- f t s ;; Ok (Some (fst r), snd r)) ;;
      Ok (snd r, match fst r with Some v => upd m' (elem out (vals t)) v | None => m' end))).
  { intros t m' vs s Wt Ty Bt Sm _. cbn [fst snd]. rewrite (ref_at m m' out out t) by assumption. rewrite bind_ok.
    destruct (f t s) as [[w s1]| | |]; cbn [bind fst snd]; try reflexivity.
    unfold put. rewrite store_valid by (apply Sm; apply CW; exact Bt). reflexivity. }
  specialize (R Hb (tbox (c_shape out)) (map (fun _ => []) (tbox (c_shape out))) q m (tbox_ready out W)
    (tbox_nodup out N) (same_refl m)).
  assert (Ar : Forall2 (fun t vs => Forall2 (fun c v => value m c (vals t) v) [] vs) (tbox (c_shape out))
     (map (fun _ => []) (tbox (c_shape out)))).
  { generalize (tbox (c_shape out)). clear. induction l; cbn [map]; constructor; [constructor|assumption]. }
  specialize (R Ar). cbn [fst snd] in R.
  assert (E : forall l q, map_calls (fun (p : list cint * list T) s => r <- f (fst p) s ;; Ok (Some (fst r), snd r))
      (combine l (map (fun _ => []) l)) q =
      (r <- map_calls f l q ;; Ok (map (fun p => Some (snd p)) (combine l (fst r)), snd r))).
  { intros l q'. rewrite <- (map_calls_map f (fun _ b => Some b)). revert q'.
    induction l as [|t l IH]; intros q'; [reflexivity|]. cbn [map combine map_calls fst].
    destruct (f t q') as [[w q1]| | |]; cbn [bind fst snd]; [|reflexivity|reflexivity|reflexivity]. rewrite IH. reflexivity. }
  rewrite E, agrees_map in R. eapply agrees_imp; [exact R|]. intros [ws q1] [q2 m2] Em. cbn [fst snd].
  intros (E1 & Hw & Hs & Hf). split; [exact E1|]. split; [|split; [exact Hs|]].
  - eapply (written_somes m out out (tbox (c_shape out))); [exact (map_calls_length _ _ _ _ Em)|].
    unfold written, dims. rewrite <- tbox_vals. apply Forall2_map_l. exact Hw.
  - intros p Hp. apply Hf. intros t Ht. apply Hp. apply box_In. unfold dims. rewrite <- tbox_vals. apply in_map. exact Ht.
Qed.
