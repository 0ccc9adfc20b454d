(** Algorithms on containers of which one has no element at some coordinate of the first. *)
From Coq Require Import ZArith List Bool Lia.
From Verif Require Import Outcome CInt CIntFacts Spec SpecFacts ShapeSpec Shape ShapeFacts ShapeFacts2
  ForEach ForEachSpec ForEachFacts Memory MemFacts Container ContainerSpec ContainerFacts ContainerFacts2
  Algo AlgoSpec AlgoFacts AlgoFacts2.
Import ListNotations.
Open Scope Z_scope.

Definition fine {A} (P : A -> Prop) (o : outcome A) : Prop := o = UB \/ exists a, o = Ok a /\ P a.
Lemma fine_bind {A B} (P : A -> Prop) (Q : B -> Prop) o k : fine P o -> (forall a, P a -> fine Q (k a)) -> fine Q (bind o k).
Proof. intros [-> |(a & -> & Pa)] H; [left; reflexivity|exact (H a Pa)]. Qed.
Lemma fine_ok {A} (P : A -> Prop) a : P a -> fine P (Ok a). Proof. right. eauto. Qed.
Lemma fine_ub {A} (P : A -> Prop) : fine P UB. Proof. left. reflexivity. Qed.
Lemma fine_arith f a b : fine (fun _ => True) (arith f a b).
Proof. unfold arith. cbv zeta. destruct (is_signed _); [destruct (in_tyb _ _)|]; auto using fine_ok, fine_ub. Qed.
Lemma fine_linearize st : forall acc is_, fine (fun _ => True) (linearize_from acc st is_).
Proof.
  induction st as [|s st IH]; intros acc [|i is_]; cbn [linearize_from]; auto using fine_ok, fine_ub.
  eapply fine_bind; [apply fine_arith|]. intros p _. eapply fine_bind; [apply fine_arith|]. intros q _. apply IH.
Qed.
Lemma fine_index c is_ : fine (fun _ => True) (index c is_).
Proof.
  unfold index, linearize. destruct (c_kind c); try apply fine_linearize.
  - destruct is_ as [|i [|? ?]]; auto using fine_ok, fine_ub.
  - destruct is_ as [|i [|? ?]]; auto using fine_ub. destruct (c_stride c) as [|s [|? ?]]; auto using fine_ub. apply fine_arith.
  - destruct is_ as [|i [|j [|? ?]]]; auto using fine_ub. destruct (c_shape c) as [|a [|b [|? ?]]]; auto using fine_ub.
    eapply fine_bind; [apply fine_arith|]. intros p _. apply fine_arith.
Qed.
Lemma fine_ref {T} (m : mem T) c is_ : fine (fun _ => True) (ref m c is_).
Proof.
  unfold ref, address. eapply fine_bind; [eapply fine_bind; [apply fine_index|]; intros i _; apply (fine_ok (fun _ => True)); exact Logic.I|].
  intros p _. destruct (validb m p); auto using fine_ok, fine_ub.
Qed.
Lemma fine_mapM {A B} (f : A -> outcome B) l : (forall a, fine (fun _ => True) (f a)) -> fine (fun _ => True) (mapM f l).
Proof.
  intros H. induction l as [|a l IH]; cbn [mapM]; [apply fine_ok; exact Logic.I|]. eapply fine_bind; [apply H|]. intros b _.
  eapply fine_bind; [exact IH|]. intros bs _. apply fine_ok; exact Logic.I.
Qed.
Lemma mapM_UB {A B} (f : A -> outcome B) l a : (forall a, fine (fun _ => True) (f a)) -> In a l -> f a = UB -> mapM f l = UB.
Proof.
  intros H I E. induction l as [|b l IH]; [destruct I|]. cbn [mapM]. destruct I as [-> |I]; [rewrite E; reflexivity|].
  destruct (H b) as [-> |(x & -> & _)]; [reflexivity|]. cbn [bind]. rewrite (IH I). reflexivity.
Qed.
Lemma same_trans {T} (a b c : mem T) : same_cells a b -> same_cells b c -> same_cells a c.
Proof. intros H K p. rewrite (H p). apply K. Qed.
Lemma ref_same {T} (m m' : mem T) c is_ : same_cells m m' -> ref m' c is_ = ref m c is_.
Proof.
  intros Sm. unfold ref. destruct (address c is_) as [p| | |]; try reflexivity. cbn [bind]. specialize (Sm p). unfold valid in Sm.
  destruct (validb m p) eqn:E; destruct (validb m' p) eqn:E'; try reflexivity; exfalso.
  - apply validb_true in E. apply Sm, validb_true in E. congruence.
  - apply validb_true in E'. apply Sm, validb_true in E'. congruence.
Qed.
Lemma fine_load {T} (m : mem T) p : fine (fun _ => True) (load m p).
Proof. unfold load. destruct (cell m p) as [[v|]|]; auto using fine_ok, fine_ub. Qed.
Lemma fine_store {T} (m : mem T) p v : fine (same_cells m) (store m p v).
Proof.
  unfold store. destruct (validb m p) eqn:E; [|apply fine_ub]. apply fine_ok. intros q. unfold valid. apply validb_true in E.
  symmetry. apply valid_upd.
Qed.
Definition tame {T S} (body : list ptr -> S * mem T -> outcome (S * mem T)) : Prop :=
  forall ps s m, fine (fun sm => same_cells m (snd sm)) (body ps (s, m)).
Lemma in_tbox c0 is_ : map cty is_ = ctypes c0 -> in_box (dims c0) (vals is_) -> In is_ (tbox (c_shape c0)).
Proof.
  intros Ty B. apply box_In in B. unfold dims in B. rewrite <- tbox_vals in B. apply in_map_iff in B. destruct B as (t & Ev & It).
  pose proof (tbox_types (c_shape c0)) as TT. rewrite Forall_forall in TT. specialize (TT t It).
  replace is_ with t; [exact It|]. assert (Et : map cty t = map cty is_) by (rewrite TT, Ty; reflexivity).
  clear -Ev Et. revert is_ Ev Et. induction t as [|[a x] t IH]; intros [|[b y] is_] Ev Et; try discriminate; [reflexivity|].
  cbn in Ev, Et. injection Ev as -> Ev. injection Et as -> Et. rewrite (IH is_ Ev Et). reflexivity.
Qed.
Lemma map_uncovered {T S} (body : list ptr -> S * mem T -> outcome (S * mem T)) c0 cs c is_ s m :
  tame body -> wfs (c_shape c0) -> nonnegs (dims c0) -> map cty is_ = ctypes c0 -> in_box (dims c0) (vals is_) ->
  In c (c0 :: cs) -> ref m c is_ = UB -> map_containers body c0 cs (s, m) = UB.
Proof.
  intros Tm W N Ty B Ic R. unfold map_containers. rewrite for_each_run by assumption. pose proof (in_tbox c0 is_ Ty B) as I.
  assert (G : forall l s' m', In is_ l -> same_cells m m' ->
    run (fun is_ sm => ps <- mapM (fun c => ref (snd sm) c is_) (c0 :: cs) ;; body ps sm) l (s', m') = UB).
  { induction l as [|t l IH]; intros s' m' Il Sm; [destruct Il|]. cbn [run].
    destruct Il as [-> |Il].
    - rewrite (mapM_UB _ (c0 :: cs) c); [reflexivity|intros a; apply fine_ref|exact Ic|]. cbn [snd]. rewrite (ref_same m m') by exact Sm. exact R.
    - assert (F : fine (fun sm => same_cells m' (snd sm)) (ps <- mapM (fun c => ref (snd (s', m')) c t) (c0 :: cs) ;; body ps (s', m'))).
      { eapply fine_bind; [apply fine_mapM; intros a; apply fine_ref|]. intros ps _. apply Tm. }
      destruct F as [-> |([s2 m2] & -> & S2)]; [reflexivity|]. cbn [bind]. apply IH; [exact Il|exact (same_trans _ _ _ Sm S2)]. }
  apply G; [exact I|apply same_refl].
Qed.

Ltac tame_step := first
  [ apply fine_ub
  | eapply fine_bind; [apply fine_load|intros ? _]
  | eapply fine_bind; [apply fine_mapM; intros ?; apply fine_load|intros ? _]
  | eapply fine_bind; [apply fine_store|intros ? ?] ].
Ltac by_tame := let a := fresh "ps" in let b := fresh "s" in let c := fresh "m" in intros a b c; repeat match goal with |- context [match ?l with [] => _ | _ :: _ => _ end] => is_var l; destruct l end;
  cbn [fst snd]; unfold assign; cbn [snd]; repeat tame_step; try (apply fine_ok; cbn [snd]; first [assumption|apply same_refl]).

Section Algorithms.
Context {T : Type} (m : mem T) (c0 : container) (is_ : list cint).
Hypothesis W : wfs (c_shape c0).
Hypothesis N : nonnegs (dims c0).
Hypothesis Ty : map cty is_ = ctypes c0.
Hypothesis B : in_box (dims c0) (vals is_).

Lemma transform_uncovered f c1 cs c : In c (c0 :: c1 :: cs) -> ref m c is_ = UB -> transform f c0 c1 cs m = UB.
Proof using W N Ty B.
  intros I R. unfold transform. rewrite (map_uncovered _ c0 (c1 :: cs) c is_); try assumption; [reflexivity|]. by_tame.
Qed.
Lemma copy_uncovered c1 c : In c [c0; c1] -> ref m c is_ = UB -> copy c0 c1 m = UB.
Proof using W N Ty B. intros I R. unfold copy. rewrite (map_uncovered _ c0 [c1] c is_); try assumption; [reflexivity|]. by_tame. Qed.
Lemma copy_if_uncovered f c1 c : In c [c0; c1] -> ref m c is_ = UB -> copy_if f c0 c1 m = UB.
Proof using W N Ty B.
  intros I R. unfold copy_if. rewrite (map_uncovered _ c0 [c1] c is_); try assumption; [reflexivity|]. by_tame.
  match goal with |- context [f ?v] => destruct (f v) end; repeat tame_step; apply fine_ok; cbn [snd]; first [assumption|apply same_refl].
Qed.
Lemma transform_reduce_uncovered {A C} c1 c init (R : A -> C -> A) (f : T -> T -> C) : In c [c0; c1] -> ref m c is_ = UB ->
  transform_reduce c0 c1 init R f m = UB.
Proof using W N Ty B. intros I E. unfold transform_reduce. rewrite (map_uncovered _ c0 [c1] c is_); try assumption; [reflexivity|]. by_tame. Qed.
Lemma exclusive_uncovered {C} c1 c init (f1 : T -> C -> T) f2 : In c [c0; c1] -> ref m c is_ = UB ->
  transform_exclusive_scan c0 c1 init f1 f2 m = UB.
Proof using W N Ty B. intros I E. unfold transform_exclusive_scan. rewrite (map_uncovered _ c0 [c1] c is_); try assumption; [reflexivity|]. by_tame. Qed.
Lemma inclusive_uncovered {C} c1 c init (f1 : T -> C -> T) f2 : In c [c0; c1] -> ref m c is_ = UB ->
  transform_inclusive_scan c0 c1 init f1 f2 m = UB.
Proof using W N Ty B. intros I E. unfold transform_inclusive_scan. rewrite (map_uncovered _ c0 [c1] c is_); try assumption; [reflexivity|]. by_tame. Qed.
End Algorithms.

(** A one-dimensional container after which nothing follows in memory has no elements behind its own. *)
Lemma longer_outside {T} (m : mem T) a b p : wfc a -> 0 <= cval b < cval a -> cval a <= 9223372036854775807 ->
  (forall k, cval b <= k -> ~ valid m (padd p k)) ->
  let is_ := [CI (cty a) (cval b)] in in_box [cval a] (vals is_) /\ ref m (Cn K1 [b] [] p) is_ = UB.
Proof.
  intros W H L V is_. split; [constructor; [cbn; lia|constructor]|]. unfold ref, address, index, is_. cbn [c_kind c_data bind cval].
  rewrite cast_id by (unfold in_ty; change (tmin I64) with (-9223372036854775808); change (tmax I64) with 9223372036854775807; lia).
  destruct (validb m (padd p (cval b))) eqn:E; [|reflexivity]. exfalso. apply validb_true in E. exact (V (cval b) ltac:(lia) E).
Qed.
Lemma longer_l {T} (m : mem T) out a b p : c_shape out = [a] -> wfc a -> 0 <= cval b < cval a -> cval a <= 9223372036854775807 ->
  (forall k, cval b <= k -> ~ valid m (padd p k)) ->
  let in_ := Cn K1 [b] [] p in
  (forall f, transform f out in_ [] m = UB) /\ copy out in_ m = UB /\ (forall f, copy_if f out in_ m = UB).
Proof.
  intros Sh W H L V in_. destruct (longer_outside m a b p W H L V) as [B R].
  assert (Ws : wfs (c_shape out)) by (rewrite Sh; constructor; [exact W|constructor]).
  assert (N : nonnegs (dims out)) by (unfold dims; rewrite Sh; constructor; [cbn; lia|constructor]).
  assert (Ty : map cty [CI (cty a) (cval b)] = ctypes out) by (unfold ctypes; rewrite Sh; reflexivity).
  assert (Bo : in_box (dims out) (vals [CI (cty a) (cval b)])) by (unfold dims; rewrite Sh; exact B).
  split; [intros f; apply (transform_uncovered m out _ Ws N Ty Bo f in_ [] in_); [right; left; reflexivity|exact R]|].
  split; [apply (copy_uncovered m out _ Ws N Ty Bo in_ in_); [right; left; reflexivity|exact R]|].
  intros f. apply (copy_if_uncovered m out _ Ws N Ty Bo f in_ in_); [right; left; reflexivity|exact R].
Qed.
Lemma uncovered_l {T} (m : mem T) c0 is_ : wfs (c_shape c0) -> nonnegs (dims c0) -> map cty is_ = ctypes c0 -> in_box (dims c0) (vals is_) ->
  (forall f c1 cs c, In c (c0 :: c1 :: cs) -> ref m c is_ = UB -> transform f c0 c1 cs m = UB) /\
  (forall c1 c, In c [c0; c1] -> ref m c is_ = UB ->
     copy c0 c1 m = UB /\ (forall f, copy_if f c0 c1 m = UB) /\
     (forall (A B : Type) init (R : A -> B -> A) (f : T -> T -> B), transform_reduce c0 c1 init R f m = UB) /\
     (forall (B : Type) init (f1 : T -> B -> T) f2, transform_exclusive_scan c0 c1 init f1 f2 m = UB /\
        transform_inclusive_scan c0 c1 init f1 f2 m = UB)).
Proof.
  intros W N Ty B. split; [intros f c1 cs c I R; exact (transform_uncovered m c0 is_ W N Ty B f c1 cs c I R)|].
  intros c1 c I R. split; [exact (copy_uncovered m c0 is_ W N Ty B c1 c I R)|].
  split; [intros f; exact (copy_if_uncovered m c0 is_ W N Ty B f c1 c I R)|].
  split; [intros; exact (transform_reduce_uncovered m c0 is_ W N Ty B c1 c init R0 f I R)|].
  intros C init f1 f2. split; [exact (exclusive_uncovered m c0 is_ W N Ty B c1 c init f1 f2 I R)|exact (inclusive_uncovered m c0 is_ W N Ty B c1 c init f1 f2 I R)].
Qed.
