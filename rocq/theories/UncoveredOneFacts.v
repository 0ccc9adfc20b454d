(** Algorithms on one container that lacks an element, for properties C34 and C36-C38, continued. *)
From Coq Require Import ZArith List Bool Lia.
From Verif Require Import Outcome CInt CIntFacts Spec SpecFacts ShapeSpec Shape ShapeFacts ShapeFacts2
  ForEach ForEachSpec ForEachFacts Memory MemFacts Container ContainerSpec ContainerFacts ContainerFacts2
  Algo AlgoSpec AlgoFacts AlgoFacts2 UncoveredFacts.
Import ListNotations.
Open Scope Z_scope.

Section One.
Context {T : Type} (m : mem T) (c : container) (is_ : list cint).
Hypothesis W : wfs (c_shape c).
Hypothesis N : nonnegs (dims c).
Hypothesis Ty : map cty is_ = ctypes c.
Hypothesis B : in_box (dims c) (vals is_).
Hypothesis U : ref m c is_ = UB.

Lemma fill_missing v : fill c v m = UB.
Proof using W N Ty B U. unfold fill. rewrite (map_uncovered _ c [] c is_); try assumption; [reflexivity| |left; reflexivity]. by_tame. Qed.

Lemma replace_if_missing f v : replace_if c f v m = UB.
Proof using W N Ty B U.
  unfold replace_if. rewrite (map_uncovered _ c [] c is_); try assumption; [reflexivity| |left; reflexivity]. by_tame.
  match goal with |- context [f ?v] => destruct (f v) end; repeat tame_step; apply fine_ok; cbn [snd]; first [assumption|apply same_refl].
Qed.

Lemma reduce_missing {A} (f : A -> T -> A) init : reduce c f init m = UB.
Proof using W N Ty B U. unfold reduce. apply (map_uncovered _ c [] c is_); try assumption; [|left; reflexivity]. by_tame. Qed.

Lemma generate_missing f : generate f c m = UB.
Proof using W N Ty B U.
  unfold generate, map_index. rewrite for_each_run by assumption. pose proof (in_tbox c is_ Ty B) as I.
  assert (G : forall l s' m', In is_ l -> same_cells m m' ->
    run (fun is_ (sm : unit * mem T) => p <- ref (snd sm) c is_ ;; assign p (f is_) sm) l (s', m') = UB).
  { induction l as [|t l IH]; intros s' m' Il Sm; [destruct Il|]. cbn [run].
    destruct Il as [-> |Il].
    - cbn [snd]. rewrite (ref_same m m') by exact Sm. rewrite U. reflexivity.
    - assert (F : fine (fun sm => same_cells m' (snd sm)) (p <- ref (snd (s', m')) c t ;; assign p (f t) (s', m'))).
      { eapply fine_bind; [apply fine_ref|]. intros p _. unfold assign. cbn [snd].
        eapply fine_bind; [apply fine_store|]. intros m2 S2. apply fine_ok. exact S2. }
      destruct F as [-> |([s2 m2] & -> & S2)]; [reflexivity|]. cbn [bind]. apply IH; [exact Il|exact (same_trans _ _ _ Sm S2)]. }
  rewrite G; [reflexivity|exact I|apply same_refl].
Qed.
End One.

Lemma writers_missing_l {T} (m : mem T) c is_ : wfs (c_shape c) -> nonnegs (dims c) -> map cty is_ = ctypes c ->
  in_box (dims c) (vals is_) -> ref m c is_ = UB ->
  (forall v, fill c v m = UB) /\ (forall f, generate f c m = UB).
Proof. intros W N Ty B U. split; intros; [exact (fill_missing m c is_ W N Ty B U v)|exact (generate_missing m c is_ W N Ty B U f)]. Qed.

Lemma replace_missing_l {T} (m : mem T) c is_ : wfs (c_shape c) -> nonnegs (dims c) -> map cty is_ = ctypes c ->
  in_box (dims c) (vals is_) -> ref m c is_ = UB ->
  (forall f v, replace_if c f v m = UB) /\ (forall e o v, replace e c o v m = UB).
Proof.
  intros W N Ty B U. split; intros; [exact (replace_if_missing m c is_ W N Ty B U f v)|].
  unfold replace. exact (replace_if_missing m c is_ W N Ty B U _ v).
Qed.

Lemma reduce_missing_l {T A} (m : mem T) c is_ (f : A -> T -> A) init : wfs (c_shape c) -> nonnegs (dims c) -> map cty is_ = ctypes c ->
  in_box (dims c) (vals is_) -> ref m c is_ = UB -> reduce c f init m = UB.
Proof. intros W N Ty B U. exact (reduce_missing m c is_ W N Ty B U f init). Qed.

Lemma predicates_missing_l {T} (m : mem T) c is_ : wfs (c_shape c) -> nonnegs (dims c) -> map cty is_ = ctypes c ->
  in_box (dims c) (vals is_) -> ref m c is_ = UB ->
  (forall f, all_of c f m = UB /\ any_of c f m = UB /\ none_of c f m = UB /\ count_if c f m = UB) /\ (forall e v, count e c v m = UB).
Proof.
  intros W N Ty B U. assert (R : forall A (f : A -> T -> A) init, reduce c f init m = UB) by (intros; apply (reduce_missing_l m c is_); assumption).
  split; [intros f|intros e v; apply R]. split; [apply R|]. split; [apply R|]. split; [|apply R].
  unfold none_of, any_of. rewrite R. reflexivity.
Qed.
