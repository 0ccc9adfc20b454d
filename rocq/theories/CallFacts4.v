From Coq Require Import ZArith List Bool Lia.
From Verif Require Import Outcome CInt Shape ForEach Memory Container Algo Calls CallSpec CallFacts.
Import ListNotations.
Open Scope Z_scope.

(** ** Two loops in step *)
Lemma agrees_bind {A A' B B'} (x : outcome A) (y : outcome A') (R : A -> A' -> Prop) (f : A -> outcome B)
    (g : A' -> outcome B') (P : B -> B' -> Prop) :
  agrees x y R -> (forall a a', R a a' -> agrees (f a) (g a') P) -> agrees (bind x f) (bind y g) P.
Proof. destruct x, y; simpl; try tauto. auto. Qed.

Section Sim.
Context {S S' : Type} (R : S -> S' -> Prop).

Lemma loop_sim (b1 : cint -> S -> outcome S) (b2 : cint -> S' -> outcome S') :
  (forall i s s', R s s' -> agrees (b1 i s) (b2 i s') R) -> forall fuel m i s s', R s s' ->
  agrees (loop fuel m i b1 s) (loop fuel m i b2 s') R.
Proof.
  intros H. induction fuel as [|fuel IH]; intros m i s s' Hs; [exact I|]. cbn [loop].
  destruct (clt i m); [|exact Hs]. apply (agrees_bind _ _ R); [apply H; exact Hs|]. intros a a' Ha.
  destruct (cincr i) as [i'| | |]; cbn [bind agrees]; try exact I. apply IH. exact Ha.
Qed.

Lemma for_each_sim ds (f : list cint -> S -> outcome S) (g : list cint -> S' -> outcome S') s s' :
  (forall is_ s s', R s s' -> agrees (f is_ s) (g is_ s') R) -> R s s' ->
  agrees (for_each ds f s) (for_each ds g s') R.
Proof.
  intros H Hs. unfold for_each, pile.
  set (F1 := fun (m : cint) (acc : list cint -> S -> outcome S) (is_ : list cint) (s : S) =>
    loop (fuel_of m) m (CI (cty m) 0) (fun i => acc (is_ ++ [i])) s).
  set (F2 := fun (m : cint) (acc : list cint -> S' -> outcome S') (is_ : list cint) (s : S') =>
    loop (fuel_of m) m (CI (cty m) 0) (fun i => acc (is_ ++ [i])) s).
  assert (G : forall ds pre s s', R s s' -> agrees (fold_right F1 f ds pre s) (fold_right F2 g ds pre s') R).
  { induction ds0 as [|d ds0 IH]; intros pre s0 s0' Hs0; cbn [fold_right]; [apply H; exact Hs0|].
    unfold F1 at 1, F2 at 1. apply loop_sim; [|exact Hs0]. intros i a a' Ha. apply IH. exact Ha. }
  apply G. exact Hs.
Qed.
End Sim.

Lemma agrees_eq {A B} (g : A -> B) (x : outcome A) (y : outcome B) :
  agrees x y (fun a b => b = g a) -> y = (a <- x ;; Ok (g a)).
Proof. destruct x, y; simpl; try tauto. congruence. Qed.

Lemma agrees_refl {A B} (x : outcome A) (g : A -> B) : agrees x (a <- x ;; Ok (g a)) (fun a b => b = g a).
Proof. destruct x; simpl; auto. Qed.

Lemma map_containers_sim {T S S'} (R : S -> S' -> Prop) (f : list ptr -> S * mem T -> outcome (S * mem T))
    (g : list ptr -> S' * mem T -> outcome (S' * mem T)) c0 cs s s' m :
  (forall ps s s' m, R s s' -> agrees (f ps (s, m)) (g ps (s', m)) (fun x y => R (fst x) (fst y) /\ snd x = snd y)) ->
  R s s' -> agrees (map_containers f c0 cs (s, m)) (map_containers g c0 cs (s', m))
    (fun x y => R (fst x) (fst y) /\ snd x = snd y).
Proof.
  intros H Hs. unfold map_containers. apply for_each_sim; [|split; [exact Hs|reflexivity]].
  intros is_ [a ma] [b mb] [Hab E]. cbn [fst snd] in *. subst mb.
  destruct (mapM (fun c => ref ma c is_) (c0 :: cs)) as [ps| | |]; cbn [bind agrees]; try exact I. apply H. exact Hab.
Qed.

Section EffectFree.
Context {T Q : Type} (m : mem T) (q : Q).
Definition still {A} (a : A * Q) : A := fst a.

Lemma transform_free (f : list T -> T) out c0 cs :
  transform_call (fun vs (q : Q) => Ok (f vs, q)) out c0 cs q m = (m' <- transform f out c0 cs m ;; Ok (q, m')).
Proof.
  unfold transform, transform_call, run_map. rewrite bind_assoc. cbn [bind].
  apply (agrees_eq (fun sm : unit * mem T => (q, snd sm))).
  eapply agrees_imp; [apply (map_containers_sim (fun (_ : unit) q' => q' = q)); [|reflexivity]|].
  - intros [|o ins] [] q' m' ->; cbn [fst snd agrees]; [exact I|].
    destruct (mapM (load m') ins) as [vs| | |]; cbn [bind agrees]; try exact I. unfold assign, put. cbn [fst snd].
    destruct (store m' o (f vs)); cbn [bind agrees]; try exact I. auto.
  - intros [[] m1] [q1 m2] _ [E1 E2]. cbn [fst snd] in *. subst. reflexivity.
Qed.

Lemma copy_if_free (f : T -> bool) out in_ :
  copy_if_call (fun v (q : Q) => Ok (f v, q)) out in_ q m = (m' <- copy_if f out in_ m ;; Ok (q, m')).
Proof.
  unfold copy_if, copy_if_call, run_map. rewrite bind_assoc. cbn [bind].
  apply (agrees_eq (fun sm : unit * mem T => (q, snd sm))).
  eapply agrees_imp; [apply (map_containers_sim (fun (_ : unit) q' => q' = q)); [|reflexivity]|].
  - intros [|o [|i [|]]] [] q' m' ->; cbn [fst snd agrees]; try exact I.
    destruct (load m' i) as [v| | |]; cbn [bind agrees]; try exact I. cbn [fst snd]. destruct (f v); [|split; reflexivity].
    unfold assign, put. cbn [snd bind]. destruct (store m' o v); cbn [bind agrees]; try exact I. auto.
  - intros [[] m1] [q1 m2] _ [E1 E2]. cbn [fst snd] in *. subst. reflexivity.
Qed.

Lemma replace_if_free (f : T -> bool) out x :
  replace_if_call out (fun v (q : Q) => Ok (f v, q)) x q m = (m' <- replace_if out f x m ;; Ok (q, m')).
Proof.
  unfold replace_if, replace_if_call, run_map. rewrite bind_assoc. cbn [bind].
  apply (agrees_eq (fun sm : unit * mem T => (q, snd sm))).
  eapply agrees_imp; [apply (map_containers_sim (fun (_ : unit) q' => q' = q)); [|reflexivity]|].
  - intros [|o [|]] [] q' m' ->; cbn [fst snd agrees]; try exact I.
    destruct (load m' o) as [v| | |]; cbn [bind agrees]; try exact I. cbn [fst snd]. destruct (f v); [|split; reflexivity].
    unfold assign, put. cbn [snd bind]. destruct (store m' o x); cbn [bind agrees]; try exact I. auto.
  - intros [[] m1] [q1 m2] _ [E1 E2]. cbn [fst snd] in *. subst. reflexivity.
Qed.

Lemma generate_free (f : list cint -> T) out :
  generate_call (fun is_ (q : Q) => Ok (f is_, q)) out q m = (m' <- generate f out m ;; Ok (q, m')).
Proof.
  unfold generate, generate_call, run_map, map_index. rewrite bind_assoc. cbn [bind].
  apply (agrees_eq (fun sm : unit * mem T => (q, snd sm))).
  eapply agrees_imp; [apply (for_each_sim (fun (x : unit * mem T) y => fst y = q /\ snd x = snd y)); [|split; reflexivity]|].
  - intros is_ [[] m1] [q1 m2] [E1 E2]. cbn [fst snd] in *. subst.
    destruct (ref m2 out is_) as [p| | |]; cbn [bind agrees]; try exact I. unfold assign, put. cbn [snd].
    destruct (store m2 p (f is_)); cbn [bind agrees]; try exact I. auto.
  - intros [[] m1] [q1 m2] _ [E1 E2]. cbn [fst snd] in *. subst. reflexivity.
Qed.

Definition kept {A} (r : A * mem T) : (A * Q) * mem T := ((fst r, q), snd r).

Lemma reduce_sim {A} (f : A -> T -> A) (g : A -> T -> Q -> outcome (A * Q)) init c :
  (forall a v q, g a v q = Ok (f a v, q)) ->
  reduce_call c g init q m = (r <- reduce c f init m ;; Ok (kept r)).
Proof.
  intros H. unfold reduce, reduce_call. apply agrees_eq.
  eapply agrees_imp; [apply (map_containers_sim (fun a (aq : A * Q) => aq = (a, q))); [|reflexivity]|].
  - intros [|i [|]] a aq m' ->; cbn [fst snd agrees]; try exact I.
    destruct (load m' i) as [v| | |]; cbn [bind agrees]; try exact I. rewrite H. cbn. auto.
  - intros [a m1] [aq m2] _ [E1 E2]. cbn [fst snd] in *. subst. reflexivity.
Qed.

Lemma reduce_free {A} (f : A -> T -> A) init c :
  reduce_call c (fun a v (q : Q) => Ok (f a v, q)) init q m = (r <- reduce c f init m ;; Ok (kept r)).
Proof. apply reduce_sim. reflexivity. Qed.
Lemma all_of_free (f : T -> bool) c :
  all_of_call c (fun v (q : Q) => Ok (f v, q)) q m = (r <- all_of c f m ;; Ok (kept r)).
Proof. apply reduce_sim. intros [|] v q'; reflexivity. Qed.
Lemma any_of_free (f : T -> bool) c :
  any_of_call c (fun v (q : Q) => Ok (f v, q)) q m = (r <- any_of c f m ;; Ok (kept r)).
Proof. apply reduce_sim. intros [|] v q'; reflexivity. Qed.
Lemma none_of_free (f : T -> bool) c :
  none_of_call c (fun v (q : Q) => Ok (f v, q)) q m = (r <- none_of c f m ;; Ok (kept r)).
Proof.
  unfold none_of_call, none_of. rewrite any_of_free. destruct (any_of c f m) as [[b m1]| | |]; reflexivity.
Qed.
Lemma count_if_free (f : T -> bool) c :
  count_if_call c (fun v (q : Q) => Ok (f v, q)) q m = (r <- count_if c f m ;; Ok (kept r)).
Proof. apply reduce_sim. intros a v q'; reflexivity. Qed.

Lemma transform_reduce_free {A B} (R : A -> B -> A) (F : T -> T -> B) init c1 c2 :
  transform_reduce_call c1 c2 init (fun a d (q : Q) => Ok (R a d, q)) (fun v w (q : Q) => Ok (F v w, q)) q m =
  (r <- transform_reduce c1 c2 init R F m ;; Ok (kept r)).
Proof.
  unfold transform_reduce, transform_reduce_call. apply agrees_eq.
  eapply agrees_imp; [apply (map_containers_sim (fun a (aq : A * Q) => aq = (a, q))); [|reflexivity]|].
  - intros [|i [|j [|]]] a aq m' ->; cbn [fst snd agrees]; try exact I.
    destruct (load m' i) as [v| | |]; cbn [bind agrees]; try exact I.
    destruct (load m' j) as [w| | |]; cbn [bind agrees]; try exact I. cbn. auto.
  - intros [a m1] [aq m2] _ [E1 E2]. cbn [fst snd] in *. subst. reflexivity.
Qed.
Lemma inner_product_free {A B} dbg (R : A -> B -> A) (F : T -> T -> B) init c1 c2 :
  inner_product_call dbg c1 c2 init (fun a d (q : Q) => Ok (R a d, q)) (fun v w (q : Q) => Ok (F v w, q)) q m =
  (r <- inner_product dbg c1 c2 init R F m ;; Ok (kept r)).
Proof.
  unfold inner_product, inner_product_call. rewrite transform_reduce_free.
  destruct (kassert dbg (shape_eq (c_shape c1) (c_shape c2))); reflexivity.
Qed.

Lemma exclusive_free {B} (f1 : T -> B -> T) (f2 : T -> B) init in_ out :
  (r <- exclusive_scan_call in_ out init (fun s d (q : Q) => Ok (f1 s d, q)) (fun v (q : Q) => Ok (f2 v, q)) q m ;;
   Ok (snd (fst r), snd r)) = (m' <- transform_exclusive_scan in_ out init f1 f2 m ;; Ok (q, m')).
Proof.
  unfold exclusive_scan_call, transform_exclusive_scan. rewrite bind_assoc. cbn [bind].
  apply (agrees_eq (fun sm : T * mem T => (q, snd sm))). apply agrees_map_r.
  eapply agrees_imp; [apply (map_containers_sim (fun a (aq : T * Q) => aq = (a, q))); [|reflexivity]|].
  - intros [|i [|o [|]]] a aq m' ->; cbn [fst snd agrees]; try exact I.
    destruct (store m' o a) as [m1| | |]; cbn [bind agrees]; try exact I.
    destruct (load m1 i) as [v| | |]; cbn [bind agrees]; try exact I. cbn. auto.
  - intros [a m1] [aq m2] _ [E1 E2]. cbn [fst snd] in *. subst. reflexivity.
Qed.
Lemma inclusive_free {B} (f1 : T -> B -> T) (f2 : T -> B) init in_ out :
  (r <- inclusive_scan_call in_ out init (fun s d (q : Q) => Ok (f1 s d, q)) (fun v (q : Q) => Ok (f2 v, q)) q m ;;
   Ok (snd (fst r), snd r)) = (m' <- transform_inclusive_scan in_ out init f1 f2 m ;; Ok (q, m')).
Proof.
  unfold inclusive_scan_call, transform_inclusive_scan. rewrite bind_assoc. cbn [bind].
  apply (agrees_eq (fun sm : T * mem T => (q, snd sm))). apply agrees_map_r.
  eapply agrees_imp; [apply (map_containers_sim (fun a (aq : T * Q) => aq = (a, q))); [|reflexivity]|].
  - intros [|i [|o [|]]] a aq m' ->; cbn [fst snd agrees]; try exact I.
    destruct (load m' i) as [v| | |]; cbn [bind agrees]; try exact I. cbn [fst snd bind]. unfold put.
    destruct (store m' o (f1 a (f2 v))) as [m1| | |]; cbn [bind agrees]; try exact I. auto.
  - intros [a m1] [aq m2] _ [E1 E2]. cbn [fst snd] in *. subst. reflexivity.
Qed.
End EffectFree.

Section SimUntil.
Context {S S' : Type} (R : S -> S' -> Prop).
Let RB (x : bool * S) (y : bool * S') : Prop := fst x = fst y /\ R (snd x) (snd y).

Lemma loop_until_sim (b1 : cint -> bool * S -> outcome (bool * S)) (b2 : cint -> bool * S' -> outcome (bool * S')) :
  (forall i s s', RB s s' -> agrees (b1 i s) (b2 i s') RB) -> forall fuel m i s s', RB s s' ->
  agrees (loop_until fuel m i b1 s) (loop_until fuel m i b2 s') RB.
Proof.
  intros H. induction fuel as [|fuel IH]; intros m i s s' Hs; [exact I|]. cbn [loop_until].
  rewrite (proj1 Hs). destruct (negb (fst s') && clt i m); [|exact Hs].
  apply (agrees_bind _ _ RB); [apply H; exact Hs|]. intros a a' Ha.
  destruct (cincr i) as [i'| | |]; cbn [bind agrees]; try exact I. apply IH. exact Ha.
Qed.

Lemma for_until_sim ds (f : list cint -> S -> outcome (bool * S)) (g : list cint -> S' -> outcome (bool * S')) s s' :
  (forall is_ s s', R s s' -> agrees (f is_ s) (g is_ s') RB) -> R s s' ->
  agrees (for_until ds f s) (for_until ds g s') RB.
Proof.
  intros H Hs. unfold for_until, pile.
  set (F1 := fun (m : cint) (acc : list cint -> bool * S -> outcome (bool * S)) (is_ : list cint) (s : bool * S) =>
    loop_until (fuel_of m) m (CI (cty m) 0) (fun i => acc (is_ ++ [i])) s).
  set (F2 := fun (m : cint) (acc : list cint -> bool * S' -> outcome (bool * S')) (is_ : list cint) (s : bool * S') =>
    loop_until (fuel_of m) m (CI (cty m) 0) (fun i => acc (is_ ++ [i])) s).
  assert (G : forall ds pre s s', RB s s' -> agrees (fold_right F1 (fun is_ fs => f is_ (snd fs)) ds pre s)
     (fold_right F2 (fun is_ fs => g is_ (snd fs)) ds pre s') RB).
  { induction ds0 as [|d ds0 IH]; intros pre s0 s0' Hs0; cbn [fold_right]; [apply H; apply Hs0|].
    unfold F1 at 1, F2 at 1. apply loop_until_sim; [|exact Hs0]. intros i a a' Ha. apply IH. exact Ha. }
  apply G. split; [reflexivity|exact Hs].
Qed.
End SimUntil.

Section FindFree.
Context {T Q : Type} (m : mem T) (q : Q).

Lemma find_if_sim (f : T -> bool) (g : T -> Q -> outcome (bool * Q)) c : (forall v q, g v q = Ok (f v, q)) ->
  find_if_call c g q m = (r <- find_if c f m ;; Ok (fst r, q)).
Proof.
  intros H. unfold find_if, find_if_call. rewrite bind_assoc. cbn [bind fst].
  match goal with |- (_ <- ?a ;; _) = (_ <- ?b ;; _) =>
    assert (G : agrees b a (fun x y => fst x = fst y /\ (fst (snd y) = fst (snd x) /\ snd (snd y) = q))) end.
  { eapply agrees_imp; [apply (for_until_sim (fun (x : list cint * mem T) y => snd x = m /\ fst y = fst x /\ snd y = q))|].
    - intros is_ [p m1] [p' q1] (E1 & E2 & E3). cbn [fst snd] in *. subst.
      destruct (ref m c is_) as [a| | |]; cbn [bind agrees]; try exact I.
      destruct (load m a) as [v| | |]; cbn [bind agrees]; try exact I. rewrite H. cbn [bind fst snd].
      destruct (f v); cbn; auto.
    - cbn. auto.
    - intros [b [p m1]] [b' [p' q1]] _. cbn [fst snd]. tauto. }
  match type of G with agrees ?b ?a _ => destruct b as [[b1 [p1 m1]]| | |], a as [[b2 [p2 q2]]| | |] end;
    cbn [agrees bind fst snd] in *; try reflexivity; try contradiction.
  destruct G as (-> & -> & ->). reflexivity.
Qed.
Lemma find_if_free (f : T -> bool) c :
  find_if_call c (fun v (q : Q) => Ok (f v, q)) q m = (r <- find_if c f m ;; Ok (fst r, q)).
Proof. apply find_if_sim. reflexivity. Qed.
Lemma find_if_not_free (f : T -> bool) c :
  find_if_not_call c (fun v (q : Q) => Ok (f v, q)) q m = (r <- find_if_not c f m ;; Ok (fst r, q)).
Proof. unfold find_if_not_call, find_if_not. apply find_if_sim. reflexivity. Qed.
Lemma find_last_if_sim st (f : T -> bool) (g : T -> Q -> outcome (bool * Q)) c : (forall v q, g v q = Ok (f v, q)) ->
  find_last_if_call st c g q m = (r <- find_last_if st c f m ;; Ok (fst r, q)).
Proof.
  intros H. unfold find_last_if_call, find_last_if. destruct (reverse st c) as [rc| | |]; cbn [bind]; try reflexivity.
  rewrite (find_if_sim f g rc H). destruct (find_if rc f m) as [[[pos|] m1]| | |]; cbn [bind fst]; try reflexivity.
  destruct (mapM _ (combine (c_shape c) pos)); reflexivity.
Qed.
Lemma find_last_if_free st (f : T -> bool) c :
  find_last_if_call st c (fun v (q : Q) => Ok (f v, q)) q m = (r <- find_last_if st c f m ;; Ok (fst r, q)).
Proof. apply find_last_if_sim. reflexivity. Qed.
Lemma find_last_if_not_free st (f : T -> bool) c :
  find_last_if_not_call st c (fun v (q : Q) => Ok (f v, q)) q m = (r <- find_last_if_not st c f m ;; Ok (fst r, q)).
Proof. unfold find_last_if_not_call, find_last_if_not. apply find_last_if_sim. reflexivity. Qed.
End FindFree.
