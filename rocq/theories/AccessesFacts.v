(** Facts about the accesses of calls (C97). *)
From Coq Require Import ZArith List Bool Lia.
From Verif Require Import Outcome CInt CIntFacts Spec SpecFacts ShapeSpec Shape ShapeFacts ShapeFacts2 ForEach ForEachFacts Memory MemFacts
  Container ContainerSpec ContainerFacts ContainerFacts2 ContainerFacts3 AlgoSpec Algo AlgoFacts AlgoFacts4 ReverseFacts Search SearchSpec SearchFacts CallFacts2 Program
  Threads ThreadsSpec ThreadsFacts ThreadsFacts3 StepsFacts Accesses AccessesSpec.
Import ListNotations.
Open Scope Z_scope.

(** Paths through a tree, whatever the memory. *)
Inductive path {T A} : act T A -> list (access T) -> A -> Prop :=
| path_stop a : path (Stop (Ok a)) [] a
| path_mk p k l a : path k l a -> path (Mk p k) l a
| path_ld p k v l a : path (k v) l a -> path (Ld p k) (Sees p v :: l) a
| path_st p v k l a : path k l a -> path (St p v k) (Sets p v :: l) a.

Lemma logged_path {T A} (x : act T A) : forall m l a m', logged x m = Ok (l, (a, m')) -> path x l a /\ replay m l m' /\ alone x m = Ok (a, m').
Proof.
  induction x as [o|p k IH|p k IH|p v k IH]; intros m l a m' E; cbn [logged alone] in *.
  - destruct o; try discriminate. cbn [bind] in *. injection E as <- <- <-. split; [constructor|split; [constructor|reflexivity]].
  - destruct (validb m p); [|discriminate]. destruct (IH _ _ _ _ E) as (A1 & A2 & A3). split; [constructor; exact A1|split; assumption].
  - destruct (load m p) as [v| | |] eqn:L; try discriminate. cbn [bind] in *. destruct (logged (k v) m) as [[l1 [a1 m1]]| | |] eqn:G; try discriminate.
    cbn [bind fst snd] in E. injection E as <- <- <-. destruct (IH _ _ _ _ _ G) as (A1 & A2 & A3).
    split; [constructor; exact A1|split; [constructor; assumption|exact A3]].
  - destruct (store m p v) as [m1| | |] eqn:L; try discriminate. cbn [bind] in *. destruct (logged k m1) as [[l1 [a1 m2]]| | |] eqn:G; try discriminate.
    cbn [bind fst snd] in E. injection E as <- <- <-. destruct (IH _ _ _ _ G) as (A1 & A2 & A3).
    split; [constructor; exact A1|split; [econstructor; eassumption|exact A3]].
Qed.
Lemma logged_alone {T A} (x : act T A) : forall m, alone x m = (r <- logged x m ;; Ok (snd r)).
Proof.
  induction x as [o|p k IH|p k IH|p v k IH]; intros m; cbn [logged alone].
  - destruct o; reflexivity.
  - destruct (validb m p); [apply IH|reflexivity].
  - destruct (load m p) as [v| | |]; cbn [bind]; try reflexivity. rewrite IH. destruct (logged (k v) m); reflexivity.
  - destruct (store m p v) as [m1| | |]; cbn [bind]; try reflexivity. rewrite IH. destruct (logged k m1); reflexivity.
Qed.

Lemma path_mk_inv {T A} p (k : act T A) l a : path (Mk p k) l a -> path k l a.
Proof. inversion 1; assumption. Qed.
Lemma path_ld_inv {T A} p (k : T -> act T A) l a : path (Ld p k) l a -> exists v l', l = Sees p v :: l' /\ path (k v) l' a.
Proof. inversion 1; subst; eauto. Qed.
Lemma path_st_inv {T A} p v (k : act T A) l a : path (St p v k) l a -> exists l', l = Sets p v :: l' /\ path k l' a.
Proof. inversion 1; subst; eauto. Qed.
Lemma path_bind {T A B} (x : act T A) (f : A -> act T B) : forall l b, path (abind x f) l b ->
  exists l1 a l2, path x l1 a /\ path (f a) l2 b /\ l = l1 ++ l2.
Proof.
  induction x as [o|p k IH|p k IH|p v k IH]; intros l b H; cbn [abind] in H.
  - destruct o; [|inversion H..]. exists [], a, l. split; [constructor|split; [exact H|reflexivity]].
  - apply path_mk_inv in H. destruct (IH _ _ H) as (l1 & a & l2 & P1 & P2 & ->). exists l1, a, l2. split; [constructor; exact P1|split; [exact P2|reflexivity]].
  - apply path_ld_inv in H. destruct H as (v & l' & -> & H). destruct (IH _ _ _ H) as (l1 & a & l2 & P1 & P2 & ->). exists (Sees p v :: l1), a, l2.
    split; [constructor; exact P1|split; [exact P2|reflexivity]].
  - apply path_st_inv in H. destruct H as (l' & -> & H). destruct (IH _ _ H) as (l1 & a & l2 & P1 & P2 & ->). exists (Sets p v :: l1), a, l2.
    split; [constructor; exact P1|split; [exact P2|reflexivity]].
Qed.
Lemma path_stopped {T A} (o : outcome A) (l : list (access T)) a : path (Stop o) l a -> o = Ok a /\ l = [].
Proof. inversion 1; subst. auto. Qed.
Lemma path_stop_bind {T A B} (o : outcome A) (f : A -> act T B) l b : path (abind (Stop o) f) l b -> exists a, o = Ok a /\ path (f a) l b.
Proof. destruct o; cbn [abind]; [|inversion 1..]. intros H. exists a. auto. Qed.
Lemma path_ret {T A} (a : A) (l : list (access T)) b : path (ret a) l b -> l = [] /\ b = a.
Proof. intros H. apply path_stopped in H. destruct H as [E ->]. injection E as ->. auto. Qed.
Lemma path_aload {T} p (l : list (access T)) v : path (aload p) l v -> l = [Sees p v].
Proof. intros H. apply path_ld_inv in H. destruct H as (w & l' & -> & H). apply path_ret in H. destruct H as [-> ->]. reflexivity. Qed.
Lemma path_astore {T} p (v : T) l u : path (astore p v) l u -> l = [Sets p v].
Proof. intros H. apply path_st_inv in H. destruct H as (l' & -> & H). apply path_ret in H. destruct H as [-> _]. reflexivity. Qed.
Lemma path_aref {T} c0 c js (l : list (access T)) p : in_reach c0 c -> typed_in (c_shape c0) js -> path (aref c js) l p -> l = [] /\ p = elem c (vals js).
Proof.
  intros (A & C) (W1 & T1 & B1) H. apply path_stop_bind in H. destruct H as (q & E & H). apply path_mk_inv, path_ret in H.
  destruct H as [-> ->]. split; [reflexivity|]. rewrite elem_address in E; [congruence| |exact W1|apply C; exact B1]. rewrite T1. exact A.
Qed.
Lemma path_arefs {T} c0 js cs : Forall (in_reach c0) cs -> typed_in (c_shape c0) js ->
  forall (l : list (access T)) ps, path (amapM (fun c => aref c js) cs) l ps -> l = [] /\ ps = map (fun c => elem c (vals js)) cs.
Proof.
  intros H Tj. induction H as [|c cs Hc H IH]; intros l ps P; cbn [amapM map] in *; [apply path_ret in P; exact P|].
  apply path_bind in P. destruct P as (l1 & p & l2 & P1 & P2 & ->). apply (path_aref c0) in P1; try assumption. destruct P1 as [-> ->].
  apply path_bind in P2. destruct P2 as (l3 & qs & l4 & P3 & P4 & ->). apply IH in P3. destruct P3 as [-> ->].
  apply path_ret in P4. destruct P4 as [-> ->]. auto.
Qed.
Lemma path_loads {T} ps : forall (l : list (access T)) vs, path (amapM aload ps) l vs ->
  length vs = length ps /\ l = map (fun pv => Sees (fst pv) (snd pv)) (combine ps vs).
Proof.
  induction ps as [|p ps IH]; intros l vs P; cbn [amapM] in P; [apply path_ret in P; destruct P as [-> ->]; auto|].
  apply path_bind in P. destruct P as (l1 & v & l2 & P1 & P2 & ->). apply path_aload in P1. subst l1.
  apply path_bind in P2. destruct P2 as (l3 & ws & l4 & P3 & P4 & ->). apply IH in P3. destruct P3 as [E ->].
  apply path_ret in P4. destruct P4 as [-> ->]. rewrite app_nil_r. cbn. split; [congruence|reflexivity].
Qed.

(** ** Loops *)
Lemma in_turn_app {T S} (P : list Z -> S -> list (access T) -> S -> Prop) a b s l1 s1 l2 s2 : in_turn P a s l1 s1 -> in_turn P b s1 l2 s2 ->
  in_turn P (a ++ b) s (l1 ++ l2) s2.
Proof. intros H. revert b l2 s2. induction H; intros b l' s' G; [exact G|]. rewrite <- app_assoc. cbn [app]. econstructor; [eassumption|auto]. Qed.
Lemma in_turn_map {T S} (g : list Z -> list Z) (P : list Z -> S -> list (access T) -> S -> Prop) is_ s l s' :
  in_turn (fun i => P (g i)) is_ s l s' -> in_turn P (map g is_) s l s'.
Proof. induction 1; cbn [map]; [constructor|econstructor; eassumption]. Qed.
Lemma in_turn_imp {T S} (P Q : list Z -> S -> list (access T) -> S -> Prop) is_ s l s' : (forall i s l s', In i is_ -> P i s l s' -> Q i s l s') ->
  in_turn P is_ s l s' -> in_turn Q is_ s l s'.
Proof. intros H G. induction G; [constructor|]. econstructor; [apply H; [left; reflexivity|eassumption]|apply IHG; intros; apply H; [right|]; assumption]. Qed.

Lemma path_loop {T S} M (body : cint -> S -> act T S) (P : Z -> list (list Z)) (R : list Z -> S -> list (access T) -> S -> Prop) : wfc M ->
  (forall z s l s', 0 <= z < cval M -> path (body (CI (cty M) z) s) l s' -> in_turn R (P z) s l s') ->
  forall fuel z s l s', 0 <= z <= cval M -> path (aloop fuel M (CI (cty M) z) body s) l s' ->
  in_turn R (flat_map P (zrange z (Z.to_nat (cval M - z)))) s l s'.
Proof.
  intros Wm H. induction fuel as [|fuel IH]; intros z s l s' Hz G; cbn [aloop] in G; [inversion G|].
  assert (Wz : wfc (CI (cty M) z)) by (unfold wfc in *; simpl; eapply in_ty_shrink; [exact Wm|lia]).
  rewrite clt_exact in G; [|exact Wz|exact Wm|right; simpl; lia]. cbn [cval] in G.
  destruct (Z.ltb_spec z (cval M)) as [L|L].
  - apply path_bind in G. destruct G as (l1 & s1 & l2 & G1 & G2 & ->).
    rewrite cincr_exact in G2; [|exact Wz|unfold wfc, in_ty in Wm; simpl; lia|simpl; lia]. cbn [cval cty abind] in G2.
    replace (Z.to_nat (cval M - z)) with (Datatypes.S (Z.to_nat (cval M - (z + 1)))) by lia. cbn [zrange flat_map].
    eapply in_turn_app; [apply H; [lia|exact G1]|apply IH; [lia|exact G2]].
  - apply path_ret in G. destruct G as [-> ->]. replace (Z.to_nat (cval M - z)) with O by lia. constructor.
Qed.
Lemma path_for_each {T S} ds (f : list cint -> S -> act T S) (R : list Z -> S -> list (access T) -> S -> Prop) s l s' : wfs ds -> nonnegs (vals ds) ->
  (forall js s l s', typed_in ds js -> path (f js s) l s' -> R (vals js) s l s') -> path (afor_each ds f s) l s' -> in_turn R (box (vals ds)) s l s'.
Proof.
  intros Wd Nn H G. unfold afor_each in G.
  enough (X : forall is_ (R : list Z -> S -> list (access T) -> S -> Prop) s l s', (forall js s l s', typed_in ds js -> path (f (is_ ++ js) s) l s' -> R (vals js) s l s') ->
    path (pile (fun acc m => fun is_ s => aloop (fuel_of m) m (CI (cty m) 0) (fun i => acc (is_ ++ [i])) s) ds f is_ s) l s' ->
    in_turn R (box (vals ds)) s l s') by (apply (X []); [exact H|exact G]).
  clear s l s' R H G. induction ds as [|M ds IH]; intros is_ R s l s' H G; cbn [pile fold_right vals map box] in *.
  - rewrite <- (app_nil_r l). econstructor; [|constructor]. apply (H []); [repeat split; constructor|rewrite app_nil_r; exact G].
  - inversion Wd; inversion Nn; subst. rewrite <- (Z.sub_0_r (cval M)).
    eapply (path_loop M _ (fun i => map (cons i) (box (vals ds))) R); [assumption| |lia|exact G].
    intros z s1 l1 s2 Hz G1. apply in_turn_map. apply (IH ltac:(assumption) ltac:(assumption) (is_ ++ [CI (cty M) z]) (fun i => R (z :: i))); [|exact G1].
    intros js s3 l3 s4 Tj G2. rewrite <- app_assoc in G2. apply (H (CI (cty M) z :: js)); [apply typed_in_cons; assumption|exact G2].
Qed.

Lemma until_app {T S} (P : list Z -> S -> list (access T) -> bool * S -> Prop) a b s l1 s1 l2 r : until_one P a s l1 (false, s1) -> until_one P b s1 l2 r ->
  until_one P (a ++ b) s (l1 ++ l2) r.
Proof.
  intros H. remember (false, s1) as r1 eqn:E. revert s1 E b l2 r. induction H; intros s1' E b l' r' G.
  - injection E as ->. exact G.
  - discriminate.
  - rewrite <- app_assoc. cbn [app]. econstructor; [eassumption|eapply IHuntil_one; eassumption].
Qed.
Lemma until_found {T S} (P : list Z -> S -> list (access T) -> bool * S -> Prop) a b s l1 s1 : until_one P a s l1 (true, s1) ->
  until_one P (a ++ b) s l1 (true, s1).
Proof.
  intros H. remember (true, s1) as r1 eqn:E. revert s1 E b. induction H; intros s1' E b.
  - discriminate.
  - injection E as ->. apply until_here. assumption.
  - cbn [app]. econstructor; [eassumption|]. subst r. eapply IHuntil_one. reflexivity.
Qed.
Lemma until_map {T S} (g : list Z -> list Z) (P : list Z -> S -> list (access T) -> bool * S -> Prop) is_ s l r :
  until_one (fun i => P (g i)) is_ s l r -> until_one P (map g is_) s l r.
Proof. induction 1; cbn [map]; [constructor|apply until_here; assumption|econstructor; eassumption]. Qed.

Lemma path_loop_until {T S} M (body : cint -> bool * S -> act T (bool * S)) (P : Z -> list (list Z)) (R : list Z -> S -> list (access T) -> bool * S -> Prop) : wfc M ->
  (forall z s l r, 0 <= z < cval M -> path (body (CI (cty M) z) (false, s)) l r -> until_one R (P z) s l r) ->
  forall fuel z s l r, 0 <= z <= cval M -> path (aloop_until fuel M (CI (cty M) z) body (false, s)) l r ->
  until_one R (flat_map P (zrange z (Z.to_nat (cval M - z)))) s l r.
Proof.
  intros Wm H. induction fuel as [|fuel IH]; intros z s l r Hz G; cbn [aloop_until fst negb andb] in G; [inversion G|].
  assert (Wz : wfc (CI (cty M) z)) by (unfold wfc in *; simpl; eapply in_ty_shrink; [exact Wm|lia]).
  rewrite clt_exact in G; [|exact Wz|exact Wm|right; simpl; lia]. cbn [cval] in G.
  destruct (Z.ltb_spec z (cval M)) as [L|L].
  - apply path_bind in G. destruct G as (l1 & [b s1] & l2 & G1 & G2 & ->).
    rewrite cincr_exact in G2; [|exact Wz|unfold wfc, in_ty in Wm; simpl; lia|simpl; lia]. cbn [cval cty abind] in G2.
    replace (Z.to_nat (cval M - z)) with (Datatypes.S (Z.to_nat (cval M - (z + 1)))) by lia. cbn [zrange flat_map].
    apply H in G1; [|lia]. destruct b.
    + destruct fuel as [|fuel]; [inversion G2|]. cbn [aloop_until fst negb andb] in G2. apply path_ret in G2. destruct G2 as [-> ->].
      rewrite app_nil_r. apply until_found. exact G1.
    + eapply until_app; [exact G1|apply IH; [lia|exact G2]].
  - apply path_ret in G. destruct G as [-> ->]. replace (Z.to_nat (cval M - z)) with O by lia. constructor.
Qed.
Lemma path_for_until {T S} ds (f : list cint -> S -> act T (bool * S)) (R : list Z -> S -> list (access T) -> bool * S -> Prop) s l r : wfs ds -> nonnegs (vals ds) ->
  (forall js s l r, typed_in ds js -> path (f js s) l r -> R (vals js) s l r) -> path (afor_until ds f s) l r -> until_one R (box (vals ds)) s l r.
Proof.
  intros Wd Nn H G. unfold afor_until in G.
  enough (X : forall is_ (R : list Z -> S -> list (access T) -> bool * S -> Prop) s l r, (forall js s l r, typed_in ds js -> path (f (is_ ++ js) s) l r -> R (vals js) s l r) ->
    path (pile (fun acc m => fun is_ s => aloop_until (fuel_of m) m (CI (cty m) 0) (fun i => acc (is_ ++ [i])) s) ds (fun is_ fs => f is_ (snd fs)) is_ (false, s)) l r ->
    until_one R (box (vals ds)) s l r) by (apply (X []); [exact H|exact G]).
  clear s l r R H G. induction ds as [|M ds IH]; intros is_ R s l r H G; cbn [pile fold_right vals map box snd] in *.
  - assert (K : R [] s l r) by (apply (H []); [repeat split; constructor|rewrite app_nil_r; exact G]).
    destruct r as [[|] s']; [apply until_here; exact K|]. rewrite <- (app_nil_r l). econstructor; [exact K|constructor].
  - inversion Wd; inversion Nn; subst. rewrite <- (Z.sub_0_r (cval M)).
    eapply (path_loop_until M _ (fun i => map (cons i) (box (vals ds))) R); [assumption| |lia|exact G].
    intros z s1 l1 s2 Hz G1. apply until_map. apply (IH ltac:(assumption) ltac:(assumption) (is_ ++ [CI (cty M) z]) (fun i => R (z :: i))); [|exact G1].
    intros js s3 l3 s4 Tj G2. rewrite <- app_assoc in G2. apply (H (CI (cty M) z :: js)); [apply typed_in_cons; assumption|exact G2].
Qed.

Lemma path_amap {T S} (f : list ptr -> S -> act T S) (R : list Z -> S -> list (access T) -> S -> Prop) c0 cs s l s' : Forall (in_reach c0) (c0 :: cs) ->
  (forall i s l s', in_box (dims c0) i -> path (f (map (fun c => elem c i) (c0 :: cs)) s) l s' -> R i s l s') -> path (amap f c0 cs s) l s' ->
  in_turn R (box (dims c0)) s l s'.
Proof.
  intros H F G. pose proof H as H0. inversion H0 as [|? ? Hc _]; subst. destruct (reach_wf c0 Hc) as [W1 N1]. unfold amap in G.
  eapply path_for_each; [exact W1|exact N1| |exact G]. intros js s1 l1 s2 Tj G1. apply path_bind in G1.
  destruct G1 as (l2 & ps & l3 & G1 & G2 & ->). apply (path_arefs c0) in G1; try assumption. destruct G1 as [-> ->]. apply F; [apply Tj|exact G2].
Qed.
Lemma path_amap_index {T S} (f : ptr -> list cint -> S -> act T S) (R : list Z -> S -> list (access T) -> S -> Prop) c s l s' : in_reach c c ->
  (forall js s l s', typed_in (c_shape c) js -> path (f (elem c (vals js)) js s) l s' -> R (vals js) s l s') -> path (amap_index f c s) l s' ->
  in_turn R (box (dims c)) s l s'.
Proof.
  intros H F G. destruct (reach_wf c H) as [W1 N1]. unfold amap_index in G.
  eapply path_for_each; [exact W1|exact N1| |exact G]. intros js s1 l1 s2 Tj G1. apply path_bind in G1.
  destruct G1 as (l2 & p & l3 & G1 & G2 & ->). apply (path_aref c) in G1; try assumption. destruct G1 as [-> ->]. apply F; [exact Tj|exact G2].
Qed.
Lemma path_acall {S T} (ps : list ptr) (e : elem_fun S T) : forall l s, path (acall e ps) l s -> does ps e l s.
Proof.
  induction e as [s0|i k IH|i v k IH]; intros l s H; cbn [acall] in H.
  - apply path_ret in H. destruct H as [-> ->]. constructor.
  - destruct (nth_error ps i) eqn:E; [|inversion H]. apply path_ld_inv in H. destruct H as (v & l' & -> & H). econstructor; [exact E|auto].
  - destruct (nth_error ps i) eqn:E; [|inversion H]. apply path_st_inv in H. destruct H as (l' & -> & H). econstructor; [exact E|auto].
Qed.

(** ** The algorithms *)
Ltac paths := repeat match goal with
  | H : path (ret _) _ _ |- _ => apply path_ret in H; destruct H as [? ?]; subst
  | H : path (aload _) _ _ |- _ => apply path_aload in H; subst
  | H : path (astore _ _) _ _ |- _ => apply path_astore in H; subst
  | H : path (amapM aload _) _ _ |- _ => apply path_loads in H; destruct H as [? ?]; subst
  | H : path (abind (Stop _) _) _ _ |- _ => apply path_stop_bind in H; destruct H as (? & ? & H)
  | H : path (Stop _) _ _ |- _ => apply path_stopped in H; destruct H as [? ?]; subst
  | H : path (abind _ _) _ _ |- _ => apply path_bind in H; destruct H as (? & ? & ? & ? & H & ?); subst
  | H : path (if ?b then _ else _) _ _ |- _ => destruct b eqn:?
  end.
Lemma in_turn_flat {T S} (g : list Z -> list (access T)) is_ (s : S) l s' : in_turn (fun i _ l _ => l = g i) is_ s l s' -> l = flat_map g is_.
Proof. induction 1 as [|i is_ s l1 s1 l2 s2 H1 H2 IH]; cbn [flat_map]; congruence. Qed.
Lemma flat_one {A B} (g : A -> B) l : flat_map (fun a => [g a]) l = map g l.
Proof. induction l; cbn; congruence. Qed.

Section Writers.
Context {T : Type}.
Lemma fill_path out (v : T) l u : in_reach out out -> path (a_fill out v) l u -> l = map (fun i => Sets (elem out i) v) (box (dims out)).
Proof.
  intros H G. rewrite <- flat_one. eapply in_turn_flat. eapply path_amap; [| |exact G]; [auto|]. cbn [map]. intros. paths. reflexivity.
Qed.
Lemma generate_path (h : list cint -> T) out l u : in_reach out out -> path (a_generate h out) l u ->
  in_turn (fun i _ l _ => exists js, typed out i js /\ l = [Sets (elem out i) (h js)]) (box (dims out)) tt l tt.
Proof.
  intros H G. destruct u. eapply path_amap_index; [| |exact G]; [auto|]. cbn beta. intros js [] l' [] (W1 & T1 & B1) P. paths. exists js.
  split; [split; [reflexivity|exact T1]|reflexivity].
Qed.
Lemma replace_if_path out (f : T -> bool) w l u : in_reach out out -> path (a_replace_if out f w) l u ->
  in_turn (fun i _ l _ => exists v, l = Sees (elem out i) v :: if f v then [Sets (elem out i) w] else []) (box (dims out)) tt l tt.
Proof.
  intros H G. destruct u. eapply path_amap; [| |exact G]; [auto|]. cbn [map]. intros i [] l' [] B P. paths; eexists; rewrite Heqb; reflexivity.
Qed.
Lemma copy_path out in_ l u : in_reach out out -> in_reach out in_ -> path (@a_copy T out in_) l u ->
  in_turn (fun i _ l _ => exists v, l = [Sees (elem in_ i) v; Sets (elem out i) v]) (box (dims out)) tt l tt.
Proof.
  intros H H2 G. destruct u. eapply path_amap; [| |exact G]; [auto|]. cbn [map]. intros i [] l' [] B P. paths. eexists; reflexivity.
Qed.
Lemma copy_if_path (f : T -> bool) out in_ l u : in_reach out out -> in_reach out in_ -> path (a_copy_if f out in_) l u ->
  in_turn (fun i _ l _ => exists v w, l = Sees (elem in_ i) v :: if f v then [Sees (elem in_ i) w; Sets (elem out i) w] else []) (box (dims out)) tt l tt.
Proof.
  intros H H2 G. destruct u. eapply path_amap; [| |exact G]; [auto|]. cbn [map]. intros i [] l' [] B P. paths.
  - do 2 eexists. rewrite Heqb. reflexivity.
  - match type of Heqb with f ?v = _ => exists v, v end. rewrite Heqb. reflexivity.
Qed.
Lemma sees_map cs i (vs : list T) : map (fun pv => Sees (fst pv) (snd pv)) (combine (map (fun c => elem c i) cs) vs) =
  map (fun cv => Sees (elem (fst cv) i) (snd cv)) (combine cs vs).
Proof. revert vs. induction cs as [|c cs IH]; intros [|v vs]; cbn; congruence. Qed.
Lemma transform_path (g : list T -> T) out c0 cs l u : in_reach out out -> Forall (in_reach out) (c0 :: cs) -> path (a_transform g out c0 cs) l u ->
  in_turn (fun i _ l _ => exists vs l', sees_all (c0 :: cs) i vs l' /\ l = l' ++ [Sets (elem out i) (g vs)]) (box (dims out)) tt l tt.
Proof.
  intros H H2 G. destruct u. eapply path_amap; [| |exact G]; [auto|]. intros i [] l' [] B P. cbv beta iota zeta in P. change (map (fun c => elem c i) (out :: c0 :: cs)) with
    (elem out i :: map (fun c => elem c i) (c0 :: cs)) in P. cbv iota in P. paths. rewrite map_length in *. rewrite sees_map.
  eexists; eexists; split; [split; [eassumption|reflexivity]|reflexivity].
Qed.
Lemma exclusive_path {B} in_ out init (f1 : T -> B -> T) f2 l u : in_reach in_ in_ -> in_reach in_ out -> path (a_exclusive_scan in_ out init f1 f2) l u ->
  exists last, in_turn (fun i s l s' => exists v, l = [Sets (elem out i) s; Sees (elem in_ i) v] /\ s' = f1 s (f2 v)) (box (dims in_)) init l last.
Proof.
  intros H H2 G. unfold a_exclusive_scan in G. apply path_bind in G. destruct G as (l1 & last & l2 & G & G2 & ->). paths. exists last. rewrite app_nil_r.
  eapply path_amap; [| |exact G]; [auto|]. cbn [map]. intros i s l' s' Bx P. paths. eexists; split; reflexivity.
Qed.
Lemma inclusive_path {B} in_ out init (f1 : T -> B -> T) f2 l u : in_reach in_ in_ -> in_reach in_ out -> path (a_inclusive_scan in_ out init f1 f2) l u ->
  exists last, in_turn (fun i s l s' => exists v, l = [Sees (elem in_ i) v; Sets (elem out i) s'] /\ s' = f1 s (f2 v)) (box (dims in_)) init l last.
Proof.
  intros H H2 G. unfold a_inclusive_scan in G. apply path_bind in G. destruct G as (l1 & last & l2 & G & G2 & ->). paths. exists last. rewrite app_nil_r.
  eapply path_amap; [| |exact G]; [auto|]. cbn [map]. intros i s l' s' Bx P. paths. eexists; split; reflexivity.
Qed.
End Writers.
Lemma iota_path et out v l u : in_reach out out -> path (@a_iota et out v) l u ->
  exists last, in_turn (fun i s l s' => l = [Sets (elem out i) (conv et s)] /\ cincr s = Ok s') (box (dims out)) v l last.
Proof.
  intros H G. unfold a_iota in G. apply path_bind in G. destruct G as (l1 & last & l2 & G & G2 & ->). paths. exists last. rewrite app_nil_r.
  eapply path_amap; [| |exact G]; [auto|]. cbn [map]. intros i s l' s' Bx P. paths. auto.
Qed.
Lemma iota_step_path et out v w l u : in_reach out out -> path (@a_iota_step et out v w) l u ->
  exists last, in_turn (fun i s l s' => l = [Sets (elem out i) (conv et s)] /\ exists t, cadd s w = Ok t /\ s' = conv (cty s) t) (box (dims out)) v l last.
Proof.
  intros H G. unfold a_iota_step in G. apply path_bind in G. destruct G as (l1 & last & l2 & G & G2 & ->). paths. exists last. rewrite app_nil_r.
  eapply path_amap; [| |exact G]; [auto|]. cbn [map]. intros i s l' s' Bx P. paths. split; [reflexivity|]. eauto.
Qed.

Section Readers.
Context {T : Type}.
Lemma reduce_path {A} c (f : A -> T -> A) init l r : in_reach c c -> path (a_reduce c f init) l r ->
  in_turn (fun i s l s' => exists v, l = [Sees (elem c i) v] /\ s' = f s v) (box (dims c)) init l r.
Proof. intros H G. eapply path_amap; [| |exact G]; [auto|]. cbn [map]. intros i s l' s' Bx P. paths. eexists; split; reflexivity. Qed.
Lemma transform_reduce_path {A B} c d (init : A) (R : A -> B -> A) (g : T -> T -> B) l r : in_reach c c -> in_reach c d -> path (a_transform_reduce c d init R g) l r ->
  in_turn (fun i s l s' => exists v w, l = [Sees (elem c i) v; Sees (elem d i) w] /\ s' = R s (g v w)) (box (dims c)) init l r.
Proof. intros H H2 G. eapply path_amap; [| |exact G]; [auto|]. cbn [map]. intros i s l' s' Bx P. paths. eexists; eexists; split; reflexivity. Qed.
Lemma inner_product_path {A B} dbg c d (init : A) (R : A -> B -> A) (g : T -> T -> B) l r : in_reach c c -> in_reach c d -> path (a_inner_product dbg c d init R g) l r ->
  in_turn (fun i s l s' => exists v w, l = [Sees (elem c i) v; Sees (elem d i) w] /\ s' = R s (g v w)) (box (dims c)) init l r.
Proof. intros H H2 G. apply path_stop_bind in G. destruct G as (? & _ & G). eapply transform_reduce_path; eassumption. Qed.
Lemma for_each_path {S} (f : S -> elem_fun S T) c0 cs s l s' : Forall (in_reach c0) (c0 :: cs) -> path (a_for_each f c0 cs s) l s' ->
  in_turn (fun i s l s' => does (map (fun c => elem c i) (c0 :: cs)) (f s) l s') (box (dims c0)) s l s'.
Proof. intros H G. eapply path_amap; [exact H| |exact G]. intros i s1 l1 s2 Bx P. apply path_acall. exact P. Qed.
Lemma for_each_index_path {S} (f : S -> list Z -> elem_fun S T) c s l s' : in_reach c c -> path (a_for_each_index f c s) l s' ->
  in_turn (fun i s l s' => does [elem c i] (f s i) l s') (box (dims c)) s l s'.
Proof. intros H G. eapply path_amap_index; [exact H| |exact G]. intros js s1 l1 s2 Bx P. apply path_acall. exact P. Qed.

(** Searches. *)
Lemma until_sees {S} (f : T -> bool) c is_ (s : S) l r :
  until_one (fun i _ l r => exists v, l = [Sees (elem c i) v] /\ fst r = f v) is_ s l r -> sees_until f c is_ (fst r) l.
Proof.
  induction 1 as [s|i is_ s l s1 (v & -> & E)|i is_ s l1 s1 l2 r (v & -> & E) H IH]; cbn [fst] in *.
  - constructor.
  - exists [], i, is_, [], (Sees (elem c i) v). repeat (split; [reflexivity||constructor|]). exists v. auto.
  - destruct (fst r); cbn [sees_until] in *.
    + destruct IH as (b & h & a & l' & x & -> & -> & F & X). exists (i :: b), h, a, (Sees (elem c i) v :: l'), x.
      split; [reflexivity|]. split; [reflexivity|]. split; [constructor; [exists v; auto|exact F]|exact X].
    + constructor; [exists v; auto|exact IH].
Qed.
Lemma find_if_path_at c (d : list Z -> ptr) (f : T -> bool) l r : wfs (c_shape c) -> nonnegs (vals (c_shape c)) ->
  (forall js (l : list (access T)) p, typed_in (c_shape c) js -> path (aref c js) l p -> l = [] /\ p = d (vals js)) ->
  path (a_find_if c f) l r -> exists (x : bool * list cint),
    until_one (fun i _ l r => exists v, l = [Sees (d i) v] /\ fst r = f v) (box (dims c)) [] l x /\ some r = fst x.
Proof.
  intros W N H G. unfold a_find_if in G. apply path_bind in G. destruct G as (l1 & x & l2 & G & G2 & ->). paths. exists x. rewrite app_nil_r.
  split; [|destruct (fst x); reflexivity]. eapply path_for_until; [exact W|exact N| |exact G]. intros js s l' r Tj P.
  apply path_bind in P. destruct P as (l3 & p & l4 & P1 & P2 & ->). apply H in P1; [|exact Tj]. destruct P1 as [-> ->].
  paths; eexists; split; try reflexivity; cbn [fst]; auto.
Qed.
Lemma find_if_path c (f : T -> bool) l r : in_reach c c -> path (a_find_if c f) l r -> sees_until f c (box (dims c)) (some r) l.
Proof.
  intros H G. destruct (reach_wf c H) as [W1 N1]. destruct (find_if_path_at c (elem c) f l r W1 N1) as (x & U & ->); [|exact G|eapply until_sees; exact U].
  intros js l' p Tj P. eapply path_aref; eassumption.
Qed.
Lemma until_mirror {S} (f : T -> bool) c (g : list Z -> list Z) is_ (s : S) l r :
  until_one (fun i _ l r => exists v, l = [Sees (elem c (g i)) v] /\ fst r = f v) is_ s l r ->
  until_one (fun i _ l r => exists v, l = [Sees (elem c i) v] /\ fst r = f v) (map g is_) s l r.
Proof. intros H. apply (until_map g (fun i _ l r => exists v, l = [Sees (elem c i) v] /\ fst r = f v)). exact H. Qed.
Lemma find_last_if_path st c (f : T -> bool) l r : default_layout c -> Forall (fun n => cty n <> U32) (c_shape c) -> path (a_find_last_if st c f) l r ->
  sees_until f c (rev (box (dims c))) (some r) l.
Proof.
  intros D S G. destruct (reverse_typed_l st c D S) as (rc & Er & Sh & Ad). unfold a_find_last_if in G. rewrite Er in G. cbn [abind] in G.
  pose proof D as (Lg & _ & _). pose proof Lg as (Wf & Nn & _).
  assert (Ty32 : forall is_, map cty is_ = map cty (c_shape c) -> Forall (fun i => cty i <> U32) is_).
  { intros is_ E. revert E. clear -S. revert is_. induction S as [|n s Hn S IH];
      intros [|i is_] E; try discriminate; constructor; cbn in E; [congruence|]. apply IH. congruence. }
  apply path_bind in G. destruct G as (l1 & r1 & l2 & G1 & G2 & ->).
  assert (l2 = [] /\ some r = some r1) as [-> ->].
  { destruct r1 as [pos|]; [|paths; auto]. apply path_stop_bind in G2. destruct G2 as (ps & _ & G2). paths. auto. }
  rewrite app_nil_r. destruct (find_if_path_at rc (fun i => elem c (mirror_coord (dims c) i)) f l1 r1) as (x & U & ->); [rewrite Sh; exact Wf|rewrite Sh; exact Nn| |exact G1|].
  - rewrite Sh. intros js l' p (W1 & T1 & B1) P. unfold aref in P. rewrite Ad in P; [|split; assumption|apply Ty32; exact T1]. cbn [abind] in P.
    apply path_mk_inv in P. paths. auto.
  - apply until_mirror in U. unfold dims in U at 2. rewrite Sh in U. fold (dims c) in U. rewrite (box_mirror (dims c) Nn) in U. eapply until_sees. exact U.
Qed.
Lemma find_first_of_path (eqb : T -> T -> bool) c d l r : in_reach c c -> in_reach d d -> path (a_find_first_of eqb c d) l r ->
  exists pos, until_one (fun i _ l r => exists e l', l = Sees (elem c i) e :: l' /\
      in_turn (fun j b l b' => exists x, l = [Sees (elem d j) x] /\ b' = b || eqb x e) (box (dims d)) false l' (fst r)) (box (dims c)) [] l (some r, pos : list cint).
Proof.
  intros H H2 G. destruct (reach_wf c H) as [W1 N1]. unfold a_find_first_of in G. apply path_bind in G. destruct G as (l1 & x & l2 & G & G2 & ->). paths.
  exists (snd x). rewrite app_nil_r. replace (some (if fst x then Some (snd x) else None), snd x) with x by (destruct x as [[|] ?]; reflexivity).
  eapply path_for_until; [exact W1|exact N1| |exact G]. intros js s l' r Tj P.
  apply path_bind in P. destruct P as (l3 & p & l4 & P1 & P2 & ->). apply (path_aref c) in P1; try assumption. destruct P1 as [-> ->].
  apply path_bind in P2. destruct P2 as (l5 & e & l6 & P2 & P3 & ->). apply path_aload in P2. subst l5. apply path_bind in P3. destruct P3 as (l7 & b & l8 & P3 & P4 & ->).
  apply reduce_path in P3; [|exact H2]. exists e, l7. destruct b; paths; rewrite app_nil_r; split; auto.
Qed.
End Readers.

(** Bisections. *)
Lemma reads_app {T} (a b : list (access T)) : reads (a ++ b) = reads a + reads b.
Proof. unfold reads. rewrite filter_app, app_length. lia. Qed.
Lemma writes_app {T} (a b : list (access T)) : writes (a ++ b) = writes a + writes b.
Proof. unfold writes. rewrite filter_app, app_length. lia. Qed.
Lemma path_aget {T} c js (l : list (access T)) v : path (aget c js) l v -> reads l = 1 /\ writes l = 0.
Proof.
  intros H. unfold aget, aref in H. apply path_bind in H. destruct H as (l1 & p & l2 & H & H2 & ->). apply path_aload in H2. subst l2.
  apply path_stop_bind in H. destruct H as (q & _ & H). apply path_mk_inv, path_ret in H. destruct H as [-> _]. split; reflexivity.
Qed.
Lemma bisect_path {T} dbg (cond : T -> bool) c : forall fuel count first it l r, in_ty I32 count ->
  path (abisect dbg cond c fuel (int count) first it) l r -> writes l = 0 /\ 0 <= reads l /\ (0 < count -> 2 ^ reads l <= 2 * count) /\ (count <= 0 -> l = []).
Proof.
  induction fuel as [|fuel IH]; intros count first it l r I G; cbn [abisect] in G;
    (rewrite clt_exact in G; [|unfold wfc, in_ty; cbn; lia|exact I|left; reflexivity]); cbn [cval int] in G;
    destruct (Z.ltb_spec 0 count) as [P|P]; try (apply path_ret in G; destruct G as [-> _]; cbn; repeat split; try reflexivity; lia); [inversion G|].
  rewrite half_of in G by assumption. cbn [abind] in G. destruct (after_half count _ P I eq_refl) as (s1 & E1 & E2 & B1 & B2).
  assert (J : forall x, 0 <= x < count -> in_ty I32 x) by (intros x Hx; unfold in_ty in *; cbn in *; lia).
  apply path_stop_bind in G. destruct G as (it' & _ & G). apply path_stop_bind in G. destruct G as (pos & _ & G).
  apply path_bind in G. destruct G as (l1 & e & l2 & G1 & G & ->). apply path_aget in G1. destruct G1 as [R1 W1].
  rewrite reads_app, writes_app, R1, W1.
  assert (Hd : 2 * (count / 2) <= count < 2 * (count / 2) + 2).
  { pose proof (Z.div_mod count 2 ltac:(lia)). pose proof (Z.mod_pos_bound count 2 ltac:(lia)). lia. }
  assert (Fin : forall x, 0 <= x -> 2 * x <= count -> writes l2 = 0 /\ 0 <= reads l2 /\ (0 < x -> 2 ^ reads l2 <= 2 * x) /\ (x <= 0 -> l2 = []) ->
    0 + writes l2 = 0 /\ 0 <= 1 + reads l2 /\ (0 < count -> 2 ^ (1 + reads l2) <= 2 * count) /\ (count <= 0 -> l1 ++ l2 = [])).
  { intros x Hx Hc (Hw & Hk & H1 & H2). split; [lia|]. split; [lia|]. split; [|lia]. intros _. rewrite Z.pow_add_r by lia. change (2 ^ 1) with 2.
    destruct (Z.eq_dec x 0) as [->|Nx]; [rewrite (H2 ltac:(lia)); change (reads []) with 0; change (2 ^ 0) with 1; lia|]. specialize (H1 ltac:(lia)). lia. }
  destruct (cond e).
  - apply path_stop_bind in G. destruct G as (it2 & _ & G). rewrite E1 in G. cbn [abind] in G. rewrite E2 in G. cbn [abind] in G.
    apply IH in G; [|apply J; lia]. apply (Fin (count - count / 2 - 1)); [lia|lia|exact G].
  - apply IH in G; [|apply J; lia]. apply (Fin (count / 2)); [lia|lia|exact G].
Qed.
Lemma pow_log k n : 0 <= k -> 0 < n -> 2 ^ k <= 2 * n -> k <= 1 + Z.log2 n.
Proof.
  intros K P H. enough (X : 2 ^ k < 2 ^ (2 + Z.log2 n)) by (apply Z.pow_lt_mono_r_iff in X; pose proof (Z.log2_nonneg n); lia).
  pose proof (Z.log2_spec n P) as [_ L2]. replace (2 + Z.log2 n) with (1 + Z.succ (Z.log2 n)) by lia.
  rewrite Z.pow_add_r by (pose proof (Z.log2_nonneg n); lia). change (2 ^ 1) with 2. lia.
Qed.
Lemma bisect_few {T} dbg (cond : T -> bool) c n z fuel l r : n = int z -> in_ty I32 z -> path (abisect dbg cond c fuel n (int 0) (int 0)) l r -> few 0 (cval n) l.
Proof.
  intros -> I G. apply bisect_path in G; [|exact I]. destruct G as (W & R0 & R1 & R2). split; [exact W|]. cbn [cval int].
  destruct (Z.leb_spec z 0); [rewrite R2 by assumption; cbn; lia|]. pose proof (pow_log _ _ R0 H (R1 H)). lia.
Qed.
Lemma lower_few {T} dbg (func : T -> T -> bool) c x l r : path (a_lower_bound dbg func c x) l r -> exists n, numel (c_shape c) = Ok n /\ few 0 (cval n) l /\
  (cval n = 0 -> r = None).
Proof.
  intros G. apply path_stop_bind in G. destruct G as (n & E & G). exists n. split; [exact E|]. destruct (numel_int _ _ E) as (z & -> & I).
  destruct (ceqb (int z) (int 0)) eqn:Ez.
  - apply path_ret in G. destruct G as [-> ->]. split; [|auto]. split; [reflexivity|]. change (reads []) with 0. destruct (_ <=? 0); pose proof (Z.log2_nonneg (cval (int z))); lia.
  - apply path_bind in G. destruct G as (l1 & r1 & l2 & G & G2 & ->). paths. rewrite app_nil_r. split; [eapply bisect_few; [reflexivity|exact I|exact G]|].
    cbn [cval int]. intros ->. discriminate.
Qed.
Lemma upper_few {T} dbg (func : T -> T -> bool) c x l r : path (a_upper_bound dbg func c x) l r -> exists n, numel (c_shape c) = Ok n /\ few 0 (cval n) l.
Proof.
  intros G. apply path_stop_bind in G. destruct G as (n & E & G). exists n. split; [exact E|]. destruct (numel_int _ _ E) as (z & -> & I).
  apply path_bind in G. destruct G as (l1 & r1 & l2 & G & G2 & ->). paths. rewrite app_nil_r. eapply bisect_few; [reflexivity|exact I|exact G].
Qed.
Lemma binary_few {T} dbg (func : T -> T -> bool) c x l r : path (a_binary_search dbg func c x) l r -> exists n, numel (c_shape c) = Ok n /\ few 1 (cval n) l.
Proof.
  intros G. apply path_bind in G. destruct G as (l1 & r1 & l2 & G & G2 & ->). apply lower_few in G. destruct G as (n & E & (W & R) & _). exists n. split; [exact E|].
  assert (writes l2 = 0 /\ 0 <= reads l2 <= 1) as [W2 R2].
  { destruct r1 as [pos|]; [|paths; cbn; lia]. apply path_bind in G2. destruct G2 as (l3 & e & l4 & G3 & G4 & ->). apply path_aget in G3. paths.
    rewrite reads_app, writes_app. change (reads []) with 0. change (writes []) with 0. lia. }
  split; [rewrite writes_app; lia|]. rewrite reads_app. lia.
Qed.

(** ** Counts *)
Lemma in_turn_count {T S} (P : list Z -> S -> list (access T) -> S -> Prop) (k : Z) (cnt : list (access T) -> Z) : cnt [] = 0 -> (forall a b, cnt (a ++ b) = cnt a + cnt b) ->
  (forall i s l s', P i s l s' -> cnt l = k) -> forall is_ s l s', in_turn P is_ s l s' -> cnt l = k * Z.of_nat (length is_).
Proof.
  intros C0 Ca H. induction 1 as [|i is_ s l1 s1 l2 s2 H1 H2 IH]; [rewrite C0; cbn; lia|]. rewrite Ca, IH, (H _ _ _ _ H1). cbn [length]. lia.
Qed.
Lemma in_turn_most {T S} (P : list Z -> S -> list (access T) -> S -> Prop) (cnt : list (access T) -> Z) : cnt [] = 0 -> (forall a b, cnt (a ++ b) = cnt a + cnt b) ->
  (forall i s l s', P i s l s' -> 0 <= cnt l <= 1) -> forall is_ s l s', in_turn P is_ s l s' -> 0 <= cnt l <= Z.of_nat (length is_).
Proof.
  intros C0 Ca H. induction 1 as [|i is_ s l1 s1 l2 s2 H1 H2 IH]; [rewrite C0; cbn; lia|]. rewrite Ca. pose proof (H _ _ _ _ H1). cbn [length]. lia.
Qed.
Lemma sees_until_count {T} (f : T -> bool) c is_ b l : sees_until f c is_ b l -> writes l = 0 /\ 0 <= reads l <= Z.of_nat (length is_) /\
  (b = false -> reads l = Z.of_nat (length is_)).
Proof.
  assert (F : forall is_ l, Forall2 (sees_not f c) is_ l -> writes l = 0 /\ reads l = Z.of_nat (length is_)).
  { induction 1 as [|i a is_' l' (v & -> & _) H [IW IR]]; [split; reflexivity|]. change (Sees (elem c i) v :: l') with ([Sees (elem c i) v] ++ l').
    rewrite reads_app, writes_app, IW, IR. change (writes [_]) with 0. change (reads [_]) with 1. cbn [length]. lia. }
  destruct b; cbn [sees_until]; intros H.
  - destruct H as (be & h & af & l' & a & -> & -> & H & (v & -> & _)). apply F in H. destruct H as [W R]. rewrite reads_app, writes_app, W, R.
    change (writes [_]) with 0. change (reads [_]) with 1. rewrite app_length. cbn [length]. split; [lia|]. split; [lia|discriminate].
  - apply F in H. destruct H as [W R]. split; [exact W|]. split; [lia|auto].
Qed.

(** ** The theorems *)
Lemma happen_l (T A : Type) (x : act T A) m :
  (forall l a m', logged x m = Ok (l, (a, m')) -> alone x m = Ok (a, m') /\ replay m l m') /\
  (forall a m', alone x m = Ok (a, m') -> exists l, logged x m = Ok (l, (a, m'))).
Proof.
  split.
  - intros l a m' E. apply logged_path in E. tauto.
  - intros a m' E. rewrite logged_alone in E. destruct (logged x m) as [[l r]| | |]; try discriminate. cbn [bind snd] in E. injection E as ->. eauto.
Qed.
Lemma replay_fun {T} (m : mem T) l m1 : replay m l m1 -> forall m2, replay m l m2 -> m1 = m2.
Proof.
  induction 1 as [m|m p v l m' Hl H IH|m p v l m1 m' Hl H IH]; intros m2 G.
  - inversion G. reflexivity.
  - inversion G; subst. auto.
  - inversion G; subst. rewrite Hl in *. match goal with E : Ok _ = Ok _ |- _ => injection E as -> end. auto.
Qed.
Lemma writers_l (T : Type) (m : mem T) out in_ c0 cs f (g : list T -> T) (h : list cint -> T) (v w : T) l u m' : in_reach out out ->
  (logged (a_fill out v) m = Ok (l, (u, m')) -> l = map (fun i => Sets (elem out i) v) (box (dims out))) /\
  (logged (a_generate h out) m = Ok (l, (u, m')) ->
     in_turn (fun i _ l _ => exists js, typed out i js /\ l = [Sets (elem out i) (h js)]) (box (dims out)) tt l tt) /\
  (logged (a_replace_if out f w) m = Ok (l, (u, m')) ->
     in_turn (fun i _ l _ => exists v, l = Sees (elem out i) v :: if f v then [Sets (elem out i) w] else []) (box (dims out)) tt l tt) /\
  (in_reach out in_ -> logged (a_copy out in_) m = Ok (l, (u, m')) ->
     in_turn (fun i _ l _ => exists v, l = [Sees (elem in_ i) v; Sets (elem out i) v]) (box (dims out)) tt l tt) /\
  (in_reach out in_ -> logged (a_copy_if f out in_) m = Ok (l, (u, m')) ->
     in_turn (fun i _ l _ => exists v w, l = Sees (elem in_ i) v :: if f v then [Sees (elem in_ i) w; Sets (elem out i) w] else []) (box (dims out)) tt l tt) /\
  (Forall (in_reach out) (c0 :: cs) -> logged (a_transform g out c0 cs) m = Ok (l, (u, m')) ->
     in_turn (fun i _ l _ => exists vs l', sees_all (c0 :: cs) i vs l' /\ l = l' ++ [Sets (elem out i) (g vs)]) (box (dims out)) tt l tt).
Proof.
  intros H. split; [|split; [|split; [|split; [|split]]]].
  - intros E. apply logged_path in E. eapply fill_path; [exact H|apply E].
  - intros E. apply logged_path in E. eapply generate_path; [exact H|apply E].
  - intros E. apply logged_path in E. eapply replace_if_path; [exact H|apply E].
  - intros H2 E. apply logged_path in E. eapply copy_path; [exact H|exact H2|apply E].
  - intros H2 E. apply logged_path in E. eapply copy_if_path; [exact H|exact H2|apply E].
  - intros H2 E. apply logged_path in E. eapply transform_path; [exact H|exact H2|apply E].
Qed.
Lemma iotas_l et m out v w l u m' : in_reach out out ->
  (logged (@a_iota et out v) m = Ok (l, (u, m')) ->
     exists last, in_turn (fun i s l s' => l = [Sets (elem out i) (conv et s)] /\ cincr s = Ok s') (box (dims out)) v l last) /\
  (logged (@a_iota_step et out v w) m = Ok (l, (u, m')) ->
     exists last, in_turn (fun i s l s' => l = [Sets (elem out i) (conv et s)] /\ exists t, cadd s w = Ok t /\ s' = conv (cty s) t) (box (dims out)) v l last).
Proof.
  intros H. split; intros E; apply logged_path in E; [eapply iota_path|eapply iota_step_path]; [exact H|apply E|exact H|apply E].
Qed.
Lemma scans_l (T B : Type) (m : mem T) in_ out init (f1 : T -> B -> T) f2 l u m' : in_reach in_ in_ -> in_reach in_ out ->
  (logged (a_exclusive_scan in_ out init f1 f2) m = Ok (l, (u, m')) ->
     exists last, in_turn (fun i s l s' => exists v, l = [Sets (elem out i) s; Sees (elem in_ i) v] /\ s' = f1 s (f2 v)) (box (dims in_)) init l last) /\
  (logged (a_inclusive_scan in_ out init f1 f2) m = Ok (l, (u, m')) ->
     exists last, in_turn (fun i s l s' => exists v, l = [Sees (elem in_ i) v; Sets (elem out i) s'] /\ s' = f1 s (f2 v)) (box (dims in_)) init l last).
Proof.
  intros H H2. split; intros E; apply logged_path in E; [eapply exclusive_path|eapply inclusive_path]; try eassumption; apply E.
Qed.
Lemma readers_l (T A B : Type) (m : mem T) dbg c d (f : A -> T -> A) (init : A) (R : A -> B -> A) (g : T -> T -> B) l r m' : in_reach c c ->
  (logged (a_reduce c f init) m = Ok (l, (r, m')) ->
     in_turn (fun i s l s' => exists v, l = [Sees (elem c i) v] /\ s' = f s v) (box (dims c)) init l r) /\
  (in_reach c d -> logged (a_transform_reduce c d init R g) m = Ok (l, (r, m')) ->
     in_turn (fun i s l s' => exists v w, l = [Sees (elem c i) v; Sees (elem d i) w] /\ s' = R s (g v w)) (box (dims c)) init l r) /\
  (in_reach c d -> logged (a_inner_product dbg c d init R g) m = Ok (l, (r, m')) ->
     in_turn (fun i s l s' => exists v w, l = [Sees (elem c i) v; Sees (elem d i) w] /\ s' = R s (g v w)) (box (dims c)) init l r).
Proof.
  intros H. split; [|split].
  - intros E. apply logged_path in E. apply reduce_path; [exact H|apply E].
  - intros H2 E. apply logged_path in E. apply transform_reduce_path; [exact H|exact H2|apply E].
  - intros H2 E. apply logged_path in E. eapply inner_product_path; [exact H|exact H2|apply E].
Qed.
Lemma for_each_l (S T : Type) (m : mem T) (f : S -> elem_fun S T) (g : S -> list Z -> elem_fun S T) c0 cs s l s' m' : Forall (in_reach c0) (c0 :: cs) ->
  (logged (a_for_each f c0 cs s) m = Ok (l, (s', m')) ->
     in_turn (fun i s l s' => does (map (fun c => elem c i) (c0 :: cs)) (f s) l s') (box (dims c0)) s l s') /\
  (logged (a_for_each_index g c0 s) m = Ok (l, (s', m')) ->
     in_turn (fun i s l s' => does [elem c0 i] (g s i) l s') (box (dims c0)) s l s').
Proof.
  intros H. split; intros E; apply logged_path in E.
  - apply for_each_path; [exact H|apply E].
  - apply for_each_index_path; [|apply E]. inversion H; assumption.
Qed.
Lemma searches_l (T : Type) (m : mem T) c d (f : T -> bool) (eqb : T -> T -> bool) st l r m' : in_reach c c ->
  (logged (a_find_if c f) m = Ok (l, (r, m')) -> sees_until f c (box (dims c)) (some r) l) /\
  (default_layout c -> Forall (fun n => cty n <> U32) (c_shape c) -> logged (a_find_last_if st c f) m = Ok (l, (r, m')) ->
     sees_until f c (rev (box (dims c))) (some r) l) /\
  (in_reach d d -> logged (a_find_first_of eqb c d) m = Ok (l, (r, m')) ->
     exists pos, until_one (fun i _ l r => exists e l', l = Sees (elem c i) e :: l' /\
       in_turn (fun j b l b' => exists x, l = [Sees (elem d j) x] /\ b' = b || eqb x e) (box (dims d)) false l' (fst r))
       (box (dims c)) [] l (some r, pos : list cint)).
Proof.
  intros H. split; [|split].
  - intros E. apply logged_path in E. apply find_if_path; [exact H|apply E].
  - intros D U E. apply logged_path in E. eapply find_last_if_path; [exact D|exact U|apply E].
  - intros H2 E. apply logged_path in E. apply find_first_of_path; [exact H|exact H2|apply E].
Qed.
Lemma bisections_l (T : Type) (m : mem T) dbg (func : T -> T -> bool) c x l m' :
  (forall r, logged (a_lower_bound dbg func c x) m = Ok (l, (r, m')) -> exists n, numel (c_shape c) = Ok n /\ few 0 (cval n) l) /\
  (forall r, logged (a_upper_bound dbg func c x) m = Ok (l, (r, m')) -> exists n, numel (c_shape c) = Ok n /\ few 0 (cval n) l) /\
  (forall r, logged (a_binary_search dbg func c x) m = Ok (l, (r, m')) -> exists n, numel (c_shape c) = Ok n /\ few 1 (cval n) l).
Proof.
  split; [|split]; intros r E; apply logged_path in E; destruct E as (E & _).
  - apply lower_few in E. destruct E as (n & E1 & E2 & _). eauto.
  - eapply upper_few; exact E.
  - eapply binary_few; exact E.
Qed.

Lemma combine_reads {T} cs i (vs : list T) : length vs = length cs -> let l := map (fun cv => Sees (elem (fst cv) i) (snd cv)) (combine cs vs) in
  reads l = Z.of_nat (length cs) /\ writes l = 0.
Proof.
  revert vs. induction cs as [|c cs IH]; intros [|v vs] E; try discriminate; [split; reflexivity|]. injection E as E. destruct (IH vs E) as [R W].
  cbn [combine map fst snd]. cbv zeta. set (r := map _ (combine cs vs)) in *. change (Sees (elem c i) v :: r) with ([Sees (elem c i) v] ++ r).
  rewrite reads_app, writes_app, R, W. change (reads [_]) with 1. change (writes [_]) with 0. cbn [length]. lia.
Qed.
Lemma counts_of {T S} (P : list Z -> S -> list (access T) -> S -> Prop) c kr kw s l s' : in_reach c c ->
  (forall i s l s', P i s l s' -> reads l = kr /\ writes l = kw) -> in_turn P (box (dims c)) s l s' ->
  reads l = kr * prod (dims c) /\ writes l = kw * prod (dims c).
Proof.
  intros H K G. destruct (reach_wf c H) as [_ N]. rewrite <- (box_length (dims c) N).
  split; [apply (in_turn_count P kr reads) with (3 := fun i s l s' X => proj1 (K i s l s' X)) (4 := G)|apply (in_turn_count P kw writes) with (3 := fun i s l s' X => proj2 (K i s l s' X)) (4 := G)];
    auto using reads_app, writes_app.
Qed.
Lemma counts_writers_l (T : Type) (m : mem T) out in_ c0 cs f (g : list T -> T) (h : list cint -> T) (v w : T) l u m' : in_reach out out ->
  let n := prod (dims out) in
  (logged (a_fill out v) m = Ok (l, (u, m')) -> reads l = 0 /\ writes l = n) /\
  (logged (a_generate h out) m = Ok (l, (u, m')) -> reads l = 0 /\ writes l = n) /\
  (logged (a_replace_if out f w) m = Ok (l, (u, m')) -> reads l = n /\ 0 <= writes l <= n) /\
  (in_reach out in_ -> logged (a_copy out in_) m = Ok (l, (u, m')) -> reads l = n /\ writes l = n) /\
  (in_reach out in_ -> logged (a_copy_if f out in_) m = Ok (l, (u, m')) -> reads l = n + writes l /\ 0 <= writes l <= n) /\
  (Forall (in_reach out) (c0 :: cs) -> logged (a_transform g out c0 cs) m = Ok (l, (u, m')) -> reads l = Z.of_nat (length (c0 :: cs)) * n /\ writes l = n).
Proof.
  intros H n. destruct (writers_l T m out in_ c0 cs f g h v w l u m' H) as (A1 & A2 & A3 & A4 & A5 & A6). destruct (reach_wf out H) as [_ N].
  assert (Bl := box_length (dims out) N). fold n in Bl. split; [|split; [|split; [|split; [|split]]]].
  - intros E. rewrite (A1 E). rewrite <- Bl. generalize (box (dims out)). intros b. clear. induction b as [|i b [IR IW]]; [split; reflexivity|]. cbn [map].
    change (Sets (elem out i) v :: map (fun i => Sets (elem out i) v) b) with ([Sets (elem out i) v] ++ map (fun i => Sets (elem out i) v) b).
    rewrite reads_app, writes_app, IR, IW. change (reads [_]) with 0. change (writes [_]) with 1. cbn [length]. lia.
  - intros E. apply A2 in E. apply (counts_of _ _ 0 1) in E; [unfold n; lia|exact H|]. intros i s l' s' (js & _ & ->). split; reflexivity.
  - intros E. apply A3 in E. split.
    + rewrite <- Bl, <- (Z.mul_1_l (Z.of_nat _)). eapply (in_turn_count _ 1 reads); [reflexivity|apply reads_app| |exact E].
      intros i s l' s' (x & ->). destruct (f x); reflexivity.
    + rewrite <- Bl. eapply (in_turn_most _ writes); [reflexivity|apply writes_app| |exact E]. intros i s l' s' (x & ->). destruct (f x); cbn; lia.
  - intros H2 E. apply (A4 H2) in E. apply (counts_of _ _ 1 1) in E; [unfold n; lia|exact H|]. intros i s l' s' (x & ->). split; reflexivity.
  - intros H2 E. apply (A5 H2) in E. split.
    + assert (X : reads l - writes l = 1 * Z.of_nat (length (box (dims out)))); [|lia].
      eapply (in_turn_count _ 1 (fun l => reads l - writes l)); [reflexivity| | |exact E].
      * intros a b. rewrite reads_app, writes_app. lia.
      * intros i s l' s' (x & y & ->). destruct (f x); reflexivity.
    + rewrite <- Bl. eapply (in_turn_most _ writes); [reflexivity|apply writes_app| |exact E]. intros i s l' s' (x & y & ->). destruct (f x); cbn; lia.
  - intros H2 E. apply (A6 H2) in E. apply (counts_of _ _ (Z.of_nat (length (c0 :: cs))) 1) in E; [unfold n; lia|exact H|].
    intros i s l' s' (vs & l1 & (Lv & ->) & ->). destruct (combine_reads (c0 :: cs) i vs Lv) as [R W]. rewrite reads_app, writes_app, R, W.
    change (reads [_]) with 0. change (writes [_]) with 1. lia.
Qed.
Lemma counts_readers_l (T A B : Type) (m : mem T) dbg c d out (f : A -> T -> A) (init : A) (R : A -> B -> A) (g : T -> T -> B) (f1 : T -> B -> T) f2 x p st l m' : in_reach c c ->
  let n := prod (dims c) in
  (forall r, logged (a_reduce c f init) m = Ok (l, (r, m')) -> reads l = n /\ writes l = 0) /\
  (forall r, in_reach c d -> logged (a_transform_reduce c d init R g) m = Ok (l, (r, m')) -> reads l = 2 * n /\ writes l = 0) /\
  (forall r, in_reach c d -> logged (a_inner_product dbg c d init R g) m = Ok (l, (r, m')) -> reads l = 2 * n /\ writes l = 0) /\
  (forall u, in_reach c out -> logged (a_exclusive_scan c out x f1 f2) m = Ok (l, (u, m')) -> reads l = n /\ writes l = n) /\
  (forall u, in_reach c out -> logged (a_inclusive_scan c out x f1 f2) m = Ok (l, (u, m')) -> reads l = n /\ writes l = n) /\
  (forall r, logged (a_find_if c p) m = Ok (l, (r, m')) -> writes l = 0 /\ 0 <= reads l <= n /\ (r = None -> reads l = n)) /\
  (forall r, default_layout c -> Forall (fun n => cty n <> U32) (c_shape c) -> logged (a_find_last_if st c p) m = Ok (l, (r, m')) ->
     writes l = 0 /\ 0 <= reads l <= n /\ (r = None -> reads l = n)).
Proof.
  intros H n. destruct (reach_wf c H) as [_ N]. assert (Bl := box_length (dims c) N). fold n in Bl.
  split; [|split; [|split; [|split; [|split; [|split]]]]].
  - intros r E. destruct (readers_l T A B m dbg c d f init R g l r m' H) as (A1 & A2 & A3). apply A1 in E.
    apply (counts_of _ _ 1 0) in E; [unfold n; lia|exact H|]. intros i s l' s' (y & -> & _). split; reflexivity.
  - intros r H2 E. destruct (readers_l T A B m dbg c d f init R g l r m' H) as (A1 & A2 & A3). apply (A2 H2) in E.
    apply (counts_of _ _ 2 0) in E; [unfold n; lia|exact H|]. intros i s l' s' (y & z & -> & _). split; reflexivity.
  - intros r H2 E. destruct (readers_l T A B m dbg c d f init R g l r m' H) as (A1 & A2 & A3). apply (A3 H2) in E.
    apply (counts_of _ _ 2 0) in E; [unfold n; lia|exact H|]. intros i s l' s' (y & z & -> & _). split; reflexivity.
  - intros u H2 E. destruct (scans_l T B m c out x f1 f2 l u m' H H2) as (A1 & A2). apply A1 in E. destruct E as (last & E).
    apply (counts_of _ _ 1 1) in E; [unfold n; lia|exact H|]. intros i s l' s' (y & -> & _). split; reflexivity.
  - intros u H2 E. destruct (scans_l T B m c out x f1 f2 l u m' H H2) as (A1 & A2). apply A2 in E. destruct E as (last & E).
    apply (counts_of _ _ 1 1) in E; [unfold n; lia|exact H|]. intros i s l' s' (y & -> & _). split; reflexivity.
  - intros r E. apply logged_path in E. destruct E as (E & _). apply find_if_path in E; [|exact H]. apply sees_until_count in E. rewrite Bl in E.
    destruct E as (E1 & E2 & E3). split; [exact E1|]. split; [exact E2|]. intros ->. apply E3. reflexivity.
  - intros r D U E. apply logged_path in E. destruct E as (E & _). apply find_last_if_path in E; [|exact D|exact U]. apply sees_until_count in E.
    rewrite rev_length, Bl in E. destruct E as (E1 & E2 & E3). split; [exact E1|]. split; [exact E2|]. intros ->. apply E3. reflexivity.
Qed.

(** Examples. *)
Definition ac : container := Cn K2 [int 2; int 3] [] (Ptr 0 0).
Definition ad : container := Cn K2 [int 2; int 3] [] (Ptr 1 0).
Definition am : mem Z := [Some (map Some [1; 2; 3; 4; 5; 6]); Some (map Some [0; 0; 0; 0; 0; 0])].
Definition am1 : mem Z := [Some (map Some [1; 2; 3; 4; 5; 6])].
Lemma ac_layout : default_layout ac.
Proof. by_default false. Qed.
Lemma ac_reach1 o : in_reach ac (Cn K2 [int 2; int 3] [] o).
Proof. split; [apply default_addressable; by_default false|intros is_ B; exact B]. Qed.
Lemma ac_readable : readable am ac /\ readable am1 ac.
Proof.
  split; intros is_ B; cbn in B; inversion B as [|n ns i1 t1 B1 BB]; subst; inversion BB as [|n ns i2 t2 B2 BN]; subst; inversion BN; subst;
    (assert (i1 = 0 \/ i1 = 1) as [->| ->] by lia); (assert (i2 = 0 \/ i2 = 1 \/ i2 = 2) as [->|[->| ->]] by lia); eexists; cbn; reflexivity.
Qed.
Lemma ac_reach : in_reach ac ac /\ in_reach ac ad /\ readable am ac.
Proof. split; [apply ac_reach1|]. split; [apply ac_reach1|apply ac_readable]. Qed.
Lemma any_of_goes_on : exists (m : mem Z) c l, in_reach c c /\
  logged (a_reduce c (fun a e => a || (e =? 1)) false) m = Ok (l, (true, m)) /\ any_of c (fun e => e =? 1) m = Ok (true, m) /\
  hd_error l = Some (Sees (elem c [0; 0]) 1) /\ reads l = 6.
Proof.
  exists am1, ac. eexists. split; [apply ac_reach1|]. split; [vm_compute; reflexivity|]. split; [vm_compute; reflexivity|]. split; vm_compute; reflexivity.
Qed.
Lemma exclusive_in_place : exists (m m' : mem Z) c l, in_reach c c /\ readable m c /\
  logged (a_exclusive_scan c c 0 Z.add (fun v => v)) m = Ok (l, (tt, m')) /\
  firstn 2 l = [Sets (elem c [0; 0]) 0; Sees (elem c [0; 0]) 0] /\ peek m (elem c [0; 0]) = Some 1 /\
  m' = [Some (map Some [0; 0; 0; 0; 0; 0])].
Proof.
  exists am1. eexists. exists ac. eexists. split; [apply ac_reach1|]. split; [apply ac_readable|]. split; [vm_compute; reflexivity|].
  split; [vm_compute; reflexivity|]. split; vm_compute; reflexivity.
Qed.
