From Coq Require Import ZArith List Bool Lia.
From Verif Require Import Outcome CInt CIntFacts Spec SpecFacts ShapeSpec Shape ShapeFacts ShapeFacts2
  ForEach ForEachSpec ForEachFacts Memory MemFacts Container ContainerSpec ContainerFacts ContainerFacts2 ContainerFacts3
  Algo AlgoSpec AlgoFacts AlgoFacts2 AlgoFacts3 AlgoFacts4 Slicer SlicerSpec SlicerFacts SlicerFacts2 SlicerFacts3 Alloc
  Program ProgramSpec ProgramFacts ProgramFacts2.
Import ListNotations.
Open Scope Z_scope.

(** ** States *)
Definition orel {A B} (R : A -> B -> Prop) (x : option A) (y : option B) : Prop :=
  match x, y with Some a, Some b => R a b | None, None => True | _, _ => False end.
Definition matches {T} (w : world T) (k : kstate T) : Prop :=
  k_mem k = w_mem w /\ (forall t, orel rep_tab (k_tabs k t) (w_tabs w t)) /\
  (forall v, orel rep (k_views k v) (w_views w v)).

(** Tables own their blocks. *)
Definition owned {T} (w : world T) : Prop :=
  (forall t x b, w_tabs w t = Some x -> t_block x = Some b ->
     0 < prod (vals (t_shape x)) /\ forall o, 0 <= o < prod (vals (t_shape x)) -> valid (w_mem w) (Ptr b o)) /\
  (forall t u x y b, w_tabs w t = Some x -> w_tabs w u = Some y -> t_block x = Some b -> t_block y = Some b -> t = u).

Lemma orel_bind {A B} (R : A -> B -> Prop) e f t x y : (forall v, orel R (e v) (f v)) -> orel R x y ->
  forall v, orel R (bindv e t x v) (bindv f t y v).
Proof. intros H G v. unfold bindv. destruct (Nat.eqb v t); [exact G|apply H]. Qed.

Lemma orel_none {A B} (R : A -> B -> Prop) x : orel R x (@None B) -> x = None.
Proof. destruct x; [contradiction|reflexivity]. Qed.
Lemma orel_some {A B} (R : A -> B -> Prop) x (b : B) : orel R x (Some b) -> exists a, x = Some a /\ R a b.
Proof. destruct x as [a|]; cbn; [intros; exists a; auto|contradiction]. Qed.

Lemma match_fresh_tab {T} (w : world T) k t : matches w k -> w_tabs w t = None -> fresh (k_tabs k) t = Ok tt.
Proof. intros (_ & M & _) H. specialize (M t). rewrite H in M. unfold fresh. rewrite (orel_none _ _ M). reflexivity. Qed.
Lemma match_fresh_view {T} (w : world T) k v : matches w k -> w_views w v = None -> fresh (k_views k) v = Ok tt.
Proof. intros (_ & _ & M) H. specialize (M v). rewrite H in M. unfold fresh. rewrite (orel_none _ _ M). reflexivity. Qed.
Lemma match_tab {T} (w : world T) k t x : matches w k -> w_tabs w t = Some x ->
  exists c, var (k_tabs k) t = Ok c /\ rep_tab c x.
Proof.
  intros (_ & M & _) H. specialize (M t). rewrite H in M. destruct (orel_some _ _ _ M) as (c & E & R).
  exists c. unfold var. rewrite E. auto.
Qed.
Lemma match_view {T} (w : world T) k v a : matches w k -> w_views w v = Some a ->
  exists c, var (k_views k) v = Ok c /\ rep c a.
Proof.
  intros (_ & _ & M) H. specialize (M v). rewrite H in M. destruct (orel_some _ _ _ M) as (c & E & R).
  exists c. unfold var. rewrite E. auto.
Qed.
Lemma match_get {T} (w : world T) k h a : matches w k -> names w h a -> exists c, kget k h = Ok c /\ rep c a.
Proof.
  intros M N. destruct h as [t|v]; cbn in *.
  - destruct N as (x & E & ->). destruct (match_tab w k t x M E) as (c & Ec & R). exists c. split; [exact Ec|].
    apply rep_of_tab. exact R.
  - exact (match_view w k v a M N).
Qed.
Lemma match_gets {T} (w : world T) k hs as_ : matches w k -> Forall2 (names w) hs as_ ->
  exists cs, mapM (kget k) hs = Ok cs /\ Forall2 rep cs as_.
Proof.
  intros M. induction 1 as [|h a hs as_ N _ IH]; [exists []; split; [reflexivity|constructor]|].
  destruct (match_get w k h a M N) as (c & E & R). destruct IH as (cs & Es & Rs). exists (c :: cs).
  cbn [mapM]. rewrite E. cbn [bind]. rewrite Es. split; [reflexivity|constructor; assumption].
Qed.

Lemma match_set_tab {T} (w : world T) k m t c x : matches w k -> orel rep_tab c x ->
  matches (set_tab w m t x) (with_table k m t c).
Proof. intros (_ & M & V) H. split; [reflexivity|]. split; [apply orel_bind; assumption|exact V]. Qed.
Lemma match_set_view {T} (w : world T) k v c a : matches w k -> orel rep c a ->
  matches (set_view w v a) (with_view k v c).
Proof. intros (E & M & V) H. split; [exact E|]. split; [exact M|apply orel_bind; assumption]. Qed.
Lemma match_set_mem {T} (w : world T) k m : matches w k -> matches (set_mem w m) (with_mem k m).
Proof. intros (_ & M & V). split; [reflexivity|]. split; assumption. Qed.
Lemma match_same {T} (w : world T) k : matches w k -> matches w (with_mem k (k_mem k)).
Proof. intros (E & M & V). split; [exact E|]. split; assumption. Qed.

(** ** Ownership *)
Lemma owned_mem {T} (w : world T) m : owned w -> same_cells (w_mem w) m -> owned (set_mem w m).
Proof.
  intros [A B] S. split; [|exact B]. intros t x b E Eb. destruct (A t x b E Eb) as [P V]. split; [exact P|].
  intros o Ho. apply S, V, Ho.
Qed.

Lemma give_spec {T} (m : mem T) cells m1 b : give m cells = (m1, b) ->
  (forall p, valid m p -> valid m1 p) /\
  match b with
  | None => m1 = m /\ cells = []
  | Some n => n = length m /\ cells <> [] /\ m1 = m ++ [Some cells]
  end.
Proof.
  unfold give. destruct cells as [|c cs]; intros H; injection H as <- <-.
  - split; [auto|]. auto.
  - split; [|repeat split; discriminate]. intros p V. unfold valid in *. rewrite cell_app; assumption.
Qed.
Lemma valid_lt {T} (m : mem T) b o : valid m (Ptr b o) -> (b < length m)%nat.
Proof. apply cell_block_lt. Qed.
Lemma valid_new {T} (m : mem T) cells o : 0 <= o < Z.of_nat (length cells) -> valid (m ++ [Some cells]) (Ptr (length m) o).
Proof.
  intros H. unfold valid. cbn [cell]. rewrite nth_error_last. destruct (Z.leb_spec 0 o); [|lia].
  apply nth_error_Some. lia.
Qed.

Lemma owned_lt {T} (w : world T) t x b : owned w -> w_tabs w t = Some x -> t_block x = Some b -> (b < length (w_mem w))%nat.
Proof.
  intros [A _] E Eb. destruct (A t x b E Eb) as [P V]. apply (valid_lt _ _ 0). apply V. lia.
Qed.

Lemma bindv_same {X} (e : vars X) v x : bindv e v x v = x.
Proof. unfold bindv. rewrite Nat.eqb_refl. reflexivity. Qed.
Lemma bindv_other {X} (e : vars X) v x u : u <> v -> bindv e v x u = e u.
Proof. intros H. unfold bindv. destruct (Nat.eqb_spec u v); [contradiction|reflexivity]. Qed.

(** A table that gets new cells. *)
Lemma owned_give {T} (w : world T) m1 t cells sh st b : owned w -> give (w_mem w) cells = (m1, b) ->
  Z.of_nat (length cells) = prod (vals sh) -> owned (set_tab w m1 t (Some (Tb sh st b))).
Proof.
  intros O G L. pose proof O as [A B]. destruct (give_spec _ _ _ _ G) as [Vm Gb]. split.
  - intros u x n E En. cbn [set_tab w_tabs w_mem] in *. destruct (Nat.eq_dec u t) as [->|N].
    + rewrite bindv_same in E. injection E as <-. cbn [t_block t_shape] in *. subst b. destruct Gb as (-> & Ne & ->).
      destruct cells as [|c0 cl]; [congruence|]. split; [rewrite <- L; cbn [length]; lia|]. intros o Ho. apply valid_new. lia.
    + rewrite bindv_other in E by exact N. destruct (A u x n E En) as [P V]. split; [exact P|].
      intros o Ho. apply Vm, V, Ho.
  - intros u v x y n Eu Ev Ex Ey. cbn [set_tab w_tabs] in *.
    destruct (Nat.eq_dec u t) as [->|Nu], (Nat.eq_dec v t) as [->|Nv]; [reflexivity| | |].
    + rewrite bindv_same in Eu. rewrite bindv_other in Ev by exact Nv. injection Eu as <-. cbn in Ex. subst b.
      destruct Gb as (-> & _ & _). pose proof (owned_lt w v y _ O Ev Ey). lia.
    + rewrite bindv_same in Ev. rewrite bindv_other in Eu by exact Nu. injection Ev as <-. cbn in Ey. subst b.
      destruct Gb as (-> & _ & _). pose proof (owned_lt w u x _ O Eu Ex). lia.
    + rewrite bindv_other in Eu by exact Nu. rewrite bindv_other in Ev by exact Nv. exact (B u v x y n Eu Ev Ex Ey).
Qed.

(** Giving back the cells of a block that no other table owns. *)
Lemma take_back_valid {T} (m : mem T) x b o : t_block x <> Some b -> valid m (Ptr b o) -> valid (take_back m x) (Ptr b o).
Proof.
  intros N V. unfold take_back. destruct (t_block x) as [n|] eqn:E; [|exact V].
  unfold valid in *. cbn [cell] in *. rewrite set_nth_other by congruence. exact V.
Qed.
Lemma owned_drop {T} (w : world T) t x : owned w -> w_tabs w t = Some x ->
  owned (set_tab w (take_back (w_mem w) x) t None).
Proof.
  intros [A B] E. split.
  - intros u y b Eu Eb. cbn [set_tab w_tabs w_mem] in *. destruct (Nat.eq_dec u t) as [->|N].
    + rewrite bindv_same in Eu. discriminate.
    + rewrite bindv_other in Eu by exact N. destruct (A u y b Eu Eb) as [P V]. split; [exact P|].
      intros o Ho. apply take_back_valid; [|apply V, Ho]. intros C. apply N. exact (B u t y x b Eu E Eb C).
  - intros u v y z b Eu Ev Ey Ez. cbn [set_tab w_tabs] in *.
    destruct (Nat.eq_dec u t) as [->|Nu]; [rewrite bindv_same in Eu; discriminate|].
    destruct (Nat.eq_dec v t) as [->|Nv]; [rewrite bindv_same in Ev; discriminate|].
    rewrite bindv_other in Eu by exact Nu. rewrite bindv_other in Ev by exact Nv. exact (B u v y z b Eu Ev Ey Ez).
Qed.

Lemma release_prog {T} (m : mem T) x : (forall b, t_block x = Some b -> exists cs, nth_error m b = Some (Some cs)) ->
  release m (base x) = Ok (take_back m x).
Proof.
  intros H. unfold base, take_back. destruct (t_block x) as [b|]; [|reflexivity].
  destruct (H b eq_refl) as (cs & E). cbn [release]. rewrite E. reflexivity.
Qed.
Lemma valid_block {T} (m : mem T) b o : valid m (Ptr b o) -> exists cs, nth_error m b = Some (Some cs).
Proof. unfold valid. cbn [cell]. destruct (nth_error m b) as [[cs|]|]; [eauto| |]; congruence. Qed.
Lemma owned_block {T} (w : world T) t x (m : mem T) : owned w -> w_tabs w t = Some x -> (forall p, valid (w_mem w) p -> valid m p) ->
  forall b, t_block x = Some b -> exists cs, nth_error m b = Some (Some cs).
Proof.
  intros [A _] E H b Eb. destruct (A t x b E Eb) as [P V]. apply (valid_block m b 0). apply H, V. lia.
Qed.

(** Assignment: new cells for [t], the old ones are given back. *)
Lemma owned_assign {T} (w : world T) m1 t x cells sh st b : owned w -> w_tabs w t = Some x ->
  give (w_mem w) cells = (m1, b) -> Z.of_nat (length cells) = prod (vals sh) ->
  owned (set_tab w (take_back m1 x) t (Some (Tb sh st b))).
Proof.
  intros O E G L. pose proof O as [A B]. destruct (give_spec _ _ _ _ G) as [Vm Gb].
  destruct (owned_give w m1 t cells sh st b O G L) as [A1 B1]. split; [|exact B1].
  intros u y n Eu En. cbn [set_tab w_tabs w_mem] in *. destruct (A1 u y n Eu En) as [P V]. split; [exact P|].
  intros o Ho. apply take_back_valid; [|apply V, Ho]. intros C.
  destruct (Nat.eq_dec u t) as [->|N].
  - rewrite bindv_same in Eu. injection Eu as <-. cbn in En. subst b. destruct Gb as (-> & _).
    pose proof (owned_lt w t x _ O E C). lia.
  - rewrite bindv_other in Eu by exact N. apply N. exact (B u t y x n Eu E En C).
Qed.

Lemma owned_swap {T} (w : world T) t u x y : owned w -> w_tabs w t = Some x -> w_tabs w u = Some y ->
  owned (set_tab (set_tab w (w_mem w) t (Some y)) (w_mem w) u (Some x)).
Proof.
  intros [A B] Et Eu.
  assert (F : forall v z, bindv (bindv (w_tabs w) t (Some y)) u (Some x) v = Some z ->
     exists v', w_tabs w v' = Some z /\ ((v = u /\ v' = t) \/ (v <> u /\ v = t /\ v' = u) \/ (v <> u /\ v <> t /\ v' = v))).
  { intros v z H. destruct (Nat.eq_dec v u) as [->|Nu].
    - rewrite bindv_same in H. injection H as <-. exists t. auto.
    - rewrite bindv_other in H by exact Nu. destruct (Nat.eq_dec v t) as [->|Nt].
      + rewrite bindv_same in H. injection H as <-. exists u. split; [exact Eu|tauto].
      + rewrite bindv_other in H by exact Nt. exists v. split; [exact H|tauto]. }
  split.
  - intros v z b Ev Ez. cbn [set_tab w_tabs w_mem] in *. destruct (F v z Ev) as (v' & E' & _). exact (A v' z b E' Ez).
  - intros v1 v2 z1 z2 b E1 E2 Z1 Z2. cbn [set_tab w_tabs] in *.
    destruct (F v1 z1 E1) as (w1 & F1 & C1). destruct (F v2 z2 E2) as (w2 & F2 & C2).
    pose proof (B w1 w2 z1 z2 b F1 F2 Z1 Z2). intuition congruence.
Qed.
Lemma owned_move {T} (w : world T) t u x : owned w -> w_tabs w t = None -> w_tabs w u = Some x ->
  owned (set_tab (set_tab w (w_mem w) u (Some (Tb (t_shape x) (t_static x) None))) (w_mem w) t (Some x)).
Proof.
  intros [A B] Et Eu. assert (Ntu : t <> u) by congruence.
  assert (F : forall v z b, bindv (bindv (w_tabs w) u (Some (Tb (t_shape x) (t_static x) None))) t (Some x) v = Some z ->
     t_block z = Some b ->
     exists v', w_tabs w v' = Some z /\ ((v = t /\ v' = u) \/ (v <> u /\ v <> t /\ v' = v))).
  { intros v z b H Hb. destruct (Nat.eq_dec v t) as [->|Nt].
    - rewrite bindv_same in H. injection H as <-. exists u. auto.
    - rewrite bindv_other in H by exact Nt. destruct (Nat.eq_dec v u) as [->|Nu].
      + rewrite bindv_same in H. injection H as <-. discriminate.
      + rewrite bindv_other in H by exact Nu. exists v. split; [exact H|auto]. }
  split.
  - intros v z b Ev Ez. cbn [set_tab w_tabs w_mem] in *. destruct (F v z b Ev Ez) as (v' & E' & _). exact (A v' z b E' Ez).
  - intros v1 v2 z1 z2 b E1 E2 Z1 Z2. cbn [set_tab w_tabs] in *.
    destruct (F v1 z1 b E1 Z1) as (w1 & F1 & C1). destruct (F v2 z2 b E2 Z2) as (w2 & F2 & C2).
    pose proof (B w1 w2 z1 z2 b F1 F2 Z1 Z2). intuition congruence.
Qed.

(** ** Stack tables *)
Lemma upd_nth {T} (m : mem T) b o v c : c <> b -> nth_error (upd m (Ptr b o) v) c = nth_error m c.
Proof.
  intros N. unfold upd. destruct (nth_error m b) as [[cs|]|]; try reflexivity. destruct (0 <=? o); [|reflexivity].
  apply set_nth_other. congruence.
Qed.
Lemma upd_eq {T} (m : mem T) b o v : upd m (Ptr b o) v =
  match nth_error m b with
  | Some (Some cs) => if 0 <=? o then set_nth m b (Some (set_nth cs (Z.to_nat o) (Some v))) else m
  | _ => m
  end.
Proof. reflexivity. Qed.
Lemma set_nth_comm {A} (l : list A) i j x y : i <> j -> set_nth (set_nth l i x) j y = set_nth (set_nth l j y) i x.
Proof.
  revert i j. induction l as [|z l IH]; intros [|i] [|j] N; cbn; try reflexivity; try congruence.
  rewrite IH by congruence. reflexivity.
Qed.
Lemma upd_comm {T} (m : mem T) b o v c z w : b <> c -> upd (upd m (Ptr b o) v) (Ptr c z) w = upd (upd m (Ptr c z) w) (Ptr b o) v.
Proof.
  intros N. rewrite (upd_eq (upd m (Ptr b o) v)), upd_nth by congruence.
  rewrite (upd_eq (upd m (Ptr c z) w)), upd_nth by congruence. rewrite !upd_eq.
  destruct (nth_error m b) as [[cs|]|], (nth_error m c) as [[ds|]|]; try reflexivity;
    destruct (0 <=? o), (0 <=? z); try reflexivity. apply set_nth_comm. congruence.
Qed.
Lemma write_comm {T} (vs : list T) : forall m b o c z w, b <> c ->
  write_at (upd m (Ptr c z) w) (Ptr b o) vs = upd (write_at m (Ptr b o) vs) (Ptr c z) w.
Proof.
  induction vs as [|v vs IH]; intros m b o c z w N; cbn [write_at padd]; [reflexivity|].
  rewrite upd_comm by congruence. apply IH, N.
Qed.
Lemma same_write {T} (vs : list T) : forall m p, same_cells m (write_at m p vs).
Proof.
  induction vs as [|v vs IH]; intros m p; cbn [write_at]; [apply same_refl|].
  eapply same_trans; [apply (same_upd m p v)|apply IH].
Qed.
Lemma set_nth_id {A} (l : list A) n x : nth_error l n = Some x -> set_nth l n x = l.
Proof.
  revert n. induction l as [|y l IH]; intros [|n] H; cbn in *; try discriminate; [congruence|]. rewrite IH by exact H. reflexivity.
Qed.
Lemma upd_id {T} (m : mem T) p v : peek m p = Some v -> upd m p v = m.
Proof.
  destruct p as [|b o]; [reflexivity|]. unfold peek, upd. cbn [cell]. destruct (nth_error m b) as [[cs|]|] eqn:E; try discriminate.
  destruct (0 <=? o); [|discriminate]. destruct (nth_error cs (Z.to_nat o)) as [[x|]|] eqn:Ec; try discriminate. intros H. injection H as ->.
  rewrite (set_nth_id cs) by exact Ec. apply set_nth_id. exact E.
Qed.

(** Values at consecutive cells. *)
Definition at_ {T} (m : mem T) (p : ptr) (vs : list T) : Prop :=
  forall k v, nth_error vs k = Some v -> peek m (padd p (Z.of_nat k)) = Some v.
Lemma at_head {T} (m : mem T) p v vs : at_ m p (v :: vs) -> peek m p = Some v /\ at_ m (padd p 1) vs.
Proof.
  intros H. split.
  - pose proof (H 0%nat v eq_refl) as H0. cbn [Z.of_nat] in H0. rewrite padd_0 in H0. exact H0.
  - intros k x Hk. rewrite padd_padd. replace (1 + Z.of_nat k) with (Z.of_nat (Datatypes.S k)) by lia. apply H. exact Hk.
Qed.
Lemma at_upd {T} (m : mem T) p vs q v : (forall k, (k < length vs)%nat -> q <> padd p (Z.of_nat k)) -> at_ m p vs -> at_ (upd m q v) p vs.
Proof.
  intros N H k x Hk. rewrite peek_upd_other; [apply H, Hk|]. apply N. apply nth_error_Some. congruence.
Qed.
Lemma write_id {T} (vs : list T) : forall m p, at_ m p vs -> write_at m p vs = m.
Proof.
  induction vs as [|v vs IH]; intros m p H; cbn [write_at]; [reflexivity|]. apply at_head in H as [H0 H1].
  rewrite upd_id by exact H0. apply IH, H1.
Qed.

Lemma swap_cells_write {T} (us : list T) : forall vs m b o c z, b <> c -> length us = length vs ->
  at_ m (Ptr b o) us -> at_ m (Ptr c z) vs ->
  swap_cells m (Ptr b o) (Ptr c z) (length us) = Ok (write_at (write_at m (Ptr b o) vs) (Ptr c z) us).
Proof.
  induction us as [|u us IH]; intros [|v vs] m b o c z N L Hu Hv; try discriminate; [reflexivity|].
  apply at_head in Hu as [U0 U1]. apply at_head in Hv as [V0 V1]. cbn [length swap_cells].
  rewrite (load_peek _ _ _ U0). cbn [bind]. rewrite (load_peek _ _ _ V0). cbn [bind].
  rewrite store_valid by (eapply peek_valid; exact U0). cbn [bind].
  rewrite store_valid by (apply valid_upd; eapply peek_valid; exact V0). cbn [bind padd].
  rewrite (IH vs); [|exact N|cbn in L; lia| |].
  - cbn [write_at padd]. f_equal. f_equal. apply write_comm. exact N.
  - apply at_upd; [intros k _ E; cbn [padd] in E; congruence|]. apply at_upd; [|exact U1].
    intros k _ E. cbn [padd] in E. injection E as E. lia.
  - apply at_upd; [intros k _ E; cbn [padd] in E; injection E as E; lia|]. apply at_upd; [|exact V1].
    intros k _ E. cbn [padd] in E. congruence.
Qed.
Lemma swap_cells_same {T} (us : list T) : forall m p, at_ m p us -> swap_cells m p p (length us) = Ok m.
Proof.
  induction us as [|u us IH]; intros m p H; [reflexivity|]. apply at_head in H as [H0 H1]. cbn [length swap_cells].
  rewrite (load_peek _ _ _ H0). cbn [bind]. rewrite store_valid by (eapply peek_valid; exact H0). cbn [bind].
  rewrite upd_id by exact H0. rewrite store_valid by (eapply peek_valid; exact H0). cbn [bind].
  rewrite upd_id by exact H0. apply IH, H1.
Qed.

Lemma set_nth_app {A} (l e : list A) n x : (n < length l)%nat -> set_nth (l ++ e) n x = set_nth l n x ++ e.
Proof.
  revert n. induction l as [|y l IH]; intros [|n] H; cbn in *; try lia; [reflexivity|]. rewrite IH by lia. reflexivity.
Qed.
Lemma upd_app {T} (m e : mem T) b o v : (b < length m)%nat -> upd (m ++ e) (Ptr b o) v = upd m (Ptr b o) v ++ e.
Proof.
  intros H. unfold upd. rewrite nth_error_app1 by exact H. destruct (nth_error m b) as [[cs|]|]; try reflexivity.
  destruct (0 <=? o); [|reflexivity]. apply set_nth_app. exact H.
Qed.
Lemma upd_length {T} (m : mem T) p v : length (upd m p v) = length m.
Proof.
  destruct p as [|b o]; [reflexivity|]. unfold upd. destruct (nth_error m b) as [[cs|]|]; try reflexivity.
  destruct (0 <=? o); [|reflexivity]. apply set_nth_length.
Qed.
Lemma write_app {T} (vs : list T) : forall (m e : mem T) b o, (b < length m)%nat ->
  write_at (m ++ e) (Ptr b o) vs = write_at m (Ptr b o) vs ++ e.
Proof.
  induction vs as [|v vs IH]; intros m e b o H; cbn [write_at padd]; [reflexivity|]. rewrite upd_app by exact H. apply IH.
  rewrite upd_length. exact H.
Qed.
Lemma write_length {T} (vs : list T) : forall (m : mem T) p, length (write_at m p vs) = length m.
Proof. induction vs as [|v vs IH]; intros m p; cbn [write_at]; [reflexivity|]. rewrite IH. apply upd_length. Qed.
Lemma write_last {T} (vs : list T) : forall (m : mem T) z cells, exists cells', 
  write_at (m ++ [Some cells]) (Ptr (length m) z) vs = m ++ [Some cells'].
Proof.
  induction vs as [|v vs IH]; intros m z cells; cbn [write_at padd]; [eauto|].
  assert (E : exists cells1, upd (m ++ [Some cells]) (Ptr (length m) z) v = m ++ [Some cells1]).
  { unfold upd. rewrite nth_error_last. destruct (0 <=? z); [|eauto]. rewrite set_nth_last. eauto. }
  destruct E as (c1 & ->). apply IH.
Qed.
Lemma same_none {T} (m : mem T) : same_cells m (m ++ [None]).
Proof.
  intros [|b o]; [reflexivity|]. unfold valid. cbn [cell]. destruct (Nat.lt_ge_cases b (length m)) as [L|L].
  - rewrite nth_error_app1 by exact L. reflexivity.
  - rewrite nth_error_app2 by exact L. rewrite (proj2 (nth_error_None m b)) by exact L.
    destruct (b - length m)%nat as [|j]; [reflexivity|]. cbn. destruct j; reflexivity.
Qed.

Lemma at_app {T} (m e : mem T) p vs : at_ m p vs -> at_ (m ++ e) p vs.
Proof.
  intros H k v Hk. specialize (H k v Hk). unfold peek in *. rewrite cell_app; [exact H|]. intros C. rewrite C in H. discriminate.
Qed.

Lemma move_stack_prog {T} (m : mem T) c : c_kind c = KStatic -> move_stack m c = table_like m c c.
Proof. intros K. unfold move_stack, table_like, settings, rebuild_accessor. rewrite K. reflexivity. Qed.

Lemma swap_stack_prog {T} (m : mem T) a b x y us vs : rep_tab a x -> rep_tab b y -> t_static x = true -> t_shape x = t_shape y ->
  contents m (array_of x) us -> contents m (array_of y) vs ->
  (forall i j, t_block x = Some i -> t_block y = Some j -> i = j -> us = vs) ->
  c_kind b = KStatic -> swap_stack m a b = Ok (write_at (write_at m (base x) vs) (base y) us, a, b).
Proof.
  intros (Da & Sa & Pa & Ka) (Db & Sb & Pb & Kb) Sx Es Cx Cy Self Kb'. pose proof Da as (Lg & Ne & _).
  assert (Kx : c_kind a = KStatic) by tauto.
  unfold swap_stack. rewrite (numel_ok _ Lg Ne). cbn [bind cval int]. rewrite Sa in *.
  destruct (contents_dense m (t_shape x) (base x) us (proj1 (proj2 Lg)) Cx) as [Lu Hu].
  assert (Cy' : contents m (dense (t_shape x) (base y)) vs) by (rewrite Es; exact Cy).
  destruct (contents_dense m (t_shape x) (base y) vs (proj1 (proj2 Lg)) Cy') as [Lv Hv].
  rewrite Pa, Pb. rewrite <- Lu, Nat2Z.id.
  assert (E : swap_cells m (base x) (base y) (length us) = Ok (write_at (write_at m (base x) vs) (base y) us)).
  { destruct us as [|u us].
    - destruct vs; [reflexivity|cbn in *; lia].
    - destruct vs as [|v vs]; [cbn in *; lia|]. pose proof (at_head _ _ _ _ Hu) as [U0 _]. pose proof (at_head _ _ _ _ Hv) as [V0 _].
      destruct (t_block x) as [i|] eqn:Ei; [|unfold base in U0; rewrite Ei in U0; discriminate].
      destruct (t_block y) as [j|] eqn:Ej; [|unfold base in V0; rewrite Ej in V0; discriminate].
      destruct (Nat.eq_dec i j) as [->|N].
      + specialize (Self j j eq_refl eq_refl eq_refl). injection Self as <- <-.
        unfold base in *. rewrite Ei, Ej in *. rewrite (write_id _ _ _ Hu), (write_id _ _ _ Hu). apply swap_cells_same. exact Hu.
      + unfold base in *. rewrite Ei, Ej in *. apply swap_cells_write; [exact N|lia|exact Hu|exact Hv]. }
  rewrite E. cbn [bind]. unfold swap_accessors. rewrite Kx, Kb', <- Pa, <- Pb. destruct a, b. cbn in *. subst. reflexivity.
Qed.

Lemma release_last {T} (m : mem T) cells : release (m ++ [Some cells]) (Ptr (length m) 0) = Ok (m ++ [None]).
Proof. cbn [release]. rewrite nth_error_last. cbn. rewrite set_nth_last. reflexivity. Qed.

Lemma assign_stack_prog {T} (m : mem T) d x c sh p us vs b : rep_tab d x -> rep c (dense sh p) -> t_static x = true ->
  t_block x = Some b -> (b < length m)%nat -> 0 < prod (vals (t_shape x)) -> vals sh = vals (t_shape x) ->
  contents m (array_of x) us -> contents m (dense sh p) vs ->
  assign_stack_table m d c = Ok (write_at m (base x) vs ++ [None], d).
Proof.
  intros Rd R Sx Eb Lb Pp Ev Cx Cv. pose proof R as (_ & Ne & Lg & _ & _ & De & _). destruct (De sh p eq_refl) as (_ & _ & Es & _). rewrite Es in Lg.
  destruct (contents_dense m sh p vs (proj1 (proj2 Lg)) Cv) as [Lv _].
  pose proof Rd as ((Lgd & Ned & _) & Sd & Pd & Kd). rewrite Sd in Lgd.
  destruct (contents_dense m (t_shape x) (base x) us (proj1 (proj2 Lgd)) Cx) as [Lu Hu].
  destruct vs as [|v vs]; [rewrite Ev in Lv; cbn in Lv; lia|].
  destruct (table_like_prog m (m ++ [Some (map Some (v :: vs))]) d x c sh p (v :: vs) (Some (length m)) Rd R) as (c1 & E1 & K1 & R1); try assumption.
  { rewrite Sx. exact Ev. } { reflexivity. }
  rewrite Sx in R1. unfold assign_stack_table. rewrite E1. cbn [bind].
  assert (C1 : contents (m ++ [Some (map Some (v :: vs))]) (array_of x) us).
  { unfold contents in *. clear - Cx. induction Cx as [|is_ u l us P _ IH]; constructor; [|exact IH].
    unfold peek in *. rewrite cell_app; [exact P|]. intros C. rewrite C in P. discriminate. }
  assert (C2 : contents (m ++ [Some (map Some (v :: vs))]) (array_of (Tb (t_shape x) true (Some (length m)))) (v :: vs)).
  { unfold contents. cbn [array_of dense a_dims a_at t_shape base t_block].
    apply rank_values; [apply (proj1 (proj2 Lgd))|rewrite <- Ev; exact Lv|].
    intros k w Hk. unfold peek. cbn [padd cell]. rewrite nth_error_last. destruct (Z.leb_spec 0 (0 + Z.of_nat k)) as [_|]; [|lia].
    replace (Z.to_nat (0 + Z.of_nat k)) with k by lia. rewrite nth_error_map, Hk. reflexivity. }
  rewrite (swap_stack_prog _ d c1 x _ us (v :: vs) Rd R1 Sx eq_refl C1 C2).
  - cbn [bind]. destruct R1 as (_ & _ & -> & _). unfold base. cbn [t_block]. rewrite Eb.
    rewrite write_app by exact Lb.
    replace (Ptr (length m) 0) with (Ptr (length (write_at m (Ptr b 0) (v :: vs))) 0) by (rewrite write_length; reflexivity).
    destruct (write_last us (write_at m (Ptr b 0) (v :: vs)) 0 (map Some (v :: vs))) as (cs & ->).
    rewrite release_last. reflexivity.
  - intros i j Ei Ej E. cbn [t_block] in Ej. exfalso. assert (b = length m) by congruence. lia.
  - rewrite K1. tauto.
Qed.
