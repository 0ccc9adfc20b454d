From Coq Require Import ZArith List Bool Lia PeanoNat.
From Verif Require Import Outcome Memory MemFacts Alloc AllocSpec.
Import ListNotations.
Open Scope Z_scope.

(** ** Variables *)
Lemma bindv_same {X} (e : vars X) v x : bindv e v x v = x.
Proof. unfold bindv. rewrite Nat.eqb_refl. reflexivity. Qed.
Lemma bindv_other {X} (e : vars X) v w x : w <> v -> bindv e v x w = e w.
Proof. intros H. unfold bindv. apply Nat.eqb_neq in H. rewrite H. reflexivity. Qed.
Lemma set_same {X} (e : nat -> option X) v x : set e v x v = x.
Proof. unfold set. rewrite Nat.eqb_refl. reflexivity. Qed.
Lemma set_other {X} (e : nat -> option X) v w x : w <> v -> set e v x w = e w.
Proof. intros H. unfold set. apply Nat.eqb_neq in H. rewrite H. reflexivity. Qed.

Ltac at_var u v := destruct (Nat.eq_dec u v) as [?|?];
  [subst u; rewrite ?bindv_same, ?set_same in *|rewrite ?(bindv_other _ v u), ?(set_other _ v u) in * by assumption].

(** ** any_allocator *)
Section Any.
Context {A R : Type}.

Lemma holds_ext (s : astate A) e E E' : (forall v, a_vars s v = e v) -> (forall v, E v = E' v) -> holds s E -> holds (AS (a_heap s) e) E'.
Proof.
  intros He HE (H1 & H2 & H3). split; [|split].
  - intros v. cbn [a_vars a_heap]. rewrite <- He, <- HE. apply H1.
  - intros v w n. cbn [a_vars]. rewrite <- !He. apply H2.
  - intros n a Hn. destruct (H3 n a Hn) as (v & Hv). exists v. cbn [a_vars]. rewrite <- He. exact Hv.
Qed.

Lemma nth_app_old {B} (h : list B) x n y : nth_error h n = Some y -> nth_error (h ++ [x]) n = Some y.
Proof. intros H. rewrite nth_error_app1; [exact H|]. apply nth_error_Some. congruence. Qed.

Lemma holds_new h e E v (a : A) : holds (AS h e) E -> (E v = None \/ E v = Some None) ->
  holds (AS (h ++ [Some a]) (bindv e v (Some (Some (length h))))) (set E v (Some (Some a))).
Proof.
  intros (H1 & H2 & H3) Hv. cbn [a_vars a_heap] in *.
  assert (Old : forall w n, e w = Some (Some n) -> (n < length h)%nat).
  { intros w n Hw. specialize (H1 w). rewrite Hw in H1. destruct (E w) as [[x|]|]; try contradiction.
    apply nth_error_Some. congruence. }
  split; [|split]; cbn [a_vars a_heap].
  - intros w. at_var w v.
    + rewrite nth_error_app2, Nat.sub_diag by lia. reflexivity.
    + specialize (H1 w). destruct (E w) as [[x|]|], (e w) as [[n'|]|]; try exact H1. apply nth_app_old. exact H1.
  - intros w u n. at_var w v; at_var u v; intros Hw Hu.
    + reflexivity.
    + injection Hw as <-. apply Old in Hu. lia.
    + injection Hu as <-. apply Old in Hw. lia.
    + eapply H2; eassumption.
  - intros n x Hn. destruct (Nat.lt_ge_cases n (length h)) as [L|L].
    + rewrite nth_error_app1 in Hn by exact L. destruct (H3 n x Hn) as (w & Hw). exists w.
      at_var w v; [|exact Hw]. specialize (H1 v). rewrite Hw in H1. destruct Hv as [Hv|Hv]; rewrite Hv in H1; contradiction.
    + assert (n = length h).
      { assert (n < length (h ++ [Some a]))%nat by (apply nth_error_Some; congruence). rewrite app_length in *. simpl in *. lia. }
      subst n. exists v. apply bindv_same.
Qed.

(** Removing the object of a variable. *)
Lemma holds_del h e E v p x X : holds (AS h e) E -> e v = Some p ->
  ((x = None /\ X = None) \/ (x = Some None /\ X = Some None)) ->
  exists h1, delete h p = Ok h1 /\ holds (AS h1 (bindv e v x)) (set E v X) /\ length h1 = length h /\
    forall a : A, delete (h ++ [Some a]) p = Ok (h1 ++ [Some a]).
Proof.
  intros (H1 & H2 & H3) Hv Hx. cbn [a_vars a_heap] in *. pose proof (H1 v) as Hv1. rewrite Hv in Hv1.
  assert (Dead : forall n, x <> Some (Some n)) by (intros n; destruct Hx as [[-> _]|[-> _]]; discriminate).
  destruct p as [n|].
  - destruct (E v) as [[a|]|] eqn:Ev; try contradiction. unfold delete. rewrite Hv1.
    exists (set_nth h n None). split; [reflexivity|]. split; [|split].
    + split; [|split]; cbn [a_vars a_heap].
      * intros w. at_var w v; [destruct Hx as [[-> ->]|[-> ->]]; exact I|].
        specialize (H1 w). destruct (E w) as [[y|]|], (e w) as [[k|]|] eqn:Ew; try exact H1.
        rewrite set_nth_other; [exact H1|]. intros ->. apply n0. eapply H2; eassumption.
      * intros w u k. at_var w v; [intros K; exfalso; eapply Dead; eassumption|].
        at_var u v; [intros _ K; exfalso; eapply Dead; eassumption|]. apply H2.
      * intros k y Hk. destruct (Nat.eq_dec k n) as [->|Nk].
        -- assert (n < length h)%nat by (apply nth_error_Some; congruence).
           rewrite set_nth_same in Hk by assumption. discriminate.
        -- rewrite set_nth_other in Hk by congruence. destruct (H3 k y Hk) as (w & Hw). exists w.
           at_var w v; [congruence|exact Hw].
    + apply set_nth_length.
    + intros b. rewrite (nth_app_old _ _ _ _ Hv1). f_equal.
      assert (L : (n < length h)%nat) by (apply nth_error_Some; congruence). clear -L.
      revert n L. induction h as [|y h IH]; intros [|n] L; simpl in *; try lia; [reflexivity|]. f_equal. apply IH. lia.
  - exists h. split; [reflexivity|]. split; [|split; [reflexivity|intros; reflexivity]].
    assert (Nh : forall w k, bindv e v x w = Some (Some k) -> w <> v /\ e w = Some (Some k)).
    { intros w k. at_var w v; [intros K; exfalso; eapply Dead; eassumption|auto]. }
    split; [|split]; cbn [a_vars a_heap].
    + intros w. at_var w v; [destruct Hx as [[-> ->]|[-> ->]]; exact I|apply H1].
    + intros w u k Hw Hu. destruct (Nh _ _ Hw) as [_ ?], (Nh _ _ Hu) as [_ ?]. eapply H2; eassumption.
    + intros k y Hk. destruct (H3 k y Hk) as (w & Hw). exists w. at_var w v; [congruence|exact Hw].
Qed.

(** Exchanging the contents of two variables. *)
Lemma holds_swap h (e : vars any) (E : nat -> option (option A)) v w p q X Y : holds (AS h e) E ->
  e v = p -> e w = q -> E v = X -> E w = Y ->
  holds (AS h (bindv (bindv e v q) w p)) (set (set E v Y) w X).
Proof.
  intros (H1 & H2 & H3) <- <- <- <-. cbn [a_vars a_heap] in *.
  pose (f := fun u => if Nat.eqb u w then v else if Nat.eqb u v then w else u).
  assert (Fe : forall u, bindv (bindv e v (e w)) w (e v) u = e (f u)).
  { intros u. unfold f. destruct (Nat.eqb_spec u w) as [->|]; [apply bindv_same|]. rewrite bindv_other by assumption.
    destruct (Nat.eqb_spec u v) as [->|]; [apply bindv_same|]. apply bindv_other. assumption. }
  assert (FE : forall u, set (set E v (E w)) w (E v) u = E (f u)).
  { intros u. unfold f. destruct (Nat.eqb_spec u w) as [->|]; [apply set_same|]. rewrite set_other by assumption.
    destruct (Nat.eqb_spec u v) as [->|]; [apply set_same|]. apply set_other. assumption. }
  assert (Ff : forall u, f (f u) = u).
  { intros u. unfold f. destruct (Nat.eqb_spec u w) as [->|].
    - destruct (Nat.eqb_spec v w) as [->|]; [reflexivity|]. rewrite Nat.eqb_refl. reflexivity.
    - destruct (Nat.eqb_spec u v) as [->|]; [rewrite Nat.eqb_refl; reflexivity|].
      destruct (Nat.eqb_spec u w); [contradiction|]. destruct (Nat.eqb_spec u v); [contradiction|reflexivity]. }
  split; [|split]; cbn [a_vars a_heap].
  - intros u. rewrite Fe, FE. apply H1.
  - intros u u' n. rewrite !Fe. intros P Q. specialize (H2 _ _ _ P Q). rewrite <- (Ff u), <- (Ff u'), H2. reflexivity.
  - intros n a Hn. destruct (H3 n a Hn) as (u & Hu). exists (f u). rewrite Fe, Ff. exact Hu.
Qed.

(** Moving the contents of [w] to an empty variable [v]. *)
Lemma holds_move h (e : vars any) (E : nat -> option (option A)) v w p X : holds (AS h e) E -> v <> w ->
  (E v = None \/ E v = Some None) -> e w = Some p -> E w = Some X ->
  holds (AS h (bindv (bindv e w (Some None)) v (Some p))) (set (set E w (Some None)) v (Some X)).
Proof.
  intros H N Hv Hp HX.
  assert (H' : holds (AS h (bindv e v (Some None))) (set E v (Some None))).
  { destruct H as (H1 & H2 & H3). cbn [a_vars a_heap] in *.
    assert (Ev : forall n, e v <> Some (Some n)).
    { intros n Q. specialize (H1 v). rewrite Q in H1. destruct Hv as [Hv|Hv]; rewrite Hv in H1; contradiction. }
    split; [|split]; cbn [a_vars a_heap].
    - intros u. at_var u v; [exact I|apply H1].
    - intros u u' n. at_var u v; [discriminate|]. at_var u' v; [discriminate|]. apply H2.
    - intros n a Hn. destruct (H3 n a Hn) as (u & Hu). exists u. at_var u v; [exfalso; eapply Ev; exact Hu|exact Hu]. }
  pose proof (holds_swap _ _ _ w v (Some p) (Some None) (Some X) (Some None) H') as S.
  rewrite bindv_other, bindv_same, set_other, set_same in S by congruence. specialize (S Hp eq_refl HX eq_refl).
  apply (holds_ext (AS h _)) with (3 := S); cbn [a_vars]; intros u.
  - at_var u v; [reflexivity|]. at_var u w; [reflexivity|]. rewrite bindv_other by assumption. reflexivity.
  - at_var u v; [reflexivity|]. at_var u w; [reflexivity|]. rewrite set_other by assumption. reflexivity.
Qed.

(** Replacing the state of an object. *)
Lemma holds_update h e E v n (a a' : A) : holds (AS h e) E -> e v = Some (Some n) -> nth_error h n = Some (Some a) ->
  holds (AS (set_nth h n (Some a')) e) (set E v (Some (Some a'))).
Proof.
  intros (H1 & H2 & H3) Hv Hn. cbn [a_vars a_heap] in *.
  assert (L : (n < length h)%nat) by (apply nth_error_Some; congruence).
  split; [|split]; cbn [a_vars a_heap].
  - intros w. at_var w v; [rewrite Hv; apply set_nth_same; exact L|]. specialize (H1 w).
    destruct (E w) as [[y|]|], (e w) as [[k|]|] eqn:Ew; try exact H1. rewrite set_nth_other; [exact H1|].
    intros ->. apply n0. eapply H2; eassumption.
  - exact H2.
  - intros k y Hk. destruct (Nat.eq_dec k n) as [->|Nk]; [exists v; exact Hv|].
    rewrite set_nth_other in Hk by congruence. apply (H3 k y Hk).
Qed.

Lemma astep_ok (ac : alloc_class A R) s E o : holds s E ->
  match value_step ac E o with
  | Some (E', r) => exists s', astep ac s o = Ok (s', r) /\ holds s' E'
  | None => astep ac s o = UB
  end.
Proof.
  destruct s as [h e]. intros H. pose proof (proj1 H) as H1. cbn [a_vars a_heap] in H1.
  assert (Ex : forall v, E v = None <-> e v = None).
  { intros v. specialize (H1 v). destruct (E v) as [[x|]|], (e v) as [[n|]|]; try contradiction; split; congruence. }
  destruct o; cbn [value_step astep a_vars a_heap]; unfold fresh, var.
  - (* ADefault *) pose proof (H1 v) as Hv. destruct (E v) as [X|] eqn:Ev; destruct (e v) as [P|] eqn:Pv; try (destruct X; contradiction); [reflexivity| |].
    + destruct P; contradiction.
    + eexists. split; [reflexivity|]. destruct H as (_ & H2 & H3). split; [|split]; cbn [a_vars a_heap] in *.
      * intros w. at_var w v; [exact I|apply H1].
      * intros w u n. at_var w v; [discriminate|]. at_var u v; [discriminate|]. apply H2.
      * intros n a Hn. destruct (H3 n a Hn) as (u & Hu). exists u. at_var u v; [congruence|exact Hu].
  - (* AFrom *) pose proof (Ex v) as Hv. destruct (E v) as [X|] eqn:Ev; destruct (e v) as [P|] eqn:Pv; try (exfalso; destruct Hv; intuition congruence); [reflexivity|].
    eexists. split; [reflexivity|]. apply holds_new; [exact H|left; exact Ev].
  - (* ACopy *) pose proof (Ex v) as Hv. destruct (E v) as [X|] eqn:Ev; destruct (e v) as [P|] eqn:Pv; try (exfalso; destruct Hv; intuition congruence); [reflexivity|].
    rewrite bind_ok. pose proof (H1 w) as Hw. destruct (E w) as [[a|]|], (e w) as [[n|]|]; try contradiction; try reflexivity.
    rewrite bind_ok. unfold any_copy, object. rewrite Hw. eexists. split; [reflexivity|]. apply holds_new; [exact H|left; exact Ev].
  - (* AMove *) pose proof (Ex v) as Hv. destruct (E v) as [X|] eqn:Ev; destruct (e v) as [P|] eqn:Pv; try (exfalso; destruct Hv; intuition congruence); [reflexivity|].
    rewrite bind_ok. pose proof (Ex w) as Hw. destruct (E w) as [Y|] eqn:Ew; destruct (e w) as [Q|] eqn:Qw; try (exfalso; destruct Hw; intuition congruence); [|reflexivity].
    rewrite bind_ok. eexists. split; [reflexivity|]. apply holds_move; auto. congruence.
  - (* ACopyAssign *) pose proof (H1 w) as Hw. pose proof (Ex v) as Hv.
    destruct (E w) as [[a|]|] eqn:Ew; destruct (e w) as [[n|]|] eqn:Qw; try contradiction.
    2:{ destruct (E v) as [[?|]|]; reflexivity. }
    2:{ destruct (E v) as [[?|]|]; reflexivity. }
    rewrite bind_ok. unfold any_copy, object. rewrite Hw, bind_ok. unfold new_object. rewrite bind_ok. unfold swap_in, var.
    destruct (E v) as [X|] eqn:Ev; destruct (e v) as [P|] eqn:Pv; try (exfalso; destruct Hv; intuition congruence); [|reflexivity].
    rewrite bind_ok. destruct (holds_del _ _ _ v P (Some None) (Some None) H Pv) as (h1 & D1 & Hd & Ln & D2); [right; auto|].
    rewrite D2, bind_ok, bind_ok. eexists. split; [reflexivity|].
    apply (holds_new _ _ _ v a) in Hd; [|right; apply set_same]. rewrite Ln in Hd.
    apply (holds_ext (AS _ _)) with (3 := Hd); cbn [a_vars]; intros u; at_var u v; reflexivity.
  - (* AMoveAssign *) pose proof (Ex v) as Hv. pose proof (Ex w) as Hw.
    destruct (E w) as [Y|] eqn:Ew; destruct (e w) as [Q|] eqn:Qw; try (exfalso; destruct Hw; intuition congruence);
      [|destruct (E v) as [[?|]|]; reflexivity].
    rewrite bind_ok. destruct (Nat.eqb_spec v w) as [->|N].
    + rewrite Ew, bindv_same, bind_ok. cbn [delete]. rewrite bind_ok. eexists. split; [reflexivity|].
      apply (holds_ext (AS _ _)) with (3 := H); cbn [a_vars]; intros u; [|reflexivity].
      at_var u w; [exact Qw|reflexivity].
    + rewrite bindv_other by assumption.
      destruct (E v) as [X|] eqn:Ev; destruct (e v) as [P|] eqn:Pv; try (exfalso; destruct Hv; intuition congruence); [|reflexivity].
      rewrite bind_ok. destruct (holds_del _ _ _ v P (Some None) (Some None) H Pv) as (h1 & D1 & Hd & Ln & D2); [right; auto|].
      rewrite D1, bind_ok. eexists. split; [reflexivity|].
      apply (holds_move _ _ _ v w Q Y) in Hd; [|exact N|right; apply set_same|rewrite bindv_other by congruence; exact Qw|rewrite set_other by congruence; exact Ew].
      apply (holds_ext (AS _ _)) with (3 := Hd); cbn [a_vars]; intros u; at_var u v; try reflexivity; at_var u w; try reflexivity;
        [rewrite bindv_other by assumption|rewrite set_other by assumption]; reflexivity.
  - (* AAssign *) cbn [new_object]. unfold swap_in, var. pose proof (Ex v) as Hv.
    destruct (E v) as [X|] eqn:Ev; destruct (e v) as [P|] eqn:Pv; try (exfalso; destruct Hv; intuition congruence); [|reflexivity].
    unfold new_object. rewrite bind_ok. destruct (holds_del _ _ _ v P (Some None) (Some None) H Pv) as (h1 & D1 & Hd & Ln & D2); [right; auto|].
    rewrite D2, bind_ok, bind_ok. eexists. split; [reflexivity|].
    apply (holds_new _ _ _ v a) in Hd; [|right; apply set_same]. rewrite Ln in Hd.
    apply (holds_ext (AS _ _)) with (3 := Hd); cbn [a_vars]; intros u; at_var u v; reflexivity.
  - (* ASwap *) pose proof (Ex v) as Hv. pose proof (Ex w) as Hw.
    destruct (E v) as [X|] eqn:Ev; destruct (e v) as [P|] eqn:Pv; try (exfalso; destruct Hv; intuition congruence); [|reflexivity].
    rewrite bind_ok.
    destruct (E w) as [Y|] eqn:Ew; destruct (e w) as [Q|] eqn:Qw; try (exfalso; destruct Hw; intuition congruence); [|reflexivity].
    rewrite bind_ok. eexists. split; [reflexivity|]. apply holds_swap; assumption.
  - (* AAllocate *) pose proof (H1 v) as Hv. destruct (E v) as [[a|]|] eqn:Ev; destruct (e v) as [[k|]|] eqn:Pv; try contradiction; try reflexivity.
    rewrite bind_ok. unfold object. rewrite Hv, bind_ok. destruct (ac_allocate ac a n) as [a' r]. cbn [fst snd].
    eexists. split; [reflexivity|]. eapply holds_update; eassumption.
  - (* ADeallocate *) pose proof (H1 v) as Hv. destruct (E v) as [[a|]|] eqn:Ev; destruct (e v) as [[k|]|] eqn:Pv; try contradiction; try reflexivity.
    rewrite bind_ok. unfold object. rewrite Hv, bind_ok.
    eexists. split; [reflexivity|]. eapply holds_update; eassumption.
  - (* ADestroy *) pose proof (Ex v) as Hv.
    destruct (E v) as [X|] eqn:Ev; destruct (e v) as [P|] eqn:Pv; try (exfalso; destruct Hv; intuition congruence); [|reflexivity].
    rewrite bind_ok. destruct (holds_del _ _ _ v P None None H Pv) as (h1 & D1 & Hd & Ln & D2); [left; auto|].
    rewrite D1, bind_ok. eexists. split; [reflexivity|exact Hd].
Qed.

Lemma aruns_ok (ac : alloc_class A R) os : forall s E, holds s E ->
  match value_runs ac E os with
  | Some (E', r) => exists s', aruns ac s os = Ok (s', r) /\ holds s' E'
  | None => aruns ac s os = UB
  end.
Proof.
  induction os as [|o os IH]; intros s E H; cbn [value_runs aruns].
  - exists s. auto.
  - pose proof (astep_ok ac s E o H) as S. destruct (value_step ac E o) as [[E1 r1]|].
    + destruct S as (s1 & -> & H1). rewrite bind_ok. specialize (IH s1 E1 H1).
      destruct (value_runs ac E1 os) as [[E2 r2]|].
      * destruct IH as (s2 & -> & H2). rewrite bind_ok. eauto.
      * rewrite IH. reflexivity.
    + rewrite S. reflexivity.
Qed.

Lemma ainit_holds : @holds A ainit (fun _ => None).
Proof. split; [intros; exact I|]. split; [discriminate|]. intros [|n] a Hn; discriminate. Qed.
End Any.

Lemma any_values_l {A R} (ac : alloc_class A R) os :
  match value_runs ac (fun _ => None) os with
  | Some (e, r) => exists s, aruns ac ainit os = Ok (s, r) /\ holds s e
  | None => aruns ac ainit os = UB
  end.
Proof. apply aruns_ok, ainit_holds. Qed.

Lemma any_copy_lvalue_l {A} (wrap : any -> A) fuel h p : any_copy_lvalue wrap fuel h p = NoFuel.
Proof. induction fuel as [|fuel IH]; [reflexivity|]. simpl. rewrite IH. reflexivity. Qed.
Lemma any_assign_lvalue_l {A} (wrap : any -> A) fuel s v w : a_vars s w <> None -> any_assign_lvalue wrap fuel s v w = NoFuel.
Proof.
  intros H. unfold any_assign_lvalue, var. destruct (a_vars s w); [|congruence].
  rewrite bind_ok, any_copy_lvalue_l. reflexivity.
Qed.
