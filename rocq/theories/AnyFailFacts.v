(** Facts about any_allocator with failures (C100). *)
From Coq Require Import ZArith List Bool Lia PeanoNat.
From Verif Require Import Outcome Memory MemFacts Alloc AllocSpec AllocFacts AnyFail AnyFailSpec.
Import ListNotations.
Open Scope Z_scope.

Lemma set_nth_end {B} (l : list B) x y : set_nth (l ++ [x]) (length l) y = l ++ [y].
Proof. induction l as [|z l IH]; [reflexivity|]. cbn. rewrite IH. reflexivity. Qed.
Lemma set_nth_end2 {B} (l : list B) x y z : set_nth (l ++ [x; z]) (length l) y = l ++ [y; z].
Proof. induction l as [|u l IH]; [reflexivity|]. cbn. rewrite IH. reflexivity. Qed.
Lemma nth_end {B} (l : list B) x : nth_error (l ++ [x]) (length l) = Some x.
Proof. rewrite nth_error_app2, Nat.sub_diag by lia. reflexivity. Qed.
Lemma nth_lt {B} (l : list B) n x : nth_error l n = Some x -> (n < length l)%nat.
Proof. intros H. apply nth_error_Some. congruence. Qed.
Lemma nth_pad {B} (l : list (option B)) n k x : nth_error (l ++ repeat None n) k = Some (Some x) -> nth_error l k = Some (Some x).
Proof.
  intros H. destruct (Nat.lt_ge_cases k (length l)) as [L|L]; [rewrite nth_error_app1 in H by exact L; exact H|].
  rewrite nth_error_app2 in H by exact L. apply nth_error_In, repeat_spec in H. discriminate.
Qed.
Lemma nth_old {B} (l l' : list B) k x : nth_error l k = Some x -> nth_error (l ++ l') k = Some x.
Proof. intros H. rewrite nth_error_app1; [exact H|]. eapply nth_lt; exact H. Qed.
Lemma set_nth_twice {B} (l : list B) n x y : set_nth (set_nth l n x) n y = set_nth l n y.
Proof. revert n; induction l as [|z l IH]; intros [|n]; cbn; [reflexivity..|]. rewrite IH. reflexivity. Qed.

Lemma nth_all {B} (l : list B) : forall l', (forall k, nth_error l k = nth_error l' k) -> l = l'.
Proof.
  induction l as [|x l IH]; intros [|y l'] H; try (specialize (H O); discriminate); [reflexivity|].
  f_equal; [specialize (H O); cbn in H; congruence|]. apply IH. intros k. apply (H (S k)).
Qed.

Section AnyFail.
Context {A R : Type}.

(** The objects model_t as [Alloc.v] sees them. *)
Definition view1 (objs : list (option A)) (x : option (option nat)) : option A :=
  match x with Some (Some i) => match nth_error objs i with Some o => o | None => None end | _ => None end.
Definition absh (objs : list (option A)) (mem : list (option (option nat))) : objects A := map (view1 objs) mem.
Definition inv (objs : list (option A)) (mem : list (option (option nat))) : Prop :=
  (forall b c i, nth_error mem b = Some (Some (Some i)) -> nth_error mem c = Some (Some (Some i)) -> b = c) /\
  (forall b, nth_error mem b <> Some (Some None)) /\
  (forall b i, nth_error mem b = Some (Some (Some i)) -> exists a, nth_error objs i = Some (Some a)) /\
  (forall i a, nth_error objs i = Some (Some a) -> exists b, nth_error mem b = Some (Some (Some i))).

Lemma absh_nth objs mem b a : nth_error (absh objs mem) b = Some (Some a) ->
  exists i, nth_error mem b = Some (Some (Some i)) /\ nth_error objs i = Some (Some a).
Proof.
  unfold absh. rewrite nth_error_map. destruct (nth_error mem b) as [[[i|]|]|] eqn:E; cbn; try discriminate.
  destruct (nth_error objs i) as [[x|]|] eqn:F; try discriminate. intros H. injection H as <-. exists i. auto.
Qed.
Lemma absh_objs objs objs' mem : (forall b i, nth_error mem b = Some (Some (Some i)) -> nth_error objs i = nth_error objs' i) ->
  absh objs mem = absh objs' mem.
Proof.
  intros H. apply map_ext_in. intros x I. apply In_nth_error in I as (b & E). destruct x as [[i|]|]; [|reflexivity..].
  cbn. rewrite (H b i E). reflexivity.
Qed.
Lemma absh_set objs mem b x : absh objs (set_nth mem b x) = set_nth (absh objs mem) b (view1 objs x).
Proof. unfold absh. revert b. induction mem as [|y mem IH]; intros [|b]; cbn; [reflexivity..|]. rewrite IH. reflexivity. Qed.

Lemma inv_pad objs mem n k : inv objs mem ->
  inv (objs ++ repeat None n) (mem ++ repeat None k) /\ absh (objs ++ repeat None n) (mem ++ repeat None k) = absh objs mem ++ repeat None k.
Proof.
  intros (I1 & I2 & I3 & I4). split.
  - split; [|split; [|split]].
    + intros b c i Hb Hc. apply nth_pad in Hb, Hc. eapply I1; eassumption.
    + intros b Hb. apply nth_pad in Hb. eapply I2; exact Hb.
    + intros b i Hb. apply nth_pad in Hb. destruct (I3 b i Hb) as (a & Ha). exists a. apply nth_old. exact Ha.
    + intros i a Hi. apply nth_pad in Hi. destruct (I4 i a Hi) as (b & Hb). exists b. apply nth_old. exact Hb.
  - unfold absh. rewrite map_app. f_equal.
    + fold (absh (objs ++ repeat None n) mem) (absh objs mem). apply absh_objs. intros b i Hb.
      destruct (I3 b i Hb) as (a & Ha). rewrite Ha. apply nth_old. exact Ha.
    + clear. induction k; [reflexivity|]. cbn. f_equal. exact IHk.
Qed.

Lemma inv_new objs mem a : inv objs mem ->
  inv (objs ++ [None; Some a]) (mem ++ [Some (Some (S (length objs)))]) /\
  absh (objs ++ [None; Some a]) (mem ++ [Some (Some (S (length objs)))]) = absh objs mem ++ [Some a].
Proof.
  intros (I1 & I2 & I3 & I4).
  assert (Lt : forall b i, nth_error mem b = Some (Some (Some i)) -> (i < length objs)%nat).
  { intros b i Hb. destruct (I3 b i Hb) as (x & Hx). eapply nth_lt; exact Hx. }
  assert (Nw : nth_error (objs ++ [None; Some a]) (S (length objs)) = Some (Some a)).
  { rewrite nth_error_app2 by lia. replace (S (length objs) - length objs)%nat with 1%nat by lia. reflexivity. }
  assert (Mem : forall b x, nth_error (mem ++ [Some (Some (S (length objs)))]) b = Some x ->
    nth_error mem b = Some x \/ (b = length mem /\ x = Some (Some (S (length objs))))).
  { intros b x H. destruct (Nat.lt_ge_cases b (length mem)) as [L|L]; [left; rewrite nth_error_app1 in H by exact L; exact H|].
    right. assert (b = length mem) as ->.
    { apply nth_lt in H. rewrite app_length in H. cbn in H. lia. }
    rewrite nth_end in H. injection H as <-. auto. }
  split.
  - split; [|split; [|split]].
    + intros b c i Hb Hc. apply Mem in Hb, Hc. destruct Hb as [Hb|[-> Eb]], Hc as [Hc|[-> Ec]]; [eapply I1; eassumption| | |reflexivity].
      * injection Ec as ->. apply Lt in Hb. lia.
      * injection Eb as ->. apply Lt in Hc. lia.
    + intros b Hb. apply Mem in Hb as [Hb|[_ Hb]]; [eapply I2; exact Hb|discriminate].
    + intros b i Hb. apply Mem in Hb as [Hb|[-> Hb]].
      * destruct (I3 b i Hb) as (x & Hx). exists x. apply nth_old. exact Hx.
      * injection Hb as ->. exists a. exact Nw.
    + intros i x Hi. destruct (Nat.lt_ge_cases i (length objs)) as [L|L].
      * rewrite nth_error_app1 in Hi by exact L. destruct (I4 i x Hi) as (b & Hb). exists b. apply nth_old. exact Hb.
      * exists (length mem). rewrite nth_end. repeat f_equal.
        pose proof (nth_lt _ _ _ Hi) as L2. rewrite app_length in L2. cbn in L2.
        destruct (Nat.eq_dec i (length objs)) as [->|]; [|lia].
        rewrite nth_error_app2, Nat.sub_diag in Hi by lia. discriminate.
  - unfold absh. rewrite map_app. f_equal.
    + fold (absh (objs ++ [None; Some a]) mem) (absh objs mem). apply absh_objs. intros b i Hb.
      rewrite nth_error_app1 by (eapply Lt; exact Hb). reflexivity.
    + cbn [map view1]. rewrite Nw. reflexivity.
Qed.

Lemma inv_del objs mem b i a : inv objs mem -> nth_error mem b = Some (Some (Some i)) -> nth_error objs i = Some (Some a) ->
  inv (set_nth objs i None) (set_nth mem b None) /\ absh (set_nth objs i None) (set_nth mem b None) = set_nth (absh objs mem) b None.
Proof.
  intros (I1 & I2 & I3 & I4) Hb Hi.
  assert (Mem : forall c x, nth_error (set_nth mem b None) c = Some (Some x) -> c <> b /\ nth_error mem c = Some (Some x)).
  { intros c x H. destruct (Nat.eq_dec c b) as [->|N].
    - rewrite set_nth_same in H by (eapply nth_lt; exact Hb). discriminate.
    - rewrite set_nth_other in H by congruence. auto. }
  assert (Obj : forall j x, nth_error (set_nth objs i None) j = Some (Some x) -> j <> i /\ nth_error objs j = Some (Some x)).
  { intros j x H. destruct (Nat.eq_dec j i) as [->|N].
    - rewrite set_nth_same in H by (eapply nth_lt; exact Hi). discriminate.
    - rewrite set_nth_other in H by congruence. auto. }
  split.
  - split; [|split; [|split]].
    + intros c d j Hc Hd. apply Mem in Hc as [_ Hc], Hd as [_ Hd]. eapply I1; eassumption.
    + intros c Hc. apply Mem in Hc as [_ Hc]. eapply I2; exact Hc.
    + intros c j Hc. apply Mem in Hc as [N Hc]. destruct (I3 c j Hc) as (x & Hx). exists x. rewrite set_nth_other; [exact Hx|].
      intros ->. apply N. eapply I1; eassumption.
    + intros j x Hj. apply Obj in Hj as [N Hj]. destruct (I4 j x Hj) as (c & Hc). exists c. rewrite set_nth_other; [exact Hc|].
      intros ->. congruence.
  - rewrite absh_set. cbn [view1].
    assert (E : absh (set_nth objs i None) (set_nth mem b None) = absh objs (set_nth mem b None)).
    { apply absh_objs. intros c j Hc. apply Mem in Hc as [N Hc]. apply set_nth_other. intros ->. apply N. eapply I1; eassumption. }
    rewrite absh_set in E. cbn [view1] in E. rewrite absh_set in E. exact E.
Qed.

Lemma inv_upd objs mem b i a a' : inv objs mem -> nth_error mem b = Some (Some (Some i)) -> nth_error objs i = Some (Some a) ->
  inv (set_nth objs i (Some a')) mem /\ absh (set_nth objs i (Some a')) mem = set_nth (absh objs mem) b (Some a').
Proof.
  intros (I1 & I2 & I3 & I4) Hb Hi. pose proof (nth_lt _ _ _ Hi) as Li. split.
  - split; [exact I1|]. split; [exact I2|]. split.
    + intros c j Hc. destruct (Nat.eq_dec j i) as [->|N]; [exists a'; apply set_nth_same; exact Li|].
      rewrite set_nth_other by congruence. apply (I3 c j Hc).
    + intros j x Hj. destruct (Nat.eq_dec j i) as [->|N]; [exists b; exact Hb|].
      rewrite set_nth_other in Hj by congruence. apply (I4 j x Hj).
  - apply nth_all. intros c. destruct (Nat.eq_dec c b) as [->|N].
    + rewrite set_nth_same by (unfold absh; rewrite map_length; eapply nth_lt; exact Hb).
      unfold absh. rewrite nth_error_map, Hb. cbn. rewrite set_nth_same by exact Li. reflexivity.
    + rewrite set_nth_other by congruence. unfold absh. rewrite !nth_error_map.
      destruct (nth_error mem c) as [[[j|]|]|] eqn:Ec; cbn; try reflexivity.
      rewrite set_nth_other; [reflexivity|]. intros ->. apply N. eapply I1; eassumption.
Qed.

Lemma holds_pad h (e : vars any) (E : nat -> option (option A)) n : holds (AS h e) E -> holds (AS (h ++ repeat None n) e) E.
Proof.
  intros (H1 & H2 & H3). split; [|split]; cbn [a_vars a_heap] in *.
  - intros v. specialize (H1 v). destruct (E v) as [[x|]|], (e v) as [[b|]|]; try exact H1. apply nth_old. exact H1.
  - exact H2.
  - intros b a Hb. apply nth_pad in Hb. apply (H3 b a Hb).
Qed.

(** The states related to values. *)
Definition good (s : fstate A) (E : nat -> option (option A)) : Prop :=
  inv (f_objs s) (f_mem s) /\ holds (AS (absh (f_objs s) (f_mem s)) (f_vars s)) E.

Lemma good_fholds s E : good s E -> fholds s E.
Proof.
  intros ((I1 & I2 & I3 & I4) & (H1 & H2 & H3)). cbn [a_vars a_heap] in *. split; [|split; [|split; [|split]]].
  - intros v. specialize (H1 v). destruct (E v) as [[x|]|], (f_vars s v) as [[b|]|]; try exact H1. apply absh_nth. exact H1.
  - exact H2.
  - exact I1.
  - intros b [i|] Hb; [|exfalso; eapply I2; exact Hb]. destruct (I3 b i Hb) as (a & Ha). apply (H3 b a).
    unfold absh. rewrite nth_error_map, Hb. cbn. rewrite Ha. reflexivity.
  - exact I4.
Qed.

(** ** Pieces *)
Lemma construct_ok s (a : A) : inv (f_objs s) (f_mem s) ->
  exists s', construct s a FNone = Ok (s', Some (length (f_mem s))) /\ f_vars s' = f_vars s /\ inv (f_objs s') (f_mem s') /\
    absh (f_objs s') (f_mem s') = absh (f_objs s) (f_mem s) ++ [Some a] /\
    length (f_objs s') = S (S (length (f_objs s))).
Proof.
  intros I. destruct s as [objs mem e]. cbn [f_objs f_mem f_vars] in *. unfold construct, new_mem, make_obj. cbn [f_objs f_mem f_vars].
  unfold set_mem, end_obj. cbn [f_objs f_mem f_vars]. rewrite <- app_assoc. cbn [app].
  assert (E : nth_error (objs ++ [Some a; Some a]) (length objs) = Some (Some a)) by (rewrite nth_error_app2, Nat.sub_diag by lia; reflexivity).
  rewrite E. rewrite bind_ok. eexists. split; [reflexivity|]. cbn [f_objs f_mem f_vars]. split; [reflexivity|].
  rewrite set_nth_end, set_nth_end2, app_length. cbn [length].
  replace (length objs + 1)%nat with (S (length objs)) by lia. destruct (inv_new objs mem a I) as [I' E'].
  split; [exact I'|]. split; [exact E'|]. rewrite app_length. cbn. lia.
Qed.

Lemma construct_throw s (a : A) f : fails f = true -> exists s', construct s a f = Ok (s', None) /\ untouched s s'.
Proof.
  intros Hf. destruct s as [objs mem e]. destruct f; [discriminate| | |]; unfold construct.
  - eexists. split; [reflexivity|]. split; [reflexivity|]. split; exists O; cbn; rewrite app_nil_r; reflexivity.
  - unfold new_mem, free_mem, set_mem. cbn [f_objs f_mem f_vars]. rewrite nth_end, bind_ok, set_nth_end.
    eexists. split; [reflexivity|]. split; [reflexivity|]. split; [exists O; cbn; rewrite app_nil_r; reflexivity|exists 1%nat; reflexivity].
  - unfold new_mem, make_obj, end_obj, free_mem, set_mem. cbn [f_objs f_mem f_vars]. rewrite nth_end, bind_ok, set_nth_end.
    cbn [f_objs f_mem f_vars]. rewrite nth_end, bind_ok, set_nth_end.
    eexists. split; [reflexivity|]. split; [reflexivity|]. split; exists 1%nat; reflexivity.
Qed.

Lemma untouched_good s s' E : untouched s s' -> good s E -> good s' E.
Proof.
  intros (V & (n & On) & (k & Mk)) (I & H). destruct (inv_pad _ _ n k I) as [I' E']. unfold good. rewrite On, Mk. split; [exact I'|].
  rewrite E'. apply (holds_ext (AS (absh (f_objs s) (f_mem s) ++ repeat None k) (f_vars s))) with (3 := holds_pad _ _ _ k H);
    cbn [a_vars]; auto.
Qed.

Lemma held_ok s b a : nth_error (absh (f_objs s) (f_mem s)) b = Some (Some a) ->
  exists i, held s (Some b) = Ok (i, a) /\ nth_error (f_mem s) b = Some (Some (Some i)) /\ nth_error (f_objs s) i = Some (Some a).
Proof. intros H. apply absh_nth in H as (i & Hb & Hi). exists i. unfold held. rewrite Hb, Hi. auto. Qed.

Lemma fdelete_ok s p h1 : inv (f_objs s) (f_mem s) -> delete (absh (f_objs s) (f_mem s)) p = Ok h1 ->
  exists s1, fdelete s p = Ok s1 /\ f_vars s1 = f_vars s /\ inv (f_objs s1) (f_mem s1) /\ absh (f_objs s1) (f_mem s1) = h1 /\
    length (f_objs s1) = length (f_objs s).
Proof.
  intros I D. destruct p as [b|].
  - cbn [delete] in D. destruct (nth_error (absh (f_objs s) (f_mem s)) b) as [[a|]|] eqn:E; try discriminate. injection D as <-.
    destruct (held_ok s b a E) as (i & Hd & Hb & Hi). unfold fdelete. rewrite Hd, bind_ok. unfold end_obj. rewrite Hi, bind_ok.
    unfold free_mem, set_mem. cbn [f_objs f_mem f_vars]. rewrite set_nth_same by (eapply nth_lt; exact Hb). rewrite set_nth_twice.
    eexists. split; [reflexivity|]. cbn [f_objs f_mem f_vars]. split; [reflexivity|].
    destruct (inv_del _ _ b i a I Hb Hi) as [I' E']. split; [exact I'|]. split; [exact E'|]. apply set_nth_length.
  - injection D as <-. exists s. auto.
Qed.

Lemma good_vars s E e E' : good s E -> (forall v, e v = f_vars s v) -> (forall v, E' v = E v) -> good (FS (f_objs s) (f_mem s) e) E'.
Proof.
  intros (I & H) He HE. split; [exact I|]. cbn [f_objs f_mem f_vars].
  apply (holds_ext (AS _ _)) with (3 := H); cbn [a_vars]; auto.
Qed.
Lemma made_fails E v (a : A) f : fails f = true -> made E v a f = (E, @Threw R).
Proof. intros H. unfold made. rewrite H. reflexivity. Qed.

Lemma fault_cases f : f = FNone \/ fails f = true.
Proof. destruct f; auto. Qed.

(** Replacing the contents of [v] by a new object. *)
Lemma replace_ok s E v a f : good s E -> E v <> None ->
  exists s', ('(s1, r) <- construct s a f ;; fswap_in s1 v r) = Ok (s', snd (@made A R E v a f)) /\ good s' (fst (@made A R E v a f)).
Proof.
  intros G Hv. destruct (fault_cases f) as [->|F].
  - destruct G as (I & H). destruct (construct_ok s a I) as (s1 & C & V1 & I1 & E1 & _). rewrite C, bind_ok. unfold fswap_in, var. rewrite V1.
    destruct (f_vars s v) as [P|] eqn:Pv.
    2:{ exfalso. apply Hv. pose proof (proj1 H v) as K. cbn in K. rewrite Pv in K. destruct (E v) as [[?|]|]; [contradiction..|reflexivity]. }
    rewrite bind_ok. destruct (holds_del _ _ _ v P (Some None) (Some None) H Pv) as (h1 & D1 & Hd & Ln & D2); [right; auto|].
    destruct (fdelete_ok (set_var s1 v (Some (Some (length (f_mem s))))) P (h1 ++ [Some a])) as (s2 & D & V2 & I2 & E2 & _).
    + exact I1.
    + cbn [set_var f_objs f_mem]. rewrite E1. apply D2.
    + rewrite D, bind_ok. eexists. split; [reflexivity|]. split; [exact I2|]. rewrite E2, V2. cbn [set_var f_vars made fails fst].
      apply (holds_new _ _ _ v a) in Hd; [|right; apply set_same]. rewrite Ln in Hd. unfold absh in Hd. rewrite map_length in Hd.
      apply (holds_ext (AS _ _)) with (3 := Hd); cbn [a_vars]; intros u; [rewrite V1|]; at_var u v; reflexivity.
  - destruct (construct_throw s a f F) as (s1 & C & U). rewrite C, bind_ok. unfold fswap_in, var. rewrite (proj1 U v).
    destruct (f_vars s v) as [P|] eqn:Pv.
    2:{ exfalso. apply Hv. pose proof (proj1 (proj2 G) v) as K. cbn in K. rewrite Pv in K. destruct (E v) as [[?|]|]; [contradiction..|reflexivity]. }
    rewrite bind_ok, (made_fails E v a f F). exists s1. split; [reflexivity|]. eapply untouched_good; eassumption.
Qed.

(** A new variable. *)
Lemma create_ok s E v a f : good s E -> E v = None ->
  exists s', ('(s1, r) <- construct s a f ;;
    match r with None => Ok (s1, Threw) | Some b => Ok (set_var s1 v (Some (Some b)), Returned []) end) = Ok (s', snd (@made A R E v a f)) /\
    good s' (fst (@made A R E v a f)).
Proof.
  intros G Hv. destruct (fault_cases f) as [->|F].
  - destruct G as (I & H). destruct (construct_ok s a I) as (s1 & C & V1 & I1 & E1 & _). rewrite C, bind_ok.
    eexists. split; [reflexivity|]. split; [exact I1|]. cbn [set_var f_objs f_mem f_vars made fails fst]. rewrite E1, V1.
    pose proof (holds_new _ _ _ v a H (or_introl Hv)) as N. unfold absh in N at 2. rewrite map_length in N. exact N.
  - destruct (construct_throw s a f F) as (s1 & C & U). rewrite C, bind_ok, (made_fails E v a f F).
    exists s1. split; [reflexivity|]. eapply untouched_good; eassumption.
Qed.

(** ** One operation *)
Lemma fstep_ok (fc : falloc_class A R) s E o f : good s E ->
  match fvalue_step fc E o f with
  | Some (E', r) => exists s', fstep fc s o f = Ok (s', r) /\ good s' E'
  | None => fstep fc s o f = UB
  end.
Proof.
  intros G. pose proof G as (I & H). pose proof (proj1 H) as H1. cbn [a_vars a_heap] in H1.
  assert (Ex : forall v, E v = None <-> f_vars s v = None).
  { intros v. specialize (H1 v). destruct (E v) as [[x|]|], (f_vars s v) as [[n|]|]; try contradiction; split; congruence. }
  assert (Cr : forall v a, E v = None -> match Some (@made A R E v a f) with Some (E', r) => exists s',
     ('(s1, r) <- construct s a f ;;
      match r with None => Ok (s1, Threw) | Some b => Ok (set_var s1 v (Some (Some b)), Returned []) end) = Ok (s', r) /\ good s' E' | None => True end).
  { intros v a Hv. destruct (create_ok s E v a f G Hv) as (s' & C & G'). destruct (made E v a f). eauto. }
  assert (Rp : forall v a, E v <> None -> match Some (@made A R E v a f) with Some (E', r) => exists s',
     ('(s1, r) <- construct s a f ;; fswap_in s1 v r) = Ok (s', r) /\ good s' E' | None => True end).
  { intros v a Hv. destruct (replace_ok s E v a f G Hv) as (s' & C & G'). destruct (made E v a f). eauto. }
  destruct o; cbn [fvalue_step fstep]; unfold fresh, var.
  - (* ADefault *) pose proof (Ex v) as Hv. destruct (E v) as [X|] eqn:Ev; destruct (f_vars s v) as [P|] eqn:Pv; try (exfalso; destruct Hv; intuition congruence); [reflexivity|].
    rewrite bind_ok. eexists. split; [reflexivity|]. split; [exact I|]. cbn [set_var f_objs f_mem f_vars].
    destruct H as (_ & H2 & H3). split; [|split]; cbn [a_vars a_heap] in *.
    + intros w. at_var w v; [exact Logic.I|apply H1].
    + intros w u n. at_var w v; [discriminate|]. at_var u v; [discriminate|]. apply H2.
    + intros n a Hn. destruct (H3 n a Hn) as (u & Hu). exists u. at_var u v; [congruence|exact Hu].
  - (* AFrom *) pose proof (Ex v) as Hv. destruct (E v) as [X|] eqn:Ev; destruct (f_vars s v) as [P|] eqn:Pv; try (exfalso; destruct Hv; intuition congruence); [reflexivity|].
    rewrite bind_ok. apply (Cr v a Ev).
  - (* ACopy *) pose proof (Ex v) as Hv. destruct (E v) as [X|] eqn:Ev; destruct (f_vars s v) as [P|] eqn:Pv; try (exfalso; destruct Hv; intuition congruence); [reflexivity|].
    rewrite bind_ok. pose proof (H1 w) as Hw. destruct (E w) as [[a|]|], (f_vars s w) as [[n|]|]; try contradiction; try reflexivity.
    rewrite bind_ok. destruct (held_ok s n a Hw) as (i & Hd & _). rewrite Hd, bind_ok. apply (Cr v a Ev).
  - (* AMove *) pose proof (Ex v) as Hv. destruct (E v) as [X|] eqn:Ev; destruct (f_vars s v) as [P|] eqn:Pv; try (exfalso; destruct Hv; intuition congruence); [reflexivity|].
    rewrite bind_ok. pose proof (Ex w) as Hw. destruct (E w) as [Y|] eqn:Ew; destruct (f_vars s w) as [Q|] eqn:Qw; try (exfalso; destruct Hw; intuition congruence); [|reflexivity].
    rewrite bind_ok. eexists. split; [reflexivity|]. split; [exact I|]. cbn [set_var f_objs f_mem f_vars]. apply holds_move; auto. congruence.
  - (* ACopyAssign *) pose proof (H1 w) as Hw. pose proof (Ex v) as Hv.
    destruct (E w) as [[a|]|] eqn:Ew; destruct (f_vars s w) as [[n|]|] eqn:Qw; try contradiction.
    2:{ destruct (E v) as [[?|]|]; reflexivity. }
    2:{ destruct (E v) as [[?|]|]; reflexivity. }
    rewrite bind_ok. destruct (held_ok s n a Hw) as (i & Hd & _). rewrite Hd, bind_ok.
    destruct (E v) as [X|] eqn:Ev; [apply (Rp v a); congruence|].
    destruct (fault_cases f) as [->|F].
    + destruct (construct_ok s a I) as (s1 & C & V1 & _). rewrite C, bind_ok. unfold fswap_in, var. rewrite V1, (proj1 Hv eq_refl). reflexivity.
    + destruct (construct_throw s a f F) as (s1 & C & U). rewrite C, bind_ok. unfold fswap_in, var. rewrite (proj1 U v), (proj1 Hv eq_refl). reflexivity.
  - (* AMoveAssign *) pose proof (Ex v) as Hv. pose proof (Ex w) as Hw.
    destruct (E w) as [Y|] eqn:Ew; destruct (f_vars s w) as [Q|] eqn:Qw; try (exfalso; destruct Hw; intuition congruence);
      [|destruct (E v) as [[?|]|]; reflexivity].
    rewrite bind_ok. cbn [set_var f_vars]. destruct (Nat.eqb_spec v w) as [->|N].
    + rewrite Ew, bindv_same, bind_ok. cbn [fdelete]. rewrite bind_ok. eexists. split; [reflexivity|].
      apply good_vars with (1 := G); intros u; [|reflexivity]. cbn [f_vars].
      destruct (Nat.eq_dec u w) as [->|Nu]; [rewrite bindv_same, Qw; reflexivity|rewrite bindv_other by assumption; cbn [set_var f_vars]; apply bindv_other; assumption].
    + rewrite bindv_other by assumption.
      destruct (E v) as [X|] eqn:Ev; destruct (f_vars s v) as [P|] eqn:Pv; try (exfalso; destruct Hv; intuition congruence); [|reflexivity].
      rewrite bind_ok. destruct (holds_del _ _ _ v P (Some None) (Some None) H Pv) as (h1 & D1 & Hd & Ln & _); [right; auto|].
      destruct (fdelete_ok (set_var (set_var s w (Some None)) v (Some Q)) P h1) as (s2 & D & V2 & I2 & E2 & _); [exact I|exact D1|].
      cbn [set_var f_objs f_mem f_vars] in D |- *. rewrite D, bind_ok. eexists. split; [reflexivity|]. split; [exact I2|]. rewrite E2, V2. cbn [set_var f_vars].
      apply (holds_move _ _ _ v w Q Y) in Hd; [|exact N|right; apply set_same|rewrite bindv_other by congruence; exact Qw|rewrite set_other by congruence; exact Ew].
      apply (holds_ext (AS _ _)) with (3 := Hd); cbn [a_vars]; intros u; at_var u v; try reflexivity; at_var u w; try reflexivity;
        [rewrite bindv_other by assumption|rewrite set_other by assumption]; reflexivity.
  - (* AAssign *) pose proof (Ex v) as Hv. destruct (E v) as [X|] eqn:Ev; [apply (Rp v a); congruence|].
    destruct (fault_cases f) as [->|F].
    + destruct (construct_ok s a I) as (s1 & C & V1 & _). rewrite C, bind_ok. unfold fswap_in, var. rewrite V1, (proj1 Hv eq_refl). reflexivity.
    + destruct (construct_throw s a f F) as (s1 & C & U). rewrite C, bind_ok. unfold fswap_in, var. rewrite (proj1 U v), (proj1 Hv eq_refl). reflexivity.
  - (* ASwap *) pose proof (Ex v) as Hv. pose proof (Ex w) as Hw.
    destruct (E v) as [X|] eqn:Ev; destruct (f_vars s v) as [P|] eqn:Pv; try (exfalso; destruct Hv; intuition congruence); [|reflexivity].
    rewrite bind_ok.
    destruct (E w) as [Y|] eqn:Ew; destruct (f_vars s w) as [Q|] eqn:Qw; try (exfalso; destruct Hw; intuition congruence); [|reflexivity].
    rewrite bind_ok. eexists. split; [reflexivity|]. split; [exact I|]. cbn [set_var f_objs f_mem f_vars]. apply holds_swap; assumption.
  - (* AAllocate *) pose proof (H1 v) as Hv. destruct (E v) as [[a|]|] eqn:Ev; destruct (f_vars s v) as [[k|]|] eqn:Pv; try contradiction; try reflexivity.
    rewrite bind_ok. destruct (held_ok s k a Hv) as (i & Hd & Hb & Hi). rewrite Hd, bind_ok. destruct (fc_allocate fc a n) as [a' r]. cbn [fst snd].
    eexists. split; [reflexivity|]. destruct (inv_upd _ _ k i a a' I Hb Hi) as [I' E']. split; [exact I'|]. cbn [f_objs f_mem f_vars]. rewrite E'.
    eapply holds_update; eassumption.
  - (* ADeallocate *) pose proof (H1 v) as Hv. destruct (E v) as [[a|]|] eqn:Ev; destruct (f_vars s v) as [[k|]|] eqn:Pv; try contradiction; try reflexivity.
    rewrite bind_ok. destruct (held_ok s k a Hv) as (i & Hd & Hb & Hi). rewrite Hd, bind_ok. destruct (fc_deallocate fc a r) as [a' t]. cbn [fst snd].
    eexists. split; [reflexivity|]. destruct (inv_upd _ _ k i a a' I Hb Hi) as [I' E']. split; [exact I'|]. cbn [f_objs f_mem f_vars]. rewrite E'.
    eapply holds_update; eassumption.
  - (* ADestroy *) pose proof (Ex v) as Hv.
    destruct (E v) as [X|] eqn:Ev; destruct (f_vars s v) as [P|] eqn:Pv; try (exfalso; destruct Hv; intuition congruence); [|reflexivity].
    rewrite bind_ok. destruct (holds_del _ _ _ v P None None H Pv) as (h1 & D1 & Hd & Ln & _); [left; auto|].
    destruct (fdelete_ok s P h1 I D1) as (s1 & D & V1 & I1 & E1 & _). rewrite D, bind_ok. eexists. split; [reflexivity|].
    split; [exact I1|]. cbn [set_var f_objs f_mem f_vars]. rewrite E1, V1. exact Hd.
Qed.

Lemma fruns_ok (fc : falloc_class A R) os : forall s E, good s E ->
  match fvalue_runs fc E os with
  | Some (E', r) => exists s', fruns fc s os = Ok (s', r) /\ good s' E'
  | None => fruns fc s os = UB
  end.
Proof.
  induction os as [|[o f] os IH]; intros s E H; cbn [fvalue_runs fruns].
  - exists s. auto.
  - pose proof (fstep_ok fc s E o f H) as S1. destruct (fvalue_step fc E o f) as [[E1 r1]|].
    + destruct S1 as (s1 & -> & H1). rewrite bind_ok. specialize (IH s1 E1 H1).
      destruct (fvalue_runs fc E1 os) as [[E2 r2]|].
      * destruct IH as (s2 & -> & H2). rewrite bind_ok. eauto.
      * rewrite IH. reflexivity.
    + rewrite S1. reflexivity.
Qed.

Lemma finit_good : good finit (fun _ => None).
Proof.
  split.
  - split; [intros [|b] c i Hb; discriminate|]. split; [intros [|b] Hb; discriminate|].
    split; [intros [|b] i Hb; discriminate|intros [|i] a Hi; discriminate].
  - apply ainit_holds.
Qed.
End AnyFail.

Lemma any_fail_l {A R} (fc : falloc_class A R) os :
  match fvalue_runs fc (fun _ => None) os with
  | Some (e, rs) => exists s, fruns fc finit os = Ok (s, rs) /\ fholds s e
  | None => fruns fc finit os = UB
  end.
Proof.
  pose proof (fruns_ok fc os finit _ finit_good) as H. destruct (fvalue_runs fc (fun _ => None) os) as [[E rs]|]; [|exact H].
  destruct H as (s & Hs & G). exists s. split; [exact Hs|]. apply good_fholds. exact G.
Qed.

Lemma untouched_refl {A} (s : fstate A) : untouched s s.
Proof. split; [reflexivity|]. split; exists O; cbn; rewrite app_nil_r; reflexivity. Qed.

Lemma any_strong_l {A R} (fc : falloc_class A R) s o f s' : makes o = true -> fstep fc s o f = Ok (s', Threw) -> untouched s s'.
Proof.
  intros M H. destruct s as [objs mem e].
  assert (C : forall a k, ('(s1, r) <- construct (FS objs mem e) a f ;; k s1 r) = Ok (s', @Threw R) ->
    (forall s1 b, k s1 (Some b) <> Ok (s', Threw)) -> (forall s1, k s1 None = Ok (s', Threw) -> s' = s1) -> untouched (FS objs mem e) s').
  { intros a k Hk K1 K2. destruct (fault_cases f) as [->|F].
    - exfalso. destruct (construct (FS objs mem e) a FNone) as [[s1 [b|]]| | |] eqn:E; cbn [bind] in Hk; try discriminate.
      + eapply K1. exact Hk.
      + unfold construct in E. cbn in E. destruct (end_obj _ _); cbn [bind] in E; discriminate.
    - destruct (construct_throw (FS objs mem e) a f F) as (s1 & E & U). rewrite E, bind_ok in Hk. apply K2 in Hk. subst. exact U. }
  assert (Sw : forall v s1 b, @fswap_in A R s1 v (Some b) <> Ok (s', Threw)).
  { intros v s1 b K. unfold fswap_in in K. destruct (var _ _); cbn [bind] in K; try discriminate.
    destruct (fdelete _ _); cbn [bind] in K; discriminate. }
  assert (Sn : forall v s1, @fswap_in A R s1 v None = Ok (s', Threw) -> s' = s1).
  { intros v s1 K. unfold fswap_in in K. destruct (var _ _); cbn [bind] in K; try discriminate. congruence. }
  destruct o; try discriminate; cbn [fstep] in H.
  - destruct (fresh _ _); cbn [bind] in H; try discriminate. apply (C _ _ H); [intros; discriminate|intros s1 K; congruence].
  - destruct (fresh _ _); cbn [bind] in H; try discriminate. destruct (var _ _) as [src| | |]; cbn [bind] in H; try discriminate.
    destruct (held _ src) as [[i0 a0]| | |]; cbn [bind] in H; try discriminate. apply (C _ _ H); [intros; discriminate|intros s1 K; congruence].
  - destruct (var _ _) as [src| | |]; cbn [bind] in H; try discriminate.
    destruct (held _ src) as [[i0 a0]| | |]; cbn [bind] in H; try discriminate. apply (C _ _ H); [apply Sw|apply Sn].
  - apply (C _ _ H); [apply Sw|apply Sn].
Qed.

(** All variables gone. *)
Lemma any_nothing_left_l {A R} (fc : falloc_class A R) os s rs : fruns fc finit os = Ok (s, rs) -> (forall v, f_vars s v = None) ->
  (forall i, nth_error (f_objs s) i <> None -> nth_error (f_objs s) i = Some None) /\
  (forall b, nth_error (f_mem s) b <> None -> nth_error (f_mem s) b = Some None).
Proof.
  intros H V. pose proof (any_fail_l fc os) as F. destruct (fvalue_runs fc (fun _ => None) os) as [[E rs']|]; [|congruence].
  destruct F as (s' & Hs & F). rewrite H in Hs. injection Hs as <- <-. destruct F as (_ & _ & _ & F4 & F5).
  assert (Mb : forall b, nth_error (f_mem s) b <> None -> nth_error (f_mem s) b = Some None).
  { intros b Nb. destruct (nth_error (f_mem s) b) as [[x|]|] eqn:E1; [|reflexivity|congruence].
    destruct (F4 b x E1) as (v & Hv). rewrite V in Hv. discriminate. }
  split; [|exact Mb]. intros i Ni. destruct (nth_error (f_objs s) i) as [[a|]|] eqn:E1; [|reflexivity|congruence].
  destruct (F5 i a E1) as (b & Hb). specialize (Mb b). rewrite Hb in Mb. discriminate Mb. discriminate.
Qed.

(** Objects made. *)
Lemma construct_len {A} (s : fstate A) a f s' r : construct s a f = Ok (s', r) ->
  match r with Some _ => length (f_objs s') = (2 + length (f_objs s))%nat | None => True end.
Proof.
  destruct r as [b|]; [|trivial]. intros H. destruct (fault_cases f) as [->|F].
  - destruct s as [objs mem e]. unfold construct, new_mem, make_obj, set_mem, end_obj in H. cbn [f_objs f_mem f_vars] in H.
    destruct (nth_error _ _) as [[x|]|]; cbn [bind] in H; try discriminate. injection H as <- _. cbn [f_objs].
    rewrite set_nth_length, !app_length. cbn. lia.
  - destruct (construct_throw s a f F) as (s1 & E & _). congruence.
Qed.
Lemma fdelete_len {A} (s : fstate A) p s' : fdelete s p = Ok s' -> length (f_objs s') = length (f_objs s).
Proof.
  destruct p as [b|]; cbn [fdelete]; [|congruence]. destruct (held s (Some b)) as [[i a]| | |]; cbn [bind]; try discriminate.
  unfold end_obj. destruct (nth_error (f_objs s) i) as [[x|]|]; cbn [bind]; try discriminate.
  unfold free_mem. destruct (nth_error _ b) as [[[y|]|]|]; try discriminate. intros H. injection H as <-. cbn [set_mem f_objs]. apply set_nth_length.
Qed.
Lemma any_made_l {A R} (fc : falloc_class A R) s o f s' r : fstep fc s o f = Ok (s', r) ->
  (forall rs, r = Returned rs -> length (f_objs s') = (length (f_objs s) + if makes o then 2 else 0)%nat) /\
  (r = Threw -> makes o = true /\ fails f = true \/ (exists v n, o = AAllocate v n) \/ exists v x, o = ADeallocate v x).
Proof.
  intros H.
  assert (C : forall a k, ('(s1, q) <- construct s a f ;; k s1 q) = Ok (s', r) ->
     (forall s1 b, k s1 (Some b) = Ok (s', r) -> r = Returned [] /\ length (f_objs s') = length (f_objs s1)) ->
     (forall s1, k s1 None = Ok (s', r) -> r = Threw) ->
     (forall rs, r = Returned rs -> length (f_objs s') = (length (f_objs s) + 2)%nat) /\ (r = Threw -> fails f = true)).
  { intros a k Hk K1 K2. destruct (construct s a f) as [[s1 [b|]]| | |] eqn:E; cbn [bind] in Hk; try discriminate.
    - destruct (K1 _ _ Hk) as [-> L]. split; [|discriminate]. intros rs _. rewrite L. pose proof (construct_len _ _ _ _ _ E) as Q. cbn beta iota in Q. lia.
    - rewrite (K2 _ Hk). split; [discriminate|]. intros _. destruct (fault_cases f) as [->|F]; [|exact F].
      destruct s as [objs mem e]. unfold construct, new_mem, make_obj, set_mem in E. cbn in E. destruct (end_obj _ _); cbn [bind] in E; discriminate. }
  assert (Sw : forall v s1 b, @fswap_in A R s1 v (Some b) = Ok (s', r) -> r = Returned [] /\ length (f_objs s') = length (f_objs s1)).
  { intros v s1 b K. unfold fswap_in in K. destruct (var _ _) as [old| | |]; cbn [bind] in K; try discriminate.
    destruct (fdelete _ _) as [s2| | |] eqn:E; cbn [bind] in K; try discriminate. injection K as <- <-. split; [reflexivity|].
    apply fdelete_len in E. exact E. }
  assert (Sn : forall v s1, @fswap_in A R s1 v None = Ok (s', r) -> r = Threw).
  { intros v s1 K. unfold fswap_in in K. destruct (var _ _); cbn [bind] in K; try discriminate. congruence. }
  assert (W : (forall rs, r = Returned rs -> length (f_objs s') = (length (f_objs s) + 2)%nat) /\ (r = Threw -> fails f = true) -> makes o = true ->
     (forall rs, r = Returned rs -> length (f_objs s') = (length (f_objs s) + if makes o then 2 else 0)%nat) /\
     (r = Threw -> makes o = true /\ fails f = true \/ (exists v n, o = AAllocate v n) \/ exists v x, o = ADeallocate v x)).
  { intros [L1 L2] M. rewrite M. split; [exact L1|]. intros T. left. auto. }
  destruct o; cbn [fstep] in H; cbn [makes].
  - destruct (fresh _ _); cbn [bind] in H; try discriminate. injection H as <- <-. split; [intros; cbn; lia|discriminate].
  - destruct (fresh _ _); cbn [bind] in H; try discriminate. apply W; [|reflexivity].
    apply (C _ _ H); [intros s1 b K; injection K as <- <-; auto|intros s1 K; congruence].
  - destruct (fresh _ _); cbn [bind] in H; try discriminate. destruct (var _ _) as [src| | |]; cbn [bind] in H; try discriminate.
    destruct (held _ src) as [[i0 a0]| | |]; cbn [bind] in H; try discriminate. apply W; [|reflexivity].
    apply (C _ _ H); [intros s1 b K; injection K as <- <-; auto|intros s1 K; congruence].
  - destruct (fresh _ _); cbn [bind] in H; try discriminate. destruct (var _ _) as [src| | |]; cbn [bind] in H; try discriminate.
    injection H as <- <-. split; [intros; cbn; lia|discriminate].
  - destruct (var _ _) as [src| | |]; cbn [bind] in H; try discriminate.
    destruct (held _ src) as [[i0 a0]| | |]; cbn [bind] in H; try discriminate. apply W; [|reflexivity]. apply (C _ _ H); [apply Sw|apply Sn].
  - destruct (var _ _) as [src| | |]; cbn [bind] in H; try discriminate. cbn zeta in H.
    destruct (var _ _) as [old| | |]; cbn [bind] in H; try discriminate.
    destruct (fdelete _ _) as [s2| | |] eqn:E; cbn [bind] in H; try discriminate. injection H as <- <-. apply fdelete_len in E.
    split; [intros; rewrite E; cbn; lia|discriminate].
  - apply W; [|reflexivity]. apply (C _ _ H); [apply Sw|apply Sn].
  - destruct (var _ _) as [p| | |]; cbn [bind] in H; try discriminate. destruct (var _ _) as [q| | |]; cbn [bind] in H; try discriminate.
    injection H as <- <-. split; [intros; cbn; lia|discriminate].
  - destruct (var _ _) as [p| | |]; cbn [bind] in H; try discriminate. destruct (held _ p) as [[i0 a0]| | |]; cbn [bind] in H; try discriminate.
    destruct (fc_allocate fc a0 n) as [a' q]. injection H as <- <-. split; [intros; cbn [f_objs]; rewrite set_nth_length; lia|].
    intros _. right. left. eauto.
  - destruct (var _ _) as [p| | |]; cbn [bind] in H; try discriminate. destruct (held _ p) as [[i0 a0]| | |]; cbn [bind] in H; try discriminate.
    destruct (fc_deallocate fc a0 r0) as [a' q]. injection H as <- <-. split; [intros; cbn [f_objs]; rewrite set_nth_length; lia|].
    intros _. right. right. eauto.
  - destruct (var _ _) as [p| | |]; cbn [bind] in H; try discriminate. destruct (fdelete _ _) as [s2| | |] eqn:E; cbn [bind] in H; try discriminate.
    injection H as <- <-. apply fdelete_len in E. split; [intros; cbn [set_var f_objs]; lia|discriminate].
Qed.
