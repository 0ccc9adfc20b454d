(** Lemmas about exclusive scans whose output elements are the input elements. *)
From Coq Require Import ZArith List Bool Lia.
From Verif Require Import Outcome CInt CIntFacts Spec SpecFacts ShapeSpec Shape ShapeFacts ShapeFacts2
  ForEach ForEachSpec ForEachFacts Memory MemFacts Container ContainerSpec ContainerFacts ContainerFacts2
  ContainerFacts3 Algo AlgoSpec AlgoFacts AlgoFacts2 AlgoFacts3 AlgoFacts4.
Import ListNotations.
Open Scope Z_scope.

Lemma exclusive_same_l {T B} in_ out (init : T) (f1 : T -> B -> T) f2 m :
  live m in_ in_ -> can_write m in_ out -> (forall is_, in_box (dims in_) is_ -> elem in_ is_ = elem out is_) ->
  exists m', transform_exclusive_scan in_ out init f1 f2 m = Ok m' /\
    (forall is_, in_box (dims in_) is_ ->
       value m' out is_ (Nat.iter (Z.to_nat (rank (dims in_) is_)) (fun a => f1 a (f2 a)) init)) /\
    frame in_ out m m'.
Proof.
  intros CR CW Same. destruct (live_wf m in_ CR) as [_ Nn].
  pose (it := fun k => Nat.iter k (fun a => f1 a (f2 a)) init).
  pose (val := fun (pre : list (list Z)) (_ : list Z) => Some (it (length pre))).
  pose proof CW as (_ & _ & D & Vd).
  pose proof (pmem_result out val in_ m Nn D Vd) as (R & F). cbv zeta in R, F.
  exists (pmem out val m (box (dims in_))). unfold transform_exclusive_scan.
  pose (st := fun pre : list (list Z) => (it (length pre), pmem out val m pre)).
  change (init, m) with (st []).
  rewrite (map_containers_inv _ in_ [out] m st).
  - split; [reflexivity|]. split; [|exact F]. intros is_ Bi.
    destruct (box_split _ _ Bi) as (pre & post & E). specialize (R pre _ post E). unfold val in R at 1.
    rewrite (rank_pre _ _ _ _ Nn E Bi) in R. exact R.
  - exact CR.
  - constructor; [apply can_write_live; exact CW|constructor].
  - intros pre. apply pmem_same.
  - intros pre is_ post E. destruct (box_split_notin _ _ _ _ Nn E) as (_ & Bi & _).
    cbn [map]. unfold st. cbn [fst snd].
    rewrite store_valid by (apply pmem_same, Vd, Bi). rewrite bind_ok.
    assert (Hv : value (upd (pmem out val m pre) (elem out is_) (it (length pre))) in_ is_ (it (length pre))).
    { unfold value. rewrite (Same is_ Bi). apply peek_upd_same, pmem_same, Vd, Bi. }
    rewrite (load_peek _ _ _ Hv), bind_ok, pmem_step, app_length. cbn [length].
    rewrite Nat.add_1_r. reflexivity.
Qed.

Lemma iter_double k a : Nat.iter k (fun x => x + x) a = a * 2 ^ Z.of_nat k.
Proof.
  induction k as [|k IH]; [cbn; lia|]. change (Nat.iter (S k) (fun x => x + x) a) with
    (Nat.iter k (fun x => x + x) a + Nat.iter k (fun x => x + x) a).
  rewrite IH, Nat2Z.inj_succ, Z.pow_succ_r by lia. lia.
Qed.
Lemma exclusive_sum_same_l in_ (init : Z) m : can_write m in_ in_ ->
  exists m', exclusive_scan in_ in_ init Z.add m = Ok m' /\
    (forall is_, in_box (dims in_) is_ -> value m' in_ is_ (init * 2 ^ rank (dims in_) is_)) /\ frame in_ in_ m m'.
Proof.
  intros CW. destruct (exclusive_same_l in_ in_ init Z.add (fun x => x) m (can_write_live _ _ _ CW) CW) as (m' & E & V & F).
  { reflexivity. }
  exists m'. split; [exact E|]. split; [|exact F]. intros is_ Bi. specialize (V is_ Bi).
  rewrite iter_double, Z2Nat.id in V; [exact V|].
  destruct (live_wf m in_ (can_write_live _ _ _ CW)) as [_ Nn]. pose proof (rank_range _ _ Bi). lia.
Qed.

(** The result is right exactly when the calculation does not distinguish the elements from what it has written over them. *)
Lemma exclusive_same_right_l {T B} in_ (init : T) (f1 : T -> B -> T) f2 m vs :
  can_read m in_ in_ -> can_write m in_ in_ -> values m in_ in_ vs ->
  exists m', transform_exclusive_scan in_ in_ init f1 f2 m = Ok m' /\
    ((forall is_, in_box (dims in_) is_ ->
        value m' in_ is_ (fold_left (fun a v => f1 a (f2 v)) (firstn (Z.to_nat (rank (dims in_) is_)) vs) init)) <->
     (forall k, (k < length vs)%nat ->
        fold_left (fun a v => f1 a (f2 v)) (firstn k vs) init = Nat.iter k (fun a => f1 a (f2 a)) init)).
Proof.
  intros CR CW V.
  destruct (exclusive_same_l in_ in_ init f1 f2 m (can_write_live _ _ _ CW) CW) as (m' & E & R & _); [reflexivity|].
  destruct (live_wf m in_ (can_read_live _ _ _ CR)) as [_ Nn].
  exists m'. split; [exact E|]. split.
  - intros G k Hk. pose proof (AlgoFacts3.Forall2_len _ _ _ V) as L.
    destruct (nth_error (box (dims in_)) k) as [is_|] eqn:N; [|apply nth_error_None in N; lia].
    destruct (nth_error_split _ _ N) as (pre & post & Eb & Lp).
    assert (Bi : in_box (dims in_) is_) by (apply box_In; rewrite Eb; apply in_elt).
    specialize (G is_ Bi). specialize (R is_ Bi). unfold value in G, R. rewrite G in R. injection R as R.
    rewrite <- (rank_pre _ _ _ _ Nn Eb Bi), Lp in R. exact R.
  - intros G is_ Bi. rewrite G; [apply R; exact Bi|].
    destruct (box_split _ _ Bi) as (pre & post & Eb). rewrite <- (rank_pre _ _ _ _ Nn Eb Bi).
    rewrite <- (AlgoFacts3.Forall2_len _ _ _ V), Eb, app_length. cbn [length]. lia.
Qed.
