From Coq Require Import ZArith List Bool Lia.
From Verif Require Import Outcome CInt CIntFacts Spec SpecFacts ShapeSpec Shape ShapeFacts ShapeFacts2
  ForEach ForEachSpec ForEachFacts Memory MemFacts Container ContainerSpec ContainerFacts ContainerFacts2
  ContainerFacts3 Algo AlgoSpec AlgoFacts AlgoFacts2 AlgoFacts3 AlgoFacts4 Search SearchSpec SearchFacts
  Calls CallSpec CallFacts CallFacts2.
Import ListNotations.
Open Scope Z_scope.

(** ** Logarithms of halves *)
Lemma log2_half n : 2 <= n -> Z.log2 n = Z.log2 (n / 2) + 1.
Proof.
  intros H. rewrite <- Z.div2_div, Z.div2_spec, Z.log2_shiftr by lia. pose proof (Z.log2_le_mono 2 n H) as L.
  change (Z.log2 2) with 1 in L. lia.
Qed.
Lemma log2_up_succ n : 1 <= n -> Z.log2_up (n + 1) = Z.log2 n + 1.
Proof. intros H. rewrite Z.log2_up_eqn by lia. replace (Z.pred (n + 1)) with n by lia. lia. Qed.

(** Both halves of the loop. *)
Lemma log2_lower n r : 1 <= n -> (r = n / 2 \/ r = n - (n / 2 + 1)) -> Z.log2 (n + 1) <= Z.log2 (r + 1) + 1.
Proof.
  intros H Hr. rewrite (log2_half (n + 1)) by lia. apply Z.add_le_mono_r. apply Z.log2_le_mono.
  pose proof (Z.div_mod n 2 ltac:(lia)). pose proof (Z.mod_pos_bound n 2 ltac:(lia)).
  pose proof (Z.div_mod (n + 1) 2 ltac:(lia)). pose proof (Z.mod_pos_bound (n + 1) 2 ltac:(lia)).
  destruct Hr as [-> | ->]; lia.
Qed.
Lemma log2_upper n r : 1 <= n -> (r = n / 2 \/ r = n - (n / 2 + 1)) -> Z.log2_up (r + 1) + 1 <= Z.log2_up (n + 1).
Proof.
  intros H Hr. assert (R : 0 <= r <= n / 2).
  { pose proof (Z.div_mod n 2 ltac:(lia)). pose proof (Z.mod_pos_bound n 2 ltac:(lia)). destruct Hr as [-> | ->]; lia. }
  assert (E : Z.log2_up (n / 2 + 1) + 1 = Z.log2_up (n + 1)).
  { rewrite (log2_up_succ n H). destruct (Z.eq_dec n 1) as [->|N1]; [reflexivity|].
    rewrite log2_up_succ by (apply Z.div_le_lower_bound; lia). rewrite (log2_half n) by lia. reflexivity. }
  rewrite <- E. apply Z.add_le_mono_r. apply Z.log2_up_le_mono. lia.
Qed.

Section BisectCalls.
Context {T Q : Type} (dbg : bool) (cond : T -> Q -> outcome (bool * Q)) (c : container) (m : mem T).
Hypothesis Lg : legal (c_shape c).
Hypothesis Ne : c_shape c <> [].
Hypothesis Ad : addressable c (map (fun _ => I32) (c_shape c)).
Hypothesis Rd : readable m c.
Hypothesis Tot : forall is_ v q, in_box (dims c) is_ -> value m c is_ v -> exists r, cond v q = Ok r.
Notation N := (prod (dims c)).

Definition one_call (q q' : Q) : Prop :=
  exists is_ v b, in_box (dims c) is_ /\ value m c is_ v /\ cond v q = Ok (b, q').

Lemma bisect_calls : forall fuel count first it q, 0 <= first -> 0 <= count -> first + count <= N ->
  (Z.to_nat count <= fuel)%nat -> (count = 0 -> it = first) ->
  exists r q' k, bisect_call dbg cond c m fuel (int count) (int first) (int it) q = Ok ((int r, int r), q') /\
    0 <= r <= N /\ called one_call k q q' /\ Z.log2 (count + 1) <= k <= Z.log2_up (count + 1).
Proof using Tot Rd Ad Ne Lg.
  pose proof (N_small c Lg) as Ns.
  induction fuel as [|fuel IH]; intros count first it q Hf Hc Hn Hk Hit.
  - assert (count = 0) by lia. subst count. rewrite (Hit eq_refl).
    unfold bisect_call. rewrite lt_int by lia. simpl. exists first, q, 0. split; [reflexivity|]. split; [lia|].
    split; [constructor|]. vm_compute. split; discriminate.
  - cbn [bisect_call]. rewrite lt_int by lia. destruct (Z.ltb_spec 0 count) as [Hp|Hp].
    2:{ assert (count = 0) by lia. subst count. rewrite (Hit eq_refl). exists first, q, 0. split; [reflexivity|].
        split; [lia|]. split; [constructor|]. vm_compute. split; discriminate. }
    rewrite half by lia. rewrite bind_ok.
    assert (Hh : 0 <= count / 2 < count) by (split; [apply Z.div_pos; lia|apply Z.div_lt; lia]).
    set (step := count / 2) in *.
    rewrite plus by lia. rewrite bind_ok.
    destruct (pos_at dbg c m Lg Ne Ad (first + step)) as (pos & Ep & Vp & _ & _ & Bp & _ & Gp); [lia|].
    destruct (at_rank_ex c m Lg Ne Rd (first + step)) as (v & Hv); [lia|].
    assert (Hv' : value m c (vals pos) v) by (rewrite Vp; exact Hv).
    rewrite Ep, bind_ok, (Gp v Hv), bind_ok. destruct (Tot (vals pos) v q Bp Hv') as ([b q1] & Ec).
    rewrite Ec, bind_ok. cbn [fst snd].
    assert (One : one_call q q1) by (exists (vals pos), v, b; auto).
    destruct b.
    + rewrite incr by lia. rewrite bind_ok. rewrite plus by lia. rewrite bind_ok, minus by lia. rewrite bind_ok.
      destruct (IH (count - (step + 1)) (first + step + 1) (first + step + 1) q1) as (r & q' & k & E & Hr & Ck & Bk); try lia.
      exists r, q', (k + 1). split; [exact E|]. split; [exact Hr|]. split; [econstructor; eassumption|].
      pose proof (log2_lower count (count - (step + 1)) ltac:(lia) (or_intror eq_refl)).
      pose proof (log2_upper count (count - (step + 1)) ltac:(lia) (or_intror eq_refl)). lia.
    + destruct (IH step first (first + step) q1) as (r & q' & k & E & Hr & Ck & Bk); try lia.
      exists r, q', (k + 1). split; [exact E|]. split; [exact Hr|]. split; [econstructor; eassumption|].
      pose proof (log2_lower count step ltac:(lia) (or_introl eq_refl)).
      pose proof (log2_upper count step ltac:(lia) (or_introl eq_refl)). lia.
Qed.

Lemma bound_calls q : exists r q' k,
  (s <- bisect_call dbg cond c m (bisect_fuel (int N)) (int N) (int 0) (int 0) q ;;
   p <- bound_result dbg c (int N) (fst s) ;; Ok (p, snd s)) = Ok (r, q') /\ safe_pos c r /\
  called one_call k q q' /\ Z.log2 (N + 1) <= k <= Z.log2_up (N + 1).
Proof using Tot Rd Ad Ne Lg.
  pose proof (N_small c Lg) as Ns.
  destruct (bisect_calls (bisect_fuel (int N)) N 0 0 q) as (r & q' & k & E & Hr & Ck & Bk); try lia.
  { unfold bisect_fuel. cbn [cval int]. lia. }
  rewrite E, bind_ok. unfold bound_result. cbn [fst snd]. rewrite lt_int by lia.
  destruct (Z.ltb_spec r N) as [Hlt|Hge].
  - destruct (pos_at dbg c m Lg Ne Ad r) as (pos & Ep & Vp & Wp & Tp & Bp & Rp & Gp); [lia|]. rewrite Ep, !bind_ok.
    exists (Some pos), q', k. split; [reflexivity|]. split; [split; [exact Tp|split; assumption]|]. auto.
  - rewrite bind_ok. exists None, q', k. split; [reflexivity|]. split; [exact I|]. auto.
Qed.
End BisectCalls.

(** The element at a position found, if any. *)
Lemma called_imp {Q} (P R : Q -> Q -> Prop) k q q' : (forall a b, P a b -> R a b) -> called P k q q' -> called R k q q'.
Proof. intros H. induction 1 as [|k q q1 q2 H1 _ IH]; [constructor|]. econstructor; [apply H; exact H1|exact IH]. Qed.

Definition calls_on {T Q} (m : mem T) (c : container) (f : T -> Q -> outcome (bool * Q)) (q q' : Q) : Prop :=
  exists is_ v b, in_box (dims c) is_ /\ value m c is_ v /\ f v q = Ok (b, q').

Lemma numel_zero c : legal (c_shape c) ->
  ceqb (int (prod (dims c))) (int 0) = (prod (dims c) =? 0).
Proof.
  intros Lg. pose proof (N_small c Lg) as Ns.
  rewrite ceqb_exact; [reflexivity| | |]; try (apply wfc_small_int; lia). apply compat_signed; reflexivity.
Qed.

Lemma lower_bound_calls_l {T Q} dbg (func : T -> T -> Q -> outcome (bool * Q)) c x q (m : mem T) : searchable m c ->
  (forall is_ v q, in_box (dims c) is_ -> value m c is_ v -> exists r, func v x q = Ok r) ->
  exists r q' k, lower_bound_call dbg func c x q m = Ok (r, q') /\ safe_pos c r /\
    called (fun q1 q2 => exists is_ v b, in_box (dims c) is_ /\ value m c is_ v /\ func v x q1 = Ok (b, q2)) k q q' /\
    Z.log2 (prod (dims c) + 1) <= k <= Z.log2_up (prod (dims c) + 1).
Proof.
  intros (Lg & Ne & Ad & Rd) Tot. unfold lower_bound_call. rewrite numel_N by assumption. rewrite bind_ok.
  rewrite (numel_zero c Lg). destruct (Z.eqb_spec (prod (dims c)) 0) as [E0|N0].
  - exists None, q, 0. split; [reflexivity|]. split; [exact I|]. split; [constructor|]. rewrite E0. vm_compute. split; discriminate.
  - exact (bound_calls dbg (fun e => func e x) c m Lg Ne Ad Rd Tot q).
Qed.

Lemma upper_bound_calls_l {T Q} dbg (func : T -> T -> Q -> outcome (bool * Q)) c x q (m : mem T) : searchable m c ->
  (forall is_ v q, in_box (dims c) is_ -> value m c is_ v -> exists r, func x v q = Ok r) ->
  exists r q' k, upper_bound_call dbg func c x q m = Ok (r, q') /\ safe_pos c r /\
    called (fun q1 q2 => exists is_ v b, in_box (dims c) is_ /\ value m c is_ v /\ func x v q1 = Ok (b, q2)) k q q' /\
    Z.log2 (prod (dims c) + 1) <= k <= Z.log2_up (prod (dims c) + 1).
Proof.
  intros (Lg & Ne & Ad & Rd) Tot. unfold upper_bound_call. rewrite numel_N by assumption. rewrite bind_ok.
  destruct (bound_calls dbg (fun e q => b <- func x e q ;; Ok (negb (fst b), snd b)) c m Lg Ne Ad Rd) with (q := q)
    as (r & q' & k & E & Sf & Ck & Bk).
  - intros is_ v q1 B Hv. destruct (Tot is_ v q1 B Hv) as ([b q2] & Eq). rewrite Eq. eexists. reflexivity.
  - exists r, q', k. split; [exact E|]. split; [exact Sf|]. split; [|exact Bk].
    eapply called_imp; [|exact Ck]. intros q1 q2 (is_ & v & b & B & Hv & Eq). apply bind_inv in Eq.
    destruct Eq as ([b' q3] & Eq & Eo). injection Eo as <- <-. exists is_, v, b'. auto.
Qed.

Lemma called_snoc {Q} (P : Q -> Q -> Prop) k q q1 q2 : called P k q q1 -> P q1 q2 -> called P (k + 1) q q2.
Proof.
  intros H Pq. induction H as [q|k q q1' q3 H1 _ IH].
  - econstructor; [exact Pq|constructor].
  - econstructor; [exact H1|]. apply IH. exact Pq.
Qed.

Lemma binary_search_calls_l {T Q} dbg (func : T -> T -> Q -> outcome (bool * Q)) c x q (m : mem T) : searchable m c ->
  (forall is_ v q, in_box (dims c) is_ -> value m c is_ v -> exists r, func v x q = Ok r) ->
  (forall is_ v q, in_box (dims c) is_ -> value m c is_ v -> exists r, func x v q = Ok r) ->
  exists b q' k, binary_search_call dbg func c x q m = Ok (b, q') /\
    called (fun q1 q2 => exists is_ v b, in_box (dims c) is_ /\ value m c is_ v /\
              (func v x q1 = Ok (b, q2) \/ func x v q1 = Ok (b, q2))) k q q' /\
    Z.log2 (prod (dims c) + 1) <= k <= Z.log2_up (prod (dims c) + 1) + 1.
Proof.
  intros S T1 T2. destruct (lower_bound_calls_l dbg func c x q m S T1) as (r & q1 & k & E & Sf & Ck & Bk).
  unfold binary_search_call. rewrite E, bind_ok. cbn [fst snd].
  assert (Ck' : called (fun q1 q2 => exists is_ v b, in_box (dims c) is_ /\ value m c is_ v /\
              (func v x q1 = Ok (b, q2) \/ func x v q1 = Ok (b, q2))) k q q1).
  { eapply called_imp; [|exact Ck]. intros a b (is_ & v & y & B & Hv & Eq). exists is_, v, y. auto. }
  destruct r as [pos|].
  - destruct Sf as (Ty & W & B). destruct S as (Lg & Ne & Ad & Rd). destruct (Rd _ B) as (v & Hv).
    rewrite (get_at m c pos v Ad Ty W B Hv), bind_ok. destruct (T2 (vals pos) v q1 B Hv) as ([b q2] & Eq).
    rewrite Eq, bind_ok. cbn [fst snd]. exists (negb b), q2, (k + 1). split; [reflexivity|]. split; [|lia].
    eapply called_snoc; [exact Ck'|]. exists (vals pos), v, b. auto.
  - exists false, q1, k. split; [reflexivity|]. split; [exact Ck'|lia].
Qed.

(** ** Callables whose answers do not depend on their state *)
Lemma bisect_answers {T Q} dbg (less : T -> bool) (cond : T -> Q -> outcome (bool * Q)) c m :
  (forall v q, exists q', cond v q = Ok (less v, q')) -> forall fuel count first it q,
  agrees (bisect dbg less c m fuel count first it) (bisect_call dbg cond c m fuel count first it q) (fun r s => fst s = r).
Proof.
  intros H. induction fuel as [|fuel IH]; intros count first it q; cbn [bisect bisect_call]; destruct (clt (int 0) count);
    cbn [agrees]; try reflexivity; try exact I.
  destruct (cdiv count (int 2)) as [step| | |]; cbn [bind agrees]; try exact I.
  destruct (cadd first step) as [it'| | |]; cbn [bind agrees]; try exact I.
  destruct (coordinates dbg it' (c_shape c)) as [pos| | |]; cbn [bind agrees]; try exact I.
  destruct (get m c pos) as [e| | |]; cbn [bind agrees]; try exact I.
  destruct (H e q) as (q' & E). rewrite E, bind_ok. cbn [fst snd]. destruct (less e).
  - destruct (cincr it') as [i2| | |]; cbn [bind agrees]; try exact I.
    destruct (cadd step (int 1)) as [s1| | |]; cbn [bind agrees]; try exact I.
    destruct (csub count s1) as [c1| | |]; cbn [bind agrees]; try exact I. apply IH.
  - apply IH.
Qed.

Lemma lower_bound_answers_l {T Q} dbg (less : T -> T -> bool) (func : T -> T -> Q -> outcome (bool * Q)) c x q (m : mem T) :
  (forall a b q, exists q', func a b q = Ok (less a b, q')) ->
  agrees (lower_bound dbg less c x m) (lower_bound_call dbg func c x q m) (fun r s => fst s = r).
Proof.
  intros H. unfold lower_bound, lower_bound_call. destruct (c_numel c) as [n| | |]; cbn [bind agrees]; try exact I.
  destruct (ceqb n (int 0)); [reflexivity|].
  pose proof (bisect_answers dbg (fun e => less e x) (fun e => func e x) c m (fun v q => H v x q) (bisect_fuel n) n (int 0) (int 0) q) as G.
  destruct (bisect dbg _ c m _ n _ _) as [r| | |], (bisect_call dbg _ c m _ n _ _ q) as [[s q1]| | |]; cbn [agrees bind fst snd] in *;
    try exact I; try contradiction. subst. destruct (bound_result dbg c n r); cbn [bind agrees]; try exact I. reflexivity.
Qed.
Lemma upper_bound_answers_l {T Q} dbg (less : T -> T -> bool) (func : T -> T -> Q -> outcome (bool * Q)) c x q (m : mem T) :
  (forall a b q, exists q', func a b q = Ok (less a b, q')) ->
  agrees (upper_bound dbg less c x m) (upper_bound_call dbg func c x q m) (fun r s => fst s = r).
Proof.
  intros H. unfold upper_bound, upper_bound_call. destruct (c_numel c) as [n| | |]; cbn [bind agrees]; try exact I.
  pose proof (bisect_answers dbg (fun e => negb (less x e)) (fun e q => b <- func x e q ;; Ok (negb (fst b), snd b)) c m) as G.
  specialize (G ltac:(intros v q0; destruct (H x v q0) as (q1 & E); rewrite E; exists q1; reflexivity)
    (bisect_fuel n) n (int 0) (int 0) q).
  destruct (bisect dbg _ c m _ n _ _) as [r| | |], (bisect_call dbg _ c m _ n _ _ q) as [[s q1]| | |]; cbn [agrees bind fst snd] in *;
    try exact I; try contradiction. subst. destruct (bound_result dbg c n r); cbn [bind agrees]; try exact I. reflexivity.
Qed.
Lemma binary_search_answers_l {T Q} dbg (less : T -> T -> bool) (func : T -> T -> Q -> outcome (bool * Q)) c x q (m : mem T) :
  (forall a b q, exists q', func a b q = Ok (less a b, q')) ->
  agrees (binary_search dbg less c x m) (binary_search_call dbg func c x q m) (fun r s => fst s = r).
Proof.
  intros H. unfold binary_search, binary_search_call. pose proof (lower_bound_answers_l dbg less func c x q m H) as G.
  destruct (lower_bound dbg less c x m) as [r| | |], (lower_bound_call dbg func c x q m) as [[s q1]| | |];
    cbn [agrees bind fst snd] in *; try exact I; try contradiction. subst. destruct r as [pos|]; [|reflexivity].
  destruct (get m c pos) as [e| | |]; cbn [bind agrees]; try exact I.
  destruct (H x e q1) as (q2 & E). rewrite E. reflexivity.
Qed.

(** The searches of a sorted container, with the number of comparisons. *)
Definition counting {T} (less : T -> T -> bool) (a b : T) (k : Z) : outcome (bool * Z) := Ok (less a b, k + 1).

Lemma called_counter {Q} (P : Q -> Q -> Prop) (f : Q -> Z) k q q' : (forall a b, P a b -> f b = f a + 1) ->
  called P k q q' -> f q' = f q + k.
Proof. intros H. induction 1 as [|k q q1 q2 H1 _ IH]; [lia|]. rewrite IH, (H _ _ H1). lia. Qed.

Lemma sorted_searches_l {T} dbg (less : T -> T -> bool) c x (m : mem T) : searchable m c -> strict_weak_order less ->
  sorted less m c ->
  (exists r k, lower_bound_call dbg (counting less) c x 0 m = Ok (r, k) /\
     first_at m c (fun v => less v x = false) r /\ k <= Z.log2_up (prod (dims c) + 1)) /\
  (exists r k, upper_bound_call dbg (counting less) c x 0 m = Ok (r, k) /\
     first_at m c (fun v => less x v = true) r /\ k <= Z.log2_up (prod (dims c) + 1)) /\
  (exists b k, binary_search_call dbg (counting less) c x 0 m = Ok (b, k) /\
     (b = true <-> exists is_ v, in_box (dims c) is_ /\ value m c is_ v /\ less v x = false /\ less x v = false) /\
     k <= Z.log2_up (prod (dims c) + 1) + 1).
Proof.
  intros S Sw So.
  assert (A : forall a b q, exists q', counting less a b q = Ok (less a b, q')) by (intros a b q; exists (q + 1); reflexivity).
  split; [|split].
  - destruct (lower_bound_calls_l dbg (counting less) c x 0 m S) as (r & q' & k & E & _ & Ck & Bk).
    { intros. eexists. reflexivity. }
    destruct (lower_bound_l dbg less c x m S Sw So) as (r' & E' & F).
    pose proof (lower_bound_answers_l dbg less (counting less) c x 0 m A) as G. rewrite E, E' in G. cbn in G. subst r'.
    exists r, q'. split; [exact E|]. split; [exact F|].
    rewrite (called_counter _ (fun z => z) k 0 q') with (2 := Ck); [lia|].
    intros a b (is_ & v & y & _ & _ & Eq). injection Eq as _ <-. reflexivity.
  - destruct (upper_bound_calls_l dbg (counting less) c x 0 m S) as (r & q' & k & E & _ & Ck & Bk).
    { intros. eexists. reflexivity. }
    destruct (upper_bound_l dbg less c x m S Sw So) as (r' & E' & F).
    pose proof (upper_bound_answers_l dbg less (counting less) c x 0 m A) as G. rewrite E, E' in G. cbn in G. subst r'.
    exists r, q'. split; [exact E|]. split; [exact F|].
    rewrite (called_counter _ (fun z => z) k 0 q') with (2 := Ck); [lia|].
    intros a b (is_ & v & y & _ & _ & Eq). injection Eq as _ <-. reflexivity.
  - destruct (binary_search_calls_l dbg (counting less) c x 0 m S) as (r & q' & k & E & Ck & Bk).
    { intros. eexists. reflexivity. }
    { intros. eexists. reflexivity. }
    destruct (binary_search_l dbg less c x m S Sw So) as (r' & E' & F).
    pose proof (binary_search_answers_l dbg less (counting less) c x 0 m A) as G. rewrite E, E' in G. cbn in G. subst r'.
    exists r, q'. split; [exact E|]. split; [exact F|].
    rewrite (called_counter _ (fun z => z) k 0 q') with (2 := Ck); [lia|].
    intros a b (is_ & v & y & _ & _ & [Eq|Eq]); injection Eq as _ <-; reflexivity.
Qed.
