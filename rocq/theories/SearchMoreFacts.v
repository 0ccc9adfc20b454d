(** Bisection on containers that are only partitioned, or not even that. *)
From Coq Require Import ZArith List Bool Lia.
From Verif Require Import Outcome CInt CIntFacts Spec SpecFacts ShapeSpec Shape ShapeFacts ShapeFacts2
  Memory MemFacts Container ContainerSpec ContainerFacts ContainerFacts2 AlgoSpec Search SearchSpec SearchFacts SearchMoreSpec.
Import ListNotations.
Open Scope Z_scope.

Section Bisect.
Context {T : Type} (dbg : bool) (cond : T -> bool) (c : container) (m : mem T).
Hypothesis Lg : legal (c_shape c).
Hypothesis Ne : c_shape c <> [].
Hypothesis Ad : addressable c (map (fun _ => I32) (c_shape c)).
Hypothesis Rd : readable m c.
Notation N := (prod (dims c)).

Lemma bisect_boundary : forall fuel count first it, 0 <= first -> 0 <= count -> first + count <= N ->
  (Z.to_nat count <= fuel)%nat -> (count = 0 -> it = first) ->
  (forall x, 0 < first -> at_rank c m (first - 1) x -> cond x = true) ->
  (forall x, first + count < N -> at_rank c m (first + count) x -> cond x = false) ->
  exists r, bisect dbg cond c m fuel (int count) (int first) (int it) = Ok (int r, int r) /\ 0 <= r <= N /\
    (forall x, 0 < r -> at_rank c m (r - 1) x -> cond x = true) /\ (forall x, r < N -> at_rank c m r x -> cond x = false).
Proof using Rd Ad Ne Lg.
  pose proof (N_small c Lg) as Ns.
  induction fuel as [|fuel IH]; intros count first it Hf Hc Hn Hk Hit Lo Hi.
  - assert (count = 0) by lia. subst count. rewrite (Hit eq_refl). rewrite Z.add_0_r in Hi.
    unfold bisect. rewrite lt_int by lia. simpl. exists first. split; [reflexivity|]. split; [lia|]. split; assumption.
  - cbn [bisect]. rewrite lt_int by lia. destruct (Z.ltb_spec 0 count) as [Hp|Hp].
    2:{ assert (count = 0) by lia. subst count. rewrite (Hit eq_refl). rewrite Z.add_0_r in Hi.
        exists first. split; [reflexivity|]. split; [lia|]. split; assumption. }
    rewrite half by lia. rewrite bind_ok.
    assert (Hh : 0 <= count / 2 < count) by (split; [apply Z.div_pos; lia|apply Z.div_lt; lia]).
    set (step := count / 2) in *.
    rewrite plus by lia. rewrite bind_ok.
    destruct (pos_at dbg c m Lg Ne Ad (first + step)) as (pos & Ep & _ & _ & _ & _ & _ & Gp); [lia|].
    destruct (at_rank_ex c m Lg Ne Rd (first + step)) as (v & Hv); [lia|].
    rewrite Ep, bind_ok, (Gp v Hv), bind_ok. destruct (cond v) eqn:Cv.
    + rewrite incr by lia. rewrite bind_ok. rewrite plus by lia. rewrite bind_ok, minus by lia. rewrite bind_ok.
      apply IH; try lia.
      * intros x _ Hx. replace (first + step + 1 - 1) with (first + step) in Hx by lia.
        assert (x = v) by (unfold at_rank, value in *; congruence). subst. exact Cv.
      * intros x Hx. replace (first + step + 1 + (count - (step + 1))) with (first + count) in * by lia. apply Hi. exact Hx.
    + apply IH; try lia; [exact Lo|]. intros x _ Hx.
      assert (x = v) by (unfold at_rank, value in *; congruence). subst. exact Cv.
Qed.
Lemma bound_boundary : exists r,
  (q <- bisect dbg cond c m (bisect_fuel (int N)) (int N) (int 0) (int 0) ;; bound_result dbg c (int N) q) = Ok r /\ boundary cond m c r.
Proof using Rd Ad Ne Lg.
  pose proof (N_small c Lg) as Ns.
  destruct (bisect_boundary (bisect_fuel (int N)) N 0 0) as (r & E & Hr & Lo & Hi); try lia.
  { unfold bisect_fuel. cbn [cval int]. lia. }
  rewrite E, bind_ok. unfold bound_result. cbn [fst snd]. rewrite lt_int by lia.
  destruct (Z.ltb_spec r N) as [Hlt|Hge].
  - destruct (pos_at dbg c m Lg Ne Ad r) as (pos & Ep & Vp & Wp & Tp & Bp & Rp & Gp); [lia|]. rewrite Ep, bind_ok.
    exists (Some pos). split; [reflexivity|]. split; [exact Tp|]. split; [exact Bp|]. split.
    + destruct (at_rank_ex c m Lg Ne Rd r) as (v & Hv); [lia|]. exists v. split; [rewrite Vp; exact Hv|]. apply (Hi v); [lia|exact Hv].
    + intros is_ v B Ri Hv. rewrite Rp in Ri. pose proof (rank_range _ _ B). apply (Lo v); [lia|]. rewrite <- Ri. apply value_rank; assumption.
  - assert (r = N) by lia. subst r. exists None. split; [reflexivity|]. intros is_ v B Ri Hv. pose proof (rank_range _ _ B).
    apply (Lo v); [lia|]. rewrite <- Ri. apply value_rank; assumption.
Qed.
End Bisect.

Lemma lower_boundary_l {T} dbg (func : T -> T -> bool) c x m : searchable m c ->
  exists r, lower_bound dbg func c x m = Ok r /\ boundary (fun e => func e x) m c r.
Proof.
  intros (Lg & Ne & Ad & Rd). unfold lower_bound. rewrite numel_N by assumption. rewrite bind_ok.
  pose proof (N_small c Lg) as Ns.
  assert (Ez : ceqb (int (prod (dims c))) (int 0) = (prod (dims c) =? 0)).
  { rewrite ceqb_exact; [reflexivity| | |]; try (apply wfc_small_int; lia). apply compat_signed; reflexivity. }
  rewrite Ez. destruct (Z.eqb_spec (prod (dims c)) 0) as [E0|N0].
  - exists None. split; [reflexivity|]. intros is_ v B _. pose proof (rank_range _ _ B). lia.
  - exact (bound_boundary dbg (fun e => func e x) c m Lg Ne Ad Rd).
Qed.
Lemma upper_boundary_l {T} dbg (func : T -> T -> bool) c x m : searchable m c ->
  exists r, upper_bound dbg func c x m = Ok r /\ boundary (fun e => negb (func x e)) m c r.
Proof.
  intros (Lg & Ne & Ad & Rd). unfold upper_bound. rewrite numel_N by assumption. rewrite bind_ok.
  exact (bound_boundary dbg (fun e => negb (func x e)) c m Lg Ne Ad Rd).
Qed.
Lemma partition_first {T} (cond : T -> bool) c m r : partition_point cond c m r -> first_at m c (fun v => cond v = false) r.
Proof.
  destruct r as [pos|]; cbn [partition_point first_at].
  - intros (Tp & B & Hv & Lo & Hi). split; [exact Tp|]. split; [exact B|]. split; [exact Hv|]. intros is_ v Bi Hi' Ci.
    destruct (lex_trichotomy _ _ _ Bi B) as [E|[L|L]]; [left; exact E| |right; exact L]. rewrite (Lo is_ v Bi Hi' L) in Ci. discriminate.
  - intros H is_ v B Hv. rewrite (H is_ v B Hv). discriminate.
Qed.
Lemma lower_partitioned_l {T} dbg (func : T -> T -> bool) c x m : searchable m c ->
  (forall a b y z, in_box (dims c) a -> in_box (dims c) b -> lex a b -> value m c a y -> value m c b z ->
     func z x = true -> func y x = true) ->
  exists r, lower_bound dbg func c x m = Ok r /\ first_at m c (fun v => func v x = false) r.
Proof.
  intros S P. destruct (lower_bound_gen dbg func c x m S) as (r & E & _ & H). exists r. split; [exact E|]. apply (partition_first (fun v => func v x)), H, P.
Qed.
Lemma upper_partitioned_l {T} dbg (func : T -> T -> bool) c x m : searchable m c ->
  (forall a b y z, in_box (dims c) a -> in_box (dims c) b -> lex a b -> value m c a y -> value m c b z ->
     func x y = true -> func x z = true) ->
  exists r, upper_bound dbg func c x m = Ok r /\ first_at m c (fun v => func x v = true) r.
Proof.
  intros S P. destruct (upper_bound_gen dbg func c x m S) as (r & E & _ & H). exists r. split; [exact E|].
  assert (F : first_at m c (fun v => negb (func x v) = false) r).
  { apply (partition_first (fun v => negb (func x v))), H. intros a b y z Ha Hb L Hy Hz Cz. destruct (func x y) eqn:Cy; [|reflexivity].
    rewrite (P a b y z Ha Hb L Hy Hz Cy) in Cz. discriminate. }
  destruct r as [pos|]; cbn [first_at] in *.
  - destruct F as (Tp & B & (v & Hv & Cv) & Hm). split; [exact Tp|]. split; [exact B|].
    split; [exists v; split; [exact Hv|]; destruct (func x v); [reflexivity|discriminate]|].
    intros is_ w Bi Hw Cw. apply (Hm is_ w Bi Hw). rewrite Cw. reflexivity.
  - intros is_ v B Hv Cv. apply (F is_ v B Hv). rewrite Cv. reflexivity.
Qed.
(** No false positives. *)
Lemma search_sound_l {T} dbg (func : T -> T -> bool) c x m : searchable m c -> binary_search dbg func c x m = Ok true ->
  exists is_ v, in_box (dims c) is_ /\ value m c is_ v /\ func v x = false /\ func x v = false.
Proof.
  intros S. pose proof S as (Lg & Ne & Ad & Rd). unfold binary_search. destruct (lower_boundary_l dbg func c x m S) as (r & E & B).
  destruct (lower_bound_gen dbg func c x m S) as (r' & E' & Sp & _). assert (r' = r) by congruence. subst r'. rewrite E, bind_ok.
  destruct r as [pos|]; [|discriminate]. destruct B as (_ & Bp & (v & Hv & Cv) & _). destruct Sp as (Tp & Wp & _).
  rewrite (get_at m c pos v Ad Tp Wp Bp Hv), bind_ok. intros H. injection H as H. exists (vals pos), v.
  split; [exact Bp|]. split; [exact Hv|]. split; [exact Cv|]. destruct (func x v); [discriminate|reflexivity].
Qed.
