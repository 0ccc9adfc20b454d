From Coq Require Import ZArith List Bool Lia.
From Verif Require Import Outcome CInt CIntFacts Spec SpecFacts ShapeSpec Shape ShapeFacts ShapeFacts2
  Memory MemFacts Container ContainerSpec ContainerFacts ContainerFacts2 AlgoSpec Search SearchSpec.
Import ListNotations.
Open Scope Z_scope.

Section Bisect.
Context {T : Type} (dbg : bool) (cond : T -> bool) (c : container) (m : mem T).
Hypothesis Lg : legal (c_shape c).
Hypothesis Ne : c_shape c <> [].
Hypothesis Ad : addressable c (map (fun _ => I32) (c_shape c)).
Hypothesis Rd : readable m c.
Notation N := (prod (dims c)).

Lemma dims_ne : dims c <> [].
Proof using Ne. unfold dims, vals. intros E. apply map_eq_nil in E. exact (Ne E). Qed.

Lemma dims_pos r : 0 <= r < N -> Forall (fun n => 1 <= n) (dims c).
Proof using Lg. intros Hr. apply prod_pos_all; [apply Lg|lia]. Qed.

Lemma N_small : 0 <= N <= max31.
Proof using Lg.
  destruct Lg as (_ & Nn & P). fold (dims c) in *. pose proof (prod_nonneg _ Nn). pose proof (prod_le_posprod _ Nn).
  unfold max31. lia.
Qed.

Definition at_rank (r : Z) (v : T) : Prop := value m c (coords_of r (dims c)) v.

Lemma at_rank_ex r : 0 <= r < N -> exists v, at_rank r v.
Proof using Rd Ne Lg. intros Hr. apply Rd, coords_of_box; [apply (dims_pos r Hr)|apply dims_ne|exact Hr]. Qed.

Lemma pos_at r : 0 <= r < N -> exists pos, coordinates dbg (int r) (c_shape c) = Ok pos /\
  vals pos = coords_of r (dims c) /\ wfs pos /\ map cty pos = map (fun _ => I32) (c_shape c) /\
  in_box (dims c) (vals pos) /\ rank (dims c) (vals pos) = r /\
  forall v, at_rank r v -> get m c pos = Ok v.
Proof using Ad Ne Lg.
  intros Hr. pose proof N_small as Ns.
  assert (W : wfc (int r)) by (apply wfc_small_int; lia).
  destruct (coordinates_ok dbg (c_shape c) (int r) Lg Ne W Hr) as (pos & E & V & Ty & Wp).
  cbn [cval int] in V. fold (dims c) in V.
  assert (B : in_box (dims c) (vals pos)).
  { rewrite V. apply coords_of_box; [apply (dims_pos r Hr)|apply dims_ne|exact Hr]. }
  assert (Tys : map cty pos = map (fun _ => I32) (c_shape c)).
  { apply in_box_length in B. unfold dims, vals in B. rewrite !map_length in B. revert Ty B. generalize (c_shape c).
    clear. induction pos as [|p pos IH]; intros [|n s] Ty B; try discriminate; [reflexivity|].
    inversion Ty; subst. simpl. f_equal; [assumption|]. apply IH; [assumption|]. simpl in B. congruence. }
  exists pos. split; [exact E|]. split; [exact V|]. split; [exact Wp|]. split; [exact Tys|]. split; [exact B|].
  split; [rewrite V; apply coords_of_rank; [apply (dims_pos r Hr)|apply dims_ne|lia]|].
  intros v Hv. rewrite get_load; [|rewrite Tys; exact Ad|split; assumption].
  apply load_peek. rewrite V. exact Hv.
Qed.

Lemma half n : 0 <= n <= max31 -> cdiv (int n) (int 2) = Ok (int (n / 2)).
Proof using.
  intros H. destruct (cdiv_nonneg (int n) (int 2)) as ([t v] & E & V & _ & Ty).
  - apply wfc_small_int. exact H.
  - apply wfc_small_int. unfold max31. lia.
  - exact (proj1 H).
  - reflexivity.
  - rewrite E. simpl in V, Ty. subst. reflexivity.
Qed.
Lemma plus a b : 0 <= a -> 0 <= b -> a + b <= max31 -> cadd (int a) (int b) = Ok (int (a + b)).
Proof using.
  intros Ha Hb H. unfold cadd. rewrite arith_exact; [reflexivity| | | |].
  - apply wfc_small_int; lia.
  - apply wfc_small_int; lia.
  - apply compat_signed; reflexivity.
  - unfold in_ty, max31 in *; simpl; lia.
Qed.
Lemma minus a b : 0 <= a <= max31 -> 0 <= b <= max31 -> csub (int a) (int b) = Ok (int (a - b)).
Proof using.
  intros Ha Hb. unfold csub. rewrite arith_exact; [reflexivity| | | |].
  - apply wfc_small_int; lia.
  - apply wfc_small_int; lia.
  - apply compat_signed; reflexivity.
  - unfold in_ty, max31 in *; simpl; lia.
Qed.
Lemma incr a : 0 <= a < max31 -> cincr (int a) = Ok (int (a + 1)).
Proof using. intros H. rewrite cincr_exact; [reflexivity| | |]; [apply wfc_small_int; lia|exact (proj2 H)|exact (proj1 H)]. Qed.
Lemma lt_int a b : 0 <= a <= max31 -> 0 <= b <= max31 -> clt (int a) (int b) = (a <? b).
Proof using.
  intros Ha Hb. rewrite clt_exact; [reflexivity| | |]; try (apply wfc_small_int; lia). apply compat_signed; reflexivity.
Qed.

(** The loop, without any assumption on the order of the elements; and its invariant when the elements
    satisfying the condition come first. *)
Lemma bisect_ok : forall fuel count first it, 0 <= first -> 0 <= count -> first + count <= N ->
  (Z.to_nat count <= fuel)%nat -> (count = 0 -> it = first) -> 
  exists r, bisect dbg cond c m fuel (int count) (int first) (int it) = Ok (int r, int r) /\
    0 <= r <= N /\
    ((forall i j x y, 0 <= i < j -> j < N -> at_rank i x -> at_rank j y -> cond y = true -> cond x = true) ->
     (forall i x, 0 <= i < first -> at_rank i x -> cond x = true) ->
     (forall i x, first + count <= i < N -> at_rank i x -> cond x = false) ->
     (forall i x, 0 <= i < r -> at_rank i x -> cond x = true) /\
     (forall i x, r <= i < N -> at_rank i x -> cond x = false)).
Proof using Rd Ad Ne Lg.
  pose proof N_small as Ns.
  induction fuel as [|fuel IH]; intros count first it Hf Hc Hn Hk Hit.
  - assert (count = 0) by lia. subst count. rewrite (Hit eq_refl).
    unfold bisect. rewrite lt_int by lia. simpl. exists first. split; [reflexivity|]. split; [lia|].
    rewrite Z.add_0_r. auto.
  - cbn [bisect]. rewrite lt_int by lia. destruct (Z.ltb_spec 0 count) as [Hp|Hp].
    2:{ assert (count = 0) by lia. subst count. rewrite (Hit eq_refl). exists first. split; [reflexivity|]. split; [lia|].
        rewrite Z.add_0_r. auto. }
    rewrite half by lia. rewrite bind_ok.
    assert (Hh : 0 <= count / 2 < count) by (split; [apply Z.div_pos; lia|apply Z.div_lt; lia]).
    set (step := count / 2) in *.
    rewrite plus by lia. rewrite bind_ok.
    destruct (pos_at (first + step)) as (pos & Ep & _ & _ & _ & _ & _ & Gp); [lia|].
    destruct (at_rank_ex (first + step)) as (v & Hv); [lia|].
    rewrite Ep, bind_ok, (Gp v Hv), bind_ok. destruct (cond v) eqn:Cv.
    + rewrite incr by lia. rewrite bind_ok. rewrite plus by lia. rewrite bind_ok, minus by lia. rewrite bind_ok.
      destruct (IH (count - (step + 1)) (first + step + 1) (first + step + 1)) as (r & E & Hr & P); try lia.
      exists r. split; [exact E|]. split; [exact Hr|]. intros Mono Lo Hi. apply P; [exact Mono| |].
      * intros i x Hi' Hx. destruct (Z.eq_dec i (first + step)) as [->|Nq].
        -- assert (x = v) by (unfold at_rank, value in *; congruence). subst. exact Cv.
        -- apply (Mono i (first + step) x v); try lia; assumption.
      * intros i x Hi' Hx. apply (Hi i x); [lia|exact Hx].
    + destruct (IH step first (first + step)) as (r & E & Hr & P); try lia.
      exists r. split; [exact E|]. split; [exact Hr|]. intros Mono Lo Hi. apply P; [exact Mono|exact Lo|].
      intros i x Hi' Hx. destruct (cond x) eqn:Cx; [|reflexivity].
      destruct (Z.eq_dec i (first + step)) as [->|Nq].
      * assert (x = v) by (unfold at_rank, value in *; congruence). subst. congruence.
      * rewrite (Mono (first + step) i v x) in Cv; try lia; try assumption; congruence.
Qed.

Definition partition_point (r : option (list cint)) : Prop :=
  match r with
  | Some pos => map cty pos = map (fun _ => I32) (c_shape c) /\ in_box (dims c) (vals pos) /\
      (exists v, value m c (vals pos) v /\ cond v = false) /\
      (forall is_ v, in_box (dims c) is_ -> value m c is_ v -> lex is_ (vals pos) -> cond v = true) /\
      (forall is_ v, in_box (dims c) is_ -> value m c is_ v -> lex (vals pos) is_ -> cond v = false)
  | None => forall is_ v, in_box (dims c) is_ -> value m c is_ v -> cond v = true
  end.

Lemma value_rank is_ v : in_box (dims c) is_ -> value m c is_ v -> at_rank (rank (dims c) is_) v.
Proof using Ne.
  intros B Hv. unfold at_rank. pose proof (rank_range _ _ B) as Hr.
  assert (P : Forall (fun n => 1 <= n) (dims c)).
  { clear -B. induction B; constructor; [lia|assumption]. }
  replace (coords_of (rank (dims c) is_) (dims c)) with is_; [exact Hv|].
  apply (rank_inj (dims c)); [exact B|apply coords_of_box; [exact P|apply dims_ne|exact Hr]|].
  symmetry. apply coords_of_rank; [exact P|apply dims_ne|lia].
Qed.

Lemma bound_ok : exists r,
  (q <- bisect dbg cond c m (bisect_fuel (int N)) (int N) (int 0) (int 0) ;; bound_result dbg c (int N) q) = Ok r /\
  match r with Some pos => map cty pos = map (fun _ => I32) (c_shape c) /\ wfs pos /\ in_box (dims c) (vals pos) | None => True end /\
  ((forall a b x y, in_box (dims c) a -> in_box (dims c) b -> lex a b -> value m c a x -> value m c b y ->
      cond y = true -> cond x = true) -> partition_point r).
Proof using Rd Ad Ne Lg.
  pose proof N_small as Ns.
  destruct (bisect_ok (bisect_fuel (int N)) N 0 0) as (r & E & Hr & P); try lia.
  { unfold bisect_fuel. cbn [cval int]. lia. }
  rewrite E, bind_ok. unfold bound_result. cbn [fst snd]. rewrite lt_int by lia.
  assert (Mono : (forall a b x y, in_box (dims c) a -> in_box (dims c) b -> lex a b -> value m c a x -> value m c b y ->
      cond y = true -> cond x = true) ->
    (forall i x, 0 <= i < r -> at_rank i x -> cond x = true) /\ (forall i x, r <= i < N -> at_rank i x -> cond x = false)).
  { intros M. apply P; [|intros; lia|intros; lia].
    intros i j x y Hij Hj Hx Hy. apply (M (coords_of i (dims c)) (coords_of j (dims c))); try assumption.
    - apply coords_of_box; [apply (dims_pos i); lia|apply dims_ne|lia].
    - apply coords_of_box; [apply (dims_pos i); lia|apply dims_ne|lia].
    - apply (rank_lex (dims c)).
      + apply coords_of_box; [apply (dims_pos i); lia|apply dims_ne|lia].
      + apply coords_of_box; [apply (dims_pos i); lia|apply dims_ne|lia].
      + rewrite !coords_of_rank by (try apply (dims_pos i); try apply dims_ne; lia). lia. }
  destruct (Z.ltb_spec r N) as [Hlt|Hge].
  - destruct (pos_at r) as (pos & Ep & Vp & Wp & Tp & Bp & Rp & Gp); [lia|]. rewrite Ep, bind_ok.
    exists (Some pos). split; [reflexivity|]. split; [split; [exact Tp|split; assumption]|].
    intros M. destruct (Mono M) as [Lo Hi]. cbn [partition_point]. split; [exact Tp|]. split; [exact Bp|]. split; [|split].
    + destruct (at_rank_ex r) as (v & Hv); [lia|]. exists v. split; [rewrite Vp; exact Hv|]. apply (Hi r v); [lia|exact Hv].
    + intros is_ v B Hv L. apply (rank_lex _ _ _ B Bp) in L. rewrite Rp in L. pose proof (rank_range _ _ B).
      apply (Lo (rank (dims c) is_)); [lia|apply value_rank; assumption].
    + intros is_ v B Hv L. apply (rank_lex _ _ _ Bp B) in L. rewrite Rp in L. pose proof (rank_range _ _ B).
      apply (Hi (rank (dims c) is_)); [lia|apply value_rank; assumption].
  - exists None. split; [reflexivity|]. split; [exact I|]. intros M. destruct (Mono M) as [Lo _]. cbn [partition_point].
    intros is_ v B Hv. pose proof (rank_range _ _ B). apply (Lo (rank (dims c) is_)); [lia|apply value_rank; assumption].
Qed.
End Bisect.

Lemma numel_N c : legal (c_shape c) -> c_shape c <> [] -> c_numel c = Ok (int (prod (dims c))).
Proof. intros Lg Ne. exact (numel_ok _ Lg Ne). Qed.

Definition safe_pos (c : container) (r : option (list cint)) : Prop :=
  match r with Some pos => map cty pos = map (fun _ => I32) (c_shape c) /\ wfs pos /\ in_box (dims c) (vals pos) | None => True end.

Lemma lower_bound_gen {T} dbg (func : T -> T -> bool) c value m : searchable m c ->
  exists r, lower_bound dbg func c value m = Ok r /\ safe_pos c r /\
  ((forall a b x y, in_box (dims c) a -> in_box (dims c) b -> lex a b -> AlgoSpec.value m c a x -> AlgoSpec.value m c b y ->
      func y value = true -> func x value = true) -> partition_point (fun e => func e value) c m r).
Proof.
  intros (Lg & Ne & Ad & Rd). unfold lower_bound. rewrite numel_N by assumption. rewrite bind_ok.
  pose proof (N_small c Lg) as Ns.
  assert (Ez : ceqb (int (prod (dims c))) (int 0) = (prod (dims c) =? 0)).
  { rewrite ceqb_exact; [reflexivity| | |]; try (apply wfc_small_int; lia). apply compat_signed; reflexivity. }
  rewrite Ez. destruct (Z.eqb_spec (prod (dims c)) 0) as [E0|N0].
  - exists None. split; [reflexivity|]. split; [exact I|]. intros _. cbn [partition_point]. intros is_ v B _.
    pose proof (rank_range _ _ B). lia.
  - exact (bound_ok dbg (fun e => func e value) c m Lg Ne Ad Rd).
Qed.

Lemma upper_bound_gen {T} dbg (func : T -> T -> bool) c value m : searchable m c ->
  exists r, upper_bound dbg func c value m = Ok r /\ safe_pos c r /\
  ((forall a b x y, in_box (dims c) a -> in_box (dims c) b -> lex a b -> AlgoSpec.value m c a x -> AlgoSpec.value m c b y ->
      negb (func value y) = true -> negb (func value x) = true) -> partition_point (fun e => negb (func value e)) c m r).
Proof.
  intros (Lg & Ne & Ad & Rd). unfold upper_bound. rewrite numel_N by assumption. rewrite bind_ok.
  exact (bound_ok dbg (fun e => negb (func value e)) c m Lg Ne Ad Rd).
Qed.

Lemma lex_trichotomy ns a b : in_box ns a -> in_box ns b -> a = b \/ lex a b \/ lex b a.
Proof.
  intros Ha Hb. destruct (Z.lt_trichotomy (rank ns a) (rank ns b)) as [H|[H|H]].
  - right; left. apply (rank_lex ns); assumption.
  - left. apply (rank_inj ns); assumption.
  - right; right. apply (rank_lex ns); assumption.
Qed.

(** ** C43 *)
Lemma lower_bound_l {T} dbg (less : T -> T -> bool) c x m : searchable m c -> strict_weak_order less -> sorted less m c ->
  exists r, lower_bound dbg less c x m = Ok r /\ first_at m c (fun v => less v x = false) r.
Proof.
  intros S (_ & _ & Nt) So. destruct (lower_bound_gen dbg less c x m S) as (r & E & _ & P). exists r. split; [exact E|].
  assert (Q : partition_point (fun e => less e x) c m r).
  { apply P. intros a b u v Ha Hb L Hu Hv. pose proof (So a b u v Ha Hb L Hu Hv) as Sv.
    destruct (less u x) eqn:Eu; [reflexivity|]. rewrite (Nt v u x Sv Eu). congruence. }
  destruct r as [pos|]; cbn [partition_point first_at] in *.
  - destruct Q as (Q1 & Q2 & Q3 & Q4 & Q5). split; [exact Q1|]. split; [exact Q2|]. split; [exact Q3|].
    intros is_ v B Hv Hf. destruct (lex_trichotomy _ _ _ B Q2) as [->|[L|L]]; [left; reflexivity| |right; exact L].
    specialize (Q4 is_ v B Hv L). cbv beta in Q4. congruence.
  - intros is_ v B Hv Hf. specialize (Q is_ v B Hv). cbv beta in Q. congruence.
Qed.

Lemma upper_bound_l {T} dbg (less : T -> T -> bool) c x m : searchable m c -> strict_weak_order less -> sorted less m c ->
  exists r, upper_bound dbg less c x m = Ok r /\ first_at m c (fun v => less x v = true) r.
Proof.
  intros S (_ & _ & Nt) So. destruct (upper_bound_gen dbg less c x m S) as (r & E & _ & P). exists r. split; [exact E|].
  assert (Q : partition_point (fun e => negb (less x e)) c m r).
  { apply P. intros a b u v Ha Hb L Hu Hv Hl. pose proof (So a b u v Ha Hb L Hu Hv) as Sv.
    apply negb_true_iff in Hl. apply negb_true_iff. exact (Nt x v u Hl Sv). }
  destruct r as [pos|]; cbn [partition_point first_at] in *.
  - destruct Q as (Q1 & Q2 & (w & Hw & Hw') & Q4 & Q5). split; [exact Q1|]. split; [exact Q2|].
    split; [exists w; split; [exact Hw|apply negb_false_iff; exact Hw']|].
    intros is_ v B Hv Hf. destruct (lex_trichotomy _ _ _ B Q2) as [->|[L|L]]; [left; reflexivity| |right; exact L].
    specialize (Q4 is_ v B Hv L). cbv beta in Q4. rewrite Hf in Q4. discriminate.
  - intros is_ v B Hv Hf. specialize (Q is_ v B Hv). cbv beta in Q. rewrite Hf in Q. discriminate.
Qed.

Lemma get_at {T} (m : mem T) c pos v : addressable c (map (fun _ => I32) (c_shape c)) ->
  map cty pos = map (fun _ => I32) (c_shape c) -> wfs pos -> in_box (dims c) (vals pos) -> value m c (vals pos) v ->
  get m c pos = Ok v.
Proof.
  intros Ad Ty W B Hv. rewrite get_load; [|rewrite Ty; exact Ad|split; assumption]. apply load_peek. exact Hv.
Qed.

Lemma binary_search_l {T} dbg (less : T -> T -> bool) c x m : searchable m c -> strict_weak_order less -> sorted less m c ->
  exists b, binary_search dbg less c x m = Ok b /\
    (b = true <-> exists is_ v, in_box (dims c) is_ /\ value m c is_ v /\ less v x = false /\ less x v = false).
Proof.
  intros S Sw So. destruct (lower_bound_l dbg less c x m S Sw So) as (r & E & F).
  destruct (lower_bound_gen dbg less c x m S) as (r' & E' & Sf & _). rewrite E in E'. injection E' as <-.
  destruct S as (Lg & Ne & Ad & Rd). destruct Sw as (_ & _ & Nt).
  unfold binary_search. rewrite E, bind_ok. destruct r as [pos|]; cbn [first_at safe_pos] in *.
  - destruct F as (F1 & F2 & (v & Hv & Hf) & F4). destruct Sf as (_ & Wp & _).
    rewrite (get_at m c pos v Ad F1 Wp F2 Hv), bind_ok. eexists. split; [reflexivity|].
    rewrite negb_true_iff. split.
    + intros H. exists (vals pos), v. auto.
    + intros (is_ & w & B & Hw & H1 & H2). destruct (F4 is_ w B Hw H1) as [->|L].
      * assert (w = v) by (unfold value in *; congruence). subst. exact H2.
      * apply (Nt x w v H2). apply (So (vals pos) is_ v w F2 B L Hv Hw).
  - exists false. split; [reflexivity|]. split; [discriminate|]. intros (is_ & w & B & Hw & H1 & _).
    exfalso. exact (F is_ w B Hw H1).
Qed.

(** Without any order. *)
Lemma search_safe_l {T} dbg (less : T -> T -> bool) c x m : searchable m c ->
  (exists r, lower_bound dbg less c x m = Ok r) /\ (exists r, upper_bound dbg less c x m = Ok r) /\
  (exists b, binary_search dbg less c x m = Ok b).
Proof.
  intros S. destruct (lower_bound_gen dbg less c x m S) as (r & E & Sf & _).
  destruct (upper_bound_gen dbg less c x m S) as (r' & E' & _). split; [eauto|]. split; [eauto|].
  destruct S as (Lg & Ne & Ad & Rd). unfold binary_search. rewrite E, bind_ok. destruct r as [pos|]; [|eauto].
  destruct Sf as (Ty & W & B). destruct (Rd _ B) as (v & Hv). rewrite (get_at m c pos v Ad Ty W B Hv), bind_ok. eauto.
Qed.
