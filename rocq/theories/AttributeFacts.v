(** Proofs about the executions function attributes allow. *)
From Coq Require Import ZArith List Bool Lia.
From Verif Require Import Outcome CInt Shape Slicer Attribute AttributeSpec.
Import ListNotations.
Open Scope Z_scope.

Scheme call_ind2 := Minimality for call Sort Prop
with calls_ind2 := Minimality for calls Sort Prop.
Combined Scheme call_calls_ind from call_ind2, calls_ind2.

(** ** A function is its inner calls and what it does with them *)

Definition inner_results (st : store) (xs : list nat) (l : list (fn * nat)) : outcome (list value) :=
  mapM (fun '(f, i) => match nth_error xs i with Some x => meaning f [st x] | None => UB end) l.

Lemma meaning_inner st xs f :
  (vs <- inner_results st xs (inner f (map st xs)) ;; finish f (map st xs) vs) = meaning f (map st xs).
Proof.
  unfold inner_results.
  destruct xs as [|x [|y [|z zs]]]; destruct f; cbn [map inner mapM bind finish meaning nth_error]; try reflexivity;
    unfold shape_eq, slice_shape, origin.
  1,3: destruct (compress _ (st x)) as [c| | |]; cbn [bind finish]; reflexivity.
  - destruct (compress _ (st x)) as [c| | |]; cbn [bind finish]; try reflexivity.
    destruct (existsb const_index sls); [reflexivity|]. destruct (mapM2 reindex1 c sls); reflexivity.
  - destruct (compress _ (st x)) as [c| | |]; cbn [bind finish]; try reflexivity.
    destruct (compress _ (st y)) as [d| | |]; cbn [bind finish]; reflexivity.
Qed.

(** ** The results kept are those of the current shapes *)

Definition current (st : store) (used : list nat) (e : entry) : Prop :=
  attr (e_fn e) <> Plain ->
  match e_key e with
  | KRefs xs => by_value (e_fn e) = false /\ e_result e = meaning (e_fn e) (map st xs) /\
                (attr (e_fn e) = Const -> incl xs used)
  | KValues ss => by_value (e_fn e) = true /\ e_result e = meaning (e_fn e) ss
  end.
Definition good (st : store) (used : list nat) (c : cache) : Prop := Forall (current st used) c.

Definition compressing (l : list (fn * nat)) : Prop := Forall (fun fi => exists n, fst fi = FCompress n) l.

Lemma inner_compressing f args : compressing (inner f args).
Proof.
  unfold compressing.
  destruct f; destruct args as [|a [|b [|d l]]]; cbn [inner]; repeat constructor; cbn [fst]; eauto.
Qed.

Lemma inner_none f args : compresses f = false -> inner f args = [].
Proof. destruct f; try discriminate; intros _; reflexivity. Qed.

Lemma const_reads f : attr f = Const -> by_value f = false -> compresses f = true.
Proof. destruct f; try discriminate; reflexivity. Qed.

Lemma new_entry st used f xs r :
  (compresses f = true -> incl xs used) -> r = meaning f (map st xs) ->
  current st used {| e_fn := f; e_key := key_of st f xs; e_result := r |}.
Proof.
  intros I E P. cbn [e_fn e_key e_result] in *. unfold key_of.
  destruct (by_value f) eqn:B; [split; auto|].
  split; [reflexivity|]. split; [exact E|]. intros C. apply I. apply const_reads; assumption.
Qed.

Lemma calls_current :
  (forall c st f xs r c', call c st f xs r c' ->
     forall used, good st used c -> (compresses f = true -> incl xs used) ->
     r = meaning f (map st xs) /\ good st used c') /\
  (forall c st xs l rs c', calls c st xs l rs c' ->
     forall used, good st used c -> compressing l -> (l = [] \/ incl xs used) ->
     rs = inner_results st xs l /\ good st used c').
Proof.
  apply call_calls_ind.
  - intros c st f xs r P H used G I. split; [|exact G].
    pose proof (proj1 (Forall_forall _ _) G _ H P) as K. cbn [e_fn e_key e_result] in K.
    unfold key_of in K. destruct (by_value f); tauto.
  - intros c st f xs rs c' H IH used G I.
    destruct (IH used G (inner_compressing f (map st xs))) as [E G'].
    { destruct (compresses f) eqn:C; [right; auto|left; apply inner_none; exact C]. }
    assert (R : (vs <- rs ;; finish f (map st xs) vs) = meaning f (map st xs))
      by (rewrite E; apply meaning_inner).
    split; [exact R|]. constructor; [|exact G'].
    apply new_entry; assumption.
  - intros c st xs used G _ _. split; [reflexivity|exact G].
  - intros c st xs f i l x r rs c1 c2 N H1 IH1 H2 IH2 used G L I.
    destruct I as [I|I]; [discriminate|].
    inversion L as [|fi l' F L']; subst. destruct F as [n F]. cbn [fst] in F. subst f.
    destruct (IH1 used G) as [E1 G1].
    { intros _ z [<-|[]]. apply I. apply nth_error_In in N. exact N. }
    destruct (IH2 used G1 L' (or_intror I)) as [E2 G2].
    split; [|exact G2]. unfold inner_results. cbn [mapM]. rewrite N. rewrite E1, E2. reflexivity.
Qed.

Lemma write_other st x s xs : ~ In x xs -> map (write st x s) xs = map st xs.
Proof.
  intros H. apply map_ext_in. intros y Hy. unfold write. destruct (Nat.eqb_spec y x); [subst; tauto|reflexivity].
Qed.

Lemma good_write st used c x s : good st used c -> ~ In x used -> good (write st x s) used (forget c).
Proof.
  intros G X. apply Forall_forall. intros e He. unfold forget in He. apply filter_In in He. destruct He as [He C].
  pose proof (proj1 (Forall_forall _ _) G _ He) as K. intros P. specialize (K P).
  destruct (e_key e) as [xs|ss]; [|exact K]. destruct K as [B [R I]].
  assert (A : attr (e_fn e) = Const) by (unfold is_const in C; destruct (attr (e_fn e)); congruence).
  split; [exact B|]. split; [|exact I]. rewrite write_other; [exact R|]. intros Y. apply X. apply (I A). exact Y.
Qed.

Lemma good_incl st u v c : good st u c -> incl u v -> good st v c.
Proof.
  intros G I. apply Forall_forall. intros e He P. pose proof (proj1 (Forall_forall _ _) G _ He P) as K.
  destruct (e_key e); [|exact K]. destruct K as [B [R J]]. split; [exact B|]. split; [exact R|].
  intros A. eapply incl_tran; [apply J; exact A|exact I].
Qed.

Lemma exec_thinned c st p tr :
  exec c st p tr -> forall used, good st used c -> settled used p ->
  exists q, thinned p q /\ tr = plain st q.
Proof.
  assert (U : forall f (xs used : list nat), compresses f = true -> incl xs (if compresses f then xs ++ used else used)).
  { intros f xs used C. rewrite C. apply incl_appl, incl_refl. }
  assert (V : forall f (xs used : list nat), incl used (if compresses f then xs ++ used else used)).
  { intros f xs used. destruct (compresses f); [apply incl_appr|]; apply incl_refl. }
  induction 1 as [c st|c st x s p tr _ IH|c st f xs p v c' tr H _ IH|c st f xs p r c' H F
                 |c st f xs p tr A _ IH|c st f xs p v c' tr H _ IH|c st f xs p r c' H F]; intros used G S.
  - exists []. split; [constructor|reflexivity].
  - destruct S as [X S]. destruct (IH used (good_write _ _ _ _ _ G X) S) as [q [T E]].
    exists (Set_ x s :: q). split; [constructor; exact T|exact E].
  - cbn [settled] in S. pose proof (good_incl _ _ _ _ G (V f xs used)) as G1.
    destruct (proj1 calls_current _ _ _ _ _ _ H _ G1 (U f xs used)) as [E1 G2].
    destruct (IH _ G2 S) as [q [T E]]. exists (Call f xs :: q). split; [constructor; exact T|].
    cbn [plain]. rewrite <- E1. rewrite E. reflexivity.
  - cbn [settled] in S. pose proof (good_incl _ _ _ _ G (V f xs used)) as G1.
    destruct (proj1 calls_current _ _ _ _ _ _ H _ G1 (U f xs used)) as [E1 G2].
    exists (Call f xs :: p). split.
    + constructor. clear. induction p; constructor; assumption.
    + cbn [plain]. rewrite <- E1. destruct r; [discriminate|reflexivity|reflexivity|reflexivity].
  - cbn [settled] in S. destruct (IH _ (good_incl _ _ _ _ G (V f xs used)) S) as [q [T E]].
    exists q. split; [|exact E]. constructor; [|exact T]. cbn. destruct (attr f); tauto.
  - cbn [settled] in S. pose proof (good_incl _ _ _ _ G (V f xs used)) as G1.
    destruct (proj1 calls_current _ _ _ _ _ _ H _ G1 (U f xs used)) as [E1 G2].
    destruct (IH _ G2 S) as [q [T E]]. exists (Drop f xs :: q). split; [constructor; exact T|].
    cbn [plain]. rewrite <- E1. exact E.
  - cbn [settled] in S. pose proof (good_incl _ _ _ _ G (V f xs used)) as G1.
    destruct (proj1 calls_current _ _ _ _ _ _ H _ G1 (U f xs used)) as [E1 G2].
    exists (Drop f xs :: p). split.
    + constructor. clear. induction p; constructor; assumption.
    + cbn [plain]. rewrite <- E1. destruct r; [discriminate|reflexivity|reflexivity|reflexivity].
Qed.

Lemma settled_thinned_l st p tr :
  allowed st p tr -> settled [] p -> exists q, thinned p q /\ tr = plain st q.
Proof. intros H S. exact (exec_thinned _ _ _ _ H [] (Forall_nil _) S). Qed.

Lemma thinned_used p q : thinned p q -> all_used p -> q = p.
Proof.
  induction 1 as [|k p q _ IH|f xs p q _ _ _]; intros A; [reflexivity| |].
  - rewrite IH; [reflexivity|]. intros f xs H. apply (A f xs). right. exact H.
  - exfalso. apply (A f xs). left. reflexivity.
Qed.

Lemma settled_used_l st p tr : allowed st p tr -> settled [] p -> all_used p -> tr = plain st p.
Proof.
  intros H S A. destruct (settled_thinned_l _ _ _ H S) as [q [T E]].
  rewrite (thinned_used _ _ T A) in E. exact E.
Qed.

(** ** Leaving out calls which succeed changes nothing *)
Lemma thinned_ok p q : thinned p q -> forall st, Forall (fun r => is_ok r = true) (plain st p) ->
  plain st q = plain st p.
Proof.
  induction 1 as [|k p q _ IH|f xs p q _ _ IH]; intros st F; [reflexivity| |].
  - destruct k as [x s|f xs|f xs]; cbn [plain] in *.
    + apply IH. exact F.
    + destruct (meaning f (map st xs)); try reflexivity. f_equal. apply IH.
      inversion F; assumption.
    + destruct (meaning f (map st xs)); try reflexivity. apply IH. exact F.
  - cbn [plain] in *. destruct (meaning f (map st xs)).
    + apply IH. exact F.
    + inversion F; discriminate.
    + inversion F; discriminate.
    + inversion F; discriminate.
Qed.

Lemma settled_ok_l st p tr :
  allowed st p tr -> settled [] p -> Forall (fun r => exists v, r = Ok v) (plain st p) -> tr = plain st p.
Proof.
  intros H S A. destruct (settled_thinned_l _ _ _ H S) as [q [T E]].
  rewrite E. apply thinned_ok; [exact T|]. eapply Forall_impl; [|exact A]. intros r [v ->]. reflexivity.
Qed.

(** ** The plain execution is allowed *)

Lemma run_inner c st xs l :
  compressing l -> Forall (fun fi => (snd fi < length xs)%nat) l ->
  exists c', calls c st xs l (inner_results st xs l) c'.
Proof.
  revert c. induction l as [|[f i] l IH]; intros c C L; [exists c; constructor|].
  inversion C as [|a b F C']; subst. inversion L as [|a b N L']; subst. cbn [snd] in N.
  destruct F as [n F]. cbn [fst] in F. subst f.
  destruct (nth_error xs i) as [x|] eqn:X; [|apply nth_error_None in X; lia].
  destruct (IH ({| e_fn := FCompress n; e_key := key_of st (FCompress n) [x];
                   e_result := (vs <- Ok [] ;; finish (FCompress n) (map st [x]) vs) |} :: c) C' L') as [c' H].
  exists c'. unfold inner_results. cbn [mapM]. rewrite X.
  apply (calls_cons _ _ _ _ _ _ x _ _ _ _ X (call_run c st (FCompress n) [x] (Ok []) c (calls_nil _ _ _)) H).
Qed.

Lemma inner_args f (st : store) xs : Forall (fun fi => (snd fi < length xs)%nat) (inner f (map st xs)).
Proof.
  destruct f; destruct xs as [|a [|b [|d l]]]; cbn [map inner length]; repeat constructor.
Qed.

Lemma run_plain c st f xs : exists c', call c st f xs (meaning f (map st xs)) c'.
Proof.
  destruct (run_inner c st xs _ (inner_compressing f (map st xs)) (inner_args f st xs)) as [c' H].
  pose proof (call_run _ _ _ _ _ _ H) as K. rewrite meaning_inner in K. eauto.
Qed.

Lemma plain_exec p : forall c st, exec c st p (plain st p).
Proof.
  induction p as [|k p IH]; intros c st; [constructor|]. destruct k as [x s|f xs|f xs]; cbn [plain].
  - constructor. apply IH.
  - destruct (run_plain c st f xs) as [c' H].
    destruct (meaning f (map st xs)) as [v| | |]; [eapply exec_call; [exact H|apply IH]|..];
      (eapply exec_fail; [exact H|reflexivity]).
  - destruct (run_plain c st f xs) as [c' H].
    destruct (meaning f (map st xs)) as [v| | |]; [eapply exec_drop; [exact H|apply IH]|..];
      (eapply exec_drop_fail; [exact H|reflexivity]).
Qed.

Lemma plain_allowed_l st p : allowed st p (plain st p).
Proof. apply plain_exec. Qed.

(** ** Old results *)

(** The results of the inner calls of [f] are kept. *)
Definition keeps (c : cache) (xs : list nat) (l : list (fn * nat)) (vs : list value) : Prop :=
  Forall2 (fun fi v => exists x, nth_error xs (snd fi) = Some x /\
    In {| e_fn := fst fi; e_key := KRefs [x]; e_result := Ok v |} c) l vs.

Lemma keeps_calls c st xs l vs : compressing l -> keeps c xs l vs -> calls c st xs l (Ok vs) c.
Proof.
  intros C K. induction K as [|[f i] v l vs [x [X H]] K IH]; [constructor|].
  inversion C as [|a b F C']; subst. destruct F as [n F]. cbn [fst snd] in *. subst f.
  apply (calls_cons c st xs (FCompress n) i l x (Ok v) (Ok vs) c c X); [|apply IH; exact C'].
  apply call_reuse; [discriminate|exact H].
Qed.

Lemma keeps_forget c xs l vs : compressing l -> keeps c xs l vs -> keeps (forget c) xs l vs.
Proof.
  intros C K. induction K as [|[f i] v l vs [x [X H]] K IH]; [constructor|].
  inversion C as [|a b F C']; subst. constructor; [|apply IH; exact C'].
  exists x. split; [exact X|]. unfold forget. apply filter_In. split; [exact H|].
  destruct F as [n F]. cbn [fst] in *. subst f. reflexivity.
Qed.

Lemma keeps_incl c d xs l vs : keeps c xs l vs -> incl c d -> keeps d xs l vs.
Proof.
  intros K I. induction K as [|fi v l vs [x [X H]] K IH]; [constructor|].
  constructor; [|exact IH]. exists x. split; [exact X|apply I; exact H].
Qed.

Lemma calls_keep :
  (forall c st f xs r c', call c st f xs r c' -> incl c c') /\
  (forall c st xs l rs c', calls c st xs l rs c' -> incl c c').
Proof.
  apply call_calls_ind; intros.
  - apply incl_refl.
  - apply incl_tl. assumption.
  - apply incl_refl.
  - eapply incl_tran; eassumption.
Qed.

Lemma call_leaves c st n x r c' :
  call c st (FCompress n) [x] r c' -> In {| e_fn := FCompress n; e_key := KRefs [x]; e_result := r |} c'.
Proof.
  intros H. inversion H as [c0 st0 f xs r0 A I E1 E2 E3 E4 E5 E6|c0 st0 f xs rs c1 K E1 E2 E3 E4 E5 E6]; subst.
  - exact I.
  - left. reflexivity.
Qed.

Lemma calls_leave l : forall c st xs rs c' vs, calls c st xs l rs c' -> compressing l -> rs = Ok vs -> keeps c' xs l vs.
Proof.
  induction l as [|[f i] l IH]; intros c st xs rs c' vs H C E.
  - inversion H; subst. assert (vs = []) by congruence. subst vs. constructor.
  - inversion C as [|a b F C']; subst a b. destruct F as [n F]. cbn [fst] in F. subst f rs.
    inversion H as [|c0 st0 xs0 f0 i0 l0 x r rs0 c1 c2 N K1 K2 E1 E2 E3 E4 E5 E6]. clear H.
    subst c0 st0 xs0 f0 i0 l0 c2.
    destruct r as [v| | |]; try discriminate. destruct rs0 as [ws| | |]; try discriminate.
    cbn [bind] in *. assert (vs = v :: ws) by congruence. subst vs.
    constructor; [|eapply IH; [exact K2|exact C'|reflexivity]].
    cbn [fst snd]. exists x. split; [exact N|]. apply (proj2 calls_keep _ _ _ _ _ _ K2).
    apply (call_leaves _ _ _ _ _ _ K1).
Qed.

Lemma inner_lengths f a b : map order a = map order b -> inner f a = inner f b.
Proof.
  intros E.
  destruct a as [|a1 [|a2 [|a3 a]]], b as [|b1 [|b2 [|b3 b]]]; try discriminate E; destruct f; try reflexivity.
  cbn [map] in E. injection E as E1 E2. cbn [inner]. unfold order in E1, E2. rewrite E1, E2. reflexivity.
Qed.

Lemma finish_lengths f a b vs :
  compresses f = true -> (forall n, f <> FCompress n) ->
  map order a = map order b -> finish f a vs = finish f b vs.
Proof.
  intros C N E.
  destruct a as [|a1 [|a2 [|a3 a]]], b as [|b1 [|b2 [|b3 b]]]; try discriminate E; destruct f; try discriminate C;
    try reflexivity. exfalso. eapply N. reflexivity.
Qed.

Lemma lengths_write (st : store) x s xs :
  length s = length (st x) -> map order (map (write st x s) xs) = map order (map st xs).
Proof.
  intros E. rewrite !map_map. apply map_ext. intros y. unfold write. destruct (Nat.eqb_spec y x); [subst; exact E|].
  reflexivity.
Qed.

(** What a cache must hold for a call to give [v] again. *)
Definition again (c : cache) (args : list shape) (f : fn) (xs : list nat) (v : value) : Prop :=
  match f with
  | FCompress _ => In {| e_fn := f; e_key := KRefs xs; e_result := Ok v |} c
  | _ => exists vs, keeps c xs (inner f args) vs /\ finish f args vs = Ok v
  end.

Lemma again_first c (st : store) f xs v :
  compresses f = true -> meaning f (map st xs) = Ok v ->
  exists c', call c st f xs (Ok v) c' /\ again c' (map st xs) f xs v.
Proof.
  intros C M.
  destruct (run_inner c st xs _ (inner_compressing f (map st xs)) (inner_args f st xs)) as [c' H].
  pose proof (call_run _ _ _ _ _ _ H) as K.
  rewrite meaning_inner, M in K. eexists. split; [exact K|].
  assert (D : (exists n, f = FCompress n) \/ exists vs, keeps c' xs (inner f (map st xs)) vs /\
              finish f (map st xs) vs = Ok v).
  { rewrite <- (meaning_inner st xs f) in M.
    destruct (inner_results st xs (inner f (map st xs))) as [vs| | |] eqn:I; try discriminate M.
    right. exists vs. split; [|exact M].
    eapply calls_leave; [exact H|apply inner_compressing|reflexivity]. }
  destruct f; try discriminate C; cbn [again];
    try (destruct D as [[k D]|[vs [D1 D2]]]; [discriminate D|]; exists vs; split; [|exact D2];
         eapply keeps_incl; [exact D1|apply incl_tl, incl_refl]).
  left. reflexivity.
Qed.

Lemma again_next c (st : store) x s f xs v :
  compresses f = true -> length s = length (st x) -> again c (map st xs) f xs v ->
  exists c', call (forget c) (write st x s) f xs (Ok v) c' /\ again c' (map (write st x s) xs) f xs v.
Proof.
  intros C E A.
  assert (D : (exists n, f = FCompress n) \/ (forall n, f <> FCompress n)).
  { destruct f; try (right; intros; discriminate). left. eauto. }
  destruct D as [[n ->]|D].
  - cbn [again] in A. exists (forget c).
    assert (I : In {| e_fn := FCompress n; e_key := KRefs xs; e_result := Ok v |} (forget c)).
    { unfold forget. apply filter_In. split; [exact A|reflexivity]. }
    split; [|exact I]. apply call_reuse; [discriminate|exact I].
  - assert (A' : exists vs, keeps c xs (inner f (map st xs)) vs /\ finish f (map st xs) vs = Ok v).
    { destruct f; try exact A. exfalso. eapply D. reflexivity. }
    destruct A' as [vs [K F]].
    pose proof (lengths_write st x s xs E) as L.
    rewrite <- (inner_lengths f _ _ L) in K.
    rewrite <- (finish_lengths f _ _ vs C D L) in F.
    pose proof (inner_compressing f (map (write st x s) xs)) as IC.
    pose proof (keeps_forget _ _ _ _ IC K) as K'.
    pose proof (call_run _ (write st x s) f xs _ _ (keeps_calls _ (write st x s) _ _ _ IC K')) as R.
    cbn [bind] in R. rewrite F in R. eexists. split; [exact R|].
    assert (G : exists vs, keeps ({| e_fn := f; e_key := key_of (write st x s) f xs; e_result := Ok v |} :: forget c)
                  xs (inner f (map (write st x s) xs)) vs /\ finish f (map (write st x s) xs) vs = Ok v).
    { exists vs. split; [|exact F]. eapply keeps_incl; [exact K'|apply incl_tl, incl_refl]. }
    destruct f; try exact G. exfalso. eapply D. reflexivity.
Qed.

Lemma watch_again l : forall c (st : store) x f xs v,
  compresses f = true -> Forall (fun s => length s = length (st x)) l -> again c (map st xs) f xs v ->
  exec c st (watch f xs x l) (repeat (Ok v) (length l)).
Proof.
  induction l as [|s l IH]; intros c st x f xs v C F A; [constructor|].
  inversion F as [|a b E F']; subst. cbn [watch length repeat]. constructor.
  destruct (again_next c st x s f xs v C E A) as [c' [H A']].
  eapply exec_call; [exact H|]. apply IH; [exact C| |exact A'].
  unfold write. rewrite Nat.eqb_refl. eapply Forall_impl; [|exact F']. intros t Ht. cbn beta. congruence.
Qed.

Lemma watch_stale_l (st : store) f xs x l v :
  compresses f = true -> Forall (fun s => length s = length (st x)) l -> meaning f (map st xs) = Ok v ->
  allowed st (Call f xs :: watch f xs x l) (repeat (Ok v) (S (length l))).
Proof.
  intros C F M. destruct (again_first [] st f xs v C M) as [c' [H A]].
  cbn [repeat]. eapply exec_call; [exact H|]. apply watch_again; assumption.
Qed.

(** ** Two shapes compared before and after an assignment *)
Lemma comparison_stale_l st x y s b :
  x <> y -> length s = length (st x) -> shape_eq (st x) (st y) = Ok b -> shape_eq s (st y) = Ok (negb b) ->
  let p := [Call FEqual [x; y]; Set_ x s; Call FEqual [x; y]] in
  plain st p = [Ok (VBool b); Ok (VBool (negb b))] /\ allowed st p [Ok (VBool b); Ok (VBool b)].
Proof.
  intros N L E1 E2 p. split.
  - subst p. cbn [plain map]. rewrite Nat.eqb_refl. destruct (Nat.eqb_spec y x); [congruence|].
    cbn [meaning]. rewrite E1, E2. reflexivity.
  - apply (watch_stale_l st FEqual [x; y] x [s] (VBool b)); [reflexivity|repeat constructor; exact L|].
    cbn [map meaning]. rewrite E1. reflexivity.
Qed.

(** ** The check of a call whose result is not used *)
Lemma check_vanishes_l st x p q :
  contains (st x) p = false ->
  plain st (Drop (FLinear true p) [x] :: q) = [Abort] /\
  allowed st (Drop (FLinear true p) [x] :: q) (plain st q).
Proof.
  intros C. split.
  - cbn [plain map meaning]. unfold linear_index, kassert. rewrite C. reflexivity.
  - apply exec_skip; [discriminate|]. apply plain_exec.
Qed.

(** Calls of the other functions never give an old result. *)
Lemma others_settled p : forall used,
  (forall f xs, In (Call f xs) p \/ In (Drop f xs) p -> compresses f = false) ->
  (forall x s, In (Set_ x s) p -> ~ In x used) -> settled used p.
Proof.
  induction p as [|k p IH]; intros used H S; [exact I|].
  assert (H' : forall f xs, In (Call f xs) p \/ In (Drop f xs) p -> compresses f = false).
  { intros f xs [K|K]; apply (H f xs); [left|right]; right; exact K. }
  destruct k as [x s|f xs|f xs]; cbn [settled].
  - split; [apply (S x s); left; reflexivity|]. apply IH; [exact H'|]. intros z t Z. apply (S z t). right. exact Z.
  - rewrite (H f xs (or_introl (or_introl eq_refl))). apply IH; [exact H'|]. intros z t Z. apply (S z t). right. exact Z.
  - rewrite (H f xs (or_intror (or_introl eq_refl))). apply IH; [exact H'|]. intros z t Z. apply (S z t). right. exact Z.
Qed.

Lemma others_exact_l st p tr :
  allowed st p tr -> (forall f xs, In (Call f xs) p -> compresses f = false) -> all_used p -> tr = plain st p.
Proof.
  intros H C A. apply settled_used_l; [exact H| |exact A]. apply others_settled.
  - intros f xs [K|K]; [exact (C f xs K)|]. exfalso. exact (A f xs K).
  - intros x s _ [].
Qed.
