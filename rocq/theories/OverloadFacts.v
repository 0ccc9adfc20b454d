From Coq Require Import List Bool PeanoNat Sorting Lia.
From Verif Require Import Outcome Overload OverloadSpec.
Import ListNotations.

(** ** Calls with a fixed number of arguments: all of them are checked *)
Definition kinds (r : role) : list what :=
  match r with
  | RContext => [Context true; Context false]
  | RCallable => [Callable]
  | RIn | ROut => [Container]
  | RValue => [Value]
  | RShape => [Shape]
  end.
Definition cats (r : role) : list (bool * bool) :=
  match r with
  | ROut => [(true, true); (true, false); (false, false)]
  | _ => [(true, true); (true, false); (false, true); (false, false)]
  end.
Definition candidates (p : param) : list arg :=
  flat_map (fun w => map (fun c => A w (fst c) (snd c)) (cats (p_role p))) (kinds (p_role p)).
Fixpoint arguments (ps : list param) : list (list arg) :=
  match ps with
  | [] => [[]]
  | p :: ps => flat_map (fun a => map (cons a) (arguments ps)) (candidates p)
  end.

Lemma candidates_all p a : plays p a -> In a (candidates p).
Proof.
  destruct a as [w l c]. destruct p as [f r]. unfold plays, candidates. cbn [p_role a_what a_lvalue a_const].
  destruct r, w; try contradiction; intros H; cbn;
    try (destruct is_cpu); destruct l, c; try tauto; specialize (H eq_refl); discriminate.
Qed.
Lemma arguments_all ps args : Forall2 plays ps args -> In args (arguments ps).
Proof.
  induction 1 as [|p a ps args H _ IH]; cbn; [tauto|]. apply in_flat_map. exists a. split; [apply candidates_all; exact H|].
  apply in_map. exact IH.
Qed.

Definition in_placeb (o : overload) (args : list arg) : bool :=
  forallb (fun pa => match p_form (fst pa) with LRef => a_lvalue (snd pa) || a_const (snd pa) | _ => true end)
    (combine (o_params o) args).
Lemma in_placeb_spec o args : in_placeb o args = true <-> in_place o args.
Proof.
  unfold in_placeb, in_place. generalize (o_params o). intros ps. revert args. induction ps as [|p ps IH]; intros args.
  - cbn. split; [intros _ [|i]; discriminate|reflexivity].
  - destruct args as [|a args]; [cbn; split; [intros _ i q b _; destruct i; discriminate|reflexivity]|].
    cbn [combine forallb fst snd]. rewrite andb_true_iff, IH. split.
    + intros [H1 H2] [|i] q b; cbn; [|apply H2]. intros Hq Hb Hf. injection Hq as <-. injection Hb as <-.
      rewrite Hf in H1. apply orb_true_iff. exact H1.
    + intros H. split.
      * specialize (H 0 p a eq_refl eq_refl). destruct (p_form p); try reflexivity. apply orb_true_iff. apply H. reflexivity.
      * intros i q b. exact (H (S i) q b).
Qed.
Definition const_lvalueb (a : arg) : bool := a_lvalue a && a_const a.
Definition callableb (a : arg) : bool := match a_what a with Callable => true | _ => false end.
Definition confusedb (n : fn) (args : list arg) : bool :=
  match n, args with
  | for_each, f :: _ :: _ :: _ => callableb f && a_lvalue f
  | transform, f :: _ :: c0 :: c1 :: cs => callableb f && a_lvalue f && a_lvalue c0 && forallb const_lvalueb (c1 :: cs)
  | _, _ => false
  end.
Lemma callableb_spec a : callableb a = true <-> a_what a = Callable.
Proof. unfold callableb. destruct (a_what a); split; congruence. Qed.
Lemma const_lvalueb_spec a : const_lvalueb a = true <-> const_lvalue a.
Proof. unfold const_lvalueb, const_lvalue. apply andb_true_iff. Qed.
Lemma forallb_const cs : forallb const_lvalueb cs = true <-> Forall const_lvalue cs.
Proof.
  rewrite forallb_forall, Forall_forall. split; intros H x I; apply const_lvalueb_spec, H, I.
Qed.
Lemma confusedb_spec n args : confusedb n args = true <-> confused n args.
Proof.
  assert (F : false = true <-> False) by (split; [discriminate|contradiction]).
  destruct n; try exact F; destruct args as [|f [|x [|y [|z args]]]]; try exact F; unfold confusedb, confused;
    rewrite ?andb_true_iff, ?callableb_spec, ?forallb_const; tauto.
Qed.

Definition same_fn (n m : fn) : {n = m} + {n <> m}. Proof. decide equality. Defined.
Definition same_what (w v : what) : {w = v} + {w <> v}. Proof. decide equality. apply bool_dec. Defined.

Fixpoint sortedb (l : list nat) : bool :=
  match l with [] => true | x :: l => forallb (Nat.ltb x) l && sortedb l end.
Lemma sortedb_spec l : sortedb l = true -> StronglySorted lt l.
Proof.
  induction l as [|x l IH]; [constructor|]. cbn. rewrite andb_true_iff. intros [H1 H2]. constructor; [apply IH, H2|].
  apply Forall_forall. rewrite forallb_forall in H1. intros y I. apply Nat.ltb_lt, H1, I.
Qed.
Lemma sorted_seq k n : StronglySorted lt (seq k n).
Proof.
  revert k. induction n as [|n IH]; intros k; cbn; constructor; [apply IH|]. apply Forall_forall. intros y I. apply in_seq in I. lia.
Qed.
Definition right_stepb (n : fn) (args : list arg) (s : step) : bool :=
  match snd (fst s) with Some w => if same_what w (asked args) then true else false | None => true end &&
  (sortedb (given s) &&
   if same_fn (fst (fst (fst s))) n then if list_eq_dec Nat.eq_dec (given s) (seq 0 (length args)) then true else false else true).
Lemma right_stepb_spec n args s : right_stepb n args s = true -> right_step n args s.
Proof.
  unfold right_stepb, right_step. rewrite !andb_true_iff. intros (H1 & H2 & H3). split; [|split].
  - destruct (snd (fst s)); [|trivial]. destruct (same_what w (asked args)); congruence.
  - apply sortedb_spec, H2.
  - intros E. destruct (same_fn _ n); [|contradiction]. destruct (list_eq_dec _ _ _); congruence.
Qed.
Definition reachedb (n : fn) (i : nat) (args : list arg) (tr : list step) : bool :=
  match tr with (m, j, _, _) :: _ => (if same_fn m n then true else false) && Nat.eqb j i | [] => false end &&
  forallb (right_stepb n args) tr.
Lemma reachedb_spec n i args tr : reachedb n i args tr = true -> reached n i args tr.
Proof.
  unfold reachedb, reached. rewrite andb_true_iff. intros [H1 H2]. split.
  - destruct tr as [|[[[m j] u] ids] tr]; [discriminate|]. apply andb_true_iff in H1. destruct H1 as [H1 H3].
    destruct (same_fn m n) as [->|]; [|discriminate]. apply Nat.eqb_eq in H3. subst j.
    exists (n, i, u, ids), tr. split; reflexivity.
  - apply Forall_forall. rewrite forallb_forall in H2. intros s I. apply right_stepb_spec, H2, I.
Qed.
Lemma given_all (m : fn) (i : nat) (u : option what) k n : given (m, i, u, map Some (seq k n)) = seq k n.
Proof. unfold given. cbn [snd]. revert k. induction n as [|n IH]; intros k; [reflexivity|]. cbn. f_equal. apply IH. Qed.
Lemma given_new (m : fn) (i : nat) (u : option what) ids : given (m, i, u, None :: ids) = given (m, i, u, ids).
Proof. reflexivity. Qed.
Lemma all_right n args (m : fn) (i : nat) (u : option what) : match u with Some w => w = asked args | None => True end ->
  right_step n args (m, i, u, map Some (seq 0 (length args))) /\ right_step n args (m, i, u, None :: map Some (seq 0 (length args))).
Proof.
  intros H. unfold right_step. rewrite given_new, given_all. cbn [fst snd].
  assert (Ss : StronglySorted lt (seq 0 (length args))) by apply sorted_seq. auto.
Qed.

Definition outsb (n : fn) (args : list arg) : bool :=
  match target n args with Some a => a_lvalue a || a_const a | None => true end.
Definition verdict (n : fn) (i : nat) (o : overload) (args : list arg) : bool :=
  match run 6 n args with
  | Ok tr => in_placeb o args && negb (confusedb n args) && reachedb n i args tr && outsb n args
  | UB => negb (in_placeb o args && negb (confusedb n args))
  | _ => false
  end.
Definition fns : list fn :=
  [for_each; for_each_index; transform; copy; copy_if; fill; generate; iota; replace_if; replace; reduce; all_of; any_of;
   none_of; count; count_if; transform_reduce; inner_product; transform_exclusive_scan; exclusive_scan;
   transform_inclusive_scan; inclusive_scan; find_if; find; find_if_not; find_first_of; find_last_if; find_last;
   find_last_if_not; lower_bound; upper_bound; binary_search].
Lemma fns_all n : In n fns. Proof. destruct n; cbn; tauto. Qed.
Definition fixed_ok : bool :=
  forallb (fun n => forallb (fun io => match o_pack (snd io) with
                                       | Some _ => true
                                       | None => forallb (verdict n (fst io) (snd io)) (arguments (o_params (snd io)))
                                       end) (combine (seq 0 (length (overloads n))) (overloads n))) fns.
Lemma fixed_checked : fixed_ok = true. Proof. vm_compute. reflexivity. Qed.

Definition settled (n : fn) (i : nat) (o : overload) (args : list arg) : Prop :=
  (in_place o args /\ ~ confused n args -> exists tr, run 6 n args = Ok tr /\ reached n i args tr) /\
  (~ (in_place o args /\ ~ confused n args) -> run 6 n args = UB) /\
  (forall a, target n args = Some a -> temporary a -> run 6 n args = UB).

Lemma verdict_settled n i o args : verdict n i o args = true -> settled n i o args.
Proof.
  unfold verdict, settled. rewrite <- in_placeb_spec, <- confusedb_spec.
  destruct (run 6 n args) as [tr| | |]; try discriminate.
  - rewrite !andb_true_iff, negb_true_iff. intros [[[H1 H2] H3] H4]. split; [|split; [intros N; exfalso; apply N; rewrite H1, H2; split; [reflexivity|discriminate]|]].
    + intros _. exists tr. split; [reflexivity|apply reachedb_spec; exact H3].
    + unfold outsb in H4. intros a Ha [T1 T2]. rewrite Ha, T1, T2 in H4. discriminate.
  - rewrite negb_true_iff. intros H. split; [|split; reflexivity]. intros [H1 H2]. exfalso.
    rewrite H1 in H. destruct (confusedb n args); [apply H2; reflexivity|discriminate].
Qed.

Lemma fixed_settled n i o args : nth_error (overloads n) i = Some o -> o_pack o = None -> Forall2 plays (o_params o) args ->
  settled n i o args.
Proof.
  intros Ho Hp Ha. apply verdict_settled. pose proof fixed_checked as C. unfold fixed_ok in C. rewrite forallb_forall in C.
  specialize (C n (fns_all n)). rewrite forallb_forall in C.
  assert (I : In (i, o) (combine (seq 0 (length (overloads n))) (overloads n))).
  { clear -Ho. revert Ho. generalize (overloads n). intros os.
    enough (H : forall k, nth_error os i = Some o -> In (k + i, o) (combine (seq k (length os)) os)) by (intros E; exact (H 0 E)).
    revert i. induction os as [|x os IH]; intros [|i] k E; cbn in E; try discriminate.
    - injection E as ->. cbn. left. f_equal. lia.
    - cbn. right. replace (k + S i) with (S k + i) by lia. apply IH. exact E. }
  specialize (C (i, o) I). cbn [fst snd] in C. rewrite Hp in C. rewrite forallb_forall in C. apply C, arguments_all, Ha.
Qed.

(** ** The overloads with packs *)
Lemma all2_repeat {X Y} (f : X -> Y -> bool) x ys n : length ys = n -> all2 f (repeat x n) ys = forallb (f x) ys.
Proof. revert ys. induction n as [|n IH]; intros [|y ys] L; try discriminate; [reflexivity|]. cbn. rewrite IH by (cbn in L; lia). reflexivity. Qed.
Lemma all2_repeat2 {X Y} (f : X -> Y -> bool) x y n : f x y = true -> all2 f (repeat x n) (repeat y n) = true.
Proof. intros H. induction n as [|n IH]; [reflexivity|]. cbn. rewrite H, IH. reflexivity. Qed.
Lemma any3_repeat {X Y Z} (f : X -> Y -> Z -> bool) x y zs n : length zs = n ->
  any3 f (repeat x n) (repeat y n) zs = existsb (f x y) zs.
Proof. revert zs. induction n as [|n IH]; intros [|z zs] L; try discriminate; [reflexivity|]. cbn. rewrite IH by (cbn in L; lia). reflexivity. Qed.
Lemma existsb_false {X} (f : X -> bool) l : (forall x, f x = false) -> existsb f l = false.
Proof. intros H. induction l as [|x l IH]; [reflexivity|]. cbn. rewrite H, IH. reflexivity. Qed.
Lemma combine_repeat {X Y} (x : X) (ys : list Y) : combine (repeat x (length ys)) ys = map (fun y => (x, y)) ys.
Proof. induction ys as [|y ys IH]; [reflexivity|]. cbn. rewrite IH. reflexivity. Qed.

Lemma containers_viable p more : p_form p <> LRef -> p_role p = RIn -> Forall (fun a => a_what a = Container) more ->
  forallb (fun a => viable_param p a) more = true.
Proof.
  intros Nf Hr F. apply forallb_forall. rewrite Forall_forall in F. intros a I. unfold viable_param, accepts, binds.
  rewrite Hr, (F a I). destruct (p_form p); try reflexivity; congruence.
Qed.
Lemma plays_containers p more : (p_role p = RIn) -> Forall (plays p) more -> Forall (fun a => a_what a = Container) more.
Proof.
  intros Hr F. apply (Forall_impl _ (P := plays p)); [|exact F]. intros a H. unfold plays in H. rewrite Hr in H.
  destruct (a_what a); try contradiction. reflexivity.
Qed.

Lemma not_viable p a : (p_role p = RIn \/ p_role p = ROut \/ p_role p = RShape) -> accepts (p_role p) (a_what a) = false ->
  viable_param p a = false.
Proof. intros _ H. unfold viable_param. rewrite H. reflexivity. Qed.
Lemma viable_any p a : accepts (p_role p) (a_what a) = true -> binds (p_form p) a = true -> viable_param p a = true.
Proof. intros H1 H2. unfold viable_param. rewrite H1, H2. reflexivity. Qed.
Arguments viable_param : simpl never.

(** for_each on containers with a context. *)
Lemma resolve_for_each_ctx x f c0 more : binds LRef x = true -> a_what f = Callable -> a_what c0 = Container ->
  Forall (fun a => a_what a = Container) more ->
  resolve (overloads for_each) (x :: f :: c0 :: more) = Some 2.
Proof.
  intros Bx Hf H0 Fm. unfold resolve. cbn [overloads length seq combine filter snd fst].
  assert (V0 : viable (O [ctx; ffunc; shp] None true []) (x :: f :: c0 :: more) = false).
  { unfold viable, expand. cbn. destruct more; [|reflexivity]. cbn.
    rewrite (not_viable shp c0) by (first [cbn; tauto|rewrite H0; reflexivity]). rewrite !andb_false_r. reflexivity. }
  assert (V1 : forall cs, viable (O [ffunc; shp] None false cs) (x :: f :: c0 :: more) = false) by (intros; reflexivity).
  assert (V2 : viable (O [ctx; ffunc; fin] (Some fin) true []) (x :: f :: c0 :: more) = true).
  { unfold viable, expand. cbn. rewrite Nat.sub_0_r, all2_repeat by reflexivity. cbn [fst].
    rewrite (containers_viable fin more) by (first [discriminate|reflexivity|assumption]).
    rewrite (viable_any ctx x), (viable_any ffunc f), (viable_any fin c0) by (first [rewrite H0; reflexivity|assumption|reflexivity]). reflexivity. }
  assert (V3 : forall cs, viable (O [ffunc; fin] (Some fin) false cs) (x :: f :: c0 :: more) = false).
  { intros cs. unfold viable, expand. cbn. rewrite (not_viable fin f) by (first [cbn; tauto|rewrite Hf; reflexivity]).
    rewrite andb_false_r. reflexivity. }
  rewrite V0, V1, V2, V3. reflexivity.
Qed.

(** for_each on containers without a context. *)
Lemma resolve_for_each f c0 more : a_what f = Callable -> a_what c0 = Container -> Forall (fun a => a_what a = Container) more ->
  resolve (overloads for_each) (f :: c0 :: more) = Some (if a_lvalue f && negb (Nat.eqb (length more) 0) then 2 else 3).
Proof.
  intros Hf H0 Fm. unfold resolve. cbn [overloads length seq combine filter snd fst].
  assert (V0 : viable (O [ctx; ffunc; shp] None true []) (f :: c0 :: more) = false).
  { unfold viable, expand. cbn. destruct more as [|c1 [|c2 more]]; try reflexivity. inversion Fm as [|? ? H1 Fs]; subst. cbn.
    rewrite (not_viable shp c1) by (first [cbn; tauto|rewrite H1; reflexivity]). rewrite !andb_false_r. reflexivity. }
  assert (V1 : forall cs, viable (O [ffunc; shp] None false cs) (f :: c0 :: more) = false).
  { intros cs. unfold viable, expand. cbn. destruct more; [|reflexivity]. cbn.
    rewrite (not_viable shp c0) by (first [cbn; tauto|rewrite H0; reflexivity]). rewrite andb_false_r. reflexivity. }
  assert (V3 : forall cs, viable (O [ffunc; fin] (Some fin) false cs) (f :: c0 :: more) = true).
  { intros cs. unfold viable, expand. cbn. rewrite Nat.sub_0_r, all2_repeat by reflexivity. cbn [fst].
    rewrite (containers_viable fin more) by (first [discriminate|reflexivity|assumption]).
    rewrite (viable_any ffunc f), (viable_any fin c0) by (first [rewrite H0; reflexivity|reflexivity]). reflexivity. }
  rewrite V0, V1, V3.
  destruct more as [|c1 cs].
  - cbn [length Nat.eqb negb]. rewrite andb_false_r.
    assert (V2 : viable (O [ctx; ffunc; fin] (Some fin) true []) [f; c0] = false) by reflexivity.
    rewrite V2. reflexivity.
  - inversion Fm as [|? ? H1 Fs]; subst. cbn [length Nat.eqb negb]. rewrite andb_true_r.
    assert (V2 : viable (O [ctx; ffunc; fin] (Some fin) true []) (f :: c0 :: c1 :: cs) = a_lvalue f || a_const f).
    { unfold viable, expand. cbn. rewrite Nat.sub_0_r, all2_repeat by reflexivity. cbn [fst].
      rewrite (containers_viable fin cs) by (first [discriminate|reflexivity|assumption]).
      rewrite (viable_any ffunc c0), (viable_any fin c1) by (first [rewrite H1; reflexivity|reflexivity]).
      unfold viable_param. cbn. rewrite andb_true_r. reflexivity. }
    rewrite V2.
    set (o2 := O [ctx; ffunc; fin] (Some fin) true []).
    set (o3 := O [ffunc; fin] (Some fin) false [(for_each, [Cpu; Forward 0; Forward 1; ForwardPack])]).
    assert (F : forall a, better_form Fwd Fwd a = false) by (intros a; unfold better_form; destruct (a_lvalue a); [rewrite andb_false_r|]; reflexivity).
    assert (B23 : better o2 o3 (f :: c0 :: c1 :: cs) = a_lvalue f).
    { unfold better, expand. cbn [o2 o3 o_params o_pack length Nat.leb map app Nat.sub repeat]. rewrite !Nat.sub_0_r. cbn [repeat any3 p_form fst ffunc fin ctx].
      rewrite !F, !any3_repeat by reflexivity. cbn [p_form fst fin]. rewrite (existsb_false _ cs) by (intros a; apply F). unfold more_specialised. cbn [all2].
      rewrite !all2_repeat2 by reflexivity. unfold better_form. destruct (a_lvalue f); [rewrite !andb_false_r|]; reflexivity. }
    assert (B32 : better o3 o2 (f :: c0 :: c1 :: cs) = negb (a_lvalue f)).
    { unfold better, expand. cbn [o2 o3 o_params o_pack length Nat.leb map app Nat.sub repeat]. rewrite !Nat.sub_0_r. cbn [repeat any3 p_form fst ffunc fin ctx].
      rewrite !F, !any3_repeat by reflexivity. cbn [p_form fst fin]. rewrite (existsb_false _ cs) by (intros a; apply F). unfold more_specialised. cbn [all2].
      unfold better_form. destruct (a_lvalue f); [rewrite !andb_false_r|]; cbn; reflexivity. }
    destruct (a_lvalue f) eqn:Lf; cbn [orb].
    + cbn [filter forallb fst snd Nat.eqb orb]. fold o2 o3. rewrite B23, B32. reflexivity.
    + destruct (a_const f); cbn [filter forallb fst snd Nat.eqb orb]; fold o2 o3; [rewrite B23, B32|]; reflexivity.
Qed.

(** for_each without a context parameter that binds: nothing. *)
Lemma resolve_for_each_temp x f c0 more : (exists b, a_what x = Context b) -> binds LRef x = false -> a_what f = Callable ->
  a_what c0 = Container -> resolve (overloads for_each) (x :: f :: c0 :: more) = None.
Proof.
  intros _ Bx Hf H0. unfold resolve. cbn [overloads length seq combine filter snd fst].
  assert (Vx : viable_param ctx x = false) by (unfold viable_param; cbn in *; rewrite Bx; reflexivity).
  assert (V0 : viable (O [ctx; ffunc; shp] None true []) (x :: f :: c0 :: more) = false).
  { unfold viable, expand. cbn. destruct more; [|reflexivity]. cbn. rewrite Vx. reflexivity. }
  assert (V1 : forall cs, viable (O [ffunc; shp] None false cs) (x :: f :: c0 :: more) = false) by (intros; reflexivity).
  assert (V2 : viable (O [ctx; ffunc; fin] (Some fin) true []) (x :: f :: c0 :: more) = false).
  { unfold viable, expand. cbn. rewrite Vx. reflexivity. }
  assert (V3 : forall cs, viable (O [ffunc; fin] (Some fin) false cs) (x :: f :: c0 :: more) = false).
  { intros cs. unfold viable, expand. cbn. rewrite (not_viable fin f) by (first [cbn; tauto|rewrite Hf; reflexivity]).
    rewrite andb_false_r. reflexivity. }
  rewrite V0, V1, V2, V3. reflexivity.
Qed.

Lemma run_for_each_ctx k x f c0 more : binds LRef x = true -> (exists b, a_what x = Context b) -> a_what f = Callable ->
  a_what c0 = Container -> Forall (fun a => a_what a = Container) more ->
  forall ids, call (S k) for_each (x :: f :: c0 :: more) ids = Ok [(for_each, 2, Some (a_what x), ids)].
Proof.
  intros Bx (b & Hx) Hf H0 Fm ids. cbn [call]. rewrite resolve_for_each_ctx by assumption.
  cbn [nth_error overloads expand o_params o_pack o_maps length Nat.leb]. rewrite Hx. reflexivity.
Qed.

Lemma for_each_ctx_settled args : spelled (O [ctx; ffunc; fin] (Some fin) true []) args ->
  settled for_each 2 (O [ctx; ffunc; fin] (Some fin) true []) args.
Proof.
  intros (fixed & more & -> & F & M). cbn [o_params o_pack] in *.
  inversion F as [|? x ? ? Px F1]; subst. inversion F1 as [|? f ? ? Pf F2]; subst. inversion F2 as [|? c0 ? ? P0 F3]; subst.
  inversion F3; subst. clear F F1 F2 F3. cbn [app]. apply (plays_containers fin) in M; [|reflexivity].
  assert (Hx : exists b, a_what x = Context b) by (unfold plays in Px; cbn in Px; destruct (a_what x); try contradiction; eauto).
  assert (Hf : a_what f = Callable) by (unfold plays in Pf; cbn in Pf; destruct (a_what f); try contradiction; reflexivity).
  assert (H0 : a_what c0 = Container) by (unfold plays in P0; cbn in P0; destruct (a_what c0); try contradiction; reflexivity).
  assert (Nc : ~ confused for_each (x :: f :: c0 :: more)).
  { cbn. intros [E _]. destruct Hx as (b & Hx). congruence. }
  unfold settled. rewrite <- in_placeb_spec. unfold in_placeb. cbn [o_params combine forallb fst snd p_form ctx ffunc fin].
  destruct (binds LRef x) eqn:Bx; cbn in Bx.
  - rewrite Bx. split; [|split; [intros N; exfalso; apply N; split; [reflexivity|exact Nc]|discriminate]]. intros _.
    eexists. split; [unfold run; apply run_for_each_ctx; assumption|].
    split; [eexists _, _; split; reflexivity|]. constructor; [|constructor]. apply all_right. destruct Hx as (b & Hx). cbn. rewrite Hx. reflexivity.
  - rewrite Bx. cbn [andb]. split; [intros [? _]; discriminate|]. split; [|discriminate]. intros _. unfold run. cbn [call]. rewrite resolve_for_each_temp by assumption. reflexivity.
Qed.

Lemma for_each_settled args : spelled (O [ffunc; fin] (Some fin) false [(for_each, [Cpu; Forward 0; Forward 1; ForwardPack])]) args ->
  settled for_each 3 (O [ffunc; fin] (Some fin) false [(for_each, [Cpu; Forward 0; Forward 1; ForwardPack])]) args.
Proof.
  intros (fixed & more & -> & F & M). cbn [o_params o_pack] in *.
  inversion F as [|? f ? ? Pf F1]; subst. inversion F1 as [|? c0 ? ? P0 F2]; subst. inversion F2; subst. clear F F1 F2.
  cbn [app]. apply (plays_containers fin) in M; [|reflexivity].
  assert (Hf : a_what f = Callable) by (unfold plays in Pf; cbn in Pf; destruct (a_what f); try contradiction; reflexivity).
  assert (H0 : a_what c0 = Container) by (unfold plays in P0; cbn in P0; destruct (a_what c0); try contradiction; reflexivity).
  unfold settled. rewrite <- in_placeb_spec, <- confusedb_spec. unfold in_placeb. cbn [o_params combine forallb fst snd p_form ffunc fin andb].
  assert (Ec : confusedb for_each (f :: c0 :: more) = a_lvalue f && negb (Nat.eqb (length more) 0)).
  { destruct more; cbn; [rewrite andb_false_r; reflexivity|]. unfold callableb. rewrite Hf, andb_true_r. reflexivity. }
  rewrite Ec. pose proof (resolve_for_each f c0 more Hf H0 M) as R.
  destruct (a_lvalue f && negb (Nat.eqb (length more) 0)) eqn:C.
  - split; [intros [_ N]; exfalso; apply N; reflexivity|]. split; [|discriminate]. intros _. unfold run. cbn [call]. rewrite R.
    assert (exists c1 cs, more = c1 :: cs) as (c1 & cs & ->).
    { destruct more as [|c1 cs]; [cbn in C; rewrite andb_false_r in C; discriminate|eauto]. }
    cbn [nth_error overloads expand o_params o_pack o_maps length Nat.leb]. rewrite Hf. reflexivity.
  - split; [|split; [intros N; exfalso; apply N; split; [reflexivity|discriminate]|discriminate]]. intros _.
    set (args := f :: c0 :: more). set (all := map Some (seq 0 (length args))).
    exists [(for_each, 3, None, all); (for_each, 2, Some (Context true), None :: all)].
    split; [|split; [eexists _, _; split; reflexivity|constructor; [apply all_right; exact I|constructor; [apply all_right; unfold asked, args; rewrite Hf; reflexivity|constructor]]]].
    unfold run. fold all. subst args. change 6 with (S (S 4)). remember (S 4) as k. cbn [call]. rewrite R.
    cbn [nth_error overloads expand o_params o_pack o_maps o_calls length Nat.leb bind map app fst snd flat_map argument Nat.sub].
    rewrite Nat.sub_0_r. cbn [skipn forwarded p_form ffunc fin]. rewrite combine_repeat, map_map. cbn [fst snd forwarded p_form fin].
    rewrite map_id, app_nil_r. subst k. rewrite run_for_each_ctx; try assumption; [|reflexivity|exists true; reflexivity].
    unfold all. cbn [length seq map flat_map objects nth_error o_params skipn app bind]. rewrite app_nil_r. reflexivity.
Qed.

(** transform *)
Definition t0 := O [ctx; ffunc; out; inp] (Some inp) true [].
Definition t1 := O [ffunc; out; fin] (Some fin) false [(transform, [Cpu; Forward 0; Named 1; Forward 2; ForwardPack])].
Lemma transform_overloads : overloads transform = [t0; t1]. Proof. reflexivity. Qed.
Lemma plays_what p a : plays p a -> p_role p <> RContext ->
  a_what a = match p_role p with RCallable => Callable | RIn | ROut => Container | RValue => Value | RShape => Shape | RContext => Value end.
Proof. unfold plays. destruct (p_role p), (a_what a); try contradiction; try congruence; reflexivity. Qed.

Lemma t0_viable x f o c0 more : a_what o = Container -> a_what c0 = Container ->
  Forall (fun a => a_what a = Container) more ->
  viable t0 (x :: f :: o :: c0 :: more) = binds LRef x && binds LRef o.
Proof.
  intros Ho H0 M. unfold viable, expand. cbn [t0 o_params o_pack length Nat.leb map app Nat.sub]. rewrite Nat.sub_0_r.
  cbn [all2 fst]. rewrite all2_repeat by reflexivity. cbn [fst].
  rewrite (containers_viable inp more) by (first [discriminate|reflexivity|assumption]).
  rewrite (viable_any ffunc f), (viable_any inp c0) by (first [rewrite H0; reflexivity|reflexivity]).
  unfold viable_param. cbn [accepts p_role p_form ctx out]. rewrite Ho. rewrite !andb_true_r. reflexivity.
Qed.
Lemma t1_viable f o c0 more : a_what o = Container -> a_what c0 = Container ->
  Forall (fun a => a_what a = Container) more -> viable t1 (f :: o :: c0 :: more) = binds LRef o.
Proof.
  intros Ho H0 M. unfold viable, expand. cbn [t1 o_params o_pack length Nat.leb map app Nat.sub]. rewrite Nat.sub_0_r.
  cbn [all2 fst]. rewrite all2_repeat by reflexivity. cbn [fst].
  rewrite (containers_viable fin more) by (first [discriminate|reflexivity|assumption]).
  rewrite (viable_any ffunc f), (viable_any fin c0) by (first [rewrite H0; reflexivity|reflexivity]).
  unfold viable_param. cbn [accepts p_role p_form out]. rewrite Ho. rewrite !andb_true_r. reflexivity.
Qed.
Lemma t1_not_viable x f more : a_what f = Callable -> viable t1 (x :: f :: more) = false.
Proof.
  intros Hf. unfold viable, expand. cbn [t1 o_params o_pack length]. destruct (Nat.leb 3 _); [|reflexivity]. cbn [map app all2 fst].
  rewrite (not_viable out f) by (first [cbn; tauto|rewrite Hf; reflexivity]). rewrite andb_false_r. reflexivity.
Qed.

Lemma resolve_transform_ctx x f o c0 more : a_what f = Callable -> a_what o = Container -> a_what c0 = Container ->
  Forall (fun a => a_what a = Container) more ->
  resolve (overloads transform) (x :: f :: o :: c0 :: more) = if binds LRef x && binds LRef o then Some 0 else None.
Proof.
  intros Hf Ho H0 M. rewrite transform_overloads. unfold resolve. cbn [length seq combine filter snd fst].
  rewrite t0_viable, t1_not_viable by assumption. destruct (binds LRef x && binds LRef o); reflexivity.
Qed.

Lemma forms : (forall a, better_form Fwd Fwd a = false) /\ (forall a, better_form CRef Fwd a = false) /\
  (forall a, better_form LRef Fwd a = false) /\ (forall a, better_form Fwd LRef a = negb (a_lvalue a)) /\
  (forall a, better_form Fwd CRef a = negb (const_lvalueb a)).
Proof.
  split; [|split; [|split; [|split]]]; intros a; unfold better_form, const_lvalueb; destruct (a_lvalue a), (a_const a); reflexivity.
Qed.

Lemma resolve_transform f o c0 more : a_what f = Callable -> a_what o = Container -> a_what c0 = Container ->
  Forall (fun a => a_what a = Container) more -> a_lvalue o = true ->
  resolve (overloads transform) (f :: o :: c0 :: more) = if confusedb transform (f :: o :: c0 :: more) then None else Some 1.
Proof.
  intros Hf Ho H0 M Lo. destruct forms as (F1 & F2 & F3 & F4 & F5).
  rewrite transform_overloads. unfold resolve. cbn [length seq combine filter snd fst].
  rewrite t1_viable by assumption. cbn [binds]. rewrite Lo. cbn [orb].
  destruct more as [|c1 cs]; [reflexivity|]. inversion M as [|? ? H1 Ms]; subst.
  rewrite t0_viable by assumption. cbn [binds].
  assert (B01 : better t0 t1 (f :: o :: c0 :: c1 :: cs) = false).
  { unfold better, expand. cbn [t0 t1 o_params o_pack length Nat.leb map app Nat.sub]. rewrite !Nat.sub_0_r.
    cbn [repeat any3 p_form fst ffunc fin ctx out inp]. rewrite !any3_repeat by reflexivity. cbn [p_form fst fin inp].
    unfold more_specialised. cbn [all2].
    replace (at_least (ffunc, false) (out, false)) with false by reflexivity. cbn [andb]. rewrite !andb_false_r. cbn [andb].
    rewrite (existsb_false (fun a => better_form CRef Fwd a) cs F2), !F3, !F2. cbn [orb].
    replace (better_form Fwd LRef o) with false by (rewrite F4, Lo; reflexivity). cbn [orb]. apply andb_false_r. }
  assert (B10 : better t1 t0 (f :: o :: c0 :: c1 :: cs) =
                negb (a_lvalue f && a_lvalue c0 && forallb const_lvalueb (c1 :: cs))).
  { unfold better, expand. cbn [t0 t1 o_params o_pack length Nat.leb map app Nat.sub]. rewrite !Nat.sub_0_r.
    cbn [repeat any3 p_form fst ffunc fin ctx out inp]. rewrite !any3_repeat by reflexivity. cbn [p_form fst fin inp].
    unfold more_specialised. cbn [all2].
    replace (at_least (ffunc, false) (ctx, false)) with false by reflexivity. cbn [andb].
    rewrite (existsb_false (fun a => better_form CRef Fwd a) cs F2), !F3, !F2.
    replace (better_form Fwd LRef o) with false by (rewrite F4, Lo; reflexivity). cbn [orb negb andb].
    rewrite ?F4, ?F5, ?orb_false_r. cbn [orb forallb].
    replace (existsb (fun a => better_form Fwd CRef a) cs) with (negb (forallb const_lvalueb cs)).
    2:{ clear -F5. induction cs as [|a cs IH]; [reflexivity|]. cbn [existsb forallb]. rewrite F5, <- IH, negb_andb. reflexivity. }
    rewrite !negb_andb, orb_assoc. reflexivity. }
  unfold confusedb. unfold callableb. rewrite Hf. cbn [andb].
  destruct (a_lvalue f) eqn:Lf, (a_lvalue c0) eqn:L0; cbn [orb andb negb] in *.
  - cbn [filter forallb fst snd Nat.eqb orb]. rewrite B01, B10. cbn [forallb]. destruct (const_lvalueb c1 && _); reflexivity.
  - destruct (a_const c0); cbn [filter forallb fst snd Nat.eqb orb]; [rewrite B01, B10|]; reflexivity.
  - destruct (a_const f); cbn [filter forallb fst snd Nat.eqb orb andb]; [rewrite B01, B10|]; reflexivity.
  - destruct (a_const f), (a_const c0); cbn [filter forallb fst snd Nat.eqb orb andb]; [rewrite B01, B10| | |]; reflexivity.
Qed.

Lemma run_transform_ctx k x f o c0 more : binds LRef x = true -> binds LRef o = true -> (exists b, a_what x = Context b) ->
  a_what f = Callable -> a_what o = Container -> a_what c0 = Container -> Forall (fun a => a_what a = Container) more ->
  forall ids, call (S k) transform (x :: f :: o :: c0 :: more) ids = Ok [(transform, 0, Some (a_what x), ids)].
Proof.
  intros Bx Bo (b & Hx) Hf Ho H0 Fm ids. cbn [call]. rewrite resolve_transform_ctx, Bx, Bo by assumption.
  cbn [andb nth_error overloads expand o_params o_pack o_maps length Nat.leb]. rewrite Hx. reflexivity.
Qed.

Lemma transform_ctx_settled args : spelled t0 args -> settled transform 0 t0 args.
Proof.
  intros (fixed & more & -> & F & M). cbn [t0 o_params o_pack] in F, M.
  inversion F as [|? x ? ? Px F1]; subst. inversion F1 as [|? f ? ? Pf F2]; subst. inversion F2 as [|? o ? ? Po F3]; subst.
  inversion F3 as [|? c0 ? ? P0 F4]; subst. inversion F4; subst. clear F F1 F2 F3 F4. cbn [app].
  apply (plays_containers inp) in M; [|reflexivity].
  assert (Hx : exists b, a_what x = Context b) by (unfold plays in Px; cbn in Px; destruct (a_what x); try contradiction; eauto).
  pose proof (plays_what _ _ Pf ltac:(discriminate)) as Hf. pose proof (plays_what _ _ Po ltac:(discriminate)) as Ho.
  pose proof (plays_what _ _ P0 ltac:(discriminate)) as H0. cbn [p_role ffunc out inp] in Hf, Ho, H0.
  assert (Nc : ~ confused transform (x :: f :: o :: c0 :: more)).
  { cbn. intros [E _]. destruct Hx as (b & Hx). congruence. }
  assert (Ht : target transform (x :: f :: o :: c0 :: more) = Some o).
  { unfold target. destruct Hx as (b & Hx). cbn [filter]. rewrite Hx, Hf, Ho. reflexivity. }
  unfold settled. rewrite <- in_placeb_spec. unfold in_placeb. cbn [t0 o_params combine forallb fst snd p_form ctx ffunc out inp].
  change (a_lvalue x || a_const x) with (binds LRef x). change (a_lvalue o || a_const o) with (binds LRef o).
  destruct (binds LRef x) eqn:Bx, (binds LRef o) eqn:Bo; cbn [andb].
  - split; [|split; [intros N; exfalso; apply N; split; [reflexivity|exact Nc]|]].
    + intros _. eexists. split; [unfold run; apply run_transform_ctx; assumption|].
      split; [eexists _, _; split; reflexivity|]. constructor; [|constructor]. apply all_right. destruct Hx as (b & Hx). cbn. rewrite Hx. reflexivity.
    + intros a Ha [T1 T2]. exfalso. rewrite Ht in Ha. injection Ha as <-. cbn in Bo. rewrite T1, T2 in Bo. discriminate.
  - split; [intros [? _]; discriminate|]. assert (U : run 6 transform (x :: f :: o :: c0 :: more) = UB); [|split; intros; exact U].
    unfold run. cbn [call]. rewrite resolve_transform_ctx, Bx, Bo by assumption. reflexivity.
  - split; [intros [? _]; discriminate|]. assert (U : run 6 transform (x :: f :: o :: c0 :: more) = UB); [|split; intros; exact U].
    unfold run. cbn [call]. rewrite resolve_transform_ctx, Bx, Bo by assumption. reflexivity.
  - split; [intros [? _]; discriminate|]. assert (U : run 6 transform (x :: f :: o :: c0 :: more) = UB); [|split; intros; exact U].
    unfold run. cbn [call]. rewrite resolve_transform_ctx, Bx, Bo by assumption. reflexivity.
Qed.

Lemma transform_settled args : spelled t1 args -> settled transform 1 t1 args.
Proof.
  intros (fixed & more & -> & F & M). cbn [t1 o_params o_pack] in F, M.
  inversion F as [|? f ? ? Pf F1]; subst. inversion F1 as [|? o ? ? Po F2]; subst. inversion F2 as [|? c0 ? ? P0 F3]; subst.
  inversion F3; subst. clear F F1 F2 F3. cbn [app]. apply (plays_containers fin) in M; [|reflexivity].
  pose proof (plays_what _ _ Pf ltac:(discriminate)) as Hf. pose proof (plays_what _ _ Po ltac:(discriminate)) as Ho.
  pose proof (plays_what _ _ P0 ltac:(discriminate)) as H0. cbn [p_role ffunc out fin] in Hf, Ho, H0.
  assert (Ht : target transform (f :: o :: c0 :: more) = Some o).
  { unfold target. cbn [filter]. rewrite Hf, Ho. reflexivity. }
  unfold settled. rewrite <- in_placeb_spec, <- confusedb_spec, Ht. unfold in_placeb.
  cbn [t1 o_params combine forallb fst snd p_form ffunc out fin andb]. rewrite andb_true_r.
  destruct (a_lvalue o) eqn:Lo; cbn [orb].
  - pose proof (resolve_transform f o c0 more Hf Ho H0 M Lo) as R.
    destruct (confusedb transform (f :: o :: c0 :: more)).
    + split; [intros [_ N]; exfalso; apply N; reflexivity|].
      assert (U : run 6 transform (f :: o :: c0 :: more) = UB) by (unfold run; cbn [call]; rewrite R; reflexivity). split; intros; exact U.
    + split; [|split; [intros N; exfalso; apply N; split; [reflexivity|discriminate]|]].
      2:{ intros a Ha [T1 _]. injection Ha as <-. congruence. }
      intros _. set (args := f :: o :: c0 :: more). set (all := map Some (seq 0 (length args))).
      exists [(transform, 1, None, all); (transform, 0, Some (Context true), None :: all)].
      split; [|split; [eexists _, _; split; reflexivity|constructor; [apply all_right; exact I|constructor; [apply all_right; unfold asked, args; rewrite Hf; reflexivity|constructor]]]].
      unfold run. fold all. subst args. change 6 with (S (S 4)). remember (S 4) as k. cbn [call]. rewrite R.
      cbn [nth_error overloads expand o_params o_pack o_maps o_calls length Nat.leb bind map app fst snd flat_map argument Nat.sub].
      rewrite Nat.sub_0_r. cbn [skipn forwarded p_form ffunc fin]. rewrite combine_repeat, map_map. cbn [fst snd forwarded p_form fin].
      rewrite map_id, app_nil_r. subst k. rewrite run_transform_ctx; try assumption; try reflexivity; [|exists true; reflexivity].
      unfold all. cbn [length seq map flat_map objects nth_error o_params skipn app bind]. rewrite app_nil_r. reflexivity.
  - assert (Co : a_const o = false) by (unfold plays in Po; cbn in Po; rewrite Ho in Po; exact (Po Lo)). rewrite Co.
    split; [intros [? _]; discriminate|].
    assert (U : run 6 transform (f :: o :: c0 :: more) = UB); [|split; intros; exact U]. unfold run. cbn [call].
    assert (R : resolve (overloads transform) (f :: o :: c0 :: more) = None \/
                resolve (overloads transform) (f :: o :: c0 :: more) = Some 0).
    { rewrite transform_overloads. unfold resolve. cbn [length seq combine filter snd fst].
      rewrite t1_viable by assumption. cbn [binds]. rewrite Lo, Co. cbn [orb].
      destruct (viable t0 (f :: o :: c0 :: more)); [right|left]; reflexivity. }
    destruct R as [R|R]; rewrite R; [reflexivity|].
    cbn [nth_error overloads o_maps]. destruct (expand _ _); [|reflexivity]. rewrite Hf. reflexivity.
Qed.

Theorem calls_settled n i o args : nth_error (overloads n) i = Some o -> spelled o args -> settled n i o args.
Proof.
  intros Ho Sp. destruct (o_pack o) as [q|] eqn:Pk.
  - assert (K : (n = for_each /\ (i = 2 \/ i = 3)) \/ (n = transform /\ (i = 0 \/ i = 1))).
    { destruct n; cbn [overloads] in Ho;
        (do 9 (destruct i as [|i]; cbn [nth_error] in Ho;
          [try discriminate Ho; first [tauto|injection Ho as <-; cbn in Pk; discriminate Pk]|])); discriminate Ho. }
    destruct K as [[-> [-> | ->]] | [-> [-> | ->]]]; cbn in Ho; injection Ho as <-;
      [apply for_each_ctx_settled|apply for_each_settled|apply transform_ctx_settled|apply transform_settled]; exact Sp.
  - destruct Sp as (fixed & more & -> & F & M). rewrite Pk in M. subst more. rewrite app_nil_r.
    apply fixed_settled; assumption.
Qed.

(** ** More fuel *)
Lemma call_more k : forall n args ids r, call k n args ids = r -> r <> NoFuel -> call (S k) n args ids = r.
Proof.
  induction k as [|k IH]; intros n args ids r E N; [cbn in E; congruence|].
  remember (S k) as k1. cbn [call]. subst k1. cbn [call] in E.
  destruct (resolve (overloads n) args) as [i|]; [|exact E].
  destruct (nth_error (overloads n) i) as [o|]; [|exact E].
  destruct (expand o (length args)) as [ps|]; [|exact E].
  destruct (if o_maps o then _ else _) as [u| | |]; cbn [bind] in E |- *; try exact E.
  match type of E with bind (?g ?cs) _ = _ => set (G := g) in E end.
  match goal with |- bind (?g ?cs) _ = _ => set (H := g) end.
  assert (L : forall cs, G cs <> NoFuel -> H cs = G cs).
  { induction cs as [|c cs IHc]; intros D; [reflexivity|].
    change (G (c :: cs)) with (s <- call k (fst c) (flat_map (argument o ps args) (snd c)) (flat_map (objects o ids) (snd c)) ;; ss <- G cs ;; Ok (s ++ ss)) in D |- *.
    change (H (c :: cs)) with (s <- call (S k) (fst c) (flat_map (argument o ps args) (snd c)) (flat_map (objects o ids) (snd c)) ;; ss <- H cs ;; Ok (s ++ ss)).
    destruct (call k (fst c) (flat_map (argument o ps args) (snd c)) (flat_map (objects o ids) (snd c))) eqn:E1; cbn [bind] in D |- *;
      try (rewrite (IH _ _ _ _ E1) by discriminate; cbn [bind]); [|reflexivity|reflexivity|congruence].
    rewrite IHc; [reflexivity|]. intros Z. rewrite Z in D. apply D. reflexivity. }
  rewrite L; [exact E|]. intros Z. rewrite Z in E. apply N. symmetry. exact E.
Qed.
Lemma run_enough k n args r : run 6 n args = r -> r <> NoFuel -> 6 <= k -> run k n args = r.
Proof. intros E N. induction 1 as [|k _ IH]; [exact E|]. apply call_more; assumption. Qed.

Lemma calls_reach n i o args : nth_error (overloads n) i = Some o -> spelled o args -> in_place o args -> ~ confused n args ->
  exists tr, reached n i args tr /\ forall fuel, 6 <= fuel -> run fuel n args = Ok tr.
Proof.
  intros Ho Sp Pl Nc. destruct (calls_settled n i o args Ho Sp) as [H _]. destruct (H (conj Pl Nc)) as (tr & E & R).
  exists tr. split; [exact R|]. intros fuel. apply run_enough; [exact E|discriminate].
Qed.
Lemma calls_rejected n i o args fuel : nth_error (overloads n) i = Some o -> spelled o args ->
  ~ in_place o args \/ confused n args -> 6 <= fuel -> run fuel n args = UB.
Proof.
  intros Ho Sp D. destruct (calls_settled n i o args Ho Sp) as (_ & H & _).
  apply run_enough; [|discriminate]. apply H. tauto.
Qed.

Lemma target_rejected n i o args a fuel : nth_error (overloads n) i = Some o -> spelled o args -> target n args = Some a ->
  temporary a -> 6 <= fuel -> run fuel n args = UB.
Proof.
  intros Ho Sp Ha Ta. destruct (calls_settled n i o args Ho Sp) as (_ & _ & H).
  apply run_enough; [|discriminate]. exact (H a Ha Ta).
Qed.

Lemma with_context n i o x args : nth_error (overloads n) i = Some o -> spelled o (x :: args) -> (exists b, a_what x = Context b) ->
  in_place o (x :: args) -> exists tr, reached n i (x :: args) tr /\ forall fuel, 6 <= fuel -> run fuel n (x :: args) = Ok tr.
Proof.
  intros Ho Sp (b & Hx) Pl. apply (calls_reach n i o); try assumption. assert (Nx : a_what x <> Callable) by congruence.
  destruct n; cbn; try tauto; destruct args as [|y [|z [|w args]]]; tauto.
Qed.
Lemma no_calls_confused n args : confused n args -> n = for_each \/ n = transform.
Proof. destruct n; cbn; tauto. Qed.

Lemma for_each_named f c0 c1 cs fuel : a_what f = Callable -> a_lvalue f = true -> Forall is_container (c0 :: c1 :: cs) ->
  6 <= fuel -> run fuel for_each (f :: c0 :: c1 :: cs) = UB.
Proof.
  intros Hf Lf Fc. inversion Fc as [|? ? H0 Fc1]; subst.
  apply (calls_rejected for_each 3 _ _ fuel eq_refl); [|right; cbn; auto].
  exists [f; c0], (c1 :: cs). split; [reflexivity|]. cbn [o_params o_pack overloads]. split.
  - repeat constructor; unfold plays; cbn; rewrite ?Hf, ?H0; exact I.
  - eapply Forall_impl; [|exact Fc1]. intros a Ha. unfold plays. cbn. rewrite Ha. exact I.
Qed.
Lemma for_each_temporary f c0 cs : a_what f = Callable -> a_lvalue f = false \/ cs = [] -> Forall is_container (c0 :: cs) ->
  exists tr, reached for_each 3 (f :: c0 :: cs) tr /\ forall fuel, 6 <= fuel -> run fuel for_each (f :: c0 :: cs) = Ok tr.
Proof.
  intros Hf Lf Fc. inversion Fc as [|? ? H0 Fc1]; subst.
  eapply (calls_reach for_each 3 _ _ eq_refl).
  - exists [f; c0], cs. split; [reflexivity|]. cbn [o_params o_pack overloads]. split.
    + repeat constructor; unfold plays; cbn; rewrite ?Hf, ?H0; exact I.
    + eapply Forall_impl; [|exact Fc1]. intros a Ha. unfold plays. cbn. rewrite Ha. exact I.
  - intros [|[|i]] p a Hp; cbn in Hp; try (injection Hp as <-; intros; discriminate). destruct i; discriminate.
  - destruct cs as [|c1 cs]; cbn; [tauto|]. destruct Lf as [Lf|Lf]; [rewrite Lf; intros [_ ?]; discriminate|discriminate].
Qed.
