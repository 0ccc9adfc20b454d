From Coq Require Import ZArith List Bool Lia.
From Verif Require Import Outcome CInt CIntFacts Spec SpecFacts ShapeSpec Shape ShapeFacts ShapeFacts2 ForEach ForEachFacts Memory MemFacts
  Container ContainerSpec ContainerFacts ContainerFacts2 ContainerFacts3 AlgoSpec Algo AlgoFacts AlgoFacts4 ReverseFacts Search SearchSpec SearchFacts Program
  Threads ThreadsSpec ThreadsFacts.
Import ListNotations.
Open Scope Z_scope.

(** ** Footprints, with what is known of the result *)
Inductive foot {T A} (R W : ptr -> Prop) (Q : A -> Prop) : act T A -> Prop :=
| foot_stop o : (forall a, o = Ok a -> Q a) -> foot R W Q (Stop o)
| foot_mk p k : foot R W Q k -> foot R W Q (Mk p k)
| foot_ld p k : R p \/ W p -> (forall v, foot R W Q (k v)) -> foot R W Q (Ld p k)
| foot_st p v k : W p -> foot R W Q k -> foot R W Q (St p v k).

Lemma foot_touches {T A} R W Q (x : act T A) : foot R W Q x -> touches R W x.
Proof. induction 1; constructor; auto. Qed.
Lemma foot_bind {T A B} R W (Q : A -> Prop) (Q' : B -> Prop) (x : act T A) f : foot R W Q x -> (forall a, Q a -> foot R W Q' (f a)) ->
  foot R W Q' (abind x f).
Proof.
  intros H F. induction H; cbn [abind].
  - destruct o; [apply F, H; reflexivity|constructor; discriminate..].
  - constructor; auto.
  - constructor; auto.
  - constructor; auto.
Qed.
Lemma foot_weaken {T A} (R W : ptr -> Prop) (Q Q' : A -> Prop) (x : act T A) : (forall a, Q a -> Q' a) -> foot R W Q x -> foot R W Q' x.
Proof. intros H F. induction F; constructor; auto. Qed.
Definition any {A} (a : A) : Prop := True.
Lemma foot_any {T A} (R W : ptr -> Prop) (o : outcome A) : @foot T A R W any (Stop o).
Proof. constructor. intros. exact I. Qed.
Lemma foot_ret {T A} (R W : ptr -> Prop) (a : A) : @foot T A R W any (ret a).
Proof. apply foot_any. Qed.
Lemma foot_load {T} (R W : ptr -> Prop) p : R p \/ W p -> @foot T T R W any (aload p).
Proof. intros H. constructor; [exact H|]. intros v. apply foot_ret. Qed.
Lemma foot_store {T} (R W : ptr -> Prop) p (v : T) : W p -> foot R W any (astore p v).
Proof. intros H. constructor; [exact H|]. apply foot_ret. Qed.
Lemma foot_stop_bind {T A B} R W (Q : B -> Prop) (o : outcome A) (f : A -> act T B) : (forall a, o = Ok a -> foot R W Q (f a)) ->
  foot R W Q (abind (Stop o) f).
Proof. intros H. destruct o; cbn [abind]; [apply H; reflexivity|constructor; discriminate..]. Qed.

(** ** Loops *)
Lemma foot_loop {T S} R W M (body : cint -> S -> act T S) : wfc M -> (forall z s, 0 <= z < cval M -> foot R W any (body (CI (cty M) z) s)) ->
  forall fuel z s, 0 <= z <= cval M -> foot R W any (aloop fuel M (CI (cty M) z) body s).
Proof.
  intros Wm H. induction fuel as [|fuel IH]; intros z s Hz; cbn [aloop]; [apply foot_any|].
  assert (Wz : wfc (CI (cty M) z)) by (unfold wfc in *; simpl; eapply in_ty_shrink; [exact Wm|lia]).
  rewrite clt_exact; [|exact Wz|exact Wm|right; simpl; lia]. cbn [cval].
  destruct (Z.ltb_spec z (cval M)); [|apply foot_ret]. eapply foot_bind; [apply H; lia|]. intros s' _.
  rewrite cincr_exact; [|exact Wz|unfold wfc, in_ty in Wm; simpl; lia|simpl; lia]. cbn [cval cty]. apply IH. lia.
Qed.
Lemma foot_loop_until {T S} R W M (body : cint -> bool * S -> act T (bool * S)) : wfc M ->
  (forall z s, 0 <= z < cval M -> foot R W any (body (CI (cty M) z) s)) ->
  forall fuel z s, 0 <= z <= cval M -> foot R W any (aloop_until fuel M (CI (cty M) z) body s).
Proof.
  intros Wm H. induction fuel as [|fuel IH]; intros z s Hz; cbn [aloop_until]; [apply foot_any|].
  assert (Wz : wfc (CI (cty M) z)) by (unfold wfc in *; simpl; eapply in_ty_shrink; [exact Wm|lia]).
  rewrite clt_exact; [|exact Wz|exact Wm|right; simpl; lia]. cbn [cval].
  destruct (negb (fst s)); [|apply foot_ret]. cbn [andb].
  destruct (Z.ltb_spec z (cval M)); [|apply foot_ret]. eapply foot_bind; [apply H; lia|]. intros s' _.
  rewrite cincr_exact; [|exact Wz|unfold wfc, in_ty in Wm; simpl; lia|simpl; lia]. cbn [cval cty]. apply IH. lia.
Qed.

Lemma typed_coords ds : wfs ds -> forall js, Forall2 (fun d j => cty j = cty d /\ 0 <= cval j < cval d) ds js ->
  wfs js /\ map cty js = map cty ds /\ in_box (vals ds) (vals js).
Proof.
  intros Wd js H. induction H as [|d j ds js (E & B) H IH]; [repeat split; constructor|].
  inversion Wd as [|? ? W1 W2]; subst. destruct (IH W2) as (A1 & A2 & A3). split; [|split].
  - constructor; [|exact A1]. unfold wfc in *. rewrite E. eapply in_ty_shrink; [exact W1|lia].
  - simpl. congruence.
  - constructor; assumption.
Qed.

Definition typed_in (ds js : list cint) : Prop := wfs js /\ map cty js = map cty ds /\ in_box (vals ds) (vals js).
Lemma typed_in_cons M ds z js : wfc M -> 0 <= z < cval M -> typed_in ds js -> typed_in (M :: ds) (CI (cty M) z :: js).
Proof.
  intros Wm Hz (A1 & A2 & A3). split; [|split].
  - constructor; [|exact A1]. unfold wfc in *. cbn [cty cval]. eapply in_ty_shrink; [exact Wm|lia].
  - simpl. congruence.
  - constructor; assumption.
Qed.

Lemma foot_for_each {T S} R W ds (f : list cint -> S -> act T S) s : wfs ds -> nonnegs (vals ds) ->
  (forall js s, typed_in ds js -> foot R W any (f js s)) -> foot R W any (afor_each ds f s).
Proof.
  intros Wd Nn H. unfold afor_each.
  enough (G : forall is_ s, (forall js s, typed_in ds js -> foot R W any (f (is_ ++ js) s)) ->
    foot R W any (pile (fun acc m => fun is_ s => aloop (fuel_of m) m (CI (cty m) 0) (fun i => acc (is_ ++ [i])) s) ds f is_ s)).
  { apply (G []). exact H. }
  clear s H. induction ds as [|M ds IH]; intros is_ s H; cbn [pile fold_right].
  - specialize (H [] s). rewrite app_nil_r in H. apply H. repeat split; constructor.
  - inversion Wd; inversion Nn; subst. apply foot_loop; [assumption| |lia]. intros z s' Hz.
    apply IH; try assumption. intros js s'' Hj. rewrite <- app_assoc. apply H, typed_in_cons; assumption.
Qed.
Lemma foot_for_until {T S} R W ds (f : list cint -> S -> act T (bool * S)) s : wfs ds -> nonnegs (vals ds) ->
  (forall js s, typed_in ds js -> foot R W any (f js s)) -> foot R W any (afor_until ds f s).
Proof.
  intros Wd Nn H. unfold afor_until.
  enough (G : forall is_ s, (forall js s, typed_in ds js -> foot R W any (f (is_ ++ js) s)) ->
    foot R W any (pile (fun acc m => fun is_ s => aloop_until (fuel_of m) m (CI (cty m) 0) (fun i => acc (is_ ++ [i])) s)
      ds (fun is_ fs => f is_ (snd fs)) is_ s)).
  { apply (G []). exact H. }
  clear s H. induction ds as [|M ds IH]; intros is_ s H; cbn [pile fold_right].
  - specialize (H [] (snd s)). rewrite app_nil_r in H. apply H. repeat split; constructor.
  - inversion Wd; inversion Nn; subst. apply foot_loop_until; [assumption| |lia]. intros z s' Hz.
    apply IH; try assumption. intros js s'' Hj. rewrite <- app_assoc. apply H, typed_in_cons; assumption.
Qed.

(** ** References *)
Lemma foot_aref {T} R W c0 c js : in_reach c0 c -> typed_in (c_shape c0) js -> @foot T ptr R W (fun p => p = elem c (vals js)) (aref c js).
Proof.
  intros (A & C) (W1 & T1 & B1). unfold aref. apply foot_stop_bind. intros p E. constructor. constructor.
  intros q Eq. injection Eq as <-. rewrite elem_address in E; [congruence| |exact W1|apply C; exact B1]. rewrite T1. exact A.
Qed.
Lemma foot_arefs {T} R W c0 js cs : Forall (in_reach c0) cs -> typed_in (c_shape c0) js ->
  @foot T (list ptr) R W (fun ps => ps = map (fun c => elem c (vals js)) cs) (amapM (fun c => aref c js) cs).
Proof.
  intros H Tj. induction H as [|c cs Hc H IH]; cbn [amapM map]; [constructor; intros a E; congruence|].
  eapply foot_bind; [eapply foot_aref; eassumption|]. intros p ->.
  eapply foot_bind; [exact IH|]. intros ps ->. constructor. intros a E. congruence.
Qed.
Lemma reach_wf c0 : in_reach c0 c0 -> wfs (c_shape c0) /\ nonnegs (vals (c_shape c0)).
Proof. intros (((W1 & N1 & _) & _) & _). split; assumption. Qed.

Lemma foot_amap {T S} R W (f : list ptr -> S -> act T S) c0 cs s : Forall (in_reach c0) (c0 :: cs) ->
  (forall is_ s, in_box (dims c0) is_ -> foot R W any (f (map (fun c => elem c is_) (c0 :: cs)) s)) -> foot R W any (amap f c0 cs s).
Proof.
  intros H F. pose proof H as H0. inversion H0 as [|? ? Hc _]; subst. destruct (reach_wf c0 Hc) as [W1 N1]. unfold amap.
  apply foot_for_each; [exact W1|exact N1|]. intros js s' Tj. eapply foot_bind; [eapply foot_arefs; eassumption|].
  intros ps ->. apply F. apply Tj.
Qed.
Lemma foot_amap_index {T S} R W (f : ptr -> list cint -> S -> act T S) c s : in_reach c c ->
  (forall js s, in_box (dims c) (vals js) -> foot R W any (f (elem c (vals js)) js s)) -> foot R W any (amap_index f c s).
Proof.
  intros H F. destruct (reach_wf c H) as [W1 N1]. unfold amap_index.
  apply foot_for_each; [exact W1|exact N1|]. intros js s' Tj. eapply foot_bind; [eapply foot_aref; eassumption|].
  intros p ->. apply F. apply Tj.
Qed.
Lemma foot_loads {T} R W ps : (forall p, In p ps -> R p \/ W p) -> @foot T (list T) R W any (amapM aload ps).
Proof.
  induction ps as [|p ps IH]; intros H; cbn [amapM]; [apply foot_ret|]. eapply foot_bind; [apply foot_load, H; left; reflexivity|].
  intros v _. eapply foot_bind; [apply IH; intros q Hq; apply H; right; exact Hq|]. intros vs _. apply foot_ret.
Qed.

Lemma here c0 c is_ : in_box (dims c0) is_ -> elements c0 c (elem c is_).
Proof. intros B. exists is_. split; [exact B|reflexivity]. Qed.
Lemma here_in c0 cs c is_ : In c cs -> in_box (dims c0) is_ -> elements_of c0 cs (elem c is_).
Proof. intros H B. exists c. split; [exact H|apply here; exact B]. Qed.

Lemma foot_call {S T} (R W : ptr -> Prop) ws n (e : elem_fun S T) ps : writes_only n ws e ->
  (forall i p, nth_error ps i = Some p -> (R p \/ W p) /\ (ws i -> W p)) -> foot R W any (acall e ps).
Proof.
  intros H F. induction H as [s|i k L H IH|i v k L Wi H IH]; cbn [acall]; [apply foot_ret| |].
  - destruct (nth_error ps i) as [p|] eqn:E; [|apply foot_any]. destruct (F i p E). constructor; auto.
  - destruct (nth_error ps i) as [p|] eqn:E; [|apply foot_any]. destruct (F i p E). constructor; auto.
Qed.

Ltac steps := repeat first
  [ apply foot_ret
  | apply foot_any
  | apply foot_store
  | apply foot_load
  | match goal with |- context [if ?b then _ else _] => destruct b end
  | eapply foot_bind; [|intros ? _] ].
Ltac homes := first [ apply here; assumption | right; apply here; assumption | left; apply here; assumption
  | left; apply here_in; [simpl; tauto|assumption] ].
Ltac reaches := repeat (apply Forall_cons; [assumption|]); apply Forall_nil.

Section Feet.
  Context {T : Type}.
  Lemma ft_for_each {S} ws (f : S -> elem_fun S T) c0 cs s : Forall (in_reach c0) (c0 :: cs) ->
    (forall s, writes_only (length (c0 :: cs)) ws (f s)) ->
    touches (elements_of c0 (c0 :: cs)) (written ws c0 (c0 :: cs)) (a_for_each f c0 cs s).
  Proof.
    intros H F. eapply foot_touches. apply foot_amap; [exact H|]. intros is_ s' B. eapply foot_call; [apply F|].
    intros i p E. rewrite nth_error_map in E. destruct (nth_error (c0 :: cs) i) as [c|] eqn:Ec; [|discriminate]. injection E as <-.
    split; [left; apply here_in; [eapply nth_error_In; exact Ec|exact B]|]. intros Wi. exists i, c. split; [exact Wi|]. split; [exact Ec|].
    apply here. exact B.
  Qed.
  Lemma ft_for_each_index {S} (f : S -> list Z -> elem_fun S T) c s : in_reach c c ->
    touches nothing (elements c c) (a_for_each_index f c s).
  Proof.
    intros H. eapply foot_touches. apply foot_amap_index; [exact H|]. intros js s' B.
    generalize (f s' (map cval js)). induction e as [x|i k IH|i v k IH]; cbn [acall]; [apply foot_ret| |].
    - destruct (nth_error [elem c (vals js)] i) as [p|] eqn:E; [|apply foot_any]. apply nth_error_In in E. destruct E as [<-|[]].
      constructor; [right; apply here; exact B|exact IH].
    - destruct (nth_error [elem c (vals js)] i) as [p|] eqn:E; [|apply foot_any]. apply nth_error_In in E. destruct E as [<-|[]].
      constructor; [apply here; exact B|exact IH].
  Qed.
  Lemma ft_transform (f : list T -> T) out c0 cs : Forall (in_reach out) (out :: c0 :: cs) ->
    touches (elements_of out (c0 :: cs)) (elements out out) (a_transform f out c0 cs).
  Proof.
    intros H. eapply foot_touches. apply foot_amap; [exact H|]. intros is_ s B. cbn [map]. eapply foot_bind.
    - apply foot_loads. intros p Hp. left. change (elem c0 is_ :: map (fun c => elem c is_) cs) with (map (fun c => elem c is_) (c0 :: cs)) in Hp.
      apply in_map_iff in Hp as (c & <- & Hc). apply here_in; assumption.
    - intros vs _. apply foot_store, here. exact B.
  Qed.
  Lemma ft_copy out in_ : in_reach out out -> in_reach out in_ -> touches (elements out in_) (elements out out) (@a_copy T out in_).
  Proof. intros H1 H2. eapply foot_touches. apply foot_amap; [reaches|]. intros is_ s B. cbn [map]. steps; homes. Qed.
  Lemma ft_copy_if f out in_ : in_reach out out -> in_reach out in_ -> touches (elements out in_) (elements out out) (@a_copy_if T f out in_).
  Proof. intros H1 H2. eapply foot_touches. apply foot_amap; [reaches|]. intros is_ s B. cbn [map]. steps; homes. Qed.
  Lemma ft_fill out v : in_reach out out -> touches nothing (elements out out) (@a_fill T out v).
  Proof. intros H1. eapply foot_touches. apply foot_amap; [reaches|]. intros is_ s B. cbn [map]. steps; homes. Qed.
  Lemma ft_generate f out : in_reach out out -> touches nothing (elements out out) (@a_generate T f out).
  Proof. intros H1. eapply foot_touches. apply foot_amap_index; [exact H1|]. intros js s B. steps; homes. Qed.
  Lemma ft_replace_if out f v : in_reach out out -> touches nothing (elements out out) (@a_replace_if T out f v).
  Proof. intros H1. eapply foot_touches. apply foot_amap; [reaches|]. intros is_ s B. cbn [map]. steps; homes. Qed.
  Lemma fo_reduce {A} (R W : ptr -> Prop) in_ (f : A -> T -> A) init : in_reach in_ in_ -> (forall p, elements in_ in_ p -> R p) -> foot R W any (a_reduce in_ f init).
  Proof. intros H1 H. apply foot_amap; [reaches|]. intros is_ s B. cbn [map]. steps. left. apply H, here. exact B. Qed.
  Lemma ft_reduce {A} in_ (f : A -> T -> A) init : in_reach in_ in_ -> touches (elements in_ in_) nothing (a_reduce in_ f init).
  Proof. intros H1. eapply foot_touches. apply fo_reduce; auto. Qed.
  Lemma ft_transform_reduce {A B} in1 in2 (init : A) (R : A -> B -> A) (f : T -> T -> B) : in_reach in1 in1 -> in_reach in1 in2 ->
    touches (elements_of in1 [in1; in2]) nothing (a_transform_reduce in1 in2 init R f).
  Proof. intros H1 H2. eapply foot_touches. apply foot_amap; [reaches|]. intros is_ s Bx. cbn [map]. steps; homes. Qed.
  Lemma ft_inner_product {A B} dbg in1 in2 (init : A) (R : A -> B -> A) (f : T -> T -> B) : in_reach in1 in1 -> in_reach in1 in2 ->
    touches (elements_of in1 [in1; in2]) nothing (a_inner_product dbg in1 in2 init R f).
  Proof. intros H1 H2. unfold a_inner_product. destruct (kassert dbg _); [apply ft_transform_reduce; assumption|constructor..]. Qed.
  Lemma ft_exclusive {B} in_ out (init : T) (f1 : T -> B -> T) f2 : in_reach in_ in_ -> in_reach in_ out ->
    touches (elements in_ in_) (elements in_ out) (a_exclusive_scan in_ out init f1 f2).
  Proof.
    intros H1 H2. eapply foot_touches. eapply foot_bind; [|intros ? _; apply foot_ret].
    apply foot_amap; [reaches|]. intros is_ s Bx. cbn [map]. steps; homes.
  Qed.
  Lemma ft_inclusive {B} in_ out (init : T) (f1 : T -> B -> T) f2 : in_reach in_ in_ -> in_reach in_ out ->
    touches (elements in_ in_) (elements in_ out) (a_inclusive_scan in_ out init f1 f2).
  Proof.
    intros H1 H2. eapply foot_touches. eapply foot_bind; [|intros ? _; apply foot_ret].
    apply foot_amap; [reaches|]. intros is_ s Bx. cbn [map]. steps; homes.
  Qed.
  Lemma fo_find_if (R W : ptr -> Prop) c (f : T -> bool) : in_reach c c -> (forall p, elements c c p -> R p) -> foot R W any (a_find_if c f).
  Proof.
    intros H HR. destruct (reach_wf c H) as [W1 N1]. unfold a_find_if. eapply foot_bind; [|intros ? _; apply foot_ret].
    apply foot_for_until; [exact W1|exact N1|]. intros js s Tj. eapply foot_bind; [eapply foot_aref; eassumption|].
    intros p ->. steps. left. apply HR, here. apply Tj.
  Qed.
  Lemma ft_find_if c (f : T -> bool) : in_reach c c -> touches (elements c c) nothing (a_find_if c f).
  Proof. intros H. eapply foot_touches. apply fo_find_if; auto. Qed.
  Lemma ft_find_first_of eqb c vs : in_reach c c -> in_reach vs vs ->
    touches (fun p => elements c c p \/ elements vs vs p) nothing (@a_find_first_of T eqb c vs).
  Proof.
    intros H H2. eapply foot_touches. destruct (reach_wf c H) as [W1 N1]. unfold a_find_first_of. eapply foot_bind; [|intros ? _; apply foot_ret].
    apply foot_for_until; [exact W1|exact N1|]. intros js s Tj. eapply foot_bind; [eapply foot_aref; eassumption|].
    intros p ->. eapply foot_bind; [apply foot_load; left; left; apply here; apply Tj|]. intros e _.
    eapply foot_bind; [apply fo_reduce; [exact H2|intros; right; assumption]|]. intros b _. steps.
  Qed.
  Lemma ft_find_last_if st c (f : T -> bool) : default_layout c -> Forall (fun n => cty n <> U32) (c_shape c) ->
    touches (elements c c) nothing (a_find_last_if st c f).
  Proof.
    intros D S. eapply foot_touches. destruct (reverse_typed_l st c D S) as (rc & Er & Sh & Ad). unfold a_find_last_if. rewrite Er. cbn [abind].
    pose proof D as (Lg & _ & _). pose proof Lg as (Wf & Nn & _).
    assert (Ty32 : forall is_, map cty is_ = map cty (c_shape c) -> Forall (fun i => cty i <> U32) is_).
    { intros is_ E. revert E. clear -S. revert is_. induction S as [|n s Hn S IH];
        intros [|i is_] E; try discriminate; constructor; cbn in E; [congruence|]. apply IH. congruence. }
    eapply foot_bind.
    - unfold a_find_if. eapply foot_bind; [|intros ? _; apply foot_ret]. rewrite Sh.
      apply foot_for_until; [exact Wf|exact Nn|]. intros js s (W1 & T1 & B1).
      apply (foot_bind _ _ (fun p => p = elem c (mirror_coord (dims c) (vals js)))).
      + unfold aref. apply foot_stop_bind. intros p E. constructor. constructor. intros q Eq. injection Eq as <-.
        rewrite Ad in E; [congruence|split; assumption|apply Ty32; exact T1].
      + intros p ->. steps. left. apply here, mirror_box. exact B1.
    - intros [pos|] _; [|apply foot_ret]. apply foot_stop_bind. intros ps _. apply foot_ret.
  Qed.

  (** Bisection. *)
  Lemma fo_get c js : addressable c (map cty js) -> wfs js -> in_box (dims c) (vals js) ->
    @foot T T (elements c c) nothing any (aget c js).
  Proof.
    intros A W1 B. unfold aget, aref. rewrite elem_address by assumption. cbn [abind ret]. constructor. constructor; [left; apply here; exact B|].
    intros v. apply foot_ret.
  Qed.
  Definition same_point (c : container) (r : cint * cint) : Prop := exists x, 0 <= x <= prod (dims c) /\ r = (int x, int x).
  Lemma fo_bisect dbg (cond : T -> bool) c : bisectable c -> forall fuel count first it, 0 <= first -> 0 <= count ->
    first + count <= prod (dims c) -> (count = 0 -> it = int first) ->
    foot (elements c c) nothing (same_point c) (abisect dbg cond c fuel (int count) (int first) it).
  Proof.
    intros (Lg & Ne & Ad). pose proof (N_small c Lg) as Ns.
    assert (Z0 : forall count first it, 0 <= first -> first + count <= prod (dims c) -> 0 <= count <= 0 -> (count = 0 -> it = int first) ->
      @foot T _ (elements c c) nothing (same_point c) (ret (int first, it))).
    { intros count first it Hf Hn Hc Hi. assert (count = 0) by lia. subst count. rewrite (Hi eq_refl). constructor. intros a E. injection E as <-.
      exists first. split; [lia|reflexivity]. }
    induction fuel as [|fuel IH]; intros count first it Hf Hc Hn Hi; cbn [abisect]; rewrite lt_int by lia;
      (destruct (Z.ltb_spec 0 count) as [Hp|Hp]; [|apply (Z0 count); auto; lia]); [constructor; discriminate|].
    rewrite half by lia. cbn [abind].
    assert (Hh : 0 <= count / 2 < count) by (split; [apply Z.div_pos; lia|apply Z.div_lt; lia]).
    assert (H2 : count / 2 = 0 -> count = 1) by (intros E2; pose proof (Z.div_mod count 2 ltac:(lia)); pose proof (Z.mod_pos_bound count 2 ltac:(lia)); lia).
    set (step := count / 2) in *.
    rewrite plus by lia. cbn [abind].
    destruct (pos_at (T := T) dbg c [] Lg Ne Ad (first + step)) as (pos & Ep & _ & Wp & Tp & Bp & _); [lia|]. rewrite Ep. cbn [abind].
    eapply foot_bind; [apply fo_get; [rewrite Tp; exact Ad|exact Wp|exact Bp]|]. intros e _. destruct (cond e).
    - rewrite incr by lia. cbn [abind]. rewrite plus by lia. cbn [abind]. rewrite minus by lia. cbn [abind]. apply IH; try lia. reflexivity.
    - apply IH; try lia. intros E. rewrite E. f_equal. lia.
  Qed.
  Lemma fo_bound dbg c : bisectable c -> forall r, same_point c r ->
    @foot T _ (elements c c) nothing (safe_pos c) (Stop (bound_result dbg c (int (prod (dims c))) r)).
  Proof.
    intros (Lg & Ne & Ad) r (x & Hx & ->). pose proof (N_small c Lg) as Ns. constructor. unfold bound_result. cbn [fst snd].
    rewrite lt_int by lia. destruct (Z.ltb_spec x (prod (dims c))); [|intros a E; injection E as <-; exact I].
    destruct (pos_at (T := T) dbg c [] Lg Ne Ad x) as (pos & Ep & _ & Wp & Tp & Bp & _); [lia|]. rewrite Ep. cbn [bind].
    intros a E. injection E as <-. split; [exact Tp|]. split; assumption.
  Qed.
  Lemma fo_lower dbg func c (v : T) : bisectable c -> foot (elements c c) nothing (safe_pos c) (a_lower_bound dbg func c v).
  Proof.
    intros H. pose proof H as (Lg & Ne & Ad). pose proof (N_small c Lg) as Ns. unfold a_lower_bound. rewrite (numel_N c Lg Ne). cbn [abind].
    destruct (ceqb _ _); [constructor; intros a E; injection E as <-; exact I|].
    eapply foot_bind; [apply fo_bisect; [exact H|lia|lia|lia|reflexivity]|]. intros r Hr. apply fo_bound; assumption.
  Qed.
  Lemma ft_lower dbg func c (v : T) : bisectable c -> touches (elements c c) nothing (a_lower_bound dbg func c v).
  Proof. intros H. eapply foot_touches, fo_lower, H. Qed.
  Lemma ft_upper dbg func c (v : T) : bisectable c -> touches (elements c c) nothing (a_upper_bound dbg func c v).
  Proof.
    intros H. eapply foot_touches. pose proof H as (Lg & Ne & Ad). pose proof (N_small c Lg) as Ns. unfold a_upper_bound.
    rewrite (numel_N c Lg Ne). cbn [abind].
    eapply foot_bind; [apply fo_bisect; [exact H|lia|lia|lia|reflexivity]|]. intros r Hr. apply fo_bound; assumption.
  Qed.
  Lemma ft_search dbg func c (v : T) : bisectable c -> touches (elements c c) nothing (a_binary_search dbg func c v).
  Proof.
    intros H. eapply foot_touches. unfold a_binary_search. eapply foot_bind; [apply fo_lower; exact H|].
    intros [pos|] Hp; [|apply foot_ret]. destruct Hp as (Tp & Wp & Bp). destruct H as (_ & _ & Ad).
    eapply foot_bind; [apply fo_get; [rewrite Tp; exact Ad|exact Wp|exact Bp]|]. intros e _. apply foot_ret.
  Qed.
  Lemma ft_get c js : addressable c (map cty js) -> coord_of c js ->
    touches (fun p => p = elem c (vals js)) nothing (@aget T c js).
  Proof.
    intros A [W1 B]. unfold aget, aref. rewrite elem_address by assumption. cbn [abind ret]. constructor. constructor; [left; reflexivity|].
    intros v. constructor.
  Qed.
  Lemma ft_put c js (v : T) : addressable c (map cty js) -> coord_of c js ->
    touches nothing (fun p => p = elem c (vals js)) (aput c js v).
  Proof.
    intros A [W1 B]. unfold aput, aref. rewrite elem_address by assumption. cbn [abind ret]. constructor. constructor; [reflexivity|constructor].
  Qed.
End Feet.
Lemma ft_iota {et} out v : in_reach out out -> touches nothing (elements out out) (@a_iota et out v).
Proof.
  intros H1. eapply foot_touches. eapply foot_bind; [|intros ? _; apply foot_ret].
  apply foot_amap; [reaches|]. intros is_ s Bx. cbn [map]. steps; homes.
Qed.
Lemma ft_iota_step {et} out v w : in_reach out out -> touches nothing (elements out out) (@a_iota_step et out v w).
Proof.
  intros H1. eapply foot_touches. eapply foot_bind; [|intros ? _; apply foot_ret].
  apply foot_amap; [reaches|]. intros is_ s Bx. cbn [map]. steps; homes.
Qed.
