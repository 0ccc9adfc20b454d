From Coq Require Import ZArith Ascii String List Bool Lia.
From Verif Require Import Outcome CInt CIntFacts Spec ShapeSpec ShapeFacts EndRatio EndRatioSpec EndRatioFacts Slicer SlicerSpec SlicerFacts
  SlicerFacts2 Output OutputSpec OutputFacts OutputFacts2 SliceText SliceTextSpec.
Import ListNotations.
Open Scope Z_scope.

(** The objects built, with and without the kinds of their integers. *)
Definition bare (t : tend) : end_t := En (nint (t_off t)) (Rt (nint (t_fac t)) (nint (t_div t))).

Ltac inv1 H := match type of H with (x <- ?e ;; _) = Ok _ => destruct e eqn:?; cbn [bind] in H; try discriminate H end.

Lemma nop_ok f a b c : nop f a b = Ok c -> f (nint a) (nint b) = Ok (nint c).
Proof. unfold nop. intros H. inv1 H. injection H as <-. reflexivity. Qed.
Lemma nneg_ok a c : nneg a = Ok c -> cneg (nint a) = Ok (nint c).
Proof. unfold nneg. intros H. inv1 H. injection H as <-. reflexivity. Qed.

Lemma tbuild_bare e : forall t, tbuild e = Ok t -> build (plain e) = Ok (bare t).
Proof.
  induction e; cbn [tbuild plain build]; intros u H; try (injection H as <-; reflexivity);
    inv1 H; rewrite (IHe _ eq_refl); cbn [bind];
    unfold t_add, t_sub, t_subl, t_mul, t_divide in H; repeat inv1 H; injection H as <-;
    repeat match goal with X : nop _ _ _ = Ok _ |- _ => apply nop_ok in X | X : nneg _ = Ok _ |- _ => apply nneg_ok in X end;
    unfold end_add, end_sub, sub_end, end_mul, end_div, rneg, rscale, rdivc; cbn [shift frac num denum bare];
    repeat match goal with X : ?e = Ok _ |- context[?e] => rewrite X; cbn [bind] end; reflexivity.
Qed.

Lemma build_sgn e x : sgn_expr e -> build e = Ok x ->
  sgn_ty (shift x) /\ sgn_ty (num (frac x)) /\ sgn_ty (denum (frac x)) /\ cval (denum (frac x)) <> 0.
Proof. intros S B. destruct (build_exact e x 0 S B) as [(A & B1 & C & D) _]. auto. Qed.

(** The integers of an object built were all the result of an operation, or constants. *)
Definition wide_num (a : knum) : Prop := is_fixed a = true \/ promote (cty (nint a)) = cty (nint a).
Lemma arith_wide f a b c : arith f a b = Ok c -> promote (cty c) = cty c.
Proof.
  unfold arith. destruct (is_signed _); [destruct (in_tyb _ _); [|discriminate]|]; intros H; injection H as <-; cbn;
    destruct (cty a), (cty b); reflexivity.
Qed.
Lemma nop_wide f a b c : nop (arith f) a b = Ok c -> wide_num c.
Proof. intros H. right. apply nop_ok in H. exact (arith_wide _ _ _ _ H). Qed.
Lemma nneg_wide a c : nneg a = Ok c -> wide_num c.
Proof.
  intros H. right. apply nneg_ok in H. unfold cneg in H.
  destruct (is_signed _); [destruct (in_tyb _ _); [|discriminate]|]; injection H as <-; cbn; destruct (cty (nint a)); reflexivity.
Qed.
Definition wide_end (t : tend) : Prop := wide_num (t_off t) /\ wide_num (t_fac t) /\ wide_num (t_div t).
Ltac widen := repeat match goal with
  | X : nop cmul _ _ = Ok _ |- _ => apply nop_wide in X
  | X : nop cadd _ _ = Ok _ |- _ => apply nop_wide in X
  | X : nop csub _ _ = Ok _ |- _ => apply nop_wide in X
  | X : nneg _ = Ok _ |- _ => apply nneg_wide in X end.
Ltac ops H := unfold t_add, t_sub, t_subl, t_mul, t_divide in H; repeat inv1 H; injection H as <-.
Lemma t_add_wide t o u : wide_end t -> t_add t o = Ok u -> wide_end u.
Proof. intros (A & B & C) H. ops H. widen. repeat split; assumption. Qed.
Lemma t_sub_wide t o u : wide_end t -> t_sub t o = Ok u -> wide_end u.
Proof. intros (A & B & C) H. ops H. widen. repeat split; assumption. Qed.
Lemma t_subl_wide t o u : wide_end t -> t_subl o t = Ok u -> wide_end u.
Proof. intros (A & B & C) H. ops H. widen. repeat split; assumption. Qed.
Lemma t_mul_wide t o u : wide_end t -> t_mul t o = Ok u -> wide_end u.
Proof. intros (A & B & C) H. ops H. widen. repeat split; assumption. Qed.
Lemma tbuild_wide e : forall t, tbuild e = Ok t -> wide_end t.
Proof.
  induction e; cbn [tbuild]; intros u H; try (inv1 H; specialize (IHe _ eq_refl)).
  - injection H as <-. repeat split; left; reflexivity.
  - exact (t_add_wide _ _ _ IHe H).
  - exact (t_add_wide _ _ _ IHe H).
  - exact (t_sub_wide _ _ _ IHe H).
  - exact (t_subl_wide _ _ _ IHe H).
  - exact (t_mul_wide _ _ _ IHe H).
  - exact (t_mul_wide _ _ _ IHe H).
  - destruct IHe as (A & B & C). ops H. widen. repeat split; assumption.
Qed.

(** Text of such an integer. *)
Definition suffix (a : knum) : string := if is_fixed a then "_c"%string else ""%string.
Lemma show_wide p a : wide_num a -> sgn_ty (nint a) ->
  show_num p a = ((if (p && (0 <=? cval (nint a))%Z)%bool then "+" else "") ++ dec (cval (nint a)) ++ suffix a)%string.
Proof.
  intros W [_ S]. unfold show_num, suffix. destruct a as [[|] [t v]]; cbn in *.
  - destruct t; cbn in S |- *; try discriminate; rewrite ?andb_true_r, sapp_assoc; reflexivity.
  - destruct W as [W|W]; [discriminate|].
    destruct t; cbn in S, W |- *; try discriminate; rewrite ?andb_true_r, sapp_assoc; reflexivity.
Qed.
Lemma dec_numeral z (b : bool) : numeral (dec z ++ (if b then "_c" else ""))%string z.
Proof. destruct b; [apply numeral_fixed|rewrite sapp_nil; apply numeral_dec]. Qed.

Lemma ceqb_sgn a k : sgn_ty a -> Z.abs k <= max31 -> ceqb a (int k) = (cval a =? k).
Proof.
  intros A K. assert (B : sgn_ty (int k)) by (apply sgn_int; exact K). pose proof (sgn_compat _ _ A B) as C.
  unfold ceqb. rewrite (compat_cast_l a (int k)), (compat_cast_r a (int k)); try assumption; try apply A; try apply B.
  reflexivity.
Qed.

Definition fine (t : tend) : Prop :=
  wide_end t /\ sgn_ty (nint (t_off t)) /\ sgn_ty (nint (t_fac t)) /\ sgn_ty (nint (t_div t)).
Notation off t := (cval (nint (t_off t))).
Notation fac t := (cval (nint (t_fac t))).
Notation dvs t := (cval (nint (t_div t))).

(** The text, with the integers as numbers. *)
Lemma print_end_text t : fine t ->
  print_end t = ((if (fac t =? 1)%Z then "end" else dec (fac t) ++ suffix (t_fac t) ++ " * end")
    ++ (if (dvs t =? 1)%Z then "" else "/" ++ dec (dvs t) ++ suffix (t_div t))
    ++ (if (off t =? 0)%Z then "" else (if (0 <=? off t)%Z then "+" else "") ++ dec (off t) ++ suffix (t_off t)))%string.
Proof.
  intros ((Wo & Wf & Wd) & So & Sf & Sd). unfold print_end.
  rewrite !ceqb_sgn by (try assumption; vm_compute; discriminate).
  rewrite !show_wide by assumption. cbn [andb]. rewrite !sapp_assoc. reflexivity.
Qed.

(** What it says. *)
Lemma print_end_reads t : fine t ->
  exists g, reads (print_end t) g /\
    (forall n, g n = (if (dvs t =? 1) then fac t * n else Z.quot (fac t * n) (dvs t)) + off t).
Proof.
  intros F. rewrite (print_end_text t F).
  assert (A : exists f, term (if (fac t =? 1)%Z then "end" else dec (fac t) ++ suffix (t_fac t) ++ " * end")%string f /\
            forall n, f n = fac t * n).
  { destruct (Z.eqb_spec (fac t) 1) as [E|E].
    - exists (fun n => n). split; [constructor|]. intros n. rewrite E. lia.
    - exists (fun n => fac t * n). split; [|reflexivity]. rewrite <- sapp_assoc. constructor. apply dec_numeral. }
  destruct A as (f & Tf & Vf).
  set (s1 := (if (fac t =? 1)%Z then "end" else dec (fac t) ++ suffix (t_fac t) ++ " * end")%string) in *.
  assert (B : exists h, term (s1 ++ (if (dvs t =? 1)%Z then "" else "/" ++ dec (dvs t) ++ suffix (t_div t)))%string h /\
            forall n, h n = if (dvs t =? 1) then fac t * n else Z.quot (fac t * n) (dvs t)).
  { destruct (Z.eqb_spec (dvs t) 1) as [E|E].
    - exists f. rewrite sapp_nil. auto.
    - exists (fun n => Z.quot (f n) (dvs t)). split; [|intros n; rewrite Vf; reflexivity].
      constructor; [exact Tf|apply dec_numeral]. }
  destruct B as (h & Th & Vh). rewrite <- sapp_assoc.
  set (s2 := (s1 ++ (if (dvs t =? 1)%Z then "" else "/" ++ dec (dvs t) ++ suffix (t_div t)))%string) in *.
  destruct (Z.eqb_spec (off t) 0) as [E|E].
  - exists h. rewrite sapp_nil. split; [constructor; exact Th|]. intros n. rewrite Vh, E. lia.
  - exists (fun n => h n + off t). split; [|intros n; rewrite Vh; reflexivity].
    destruct (Z.leb_spec 0 (off t)).
    + apply reads_plus; [exact Th|apply dec_numeral|lia].
    + cbn [append]. apply reads_minus; [exact Th|apply dec_numeral|lia].
Qed.

Lemma end_size_exact t n c : sgn_ty (nint (t_off t)) -> sgn_ty (nint (t_fac t)) -> sgn_ty (nint (t_div t)) -> sgn_ty n ->
  end_size (bare t) n = Ok c -> dvs t <> 0 /\ cval c = Z.quot (cval n * fac t + off t) (dvs t).
Proof.
  intros So Sf Sd Sn H. unfold end_size in H. inv1 H. inv1 H. cbn [bare frac num denum shift] in *.
  match goal with X : cmul _ _ = Ok _ |- _ => destruct (arith_sgn Z.mul _ _ _ Sn Sf X) as [V1 S1] end.
  match goal with X : cadd _ _ = Ok _ |- _ => destruct (arith_sgn Z.add _ _ _ S1 So X) as [V2 S2] end.
  destruct (cdiv_sgn _ _ _ S2 Sd H) as (Z0 & V & _). rewrite V2, V1 in V. auto.
Qed.

Lemma tbuild_fine e t : sgn_expr (plain e) -> tbuild e = Ok t -> fine t /\ dvs t <> 0.
Proof.
  intros S B. pose proof (build_sgn _ _ S (tbuild_bare e t B)) as (A & B1 & C & D). cbn in *.
  split; [|exact D]. split; [exact (tbuild_wide e t B)|]. auto.
Qed.

Lemma end_text_l e t : sgn_expr (plain e) -> tbuild e = Ok t -> dvs t = 1 \/ off t = 0 ->
  exists g, reads (print_end t) g /\
    forall n c, sgn_ty n -> end_value (plain e) n = Ok c -> cval c = g (cval n).
Proof.
  intros S B D. destruct (tbuild_fine e t S B) as [F Nz].
  destruct (print_end_reads t F) as (g & R & V). exists g. split; [exact R|].
  intros n c Sn H. unfold end_value in H. rewrite (tbuild_bare e t B) in H. cbn [bind] in H.
  destruct F as (_ & So & Sf & Sd). destruct (end_size_exact t n c So Sf Sd Sn H) as [_ E]. rewrite E, V.
  destruct (Z.eqb_spec (dvs t) 1) as [G|G].
  - rewrite G, Z.quot_1_r. lia.
  - destruct D as [D|D]; [lia|]. rewrite D, !Z.add_0_r. f_equal. lia.
Qed.

Lemma end_text_wrong_l e t : sgn_expr (plain e) -> tbuild e = Ok t -> dvs t <> 1 -> off t <> 0 ->
  exists g, reads (print_end t) g /\
    forall c, end_value (plain e) (int 0) = Ok c -> cval c <> g 0.
Proof.
  intros S B D O. destruct (tbuild_fine e t S B) as [F Nz].
  destruct (print_end_reads t F) as (g & R & V). exists g. split; [exact R|].
  intros c H. unfold end_value in H. rewrite (tbuild_bare e t B) in H. cbn [bind] in H.
  destruct F as (_ & So & Sf & Sd).
  destruct (end_size_exact t (int 0) c So Sf Sd (sgn_int 0 ltac:(vm_compute; discriminate)) H) as [_ E].
  rewrite E, V. cbn [cval int]. rewrite Z.mul_0_l, Z.mul_0_r.
  destruct (Z.eqb_spec (dvs t) 1); [lia|]. rewrite Z.quot_0_l by assumption.
  rewrite !Z.add_0_l. intros G.
  destruct (Z.eq_dec (dvs t) (-1)) as [M|M].
  - rewrite M in G. change (-1) with (- (1)) in G. rewrite Z.quot_opp_r, Z.quot_1_r in G by lia. lia.
  - pose proof (Z.quot_abs (off t) (dvs t) Nz) as A. rewrite G in A.
    pose proof (Z.quot_lt (Z.abs (off t)) (Z.abs (dvs t))). lia.
Qed.

(** Bounds as functions of the size of the axis. *)
Definition vsgn (v : vbound) : Prop :=
  match v with VInt a => sgn_ty (nint a) | VEnd t => fine t /\ dvs t = 1 end.
Definition vval (v : vbound) (n : Z) : Z :=
  match v with VInt a => cval (nint a) | VEnd t => fac t * n + off t end.
Definition vshown (v : vbound) : Prop :=
  match v with VInt a => readable a | VEnd t => fine t /\ dvs t = 1 end.

Lemma show_readable a : readable a -> numeral (show_num false a) (cval (nint a)).
Proof.
  intros [[_ S] W]. unfold show_num. destruct a as [[|] [t v]]; cbn in *.
  - destruct t; cbn in *; try discriminate; apply numeral_fixed.
  - destruct W as [W|[W1 W2]]; [discriminate|].
    destruct t; cbn in *; try discriminate; try congruence; rewrite sapp_nil; apply numeral_dec.
Qed.
Lemma wide_readable a : wide_num a -> sgn_ty (nint a) -> readable a.
Proof.
  intros W S. split; [exact S|]. destruct W as [W|W]; [left; exact W|right].
  split; intros E; rewrite E in W; discriminate.
Qed.

Lemma show_bound_reads v : vshown v -> exists g, reads (show_bound v) g /\ forall n, g n = vval v n.
Proof.
  destruct v as [a|t]; cbn [vshown show_bound vval].
  - intros H. exists (fun _ => cval (nint a)). split; [apply reads_number, show_readable; exact H|reflexivity].
  - intros [F D]. destruct (print_end_reads t F) as (g & R & V). exists g. split; [exact R|].
    intros n. rewrite V, D. reflexivity.
Qed.

Lemma nop_sgn f a b c : nop (arith f) a b = Ok c -> sgn_ty (nint a) -> sgn_ty (nint b) ->
  cval (nint c) = f (cval (nint a)) (cval (nint b)) /\ sgn_ty (nint c) /\ wide_num c.
Proof.
  intros H A B. pose proof (nop_wide f a b c H) as W. apply nop_ok in H.
  destruct (arith_sgn f _ _ _ A B H) as [V S]. auto.
Qed.
Lemma nneg_sgn a c : nneg a = Ok c -> sgn_ty (nint a) ->
  cval (nint c) = - cval (nint a) /\ sgn_ty (nint c) /\ wide_num c.
Proof.
  intros H A. pose proof (nneg_wide a c H) as W. apply nneg_ok in H. destruct (cneg_sgn _ _ A H). auto.
Qed.
Ltac ok_sgn := repeat match goal with
  | X : nop cmul _ _ = Ok _ |- _ => apply nop_sgn in X; [destruct X as (? & ? & ?)|assumption|assumption]
  | X : nop cadd _ _ = Ok _ |- _ => apply nop_sgn in X; [destruct X as (? & ? & ?)|assumption|assumption]
  | X : nop csub _ _ = Ok _ |- _ => apply nop_sgn in X; [destruct X as (? & ? & ?)|assumption|assumption]
  | X : nneg _ = Ok _ |- _ => apply nneg_sgn in X; [destruct X as (? & ? & ?)|assumption] end.
Ltac closing := cbn [vsgn vshown vval t_off t_fac t_div];
  repeat match goal with |- _ /\ _ => split | |- fine _ => unfold fine, wide_end | |- readable _ => apply wide_readable end;
  try assumption; try (intros; cbn [vsgn vshown vval t_off t_fac t_div] in *; nia).

Lemma vmul_ok v k w : vsgn v -> sgn_ty (nint k) -> vmul v k = Ok w ->
  vsgn w /\ vshown w /\ forall n, vval w n = vval v n * cval (nint k).
Proof.
  destruct v as [a|t]; cbn [vmul vsgn]; intros S K H; inv1 H; injection H as <-.
  - ok_sgn. closing.
  - destruct S as [((Wo & Wf & Wd) & So & Sf & Sd) D].
    match goal with X : t_mul _ _ = Ok _ |- _ => ops X end. ok_sgn. closing.
Qed.
Lemma vadd_ok v u w : vsgn v -> vsgn u -> vadd v u = Ok w ->
  vsgn w /\ vshown w /\ forall n, vval w n = vval v n + vval u n.
Proof.
  destruct v as [a|t], u as [b|t']; cbn [vadd vsgn]; intros S K H; try discriminate; inv1 H; injection H as <-.
  - ok_sgn. closing.
  - destruct K as [((Wo & Wf & Wd) & So & Sf & Sd) D].
    match goal with X : t_add _ _ = Ok _ |- _ => ops X end. ok_sgn. closing.
  - destruct S as [((Wo & Wf & Wd) & So & Sf & Sd) D].
    match goal with X : t_add _ _ = Ok _ |- _ => ops X end. ok_sgn. closing.
Qed.
Lemma vsub_ok v u w : vsgn v -> vsgn u -> vsub v u = Ok w ->
  vsgn w /\ vshown w /\ forall n, vval w n = vval v n - vval u n.
Proof.
  destruct v as [a|t], u as [b|t']; cbn [vsub vsgn]; intros S K H; try discriminate; inv1 H; injection H as <-.
  - ok_sgn. closing.
  - destruct K as [((Wo & Wf & Wd) & So & Sf & Sd) D].
    match goal with X : t_subl _ _ = Ok _ |- _ => ops X end. ok_sgn. closing.
  - destruct S as [((Wo & Wf & Wd) & So & Sf & Sd) D].
    match goal with X : t_sub _ _ = Ok _ |- _ => ops X end. ok_sgn. closing.
Qed.

Lemma whole_ok e : whole e -> sgn_expr (plain e).
Proof. induction e; cbn; tauto. Qed.
Lemma whole_div e : whole e -> forall t, tbuild e = Ok t -> dvs t = 1.
Proof.
  induction e; cbn [whole tbuild]; intros W u H; try contradiction; try (destruct W as [? W]);
    try (inv1 H; specialize (IHe W _ eq_refl); ops H; exact IHe).
  injection H as <-. reflexivity.
Qed.
Lemma bvalue_sgn b v : signed_bound b -> bvalue b = Ok v -> vsgn v.
Proof.
  destruct b as [a|e]; cbn; intros S H.
  - injection H as <-. exact S.
  - inv1 H. injection H as <-. cbn. split; [apply (tbuild_fine e); [apply whole_ok; exact S|assumption]|].
    apply (whole_div e); assumption.
Qed.
Lemma bvalue_shown b v : legible (Some b) -> bvalue b = Ok v -> vsgn v /\ vshown v.
Proof.
  destruct b as [a|e]; cbn; intros S H.
  - injection H as <-. split; [apply S|exact S].
  - assert (X : vsgn v) by (apply (bvalue_sgn (TEnd e)); assumption). inv1 H. injection H as <-. split; exact X.
Qed.
Lemma bvalue_bound b v n d z : vsgn v -> bvalue b = Ok v -> sgn_ty n -> bound_is n (Some (plain_bound b)) d z ->
  vval v (cval n) = z.
Proof.
  intros S H Sn B. destruct b as [a|e]; cbn in H, B.
  - injection H as <-. cbn. tauto.
  - inv1 H. injection H as <-. destruct S as [(W & So & Sf & Sd) D]. destruct B as (c & E & <-).
    unfold end_value in E. rewrite (tbuild_bare e _ Heqo) in E. cbn [bind] in E.
    destruct (end_size_exact _ n c So Sf Sd Sn E) as [_ ->]. rewrite D, Z.quot_1_r. cbn. lia.
Qed.
Lemma tbuild_total e : forall x, build (plain e) = Ok x -> exists t, tbuild e = Ok t.
Proof.
  assert (O : forall f a b c, f (nint a) (nint b) = Ok c -> exists d, nop f a b = Ok d /\ nint d = c).
  { intros f a b c H. unfold nop. rewrite H. cbn. eexists. split; reflexivity. }
  assert (N : forall a c, cneg (nint a) = Ok c -> exists d, nneg a = Ok d /\ nint d = c).
  { intros a c H. unfold nneg. rewrite H. cbn. eexists. split; reflexivity. }
  induction e; cbn [build plain tbuild]; intros x H; try (exists t_end; reflexivity);
    match type of H with bind ?e _ = Ok _ => destruct e eqn:B; cbn [bind] in H; try discriminate H end;
    destruct (IHe _ eq_refl) as (t & T); rewrite T; cbn [bind];
    pose proof (tbuild_bare _ _ T) as Y; rewrite Y in B; injection B as <-;
    unfold t_add, t_sub, t_subl, t_mul, t_divide, end_add, end_sub, sub_end, end_mul, end_div, rneg, rscale, rdivc in *;
    cbn [bare shift frac num denum] in H;
    repeat (match type of H with
            | bind (bind ?e _) _ = Ok _ => destruct e eqn:?; cbn [bind] in H; try discriminate H
            | bind ?e _ = Ok _ => destruct e eqn:?; cbn [bind] in H; try discriminate H
            end);
    repeat match goal with
           | X : cneg (nint _) = Ok _ |- _ => destruct (N _ _ X) as (? & ? & <-); clear X
           | X : ?f (nint _) (nint _) = Ok _ |- _ => destruct (O f _ _ _ X) as (? & ? & <-); clear X
           end;
    repeat match goal with X : ?e = Ok _ |- context[?e] => rewrite X; cbn [bind] end; eexists; reflexivity.
Qed.
Lemma bvalue_total b n d z : bound_is n (Some (plain_bound b)) d z -> exists v, bvalue b = Ok v.
Proof.
  destruct b as [a|e]; cbn; [eauto|]. intros (c & E & _). unfold end_value in E.
  match type of E with (x <- ?e ;; _) = Ok _ => destruct e eqn:B; cbn [bind] in E; try discriminate E end.
  destruct (tbuild_total e _ B) as (t & ->). cbn. eauto.
Qed.

Lemma put_range a f s z b g : reads a f -> reads b g -> step_is (option_map nint s) z ->
  (forall k, s = Some k -> readable k) ->
  range_text (a ++ ":" ++ (match s with Some k => show_num false k ++ ":" | None => "" end) ++ b)%string f z g.
Proof.
  intros A B S K. destruct s as [k|]; cbn in S.
  - destruct S as [_ <-]. rewrite sapp_assoc. apply range_step; [exact A|apply show_readable, K; reflexivity|exact B].
  - subst z. cbn [append]. apply range_unit; assumption.
Qed.

Lemma reads_end : reads "end" (fun n => n).
Proof. apply reads_term, term_end. Qed.

Lemma slice_range_text_l s n bz ez sz : ts_len s = None -> axis n -> sgn_ty n ->
  legible (ts_begin s) -> legible (ts_stop s) -> (forall k, ts_step s = Some k -> readable k) ->
  bound_is n (option_map plain_bound (ts_begin s)) 0 bz -> bound_is n (option_map plain_bound (ts_stop s)) (cval n) ez ->
  step_is (option_map nint (ts_step s)) sz -> 0 <= bz <= ez -> ez <= cval n -> 0 < sz ->
  exists text f g, print_slicer s = Ok text /\ range_text text f sz g /\
  exists co ck, reindex1 n (plain_slicer s) = Ok co /\ reshape1 n (plain_slicer s) = Ok ck /\
    selects (cval co) (cval ck) sz (fun x => f (cval n) <= x < g (cval n) /\ (sz | x - f (cval n))).
Proof.
  intros L A Sn Lb Le Ls Hb He Hs R1 R2 P.
  assert (X : exists a f, show_start s = Ok a /\ reads a f /\ f (cval n) = bz).
  { unfold show_start. rewrite L. destruct (ts_begin s) as [b|]; cbn in Hb.
    - destruct (bvalue_total b n 0 bz Hb) as (v & V). rewrite V. cbn [bind].
      destruct (bvalue_shown b v Lb V) as [S1 S2]. destruct (show_bound_reads v S2) as (g & R & G).
      exists (show_bound v), g. split; [reflexivity|]. split; [exact R|]. rewrite G. exact (bvalue_bound b v n 0 bz S1 V Sn Hb).
    - exists "begin"%string, (fun _ => 0). split; [destruct (ts_stop s); reflexivity|]. split; [constructor|]. lia. }
  assert (Y : exists b g, show_stop s = Ok b /\ reads b g /\ g (cval n) = ez).
  { unfold show_stop. rewrite L. destruct (ts_stop s) as [b|]; cbn in He.
    - destruct (bvalue_total b n (cval n) ez He) as (v & V). rewrite V. cbn [bind].
      destruct (bvalue_shown b v Le V) as [S1 S2]. destruct (show_bound_reads v S2) as (g & R & G).
      exists (show_bound v), g. split; [reflexivity|]. split; [exact R|]. rewrite G. exact (bvalue_bound b v n (cval n) ez S1 V Sn He).
    - exists "end"%string, (fun n => n). split; [destruct (ts_begin s); reflexivity|]. split; [apply reads_end|]. lia. }
  destruct X as (a & f & Ea & Ra & Fa). destruct Y as (b & g & Eb & Rb & Gb).
  eexists. exists f, g. unfold print_slicer. rewrite Ea, Eb. cbn [bind]. split; [reflexivity|].
  split; [apply put_range; assumption|]. unfold plain_slicer. rewrite L, Fa, Gb. cbn [option_map].
  destruct (slice_range_l n _ _ _ bz ez sz A Hb He Hs R1 R2 P) as (co & ck & E1 & E2 & _ & S). eauto 6.
Qed.

Lemma step_sgn s : (forall k, ts_step s = Some k -> readable k) -> sgn_ty (nint (factor s)).
Proof.
  intros H. unfold factor. destruct (ts_step s) as [k|]; [apply (H k eq_refl)|]. apply sgn_int. vm_compute. discriminate.
Qed.
Lemma step_factor s sz : step_is (option_map nint (ts_step s)) sz -> cval (nint (factor s)) = sz.
Proof. unfold factor. destruct (ts_step s) as [k|]; cbn; [tauto|intros ->; reflexivity]. Qed.

Lemma slice_length_text_l s l n bz lz sz text : ts_len s = Some l -> ts_stop s = None -> axis n -> sgn_ty n ->
  legible (ts_begin s) -> signed_bound l -> (forall k, ts_step s = Some k -> readable k) ->
  bound_is n (option_map plain_bound (ts_begin s)) 0 bz -> bound_is n (Some (plain_bound l)) 0 lz ->
  step_is (option_map nint (ts_step s)) sz -> 0 <= bz -> 0 <= lz -> 0 < sz ->
  print_slicer s = Ok text ->
  exists f g, range_text text f sz g /\
  exists co ck, reindex1 n (plain_slicer s) = Ok co /\ reshape1 n (plain_slicer s) = Ok ck /\
    selects (cval co) (cval ck) sz (fun x => f (cval n) <= x < g (cval n) /\ (sz | x - f (cval n))).
Proof.
  intros L T A Sn Lb Sl Ls Hb Hl Hs R1 R2 P H. unfold print_slicer in H.
  destruct (show_start s) as [a| | |] eqn:Ea; cbn [bind] in H; try discriminate.
  destruct (show_stop s) as [b| | |] eqn:Eb; cbn [bind] in H; try discriminate. injection H as <-.
  assert (X : exists f, reads a f /\ f (cval n) = bz).
  { unfold show_start in Ea. rewrite L, T in Ea. destruct (ts_begin s) as [c|]; cbn in Hb.
    - inv1 Ea. injection Ea as <-. destruct (bvalue_shown c _ Lb Heqo) as [S1 S2].
      destruct (show_bound_reads _ S2) as (g & R & G). exists g. split; [exact R|]. rewrite G.
      exact (bvalue_bound c _ n 0 bz S1 Heqo Sn Hb).
    - injection Ea as <-. exists (fun _ => 0). split; [constructor|]. lia. }
  assert (Y : exists g, reads b g /\ g (cval n) = bz + lz * sz).
  { unfold show_stop in Eb. rewrite L, T in Eb. destruct (ts_begin s) as [c|]; cbn in Hb.
    - repeat inv1 Eb. injection Eb as <-.
      destruct (bvalue_shown c _ Lb Heqo) as [S1 _]. pose proof (bvalue_sgn l _ Sl Heqo0) as S2.
      destruct (vmul_ok _ _ _ S2 (step_sgn s Ls) Heqo1) as (S3 & _ & V3).
      destruct (vadd_ok _ _ _ S1 S3 Heqo2) as (_ & S4 & V4).
      destruct (show_bound_reads _ S4) as (g & R & G). exists g. split; [exact R|]. rewrite G, V4, V3.
      rewrite (bvalue_bound c _ n 0 bz S1 Heqo Sn Hb), (bvalue_bound l _ n 0 lz S2 Heqo0 Sn Hl), (step_factor s sz Hs). reflexivity.
    - repeat inv1 Eb. injection Eb as <-. pose proof (bvalue_sgn l _ Sl Heqo) as S2.
      destruct (vmul_ok _ _ _ S2 (step_sgn s Ls) Heqo0) as (_ & S3 & V3).
      destruct (show_bound_reads _ S3) as (g & R & G). exists g. split; [exact R|]. rewrite G, V3.
      rewrite (bvalue_bound l _ n 0 lz S2 Heqo Sn Hl), (step_factor s sz Hs). lia. }
  destruct X as (f & Ra & Fa). destruct Y as (g & Rb & Gb). exists f, g.
  split; [apply put_range; assumption|]. unfold plain_slicer. rewrite L, T, Fa, Gb. cbn [option_map].
  exact (slice_length_l n _ _ _ bz lz sz A Hb Hl Hs R1 R2 P).
Qed.
