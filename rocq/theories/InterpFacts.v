(** Facts about interpolation in exact arithmetic. *)
From Coq Require Import ZArith QArith Qround List Bool Lia Lqa Setoid.
From Verif Require Import Outcome CInt CIntFacts Spec SpecFacts ShapeSpec ShapeFacts Memory MemFacts Container ContainerSpec
  ContainerFacts ContainerFacts2 AlgoSpec Interp InterpSpec.
Import ListNotations.
Open Scope Z_scope.

Lemma quot_floor p : (0 <= p)%Q -> Z.quot (Qnum p) (Zpos (Qden p)) = Qfloor p.
Proof.
  intros H. destruct p as [n d]. unfold Qle in H. cbn in H. cbn [Qnum Qden]. unfold Qfloor.
  apply Z.quot_div_nonneg; lia.
Qed.

Lemma floor_bounds p : (inject_Z (Qfloor p) <= p)%Q /\ (p < inject_Z (Qfloor p + 1))%Q.
Proof. split; [apply Qfloor_le|apply Qlt_floor]. Qed.

Lemma inject_lt a b : (inject_Z a < inject_Z b)%Q -> a < b.
Proof. rewrite <- Zlt_Qlt. auto. Qed.
Lemma inject_le a b : (inject_Z a <= inject_Z b)%Q -> a <= b.
Proof. rewrite <- Zle_Qle. auto. Qed.

Lemma floor_nonneg p : (0 <= p)%Q -> 0 <= Qfloor p.
Proof.
  intros H. destruct (floor_bounds p) as [_ B].
  assert (L : (inject_Z 0 < inject_Z (Qfloor p + 1))%Q) by (eapply Qle_lt_trans; [exact H|exact B]).
  apply inject_lt in L. lia.
Qed.

Lemma floor_lt p n : (p < inject_Z n)%Q -> Qfloor p < n.
Proof.
  intros H. destruct (floor_bounds p) as [B _].
  apply inject_lt. eapply Qle_lt_trans; eassumption.
Qed.

Lemma to_int_rat t p : (0 <= p)%Q -> in_ty t (Qfloor p) -> to_int rationals t p = Ok (Qfloor p).
Proof.
  intros H I. unfold to_int. cbn [trunc rationals]. rewrite quot_floor by assumption.
  apply in_tyb_spec in I. rewrite I. reflexivity.
Qed.

(** Weighted sums. *)
Fixpoint wsum (cs : list (list Z)) (ws : list Q) (f : list Z -> Q) : Q :=
  match cs, ws with
  | c :: cs, w :: ws => (w * f c + wsum cs ws f)%Q
  | _, _ => 0%Q
  end.

Lemma wsum_app cs ds ws vs f : length cs = length ws ->
  (wsum (cs ++ ds) (ws ++ vs) f == wsum cs ws f + wsum ds vs f)%Q.
Proof.
  revert ws. induction cs as [|c cs IH]; intros [|w ws] L; try discriminate; cbn [app wsum].
  - ring.
  - rewrite IH by (simpl in L; congruence). ring.
Qed.

Lemma wsum_map cs ws f (g : list Z -> list Z) a : length cs = length ws ->
  (wsum (map g cs) (map (fun e => e * a)%Q ws) f == a * wsum cs ws (fun c => f (g c)))%Q.
Proof.
  revert ws. induction cs as [|c cs IH]; intros [|w ws] L; try discriminate; cbn [map wsum].
  - ring.
  - rewrite IH by (simpl in L; congruence). ring.
Qed.

Lemma wsum_ext cs ws f g : (forall c, In c cs -> (f c == g c)%Q) -> (wsum cs ws f == wsum cs ws g)%Q.
Proof.
  revert ws. induction cs as [|c cs IH]; intros [|w ws] H; cbn [wsum]; try reflexivity.
  rewrite IH by (intros; apply H; right; assumption). rewrite (H c) by (left; reflexivity). reflexivity.
Qed.

Lemma wsum_lin cs ws f g a b : (wsum cs ws (fun c => a * f c + b * g c) == a * wsum cs ws f + b * wsum cs ws g)%Q.
Proof. revert ws. induction cs as [|c cs IH]; intros [|w ws]; cbn [wsum]; try ring. rewrite IH. ring. Qed.

Lemma multilinear_ext ps : forall f g, (forall is_, In is_ (neighbours ps) -> (f is_ == g is_)%Q) ->
  (multilinear ps f == multilinear ps g)%Q.
Proof.
  induction ps as [|p ps IH]; intros f g H; cbn [multilinear].
  - apply H. left; reflexivity.
  - rewrite (IH (fun is_ => f (Qfloor p :: is_)) (fun is_ => g (Qfloor p :: is_))).
    + rewrite (IH (fun is_ => f (Qfloor p + 1 :: is_)) (fun is_ => g (Qfloor p + 1 :: is_))); [reflexivity|].
      intros is_ I. apply H. apply in_or_app. right. apply in_map. exact I.
    + intros is_ I. apply H. apply in_or_app. left. apply in_map. exact I.
Qed.

Definition cell_range (p : Q) : Prop := (0 <= p)%Q /\ Qfloor p + 1 <= 2147483647.

Lemma setup_ok ps : Forall cell_range ps -> forall cs ws, length cs = length ws ->
  exists cs' ws', kfold_right (setup_step rationals) ps (cs, ws) = Ok (cs', ws') /\ length cs' = length ws' /\
    (forall f, (wsum cs' ws' f == wsum cs ws (fun c => multilinear ps (fun js => f (c ++ js))))%Q) /\
    (forall c', In c' cs' -> exists c js, In c cs /\ In js (neighbours ps) /\ c' = c ++ js) /\
    (forall c js, In c cs -> In js (neighbours ps) -> In (c ++ js) cs') /\ (cs <> [] -> cs' <> []).
Proof.
  induction 1 as [|p ps [Hp Hm] F IH]; intros cs ws L.
  - exists cs, ws. split; [reflexivity|]. split; [exact L|]. split; [|split; [|split]].
    + intros f. cbn [multilinear]. apply wsum_ext. intros c _. rewrite app_nil_r. reflexivity.
    + intros c' I. exists c', []. split; [exact I|]. split; [left; reflexivity|symmetry; apply app_nil_r].
    + intros c js I [<-|[]]. rewrite app_nil_r. exact I.
    + auto.
  - cbn [kfold_right]. unfold setup_step at 1. pose proof (floor_nonneg p Hp) as H0.
    rewrite to_int_rat; [|exact Hp|unfold in_ty; simpl; lia]. rewrite bind_ok.
    unfold cadd. rewrite arith_exact;
      [|unfold wfc, in_ty; simpl; lia|unfold wfc, in_ty; simpl; lia|left; reflexivity|unfold in_ty; simpl; lia].
    rewrite bind_ok. cbn [cval int nsub nmul of_int rationals]. rewrite bind_ok.
    set (b := (p - inject_Z (Qfloor p))%Q). set (a := (inject_Z 1 - b)%Q).
    set (cs1 := map (fun e => e ++ [Qfloor p]) cs ++ map (fun e => e ++ [Qfloor p + 1]) cs).
    set (ws1 := map (fun e => (e * a)%Q) ws ++ map (fun e => (e * b)%Q) ws).
    destruct (IH cs1 ws1) as (cs' & ws' & E & L' & S & C & C' & NE).
    { unfold cs1, ws1. rewrite !app_length, !map_length. exact (f_equal2 Nat.add L L). }
    exists cs', ws'. split; [exact E|]. split; [exact L'|]. split; [|split; [|split]].
    + intros f. rewrite S. unfold cs1, ws1. rewrite wsum_app by (rewrite !map_length; exact L).
      rewrite !wsum_map by exact L. cbn [multilinear]. unfold frac_part. fold b.
      rewrite wsum_lin. change (inject_Z 1) with 1%Q in a. fold a.
      apply Qplus_comp; apply Qmult_comp; try reflexivity; apply wsum_ext; intros c _;
        apply multilinear_ext; intros js _; rewrite <- app_assoc; reflexivity.
    + intros c' I. destruct (C c' I) as (c & js & Ic & Ij & ->). unfold cs1 in Ic.
      apply in_app_or in Ic as [Ic|Ic]; apply in_map_iff in Ic as (d & <- & Id).
      * exists d, (Qfloor p :: js). split; [exact Id|]. split; [|rewrite <- app_assoc; reflexivity].
        cbn [neighbours]. apply in_or_app. left. apply in_map. exact Ij.
      * exists d, (Qfloor p + 1 :: js). split; [exact Id|]. split; [|rewrite <- app_assoc; reflexivity].
        cbn [neighbours]. apply in_or_app. right. apply in_map. exact Ij.
    + intros c js Ic Ij. cbn [neighbours] in Ij. apply in_app_or in Ij as [Ij|Ij]; apply in_map_iff in Ij as (k & <- & Ik).
      * change (Qfloor p :: k) with ([Qfloor p] ++ k). rewrite app_assoc. apply C'; [|exact Ik].
        unfold cs1. apply in_or_app. left. apply in_map_iff. exists c. auto.
      * change (Qfloor p + 1 :: k) with ([Qfloor p + 1] ++ k). rewrite app_assoc. apply C'; [|exact Ik].
        unfold cs1. apply in_or_app. right. apply in_map_iff. exists c. auto.
    + intros N. apply NE. unfold cs1. destruct cs; [contradiction|discriminate].
Qed.

Lemma inner_sum cs (ws : list Q) (f : list Z -> Q) : length cs = length ws -> forall init : Q,
  (inner rationals init (map f cs) ws == init + wsum cs ws f)%Q.
Proof.
  revert ws. induction cs as [|c cs IH]; intros [|w ws] L init; try discriminate; cbn [map inner wsum].
  - change (init == init + 0)%Q. ring.
  - rewrite IH by (simpl in L; congruence).
    change (init + f c * w + wsum cs ws f == init + (w * f c + wsum cs ws f))%Q. ring.
Qed.

Lemma interior_neighbours ns ps : interior ns ps -> forall is_, In is_ (neighbours ps) -> in_box ns is_.
Proof.
  induction 1 as [|n p ns ps [H1 H2] F IH]; intros is_ I; cbn [neighbours] in I.
  - destruct I as [<-|[]]. constructor.
  - pose proof (floor_nonneg p H1). pose proof (floor_lt p _ H2).
    apply in_app_or in I as [I|I]; apply in_map_iff in I as (js & <- & J); constructor; try lia; apply IH; exact J.
Qed.

Lemma interior_range ns ps : Forall (fun n => n <= 2147483648) ns -> interior ns ps -> Forall cell_range ps.
Proof.
  intros B F. revert B. induction F as [|n p ns ps [H1 H2] F IH]; intros B; inversion B; subst; constructor.
  - split; [exact H1|]. pose proof (floor_lt p _ H2). lia.
  - apply IH. assumption.
Qed.

Lemma int_coord c is_ : Forall (fun n => n <= 2147483648) (dims c) -> in_box (dims c) is_ -> coord_of c (map int is_).
Proof.
  intros B I. assert (V : vals (map int is_) = is_) by (unfold vals; rewrite map_map; apply map_id).
  split; [|rewrite V; exact I]. clear V. revert B. induction I as [|n ns i is_ Hi I IH]; intros B; [constructor|].
  inversion B; subst. constructor; [unfold wfc, in_ty; simpl; lia|apply IH; assumption].
Qed.

Lemma vals_int is_ : vals (map int is_) = is_.
Proof. unfold vals. rewrite map_map. apply map_id. Qed.

Lemma types_int is_ : map cty (map int is_) = map (fun _ => I32) is_.
Proof. rewrite map_map. reflexivity. Qed.

Lemma map_const_length {A B C} (l : list A) (l' : list B) (t : C) : length l' = length l ->
  map (fun _ => t) l' = map (fun _ => t) l.
Proof. revert l. induction l'; intros [|x l] L; try discriminate; [reflexivity|]. cbn. f_equal. apply IHl'. simpl in L; congruence. Qed.

Lemma get_value {T} (m : mem T) c is_ v : addressable c (map cty is_) -> coord_of c is_ ->
  value m c (vals is_) v -> get m c is_ = Ok v.
Proof. intros A C V. destruct (strided_access_l m c is_ A C) as [S _]. apply S. exact V. Qed.

Lemma mapM_map {A B} (f : A -> outcome B) g l : (forall x, In x l -> f x = Ok (g x)) -> mapM f l = Ok (map g l).
Proof.
  induction l as [|x l IH]; intros H; [reflexivity|]. cbn [mapM map]. rewrite (H x) by (left; reflexivity).
  rewrite bind_ok, IH by (intros; apply H; right; assumption). reflexivity.
Qed.

Lemma linear_l {T} (cv : T -> Q) (m : mem T) c ps (f : list Z -> T) :
  addressable c (map (fun _ => I32) (dims c)) ->
  Forall (fun n => n <= 2147483648) (dims c) -> (forall is_, in_box (dims c) is_ -> value m c is_ (f is_)) ->
  interior (dims c) ps ->
  exists r, linear_interpolate rationals cv m c ps = Ok r /\ (r == multilinear ps (fun is_ => cv (f is_)))%Q.
Proof.
  intros A B V I.
  destruct (setup_ok ps (interior_range _ _ B I) [[]] [1%Q] eq_refl) as (cs & ws & E & L & S & C & _ & NE).
  assert (E' : setup_linear rationals ps = Ok (cs, ws)) by exact E.
  unfold linear_interpolate. rewrite E', bind_ok.
  assert (M : mapM (fun v => get m c (map int v)) cs = Ok (map f cs)).
  { apply mapM_map. intros x Ix. destruct (C x Ix) as (c0 & js & [<-|[]] & Ij & ->). cbn [app].
    pose proof (interior_neighbours _ _ I js Ij) as Bj.
    apply get_value.
    - rewrite types_int, (map_const_length (dims c)) by (apply in_box_length; exact Bj). exact A.
    - apply int_coord; assumption.
    - rewrite vals_int. apply V. exact Bj. }
  rewrite M, bind_ok. rewrite map_map. specialize (S (fun is_ => cv (f is_))). cbn [wsum app] in S.
  destruct cs as [|c0 cs]; [exfalso; apply NE; [discriminate|reflexivity]|].
  destruct ws as [|w ws]; [discriminate|]. cbn [map].
  eexists. split; [reflexivity|]. rewrite inner_sum by (simpl in L; congruence). cbn [nmul rationals].
  cbn [wsum] in S. transitivity (1 * multilinear ps (fun js => cv (f js)) + 0)%Q; [|ring]. rewrite <- S. ring.
Qed.

(** Consequences for the interpolated value. *)
Lemma frac_bounds p : (0 <= frac_part p)%Q /\ (frac_part p < 1)%Q.
Proof.
  unfold frac_part. destruct (floor_bounds p) as [A B]. rewrite inject_Z_plus in B.
  change (inject_Z 1) with 1%Q in B. split; lra.
Qed.

Lemma multilinear_between ps : forall f lo hi, (forall is_, In is_ (neighbours ps) -> (lo <= f is_ <= hi)%Q) ->
  (lo <= multilinear ps f <= hi)%Q.
Proof.
  induction ps as [|p ps IH]; intros f lo hi H; cbn [multilinear].
  - apply H. left; reflexivity.
  - destruct (IH (fun is_ => f (Qfloor p :: is_)) lo hi) as [A1 A2].
    { intros is_ I. apply H. apply in_or_app. left. apply in_map. exact I. }
    destruct (IH (fun is_ => f (Qfloor p + 1 :: is_)) lo hi) as [B1 B2].
    { intros is_ I. apply H. apply in_or_app. right. apply in_map. exact I. }
    destruct (frac_bounds p) as [F1 F2]. split; nra.
Qed.

Lemma multilinear_integral is_ : forall ps f, Forall2 (fun p i => (p == inject_Z i)%Q) ps is_ ->
  (multilinear ps f == f is_)%Q.
Proof.
  intros ps f H. revert f. induction H as [|p i ps is_ Hp H IH]; intros f; cbn [multilinear]; [reflexivity|].
  assert (Fl : Qfloor p = i) by (rewrite Hp; apply Qfloor_Z).
  assert (Fr : (frac_part p == 0)%Q) by (unfold frac_part; rewrite Fl, Hp; ring).
  rewrite Fr, Fl, (IH (fun is_ => f (i :: is_))). ring.
Qed.

Lemma qeq_refl l : Forall2 Qeq l l.
Proof. induction l; constructor; [reflexivity|assumption]. Qed.

Lemma multilinear_affine g : affine_in_each g -> forall ps pre,
  (multilinear ps (fun is_ => g (pre ++ map inject_Z is_)) == g (pre ++ ps))%Q.
Proof.
  intros [R H] ps. induction ps as [|p ps IH]; intros pre; cbn [multilinear].
  - reflexivity.
  - assert (E : forall i, (multilinear ps (fun is_ => g (pre ++ map inject_Z (i :: is_))) == g (pre ++ inject_Z i :: ps))%Q).
    { intros i. specialize (IH (pre ++ [inject_Z i])). rewrite <- app_assoc in IH. cbn [app] in IH. rewrite <- IH.
      apply multilinear_ext. intros is_ _. rewrite <- app_assoc. cbn [map app]. reflexivity. }
    rewrite !E. rewrite <- H. apply R. apply Forall2_app; [apply qeq_refl|constructor; [|apply qeq_refl]].
    unfold frac_part. rewrite inject_Z_plus. change (inject_Z 1) with 1%Q. ring.
Qed.

(** ** The last grid line of the outermost axis *)
Definition grow (c : container) : container :=
  match c_shape c with
  | [] => c
  | CI t n :: r => Cn (c_kind c) (CI I64 (n + 1) :: r) (c_stride c) (c_data c)
  end.

Lemma grow_get {T} (m : mem T) c is_ : get m (grow c) is_ = get m c is_.
Proof.
  unfold get, ref, address, grow. destruct c as [k sh st d]. cbn [c_shape c_kind c_stride c_data].
  destruct sh as [|[t n] r]; [reflexivity|].
  unfold index. cbn [c_shape c_kind c_stride c_data]. destruct k; try reflexivity.
Qed.

Lemma grow_stride c : length (c_shape c) = 2%nat \/ c_kind c <> K2 -> get_stride (grow c) = get_stride c.
Proof.
  destruct c as [k sh st d]. unfold grow. cbn [c_shape c_kind]. destruct sh as [|[t n] r]; [reflexivity|].
  intros H. unfold get_stride. cbn [c_shape c_kind c_stride]. destruct k; reflexivity.
Qed.

Lemma mapM_UB {A B} (f : A -> outcome B) l : (forall x, In x l -> f x = UB \/ exists y, f x = Ok y) ->
  (exists x, In x l /\ f x = UB) -> mapM f l = UB.
Proof.
  induction l as [|a l IH]; intros H (x & I & E); [contradiction|]. cbn [mapM].
  destruct (H a (or_introl eq_refl)) as [U|[y U]]; rewrite U; [reflexivity|]. rewrite bind_ok.
  destruct I as [->|I]; [congruence|]. rewrite IH; [reflexivity| |exists x; auto].
  intros; apply H; right; assumption.
Qed.

Lemma neighbours_ex ps : exists is_, In is_ (neighbours ps).
Proof.
  induction ps as [|p ps [is_ I]]; [exists []; left; reflexivity|].
  exists (Qfloor p :: is_). cbn [neighbours]. apply in_or_app. left. apply in_map. exact I.
Qed.

Lemma interior_ge ns ps : interior ns ps -> Forall (fun n => 1 <= n) ns.
Proof.
  induction 1 as [|n p ns ps [A B] F IH]; constructor; [|exact IH].
  pose proof (floor_nonneg p A). pose proof (floor_lt p _ B). lia.
Qed.

Lemma prod_ge ns : Forall (fun n => 1 <= n) ns -> 1 <= prod ns /\ Forall (fun n => n <= prod ns) ns.
Proof.
  induction 1 as [|n ns H F [IH1 IH2]]; [split; [vm_compute; discriminate|constructor]|].
  change (prod (n :: ns)) with (n * prod ns).
  split; [nia|]. constructor; [nia|]. eapply Forall_impl; [|exact IH2]. intros x Hx. cbn beta in *. nia.
Qed.

Lemma overrun_l {T} (cv : T -> Q) (m : mem T) c n0 ns b cs p0 ps : default_layout c -> dims c = n0 :: ns ->
  (n0 + 1) * prod ns <= 2147483647 -> c_data c = Ptr b 0 -> nth_error m b = Some (Some cs) ->
  Z.of_nat (length cs) = prod (dims c) ->
  (inject_Z (n0 - 1) <= p0)%Q -> (0 <= p0)%Q -> (p0 < inject_Z n0)%Q -> interior ns ps ->
  linear_interpolate rationals cv m c (p0 :: ps) = UB.
Proof.
  intros D Dc Bd Dp Mb Lc P0 P1 P2 I.
  assert (Fl : Qfloor p0 = n0 - 1).
  { pose proof (floor_lt p0 _ P2). destruct (floor_bounds p0) as [_ B2].
    assert (L : (inject_Z (n0 - 1) < inject_Z (Qfloor p0 + 1))%Q) by (eapply Qle_lt_trans; eassumption).
    apply inject_lt in L. lia. }
  pose proof (floor_nonneg p0 P1) as F0. pose proof (interior_ge _ _ I) as G. pose proof (prod_ge _ G) as [G1 G2].
  assert (N0 : n0 + 1 <= 2147483647) by nia. assert (Pn : prod ns <= 2147483647) by nia.
  assert (Nm : Forall (fun n => n <= 2147483648) (n0 + 1 :: ns)).
  { constructor; [lia|]. eapply Forall_impl; [|exact G2]. intros x Hx. cbn beta in *. lia. }
  assert (CR : Forall cell_range (p0 :: ps)).
  { constructor; [split; [exact P1|lia]|]. inversion Nm; subst. eapply interior_range; eassumption. }
  destruct (setup_ok _ CR [[]] [1%Q] eq_refl) as (cs1 & ws & E & L & _ & C & C' & NE).
  assert (E' : setup_linear rationals (p0 :: ps) = Ok (cs1, ws)) by exact E.
  unfold linear_interpolate. rewrite E', bind_ok.
  destruct (default_wf c D) as (W & Sz & Nn). destruct D as (Lg & Ne & _).
  destruct W as (W1 & W2 & (st & Gs & Ws & Ls) & Wk).
  assert (Dg : dims (grow c) = n0 + 1 :: ns).
  { unfold grow, dims in *. destruct (c_shape c) as [|[t n] r]; [discriminate|]. cbn in Dc |- *. congruence. }
  assert (Gg : get_stride (grow c) = get_stride c).
  { apply grow_stride. destruct (c_kind c) eqn:K; try (right; discriminate). left. exact Wk. }
  assert (Sg : strides_z (grow c) = strides_of (n0 + 1 :: ns)).
  { unfold strides_z in *. rewrite Gg, Sz, Dc. reflexivity. }
  assert (A : addressable (grow c) (map (fun _ => I32) (n0 + 1 :: ns))).
  { split; [|split].
    - split; [|split; [|split]].
      + unfold grow, dims in *. destruct (c_shape c) as [|[t n] r]; [discriminate|]. cbn [c_shape].
        inversion W1; subst. constructor; [|assumption]. cbn in Dc. injection Dc as <- _. unfold wfc, in_ty; simpl; lia.
      + rewrite Dg. rewrite Dc in W2. inversion W2; subst. constructor; [lia|assumption].
      + exists st. rewrite Gg. split; [exact Gs|]. split; [exact Ws|]. rewrite Ls.
        unfold grow. destruct (c_shape c) as [|[t n] r]; [contradiction Ne; reflexivity|reflexivity].
      + unfold grow. destruct (c_shape c) as [|[t n] r]; [contradiction Ne; reflexivity|]. exact Wk.
    - left. rewrite Sg, Sz, Dc in *. exact Nn.
    - left. intros is_ B. rewrite Dg in B. rewrite absdot_dot; [|rewrite Sg, Sz, Dc in *; exact Nn|eapply in_box_nonneg; exact B].
      rewrite Sg, <- rank_dot by (apply in_box_length; exact B). pose proof (rank_range _ _ B) as R. change (prod (n0 + 1 :: ns)) with ((n0 + 1) * prod ns) in R. lia. }
  assert (Bx : forall js, In js (neighbours (p0 :: ps)) -> in_box (n0 + 1 :: ns) js).
  { intros js J. cbn [neighbours] in J. apply in_app_or in J as [J|J]; apply in_map_iff in J as (k & <- & Jk);
      (constructor; [lia|eapply interior_neighbours; eassumption]). }
  assert (Ld : forall js, In js (neighbours (p0 :: ps)) -> get m c (map int js) = load m (elem (grow c) js)).
  { intros js J. rewrite <- grow_get. rewrite get_load.
    - rewrite vals_int. reflexivity.
    - rewrite types_int, (map_const_length (n0 + 1 :: ns)) by (apply in_box_length; apply Bx; exact J). exact A.
    - apply int_coord; rewrite Dg; [exact Nm|apply Bx; exact J]. }
  rewrite mapM_UB; [reflexivity| |].
  - intros x Ix. destruct (C x Ix) as (c0 & js & [<-|[]] & Ij & ->). cbn [app]. rewrite (Ld js Ij).
    unfold load. destruct (cell m (elem (grow c) js)) as [[v|]|]; eauto.
  - destruct (neighbours_ex ps) as [js J]. exists (n0 :: js).
    assert (Ij : In (n0 :: js) (neighbours (p0 :: ps))).
    { cbn [neighbours]. apply in_or_app. right. rewrite Fl. replace (n0 - 1 + 1) with n0 by lia. apply in_map. exact J. }
    split; [apply (C' [] (n0 :: js)); [left; reflexivity|exact Ij]|]. rewrite (Ld _ Ij).
    unfold load, elem. rewrite Sg, <- rank_dot by (apply in_box_length; apply Bx; exact Ij).
    assert (Dd : c_data (grow c) = c_data c) by (unfold grow; destruct (c_shape c) as [|[t n] r]; reflexivity).
    rewrite Dd, Dp. cbn [padd]. unfold cell. rewrite Mb.
    assert (Bj : in_box ns js) by (eapply interior_neighbours; eassumption).
    pose proof (rank_range _ _ Bj). rewrite rank_cons by (apply in_box_length; exact Bj). rewrite Dc in Lc. change (prod (n0 :: ns)) with (n0 * prod ns) in Lc.
    destruct (Z.leb_spec 0 (0 + (n0 * prod ns + rank ns js))); [|nia].
    rewrite (proj2 (nth_error_None cs _)); [reflexivity|]. nia.
Qed.

(** ** Floor *)
Lemma trunc_max p : (-1 < p)%Q -> Z.quot (Qnum p) (Zpos (Qden p)) = Z.max 0 (Qfloor p).
Proof.
  intros H. destruct (Qlt_le_dec p 0) as [N|N].
  - assert (F : Qfloor p = -1).
    { pose proof (floor_lt p 0 N). destruct (floor_bounds p) as [_ B].
      assert (L : (inject_Z (-1) < inject_Z (Qfloor p + 1))%Q) by (eapply Qlt_trans; eassumption).
      apply inject_lt in L. lia. }
    rewrite F. change (Z.max 0 (-1)) with 0. destruct p as [n d]. unfold Qlt in *. cbn in H, N |- *.
    replace n with (- - n) by lia. rewrite Z.quot_opp_l by lia. rewrite Z.quot_small by lia. reflexivity.
  - rewrite quot_floor by exact N. pose proof (floor_nonneg p N). lia.
Qed.

Lemma floor_l {T} (m : mem T) c ps (f : list Z -> T) : addressable c (map (fun _ => I64) (dims c)) ->
  Forall (fun n => 1 <= n <= 2 ^ 63) (dims c) -> (forall is_, in_box (dims c) is_ -> value m c is_ (f is_)) ->
  Forall2 (fun n p => (-1 < p)%Q /\ (p < inject_Z n)%Q) (dims c) ps ->
  floor_interpolate rationals m c ps = Ok (f (map (fun p => Z.max 0 (Qfloor p)) ps)).
Proof.
  intros A B V F. unfold floor_interpolate. set (fl := fun p => Z.max 0 (Qfloor p)).
  assert (Bx : in_box (dims c) (map fl ps) /\ Forall (fun z => in_ty I64 z) (map fl ps) /\ Forall (fun p => (-1 < p)%Q) ps).
  { clear A V. revert B. induction F as [|n p ns ps (H1 & H2) F IH]; intros B; [repeat constructor|].
    inversion B; subst. pose proof (floor_lt p _ H2). destruct (IH ltac:(assumption)) as (I1 & I2 & I3).
    split; [|split]; cbn [map]; (constructor; [|assumption]); unfold fl; [lia| |assumption].
    unfold in_ty. change (tmin I64) with (-9223372036854775808). change (tmax I64) with 9223372036854775807. lia. }
  destruct Bx as (Bx & I64s & Gt).
  assert (M : mapM (to_int rationals I64) ps = Ok (map fl ps)).
  { clear Bx F V. induction ps as [|p ps IH]; [reflexivity|]. cbn [map] in I64s. inversion I64s; subst. inversion Gt; subst.
    cbn [mapM map]. rewrite (IH ltac:(assumption) ltac:(assumption)). unfold to_int. cbn [trunc rationals].
    rewrite trunc_max by assumption. fold (fl p).
    replace (in_tyb I64 (fl p)) with true by (symmetry; apply in_tyb_spec; assumption). reflexivity. }
  rewrite M, bind_ok.
  assert (Vv : vals (map (CI I64) (map fl ps)) = map fl ps) by (unfold vals; rewrite map_map; apply map_id).
  apply get_value.
  - rewrite map_map. cbn [cty]. rewrite (map_const_length (dims c)) by (apply in_box_length; exact Bx). exact A.
  - split; [|rewrite Vv; exact Bx]. clear -I64s. induction I64s; constructor; assumption.
  - rewrite Vv. apply V. exact Bx.
Qed.

Lemma integral_interior ns is_ : Forall2 (fun n i => 0 <= i < n - 1) ns is_ -> interior ns (map inject_Z is_).
Proof.
  induction 1; constructor; [|assumption]. split; [change 0%Q with (inject_Z 0); rewrite <- Zle_Qle|rewrite <- Zlt_Qlt]; lia.
Qed.

Lemma linear_at_element_l {T} (cv : T -> Q) (m : mem T) c is_ (f : list Z -> T) :
  addressable c (map (fun _ => I32) (dims c)) -> Forall (fun n => n <= 2147483648) (dims c) ->
  (forall js, in_box (dims c) js -> value m c js (f js)) ->
  Forall2 (fun n i => 0 <= i < n - 1) (dims c) is_ ->
  exists r, linear_interpolate rationals cv m c (map inject_Z is_) = Ok r /\ (r == cv (f is_))%Q.
Proof.
  intros A B V I. destruct (linear_l cv m c (map inject_Z is_) f A B V (integral_interior _ _ I)) as (r & E & R).
  exists r. split; [exact E|]. rewrite R. rewrite (multilinear_integral is_); [reflexivity|].
  clear. induction is_; constructor; [reflexivity|assumption].
Qed.

Lemma linear_between_l {T} (cv : T -> Q) (m : mem T) c ps (f : list Z -> T) lo hi :
  addressable c (map (fun _ => I32) (dims c)) -> Forall (fun n => n <= 2147483648) (dims c) ->
  (forall is_, in_box (dims c) is_ -> value m c is_ (f is_)) -> interior (dims c) ps ->
  (forall is_, In is_ (neighbours ps) -> (lo <= cv (f is_) <= hi)%Q) ->
  exists r, linear_interpolate rationals cv m c ps = Ok r /\ (lo <= r <= hi)%Q.
Proof.
  intros A B V I N. destruct (linear_l cv m c ps f A B V I) as (r & E & R). exists r. split; [exact E|].
  rewrite R. apply multilinear_between. exact N.
Qed.

Lemma linear_reproduces_l {T} (cv : T -> Q) (m : mem T) c ps (f : list Z -> T) g :
  addressable c (map (fun _ => I32) (dims c)) -> Forall (fun n => n <= 2147483648) (dims c) ->
  (forall is_, in_box (dims c) is_ -> value m c is_ (f is_) /\ (cv (f is_) == g (map inject_Z is_))%Q) ->
  affine_in_each g -> interior (dims c) ps ->
  exists r, linear_interpolate rationals cv m c ps = Ok r /\ (r == g ps)%Q.
Proof.
  intros A B V G I. destruct (linear_l cv m c ps f A B (fun is_ X => proj1 (V is_ X)) I) as (r & E & R).
  exists r. split; [exact E|]. rewrite R. rewrite <- (multilinear_affine g G ps []). cbn [app].
  apply multilinear_ext. intros is_ X. apply V. eapply interior_neighbours; eassumption.
Qed.

Lemma floor_inside_l {T} (m : mem T) c ps (f : list Z -> T) :
  addressable c (map (fun _ => I64) (dims c)) -> Forall (fun n => 1 <= n <= 2 ^ 63) (dims c) ->
  (forall is_, in_box (dims c) is_ -> value m c is_ (f is_)) ->
  Forall2 (fun n p => (0 <= p)%Q /\ (p < inject_Z n)%Q) (dims c) ps ->
  floor_interpolate rationals m c ps = Ok (f (map Qfloor ps)).
Proof.
  intros A B V F. rewrite (floor_l m c ps f A B V).
  - do 2 f_equal. clear -F. induction F as [|n p ns ps [H1 H2] F IH]; [reflexivity|]. cbn [map]. f_equal; [|exact IH].
    pose proof (floor_nonneg p H1). lia.
  - clear -F. induction F as [|n p ns ps [H1 H2] F IH]; constructor; [|exact IH]. split; [lra|exact H2].
Qed.

(** a + b x + c y + d x y. *)
Lemma bilinear_affine a b c d :
  affine_in_each (fun ps => match ps with [x; y] => (a + b * x + c * y + d * x * y)%Q | _ => 0%Q end).
Proof.
  split.
  - intros l l' F. destruct F as [|x x' ? ? E1 F]; [reflexivity|]. destruct F as [|y y' ? ? E2 F]; [reflexivity|].
    destruct F; [|reflexivity]. rewrite E1, E2. reflexivity.
  - intros pre x y t post. destruct pre as [|u pre]; cbn [app].
    + destruct post as [|v [|w post]]; ring.
    + destruct pre as [|u' pre]; cbn [app]; [destruct post; ring|]. destruct pre; cbn [app]; ring.
Qed.
