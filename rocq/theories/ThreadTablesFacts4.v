From Coq Require Import ZArith List Bool Lia.
From Verif Require Import Outcome CInt CIntFacts Spec SpecFacts ShapeSpec Shape ShapeFacts Memory MemFacts Container ContainerSpec
  ContainerFacts ContainerFacts2 ContainerFacts3 AlgoSpec Algo AlgoFacts AlgoFacts2 AlgoFacts3 AlgoFacts4 Program
  Threads ThreadsSpec ThreadsFacts ThreadsFacts2 ThreadsFacts3 ThreadTables ThreadTablesSpec ThreadTablesFacts ThreadTablesFacts2
  ThreadTablesFacts3.
Import ListNotations.
Open Scope Z_scope.

Lemma nth_ext_l {X} (l l' : list X) : length l = length l' -> (forall i x, nth_error l i = Some x -> nth_error l i = nth_error l' i) -> l = l'.
Proof.
  revert l'. induction l as [|x l IH]; intros [|y l'] L H; try discriminate; [reflexivity|].
  pose proof (H 0%nat x eq_refl) as E. injection E as ->. f_equal. apply IH; [injection L; auto|]. intros i z E. exact (H (S i) z E).
Qed.

(** ** Values *)
Lemma values_map {T} (m m' : mem T) c t h vs : values m c c vs -> dims t = dims c ->
  (forall is_ v, in_box (dims c) is_ -> value m c is_ v -> value m' t is_ (h v)) -> values m' t t (map h vs).
Proof.
  unfold values. intros V -> H. assert (I : forall x, In x (box (dims c)) -> in_box (dims c) x) by (intros x; apply box_In).
  revert V I. generalize (box (dims c)). intros l V. induction V as [|x v l vs Hv V IH]; intros I; cbn [map]; constructor.
  - apply H; [apply I; left; reflexivity|exact Hv].
  - apply IH. intros y Hy. apply I. right. exact Hy.
Qed.
Lemma values_readable {T} (m : mem T) c vs : values m c c vs -> readable m c.
Proof.
  unfold values, readable. intros V is_ Bx. apply box_In in Bx. revert V Bx. generalize (box (dims c)). intros l V.
  induction V as [|x v l vs Hv V IH]; intros [].
  - subst. exists v. exact Hv.
  - auto.
Qed.
Lemma values_const {T} (m : mem T) c v : nonnegs (dims c) -> (forall is_, in_box (dims c) is_ -> value m c is_ v) ->
  values m c c (repeat v (Z.to_nat (prod (dims c)))).
Proof.
  intros N H. rewrite <- (box_length (dims c) N), Nat2Z.id. unfold values.
  assert (I : forall x, In x (box (dims c)) -> value m c x v) by (intros x Hx; apply H, box_In; exact Hx).
  revert I. generalize (box (dims c)). intros l. induction l as [|x l IH]; intros I; cbn [length repeat]; constructor.
  - apply I. left. reflexivity.
  - apply IH. intros y Hy. apply I. right. exact Hy.
Qed.
Lemma readable_writable {T} (m : mem T) c : readable m c -> writable m c.
Proof. intros R is_ Bx. destruct (R is_ Bx) as (v & Hv). exact (peek_valid _ _ _ Hv). Qed.
Lemma default_reaches c : default_layout c -> in_reach c c.
Proof. intros D. split; [apply default_addressable; exact D|intros is_ Bx; exact Bx]. Qed.
Lemma default_nonneg c : default_layout c -> nonnegs (dims c).
Proof. intros D. destruct (default_wf c D) as ((_ & N & _) & _). exact N. Qed.
Lemma releasable_same {T} (m m' : mem T) B t : releasable m B t -> same_cells m m' -> releasable m' B t.
Proof. intros H Sm b Hb. destruct (H b Hb) as (H1 & H2 & H3). split; [exact H1|]. split; [exact H2|]. apply Sm. exact H3. Qed.

(** ** Calls on a table of the thread *)
Lemma safe_transform {T} Sh R W (Q : unit -> list nat -> mem T -> Prop) f t B m vs : default_layout t -> values m t t vs ->
  (forall p, elements t t p -> owned B p) ->
  (forall m', values m' t t (map (fun v => f [v]) vs) -> same_cells m m' -> (forall p, ~ elements t t p -> cell m' p = cell m p) -> Q tt B m') ->
  safe Sh R W Q (lift (a_transform f t t [])) B m.
Proof.
  intros D V Ow HQ. pose proof (values_readable m t vs V) as Rd. pose proof (readable_writable m t Rd) as Wr.
  destruct (transform_l f t t [] m) as (m' & E & Vt & Fr).
  - apply default_can_write; auto.
  - constructor; [apply default_can_read; auto|constructor].
  - constructor; [eapply default_no_cross; eassumption|constructor].
  - eapply (safe_call_l Sh R W Q _ _ _ B (ft_transform f t t [] _)).
    + intros p (c & [<-|[]] & Hp). right. right. apply Ow. exact Hp.
    + intros p Hp. right. apply Ow. exact Hp.
    + rewrite al_transform, E. reflexivity.
    + destruct Fr as [Sm Fr]. apply HQ; [|exact Sm|].
      * apply (values_map m m' t t (fun v => f [v]) vs V eq_refl). intros is_ v Bx Hv. apply (Vt is_ [v] Bx). constructor; [exact Hv|constructor].
      * intros p Np. apply Fr. intros is_ Bx ->. apply Np. exists is_. auto.
  Unshelve. repeat (constructor; [apply default_reaches; exact D|]). constructor.
Qed.
Lemma safe_fill {T} Sh R W (Q : unit -> list nat -> mem T -> Prop) v t B m : default_layout t -> writable m t ->
  (forall p, elements t t p -> owned B p) ->
  (forall m', values m' t t (repeat v (Z.to_nat (prod (dims t)))) -> same_cells m m' -> (forall p, ~ elements t t p -> cell m' p = cell m p) -> Q tt B m') ->
  safe Sh R W Q (lift (a_fill t v)) B m.
Proof.
  intros D Wr Ow HQ. destruct (fill_l t v m) as (m' & E & Vt & Fr); [apply default_can_write; auto|].
  eapply (safe_call_l Sh R W Q _ _ _ B (ft_fill t v (default_reaches t D))).
  - intros p [].
  - intros p Hp. right. apply Ow. exact Hp.
  - rewrite al_fill, E. reflexivity.
  - destruct Fr as [Sm Fr]. apply HQ; [|exact Sm|].
    + apply values_const; [apply default_nonneg; exact D|exact Vt].
    + intros p Np. apply Fr. intros is_ Bx ->. apply Np. exists is_. auto.
Qed.
Lemma safe_reduce_drop {T A} Sh R W (Q : A -> list nat -> mem T -> Prop) op init t B m vs : default_layout t -> releasable m B t ->
  (forall p, elements t t p -> owned (table_blocks t) p) -> values m t t vs ->
  (forall B' m', (forall b, In b B' <-> In b B /\ ~ In b (table_blocks t)) -> (forall p, ~ owned (table_blocks t) p -> cell m' p = cell m p) ->
     Q (fold_left op vs init) B' m') ->
  safe Sh R W Q (r <== lift (a_reduce t op init) ;; _ <== t_drop t ;; End (Ok r)) B m.
Proof.
  intros D Rl Ow V HQ. apply safe_then.
  eapply (safe_call_l Sh R W _ _ _ _ B (ft_reduce t op init (default_reaches t D))).
  - intros p Hp. right. right. specialize (Ow p Hp). destruct p as [|b o]; [exact Ow|]. destruct (Rl b Ow). assumption.
  - intros p [].
  - rewrite al_reduce. apply reduce_l; [|exact V]. apply default_can_read; [exact D|reflexivity|exact (values_readable m t vs V)].
  - cbv beta. apply safe_then. apply safe_drop_l; [exact Rl|]. intros B' m' HB HC. constructor. apply HQ; assumption.
Qed.

(** ** Copy assignment *)
Lemma like_copy {T} dst src : c_kind dst = c_kind src -> c_kind dst <> KStatic -> @t_like T dst src = t_copy src.
Proof.
  intros E N. unfold t_copy, t_like. replace (rebuild_accessor dst (c_shape src)) with (rebuild_accessor src (c_shape src)); [reflexivity|].
  unfold rebuild_accessor. rewrite E in *. destruct (c_kind src); congruence.
Qed.
Lemma swap_tables dst t : default_layout dst -> default_layout t -> c_kind dst = c_kind t -> c_kind dst <> KStatic ->
  fst (swap_containers dst t) = t /\ c_data (snd (swap_containers dst t)) = c_data dst.
Proof.
  intros D1 D2 E N. pose proof (default_kind_inv dst D1) as K1. pose proof (default_kind_inv t D2) as K2.
  unfold swap_containers, swap_accessors. rewrite E in *. destruct t as [k sh st d]. cbn [c_kind c_shape c_stride c_data] in *.
  destruct k; try congruence; cbn [fst snd c_data]; try contradiction; split; try reflexivity; destruct K1 as [-> _], K2 as [-> _]; reflexivity.
Qed.
Lemma safe_assign_l {T} Sh R W (Q : container -> list nat -> mem T -> Prop) dst src B m : default_layout dst -> default_layout src ->
  c_kind dst = c_kind src -> c_kind dst <> KStatic -> releasable m B dst -> readable m src ->
  (forall p, elements src src p -> R p \/ W p \/ owned B p) -> (forall p, R p \/ W p -> within Sh p) ->
  (forall t B1 m1 B' m', c_shape t = c_shape src -> new_table Sh B m t B1 m1 ->
     (forall is_ v, in_box (dims src) is_ -> value m src is_ v -> value m1 t is_ v) ->
     (forall b, In b B' <-> In b B1 /\ ~ In b (table_blocks dst)) -> (forall p, ~ owned (table_blocks dst) p -> cell m' p = cell m1 p) ->
     Q t B' m') ->
  safe Sh R W Q (t_assign dst src) B m.
Proof.
  intros D1 D2 E N Rl Rd Ac Hs HQ. unfold t_assign. rewrite like_copy by assumption. apply safe_then.
  apply safe_copy_l; [exact D2|exact Rd|exact Ac|exact Hs|]. intros t B1 m1 Es Kt Nt V.
  pose proof Nt as (Dt & EB & Fr & Rt & Wt & Ow & F).
  destruct (swap_tables dst t D1 Dt ltac:(congruence) N) as [Ef Es']. apply safe_then.
  assert (TB : table_blocks (snd (swap_containers dst t)) = table_blocks dst) by (unfold table_blocks; rewrite Es'; reflexivity).
  apply safe_drop_l.
  - intros b Hb. rewrite TB in Hb. destruct (Rl b Hb) as (H1 & H2 & H3). split; [subst B1; apply in_or_app; right; exact H1|].
    rewrite Es'. split; [exact H2|]. unfold valid in *. rewrite F; [exact H3|]. intros H. apply (proj2 (Fr b H)). exact H1.
  - intros B' m' HB HC. rewrite TB in *. constructor. rewrite Ef. exact (HQ t B1 m1 B' m' Es Nt V HB HC).
Qed.

(** ** The programs of the threads *)
Section Jobs.
  Context {T A : Type} (Sh : nat -> Prop) (R W : ptr -> Prop) (Hs : forall p, R p \/ W p -> within Sh p).

  Lemma safe_worker (Q : A -> list nat -> mem T -> Prop) f op init c B m vs : default_layout c -> values m c c vs ->
    (forall p, elements c c p -> R p \/ W p \/ owned B p) ->
    (forall B' m', (forall b, In b B' <-> In b B) -> Q (fold_left op (map (fun v => f [v]) vs) init) B' m') ->
    safe Sh R W Q (worker f op init c) B m.
  Proof using Hs.
    intros D V Ac HQ. unfold worker. apply safe_then. apply safe_copy_l; [exact D|exact (values_readable m c vs V)|exact Ac|exact Hs|].
    intros t B1 m1 Es _ (Dt & EB & Fr & Rl & Wr & Ow & F) Vt. assert (Ed : dims t = dims c) by (unfold dims; rewrite Es; reflexivity).
    pose proof (values_map m m1 c t (fun v => v) vs V Ed Vt) as V1. rewrite map_id in V1.
    apply safe_then. eapply safe_transform; [exact Dt|exact V1| |].
    - intros p Hp. specialize (Ow p Hp). destruct p as [|b o]; [exact Ow|]. subst B1. apply in_or_app. left. exact Ow.
    - intros m2 V2 Sm F2. eapply safe_reduce_drop; [exact Dt|exact (releasable_same _ _ _ _ Rl Sm)|exact Ow|exact V2|].
      intros B' m' HB _. apply HQ. intros b. rewrite HB. subst B1. rewrite in_app_iff. split; [tauto|].
      intros Hb. split; [auto|]. intros Hn. exact (proj2 (Fr b Hn) Hb).
  Qed.
  Lemma safe_filler (Q : A -> list nat -> mem T -> Prop) st sh v op init B m : legal sh -> sh <> [] ->
    (forall B' m', (forall b, In b B' <-> In b B) -> Q (fold_left op (repeat v (Z.to_nat (prod (vals sh)))) init) B' m') ->
    safe Sh R W Q (filler st sh v op init) B m.
  Proof using.
    intros Lg Ne HQ. unfold filler. apply safe_then. apply safe_make_l; [exact Lg|exact Ne|].
    intros t B1 m1 Es (Dt & EB & Fr & Rl & Wr & Ow & F). apply safe_then. apply safe_fill; [exact Dt|exact Wr| |].
    - intros p Hp. specialize (Ow p Hp). destruct p as [|b o]; [exact Ow|]. subst B1. apply in_or_app. left. exact Ow.
    - intros m2 V2 Sm F2. unfold dims in V2. rewrite Es in V2.
      eapply safe_reduce_drop; [exact Dt|exact (releasable_same _ _ _ _ Rl Sm)|exact Ow|exact V2|].
      intros B' m' HB _. apply HQ. intros b. rewrite HB. subst B1. rewrite in_app_iff. split; [tauto|].
      intros Hb. split; [auto|]. intros Hn. exact (proj2 (Fr b Hn) Hb).
  Qed.
  Lemma safe_assigner (Q : A -> list nat -> mem T -> Prop) op init c d B m vs ws : default_layout c -> default_layout d ->
    c_kind c = c_kind d -> c_kind c <> KStatic -> values m c c vs -> values m d d ws ->
    (forall p, elements c c p \/ elements d d p -> R p \/ W p) ->
    (forall B' m', (forall b, In b B' <-> In b B) -> Q (fold_left op ws init) B' m') ->
    safe Sh R W Q (assigner op init c d) B m.
  Proof using Hs.
    intros Dc Dd Ek Nk Vc Vd Ac HQ. unfold assigner. apply safe_then.
    apply safe_copy_l; [exact Dc|exact (values_readable m c vs Vc)|intros p Hp; destruct (Ac p (or_introl Hp)); auto|exact Hs|].
    intros t B1 m1 _ Kt (Dt & EB & Fr & Rl & Wr & Ow & F) _.
    assert (Same : forall is_, in_box (dims d) is_ -> cell m1 (elem d is_) = cell m (elem d is_)).
    { intros is_ Bx. apply F. intros Hb. assert (S1 : within Sh (elem d is_)) by (apply Hs, Ac; right; exists is_; auto).
      destruct (elem d is_) as [|b o]; [exact Hb|]. exact (proj1 (Fr b Hb) S1). }
    assert (V1 : values m1 d d ws).
    { rewrite <- (map_id ws). apply (values_map m m1 d d (fun v => v) ws Vd eq_refl). intros is_ v Bx Hv. unfold value, peek in *. rewrite Same by exact Bx. exact Hv. }
    apply safe_then. apply safe_assign_l; [exact Dt|exact Dd|congruence|congruence|exact Rl|exact (values_readable m1 d ws V1)| |exact Hs|].
    - intros p Hp. destruct (Ac p (or_intror Hp)); auto.
    - intros t' B2 m2 B' m' Es' (Dt' & EB' & Fr' & Rl' & Wr' & Ow' & F') V2 HB HC.
      assert (Ds : forall b, In b (table_blocks t') -> ~ In b (table_blocks t)).
      { intros b H1 H2. apply (proj2 (Fr' b H1)). subst B1. apply in_or_app. left. exact H2. }
      assert (Ed : dims t' = dims d) by (unfold dims; rewrite Es'; reflexivity).
      assert (Kp : forall p, owned (table_blocks t') p -> cell m' p = cell m2 p).
      { intros p Hp. apply HC. intros Hq. destruct p as [|b o]; [exact Hp|]. exact (Ds b Hp Hq). }
      eapply (safe_reduce_drop _ _ _ _ _ _ _ _ _ ws); [exact Dt'| |exact Ow'| |].
      + intros b Hb. destruct (Rl' b Hb) as (H1 & H2 & H3). split; [apply HB; split; [exact H1|exact (Ds b Hb)]|]. split; [exact H2|].
        unfold valid in *. rewrite Kp; [exact H3|exact Hb].
      + rewrite <- (map_id ws). apply (values_map m1 m' d t' (fun v => v) ws V1 Ed). intros is_ v Bx Hv. unfold value, peek.
        rewrite Kp; [exact (V2 is_ v Bx Hv)|]. apply Ow'. exists is_. rewrite Ed. auto.
      + intros B3 m3 HB3 _. apply HQ. intros b. rewrite HB3, HB. subst B2 B1. rewrite !in_app_iff. split; [tauto|]. intros Hb.
        split; [split; [auto|]|]; intros Hn; [exact (proj2 (Fr b Hn) Hb)|]. apply (proj2 (Fr' b Hn)). apply in_or_app. right. exact Hb.
  Qed.
End Jobs.

(** ** Starting from a memory nobody else uses *)
Definition start_shared {T} (g : mem T) (b : nat) : Prop := (b < length g)%nat.
Lemma valid_shared {T} (g : mem T) p : valid g p -> within (start_shared g) p.
Proof. destruct p as [|b o]; [intros H; exact (H eq_refl)|]. intros H. exact (cell_block_lt g b o H). Qed.
Lemma arranged_start {T} n (g : mem T) R W : separate n R W -> (forall i p, (i < n)%nat -> R i p \/ W i p -> within (start_shared g) p) ->
  arranged n (start_shared g) R W (fun _ => []) (fun _ => g) g.
Proof.
  intros Sp In_. repeat apply conj; auto; try (intros; contradiction).
  - intros b (cs & E). left. apply nth_lt in E. exact E.
  - intros i p _ V. left. apply valid_shared. exact V.
  - intros; split; auto.
Qed.

Lemma jobs_l {T A} (g : mem T) (ths : list (tact T A)) rs : Forall2 (job g) ths rs ->
  threads_end ths g (fun rs' g' => rs' = rs /\ forall p, cell g' p = cell g p).
Proof.
  intros J. destruct (Forall2_nth_l _ _ _ J) as [L Jn].
  pose (R := fun (i : nat) (p : ptr) => valid g p).
  pose proof (tables_threads_l ths g (start_shared g) R (fun _ => nothing)
    (fun i a B m => nth_error rs i = Some a /\ B = []) (fun _ => []) (fun _ => g)) as H.
  destruct H as (N & HN).
  - apply arranged_start; [intros i j p _ _ _ []|]. intros i p _ [V|[]]. apply valid_shared. exact V.
  - intros i x E. destruct (nth_ex ths rs i x L E) as (r & Er). pose proof (Jn i x r E Er) as Jx.
    assert (Hs : forall p, R i p \/ nothing p -> within (start_shared g) p) by (intros p [V|[]]; apply valid_shared; exact V).
    assert (Ne : forall B' : list nat, (forall b, In b B' <-> In b []) -> B' = []).
    { intros [|b B'] HB; [reflexivity|]. destruct (proj1 (HB b) (or_introl eq_refl)). }
    assert (Vd : forall c vs p, values g c c vs -> elements c c p -> R i p).
    { intros c vs p V (is_ & Bx & ->). exact (readable_writable g c (values_readable g c vs V) is_ Bx). }
    destruct Jx as [f op init c vs D V|st sh v op init Lg Nn|op init c d vs ws Dc Dd Ek Nk Vc Vw].
    + eapply safe_worker; [exact Hs|exact D|exact V|intros p Hp; left; eapply Vd; eassumption|].
      intros B' m' HB. split; [exact Er|apply Ne; exact HB].
    + apply safe_filler; [exact Lg|exact Nn|]. intros B' m' HB. split; [exact Er|apply Ne; exact HB].
    + eapply safe_assigner; [exact Hs|exact Dc|exact Dd|exact Ek|exact Nk|exact Vc|exact Vw| |].
      * intros p [Hp|Hp]; left; [exact (Vd c vs p Vc Hp)|exact (Vd d ws p Vw Hp)].
      * intros B' m' HB. split; [exact Er|apply Ne; exact HB].
  - exists N. intros n s Tn. destruct (HN n s Tn) as (H1 & H2 & H3 & H4). repeat (split; [assumption|]).
    destruct H4 as [H4|(rs' & Rt & Bs & ms & Ar & Ln & HQ & Kp)]; [left; exact H4|right]. exists rs'. split; [exact Rt|]. split.
    + apply nth_ext_l; [congruence|]. intros i r Ei. symmetry. rewrite Ei. apply (HQ i r Ei).
    + assert (Nil : forall i, (i < length ths)%nat -> Bs i = []).
      { intros i Hi. destruct (nth_error rs' i) as [r|] eqn:Er; [apply (HQ i r Er)|]. apply nth_error_None in Er. lia. }
      intros [|b o]; [reflexivity|]. destruct (le_lt_dec (length g) b) as [Lb|Lb].
      * assert (N1 : cell g (Ptr b o) = None).
        { destruct (cell g (Ptr b o)) eqn:E; [|reflexivity]. assert (V : valid g (Ptr b o)) by (unfold valid; congruence).
          apply cell_block_lt in V. lia. }
        rewrite N1. destruct (cell (snd s) (Ptr b o)) eqn:E; [|reflexivity]. exfalso.
        assert (Al : alive (snd s) b) by (apply (valid_alive _ b o); unfold valid; congruence).
        destruct Ar as (_ & _ & _ & _ & _ & _ & A7 & _). destruct (A7 b Al) as [Hb|(i & Hi & Hb)].
        -- unfold start_shared in Hb. lia.
        -- rewrite (Nil i Hi) in Hb. destruct Hb.
      * destruct (Kp (Ptr b o) Lb) as [E|(i & _ & [])]. exact E.
Qed.
