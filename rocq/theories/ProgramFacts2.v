From Coq Require Import ZArith List Bool Lia.
From Verif Require Import Outcome CInt CIntFacts Spec SpecFacts ShapeSpec Shape ShapeFacts ShapeFacts2
  ForEach ForEachSpec ForEachFacts Memory MemFacts Container ContainerSpec ContainerFacts ContainerFacts2 ContainerFacts3
  Algo AlgoSpec AlgoFacts AlgoFacts2 AlgoFacts3 AlgoFacts4 CallFacts2 Slicer SlicerSpec SlicerFacts SlicerFacts2 SlicerFacts3 Alloc
  Program ProgramSpec ProgramFacts.
Import ListNotations.
Open Scope Z_scope.

(** ** New tables, exactly *)
Lemma nth_error_last {A} (l : list A) x : nth_error (l ++ [x]) (length l) = Some x.
Proof. rewrite nth_error_app2 by lia. rewrite Nat.sub_diag. reflexivity. Qed.
Lemma set_nth_last {A} (l : list A) x y : set_nth (l ++ [x]) (length l) y = l ++ [y].
Proof. induction l as [|z l IH]; cbn; [reflexivity|]. rewrite IH. reflexivity. Qed.

Lemma copy_exact {T} (vs : list T) : forall d m src,
  (forall k v, nth_error vs k = Some v -> peek m (padd src (Z.of_nat k)) = Some v) ->
  copy_elements (m ++ [Some (map Some d ++ repeat None (length vs))]) src
    (Ptr (length m) (Z.of_nat (length d))) (length vs) = Ok (m ++ [Some (map Some (d ++ vs))]).
Proof.
  induction vs as [|v vs IH]; intros d m src H.
  - cbn. rewrite !app_nil_r. reflexivity.
  - cbn [length copy_elements repeat].
    pose proof (H 0%nat v eq_refl) as H0. cbn [Z.of_nat] in H0. rewrite padd_0 in H0.
    assert (L : load (m ++ [Some (map Some d ++ None :: repeat None (length vs))]) src = Ok v).
    { apply load_peek. unfold peek in *. rewrite cell_app; [exact H0|]. intros C. rewrite C in H0. discriminate. }
    rewrite L. cbn [bind].
    assert (St : store (m ++ [Some (map Some d ++ None :: repeat None (length vs))]) (Ptr (length m) (Z.of_nat (length d))) v =
      Ok (m ++ [Some (map Some (d ++ [v]) ++ repeat None (length vs))])).
    { rewrite store_valid.
      - unfold upd. rewrite nth_error_last. destruct (Z.leb_spec 0 (Z.of_nat (length d))) as [_|]; [|lia].
        rewrite set_nth_last, Nat2Z.id. do 3 f_equal.
        rewrite map_app, <- app_assoc. cbn [map app]. f_equal.
        rewrite <- (map_length Some d). generalize (map Some d) as e. induction e as [|z e IHe]; cbn; [reflexivity|].
        rewrite IHe. reflexivity.
      - cbn [cell]. rewrite nth_error_last. destruct (Z.leb_spec 0 (Z.of_nat (length d))) as [_|]; [|lia].
        rewrite Nat2Z.id, nth_error_app2 by (rewrite map_length; lia). rewrite map_length, Nat.sub_diag. discriminate. }
    rewrite St. cbn [bind padd].
    replace (Z.of_nat (length d) + 1) with (Z.of_nat (length (d ++ [v]))) by (rewrite app_length; cbn [length]; lia).
    rewrite IH.
    + rewrite <- app_assoc. reflexivity.
    + intros k w Hk. rewrite padd_padd. replace (1 + Z.of_nat k) with (Z.of_nat (Datatypes.S k)) by lia.
      apply H. exact Hk.
Qed.

Definition addr (b : option nat) : ptr := match b with Some b => Ptr b 0 | None => Null end.
Lemma base_addr x : base x = addr (t_block x). Proof. reflexivity. Qed.

Lemma new_block_copy {T} (m : mem T) n src vs m1 b : Z.of_nat (length vs) = n ->
  (forall k v, nth_error vs k = Some v -> peek m (padd src (Z.of_nat k)) = Some v) ->
  give m (map Some vs) = (m1, b) -> new_block m n (Some src) = Ok (m1, addr b).
Proof.
  intros <- H G. unfold new_block. destruct vs as [|v vs].
  - cbn in *. injection G as <- <-. reflexivity.
  - destruct (Z.eqb_spec (Z.of_nat (length (v :: vs))) 0) as [E|_]; [cbn in E; lia|].
    cbn [give map] in G. injection G as <- <-. unfold alloc. rewrite Nat2Z.id.
    pose proof (copy_exact (v :: vs) [] m src H) as C. cbn [map app] in C.
    change (Z.of_nat (length (@nil T))) with 0 in C. rewrite C. reflexivity.
Qed.
Lemma new_block_empty {T} (m : mem T) n m1 b : 0 <= n ->
  give m (repeat None (Z.to_nat n)) = (m1, b) -> new_block m n None = Ok (m1, addr b).
Proof.
  intros Hn G. unfold new_block. destruct (Z.eqb_spec n 0) as [->|N].
  - cbn in G. injection G as <- <-. reflexivity.
  - unfold alloc. destruct (Z.to_nat n) eqn:E; [lia|]. cbn [give repeat] in *. injection G as <- <-. reflexivity.
Qed.

Lemma contents_dense {T} (m : mem T) sh p vs : nonnegs (vals sh) -> contents m (dense sh p) vs ->
  Z.of_nat (length vs) = prod (vals sh) /\
  forall k v, nth_error vs k = Some v -> peek m (padd p (Z.of_nat k)) = Some v.
Proof.
  intros N C. unfold contents in C. cbn [dense a_at a_dims] in C.
  pose proof (Forall2_len _ _ _ C) as L. pose proof (box_length (vals sh) N) as BL. split; [lia|].
  intros k v Hk. 
  assert (Hx : exists x, nth_error (box (vals sh)) k = Some x).
  { destruct (nth_error (box (vals sh)) k) eqn:E; [eauto|]. apply nth_error_None in E.
    assert (k < length vs)%nat by (apply nth_error_Some; congruence). lia. }
  destruct Hx as (x & Hx). destruct (nth_error_split _ _ Hx) as (pre & post & E & Lp).
  destruct (Forall2_split _ _ _ C pre x post E) as (w & Hw & Pw).
  assert (B : in_box (vals sh) x) by (apply box_In; rewrite E; apply in_elt).
  pose proof (rank_pre (vals sh) pre x post N E B) as Rk. pose proof (rank_range _ _ B) as RR.
  assert (Ek : Z.of_nat k = rank (vals sh) x) by lia. rewrite Ek.
  rewrite Lp in Hw. rewrite Hk in Hw. injection Hw as <-. exact Pw.
Qed.

Lemma dense_from_range {T} (m : mem T) ds p vs : forall l s, map (rank ds) l = zrange s (length l) ->
  length l = length vs -> (forall k v, nth_error vs k = Some v -> peek m (padd p (s + Z.of_nat k)) = Some v) ->
  Forall2 (fun is_ v => peek m (padd p (rank ds is_)) = Some v) l vs.
Proof.
  revert vs. intros vs l. revert vs. induction l as [|x l IH]; intros [|v vs] s E L H; try discriminate; constructor.
  - cbn in E. injection E as -> _. pose proof (H 0%nat v eq_refl) as H0. cbn [Z.of_nat] in H0. rewrite Z.add_0_r in H0. exact H0.
  - cbn in E. injection E as _ E. apply (IH vs (s + 1)); [exact E|cbn in L; lia|].
    intros k w Hk. replace (s + 1 + Z.of_nat k) with (s + Z.of_nat (Datatypes.S k)) by lia. apply H. exact Hk.
Qed.
Lemma rank_values {T} (m : mem T) ds p vs : nonnegs ds -> Z.of_nat (length vs) = prod ds ->
  (forall k v, nth_error vs k = Some v -> peek m (padd p (Z.of_nat k)) = Some v) ->
  Forall2 (fun is_ v => peek m (padd p (rank ds is_)) = Some v) (box ds) vs.
Proof.
  intros N L H. pose proof (box_length ds N). apply (dense_from_range m ds p vs (box ds) 0).
  - apply box_rank_zrange. exact N.
  - lia.
  - exact H.
Qed.

Lemma default_any_data k sh st p q : default_layout (Cn k sh st p) -> default_layout (Cn k sh st q).
Proof. intros H. exact H. Qed.

Lemma make_table_prog {T} (m m1 : mem T) st sh src b : legal sh -> sh <> [] ->
  new_block m (prod (vals sh)) src = Ok (m1, addr b) ->
  exists c, make_table m st st sh None src = Ok (m1, c) /\ rep_tab c (Tb sh st b).
Proof.
  intros Lg Ne E. unfold make_table. rewrite (numel_ok sh Lg Ne). cbn [bind cval int]. rewrite E. cbn [bind].
  destruct (as_stride_ok sh Lg Ne) as (sd & As & _).
  assert (G : exists k s, make_accessor st st sh None = Ok (k, s) /\ (st = true <-> k = KStatic)).
  { unfold make_accessor. destruct st.
    - rewrite As. cbn [bind]. do 2 eexists. split; [reflexivity|tauto].
    - destruct sh as [|x [|y [|z l]]]; [congruence| | |].
      + do 2 eexists. split; [reflexivity|split; discriminate].
      + do 2 eexists. split; [reflexivity|split; discriminate].
      + rewrite As. cbn [bind]. do 2 eexists. split; [reflexivity|split; discriminate]. }
  destruct G as (k & s & G & K). rewrite G. cbn [bind]. eexists. split; [reflexivity|].
  split; [|split; [reflexivity|split; [reflexivity|exact K]]].
  split; [exact Lg|]. split; [exact Ne|]. exists st. exact G.
Qed.

Lemma rebuild_prog d x sh : rep_tab d x -> legal sh -> sh <> [] ->
  (if t_static x then vals sh = vals (t_shape x) else length sh = length (t_shape x)) ->
  exists s, rebuild_accessor d sh = Ok (c_kind d, (if t_static x then t_shape x else sh), s) /\
    forall b, rep_tab (Cn (c_kind d) (if t_static x then t_shape x else sh) s (addr b))
                (Tb (if t_static x then t_shape x else sh) (t_static x) b).
Proof.
  intros (D & Es & Ed & K) Lg Ne H. pose proof (default_kind_inv d D) as Ki.
  destruct (as_stride_ok sh Lg Ne) as (sd & As & _). unfold rebuild_accessor.
  destruct (t_static x) eqn:Sx.
  - assert (Kd : c_kind d = KStatic) by tauto. rewrite Kd. exists (c_stride d). rewrite Es. split; [reflexivity|].
    intros b. split; [|split; [reflexivity|split; [reflexivity|tauto]]].
    destruct d as [dk dsh dst dp]. cbn in *. subst. exact D.
  - assert (Kd : c_kind d <> KStatic) by (intros C; apply K in C; discriminate).
    assert (Cf : false = true <-> c_kind d = KStatic) by exact K.
    destruct (c_kind d) eqn:Ek; try contradiction; try congruence.
    + rewrite As. cbn [bind]. exists sd. split; [reflexivity|]. intros b.
      split; [|split; [reflexivity|split; [reflexivity|exact Cf]]].
      split; [exact Lg|]. split; [exact Ne|]. exists false. unfold make_accessor. cbn [c_shape c_kind c_stride].
      destruct Ki as [_ Ln]. rewrite Es in Ln. destruct sh as [|? [|? [|]]]; cbn [length] in *; try lia.
      rewrite As. reflexivity.
    + exists []. split; [reflexivity|]. intros b. split; [|split; [reflexivity|split; [reflexivity|exact Cf]]].
      split; [exact Lg|]. split; [exact Ne|]. exists false. unfold make_accessor. cbn [c_shape c_kind c_stride].
      destruct Ki as [_ Ln]. rewrite Es in Ln. destruct sh as [|? [|? ?]]; cbn [length] in *; try lia. reflexivity.
    + exists []. split; [reflexivity|]. intros b. split; [|split; [reflexivity|split; [reflexivity|exact Cf]]].
      split; [exact Lg|]. split; [exact Ne|]. exists false. unfold make_accessor. cbn [c_shape c_kind c_stride].
      destruct Ki as [_ Ln]. rewrite Es in Ln. destruct sh as [|? [|? [|? ?]]]; cbn [length] in *; try lia. reflexivity.
Qed.

Lemma table_like_prog {T} (m m1 : mem T) d x c sh p vs b : rep_tab d x -> rep c (dense sh p) ->
  (if t_static x then vals sh = vals (t_shape x) else length sh = length (t_shape x)) ->
  contents m (dense sh p) vs -> give m (map Some vs) = (m1, b) ->
  exists c1, table_like m d c = Ok (m1, c1) /\ c_kind c1 = c_kind d /\
    rep_tab c1 (Tb (if t_static x then t_shape x else sh) (t_static x) b).
Proof.
  intros Rd (_ & Ne & Lg & _ & _ & De & _) H C G. destruct (De sh p eq_refl) as (_ & _ & Es & Ed).
  rewrite Es in *. destruct (contents_dense m sh p vs (proj1 (proj2 Lg)) C) as [Lv Hv].
  unfold table_like, settings. rewrite Es, (numel_ok sh Lg Ne). cbn [bind cval int].
  rewrite Ed, (new_block_copy m (prod (vals sh)) p vs m1 b Lv Hv G). cbn [bind].
  destruct (rebuild_prog d x sh Rd Lg Ne H) as (s & E & R). rewrite E. cbn [bind].
  eexists. split; [reflexivity|]. split; [reflexivity|apply R].
Qed.

Lemma swap_prog a b x y : rep_tab a x -> rep_tab b y -> t_static x = t_static y ->
  (if t_static x then t_shape x = t_shape y else length (t_shape x) = length (t_shape y)) ->
  rep_tab (fst (swap_containers a b)) y /\ rep_tab (snd (swap_containers a b)) x /\
  c_data (snd (swap_containers a b)) = base x.
Proof.
  intros (Da & Sa & Pa & Ka) (Db & Sb & Pb & Kb) Es H.
  pose proof (default_kind_inv a Da) as Ia. pose proof (default_kind_inv b Db) as Ib.
  assert (Kab : c_kind a = c_kind b).
  { rewrite Sa in Ia. rewrite Sb in Ib. destruct (t_static x) eqn:Sx.
    - assert (c_kind a = KStatic) by tauto. assert (c_kind b = KStatic) by (apply Kb; congruence). congruence.
    - assert (c_kind a <> KStatic) by (intros C; apply Ka in C; discriminate).
      assert (c_kind b <> KStatic) by (intros C; apply Kb in C; congruence).
      destruct (c_kind a), (c_kind b); try congruence; try contradiction; exfalso;
        repeat match goal with H : _ /\ _ |- _ => destruct H end; lia. }
  unfold swap_containers, swap_accessors.
  destruct a as [ka sa ta pa], b as [kb sb tb pb]. cbn [c_kind c_shape c_stride c_data] in *. subst kb sa sb pa pb.
  destruct ka; try contradiction; cbn [fst snd c_data]; (split; [|split; [|reflexivity]]);
    (split; [|split; [|split; [reflexivity|cbn [c_kind]; tauto]]]); cbn [c_shape];
    try reflexivity; try assumption;
    try (destruct (t_static x) eqn:Sx; [|exfalso; assert (false = true) by tauto; discriminate]);
    try congruence.
  - destruct Ia as [-> _], Ib as [-> _]. exact Db.
  - destruct Ia as [-> _], Ib as [-> _]. exact Da.
  - destruct Ia as [-> _], Ib as [-> _]. exact Db.
  - destruct Ia as [-> _], Ib as [-> _]. exact Da.
Qed.
