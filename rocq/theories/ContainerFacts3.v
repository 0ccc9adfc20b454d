From Coq Require Import ZArith List Bool Lia.
From Verif Require Import Outcome CInt CIntFacts Spec SpecFacts ShapeSpec Shape ShapeFacts ShapeFacts2
  Memory MemFacts Container ContainerSpec ContainerFacts ContainerFacts2.
Import ListNotations.
Open Scope Z_scope.

Lemma in_box_In ns is_ z : in_box ns is_ -> In z is_ -> exists n, In n ns /\ 0 <= z < n.
Proof.
  induction 1 as [|n ns i is_ H B IH]; intros G; simpl in G; [contradiction|].
  destruct G as [<-|G]; [exists n; simpl; auto|]. destruct (IH G) as (n' & Hn & Hz). exists n'. simpl. auto.
Qed.

Lemma posprod_ge1 l : 1 <= posprod l.
Proof. induction l as [|x l IH]; [unfold posprod; simpl; lia|]. rewrite posprod_cons. nia. Qed.

Lemma posprod_In l n : In n l -> n <= posprod l.
Proof.
  induction l as [|x l IH]; simpl; [tauto|]. rewrite posprod_cons. pose proof (posprod_ge1 l).
  intros [->|H']; [nia|]. specialize (IH H'). nia.
Qed.

Lemma legal_In s n : legal s -> In n (vals s) -> n <= max31.
Proof. intros (_ & _ & H) Hn. pose proof (posprod_In _ _ Hn). unfold max31. lia. Qed.

(** ** Exchange of the cells of two blocks *)
Lemma upd_block {T} (m : mem T) p v b : (exists cs, nth_error m b = Some (Some cs)) <->
  (exists cs, nth_error (upd m p v) b = Some (Some cs)).
Proof.
  destruct p as [|b' o]; [tauto|]. unfold upd.
  destruct (nth_error m b') as [[cs'|]|] eqn:E; try tauto. destruct (0 <=? o); [|tauto].
  destruct (Nat.eq_dec b' b) as [->|N].
  - rewrite set_nth_same by (eapply nth_lt; exact E). rewrite E. split; intros _; eauto.
  - rewrite set_nth_other by exact N. tauto.
Qed.

Lemma swap_cells_ok {T} n : forall (m : mem T) ab ao bb bo, ab <> bb ->
  (forall k, 0 <= k < Z.of_nat n -> exists v, peek m (Ptr ab (ao + k)) = Some v) ->
  (forall k, 0 <= k < Z.of_nat n -> exists v, peek m (Ptr bb (bo + k)) = Some v) ->
  exists m', swap_cells m (Ptr ab ao) (Ptr bb bo) n = Ok m' /\
    (forall k, 0 <= k < Z.of_nat n -> peek m' (Ptr ab (ao + k)) = peek m (Ptr bb (bo + k))) /\
    (forall k, 0 <= k < Z.of_nat n -> peek m' (Ptr bb (bo + k)) = peek m (Ptr ab (ao + k))) /\
    (forall p, (forall k, 0 <= k < Z.of_nat n -> p <> Ptr ab (ao + k) /\ p <> Ptr bb (bo + k)) ->
       cell m' p = cell m p) /\
    (forall b, (exists cs, nth_error m b = Some (Some cs)) -> exists cs, nth_error m' b = Some (Some cs)).
Proof.
  induction n as [|n IH]; intros m ab ao bb bo N RA RB.
  - exists m. simpl. split; [reflexivity|]. split; [intros; lia|]. split; [intros; lia|]. split; auto.
  - destruct (RA 0 ltac:(lia)) as (x & Hx). destruct (RB 0 ltac:(lia)) as (y & Hy).
    rewrite Z.add_0_r in Hx, Hy. simpl swap_cells.
    rewrite (load_peek _ _ _ Hx), (load_peek _ _ _ Hy). cbn [bind].
    rewrite store_valid by (eapply peek_valid; exact Hx). cbn [bind].
    rewrite store_valid by (apply valid_upd; eapply peek_valid; exact Hy). cbn [bind].
    pose (m2 := upd (upd m (Ptr ab ao) y) (Ptr bb bo) x). fold m2.
    assert (Po : forall p, p <> Ptr ab ao -> p <> Ptr bb bo -> cell m2 p = cell m p).
    { intros p A B. unfold m2. rewrite !cell_upd_other by congruence. reflexivity. }
    assert (Pa : peek m2 (Ptr ab ao) = Some y).
    { unfold m2. rewrite peek_upd_other by congruence. apply peek_upd_same. eapply peek_valid; exact Hx. }
    assert (Pb : peek m2 (Ptr bb bo) = Some x).
    { unfold m2. apply peek_upd_same. apply valid_upd. eapply peek_valid; exact Hy. }
    destruct (IH m2 ab (ao + 1) bb (bo + 1)) as (m' & E & VA & VB & F & Bl).
    + exact N.
    + intros k Hk. unfold peek. rewrite Po; [|intros G; injection G; lia|congruence].
      replace (ao + 1 + k) with (ao + (k + 1)) by lia. apply RA. lia.
    + intros k Hk. unfold peek. rewrite Po; [|congruence|intros G; injection G; lia].
      replace (bo + 1 + k) with (bo + (k + 1)) by lia. apply RB. lia.
    + exists m'. simpl padd. split; [exact E|]. split; [|split; [|split]].
      * intros k Hk. destruct (Z.eq_dec k 0) as [->|Nk].
        -- rewrite !Z.add_0_r, Hy. unfold peek. rewrite F; [exact Pa|].
           intros k' Hk'. split; [intros G; injection G; lia|congruence].
        -- specialize (VA (k - 1) ltac:(lia)). replace (ao + 1 + (k - 1)) with (ao + k) in VA by lia.
           rewrite VA. unfold peek. rewrite Po; [replace (bo + 1 + (k - 1)) with (bo + k) by lia; reflexivity|congruence|intros G; injection G; lia].
      * intros k Hk. destruct (Z.eq_dec k 0) as [->|Nk].
        -- rewrite !Z.add_0_r, Hx. unfold peek. rewrite F; [exact Pb|].
           intros k' Hk'. split; [congruence|intros G; injection G; lia].
        -- specialize (VB (k - 1) ltac:(lia)). replace (bo + 1 + (k - 1)) with (bo + k) in VB by lia.
           rewrite VB. unfold peek. rewrite Po; [replace (ao + 1 + (k - 1)) with (ao + k) by lia; reflexivity|intros G; injection G; lia|congruence].
      * intros p Hp. rewrite F.
        -- apply Po; specialize (Hp 0 ltac:(lia)); rewrite !Z.add_0_r in Hp; tauto.
        -- intros k Hk. specialize (Hp (k + 1) ltac:(lia)).
           replace (ao + 1 + k) with (ao + (k + 1)) by lia. replace (bo + 1 + k) with (bo + (k + 1)) by lia. exact Hp.
      * intros b Hb. apply Bl. unfold m2. apply upd_block, upd_block. exact Hb.
Qed.

Lemma peek_same_block_ptr {T} (m : mem T) p k v : peek m (padd p k) = Some v -> exists b o, p = Ptr b o.
Proof. destruct p as [|b o]; [discriminate|eauto]. Qed.

(** Exchange of two stack tables. *)
Lemma swap_stack_l {T} (m : mem T) a b : default_layout a -> default_layout b -> same_type a b ->
  c_kind a = KStatic -> readable m a -> readable m b -> ~ same_block (c_data a) (c_data b) ->
  exists m', swap_stack m a b = Ok (m', a, b) /\
    (forall is_, coord_of a is_ -> get m' a is_ = get m b is_ /\ get m' b is_ = get m a is_) /\
    (forall p, (forall is_, in_box (dims a) is_ -> p <> elem a is_ /\ p <> elem b is_) -> cell m' p = cell m p).
Proof.
  intros Da Db (Ek & _ & St) K Ra Rb Nb. destruct (St K) as [Es Et].
  assert (Ed : dims a = dims b) by (unfold dims; congruence).
  unfold swap_stack. rewrite (numel_ok _ (proj1 Da) (proj1 (proj2 Da))). cbn [bind cval int].
  unfold swap_accessors. rewrite K.
  pose proof (legal_prod _ (proj1 Da)) as Hp. change (vals (c_shape a)) with (dims a) in *.
  assert (Ca : contiguous m a) by (apply default_contiguous; assumption).
  assert (Cb : contiguous m b) by (apply default_contiguous; assumption).
  unfold contiguous in Cb. rewrite <- Ed in Cb.
  assert (Eta : Cn (c_kind a) (c_shape a) (c_stride a) (c_data a) = a) by (destruct a; reflexivity).
  assert (Etb : Cn (c_kind b) (c_shape b) (c_stride b) (c_data b) = b) by (destruct b; reflexivity).
  rewrite <- K, Eta, Etb.
  destruct (Z.eq_dec (prod (dims a)) 0) as [Z0|NZ].
  - rewrite Z0. simpl. exists m. split; [reflexivity|]. split; [|auto].
    intros is_ [_ B]. apply rank_range in B. lia.
  - destruct (Ca 0 ltac:(lia)) as (va & Hva). destruct (Cb 0 ltac:(lia)) as (vb & Hvb).
    destruct (peek_same_block_ptr _ _ _ _ Hva) as (ab & ao & Ea).
    destruct (peek_same_block_ptr _ _ _ _ Hvb) as (bb & bo & Eb).
    rewrite Ea, Eb in *. simpl in Nb.
    assert (Hz : Z.of_nat (Z.to_nat (prod (dims a))) = prod (dims a)) by (apply Z2Nat.id; lia).
    destruct (swap_cells_ok (Z.to_nat (prod (dims a))) m ab ao bb bo Nb) as (m' & E & VA & VB & F & _);
      rewrite ?Hz in *; try assumption.
    + intros k Hk. specialize (Ca k Hk). rewrite Ea in Ca. exact Ca.
    + rewrite E. cbn [bind]. exists m'. split; [reflexivity|]. split.
      * intros is_ Ci. assert (Cj : coord_of b is_) by (unfold coord_of in *; rewrite <- Ed; exact Ci).
        rewrite !(get_load _ a is_ (default_addressable a _ Da) Ci).
        rewrite !(get_load _ b is_ (default_addressable b _ Db) Cj).
        destruct Ci as [_ B]. destruct Cj as [_ B'].
        rewrite (default_elem a _ Da B), (default_elem b _ Db B'), <- Ed, Ea, Eb. simpl padd.
        pose proof (rank_range _ _ B) as Rr.
        destruct (Ca _ Rr) as (xa & Hxa). destruct (Cb _ Rr) as (xb & Hxb).
        try rewrite Ea in Hxa. try rewrite Eb in Hxb.
        simpl padd in Hxa, Hxb. rewrite (load_peek _ _ _ Hxa), (load_peek _ _ _ Hxb).
        split; apply load_peek; [rewrite VA|rewrite VB]; assumption.
      * intros p Hp'. apply F. intros k Hk.
        destruct (default_index_surj_l a k Da Hk) as (is_ & B & Er & _).
        destruct (Hp' is_ B) as [N1 N2].
        rewrite (default_elem a _ Da B), Er, Ea in N1.
        rewrite (default_elem b is_ Db), <- Ed, Er, Eb in N2 by (rewrite <- Ed; exact B).
        split; assumption.
Qed.

Lemma assign_stack_l {T} (m : mem T) dst src : default_layout dst -> default_layout src ->
  same_type dst src -> c_kind dst = KStatic -> readable m dst -> readable m src ->
  exists m', assign_stack_table m dst src = Ok (m', dst) /\
    (forall is_, coord_of src is_ -> get m' dst is_ = get m src is_) /\
    (forall p, valid m p -> (forall is_, in_box (dims dst) is_ -> p <> elem dst is_) -> cell m' p = cell m p).
Proof.
  intros Dd Ds St K Rd Rs.
  assert (Ek : c_kind dst = c_kind src) by apply St. assert (Es : c_shape dst = c_shape src) by (apply St; exact K).
  assert (Rt : retyped dst src) by (unfold retyped; rewrite K; exact Es).
  destruct (table_like_ok m dst src (proj1 Ds) (proj1 (proj2 Ds)) Rt (default_static dst Dd))
    as (m1 & t & E & Pl & Est & Ekt & Estr & V & X & Fr & Owt & Nu); [apply default_contiguous; assumption|].
  assert (Dt : default_layout t).
  { apply (default_of_kind src t Ds Est); [congruence|].
    pose proof (table_like_inv _ _ _ _ _ E) as G. unfold rebuild_accessor in *. rewrite <- Ek.
    rewrite K in *. destruct St as (_ & _ & St). destruct (St K) as [<- <-]. exact G. }
  assert (Ed : dims t = dims src) by (unfold dims; congruence).
  assert (Ed' : dims dst = dims src) by (unfold dims; congruence).
  assert (Rt1 : readable m1 t).
  { apply default_contiguous; [exact Dt|]. intros k Hk. rewrite Ed in Hk. rewrite V by exact Hk.
    apply default_contiguous in Rs; [|exact Ds]. apply Rs. exact Hk. }
  assert (Rd1 : readable m1 dst).
  { intros is_ B. destruct (Rd is_ B) as (v & Hv). exists v. unfold peek. rewrite X; [exact Hv|].
    eapply peek_valid; exact Hv. }
  assert (St' : same_type dst t).
  { split; [congruence|]. split; [congruence|]. intros _. split; [congruence|]. symmetry. apply Estr. exact K. }
  assert (Nblk : ~ same_block (c_data dst) (c_data t)).
  { destruct Nu as [->|[-> Hpos]]; [destruct (c_data dst); intros []|].
    destruct (c_data dst) as [|bd od] eqn:Eb; [intros []|]. simpl. intros ->.
    apply default_contiguous in Rd; [|exact Dd]. destruct (Rd 0) as (v & Hv); [rewrite Ed'; lia|].
    rewrite Eb in Hv. simpl padd in Hv. apply peek_valid in Hv. rewrite cell_fresh in Hv. congruence. }
  destruct (swap_stack_l m1 dst t Dd Dt St' K Rd1 Rt1 Nblk) as (m2 & E2 & V2 & F2).
  unfold assign_stack_table. rewrite E. cbn [bind]. rewrite E2. cbn [bind].
  assert (Ow2 : owns m2 t).
  { destruct Nu as [H|[H Hpos]]; [left; exact H|]. right. exists (length m).
    assert (Vc : cell m2 (Ptr (length m) 0) <> None).
    { assert (P0 : 0 <= 0 < prod (dims t)) by (rewrite Ed; lia).
      destruct (default_index_surj_l t 0 Dt P0) as (is_ & B & Er & _).
      destruct (peek m2 (elem t is_)) as [v|] eqn:G.
      - rewrite (default_elem t is_ Dt B), Er, padd_0, H in G. eapply peek_valid; exact G.
      - exfalso.
        assert (Bd : in_box (dims dst) is_) by (rewrite Ed', <- Ed; exact B).
        assert (Hc : exists cs, wfs cs /\ vals cs = is_).
        { exists (map int is_). split.
          - apply Forall_forall. intros x Hx. apply in_map_iff in Hx. destruct Hx as (z & <- & Hz).
            apply wfc_small_int. pose proof (legal_prod _ (proj1 Dt)) as Hl.
            destruct (in_box_In _ _ _ B Hz) as (n & Hn & Hlt).
            pose proof (legal_In _ _ (proj1 Dt) Hn). unfold max31 in *. lia.
          - unfold vals. rewrite map_map. simpl. apply map_id. }
        destruct Hc as (cs & Wc & Vc). destruct (V2 cs) as [_ Vt]; [split; [exact Wc|rewrite Vc; exact Bd]|].
        assert (Ct : coord_of t cs) by (split; [exact Wc|rewrite Vc; exact B]).
        assert (Cd : coord_of dst cs) by (split; [exact Wc|rewrite Vc; exact Bd]).
        rewrite (get_load m2 t cs (default_addressable t _ Dt) Ct) in Vt.
        rewrite (get_load m1 dst cs (default_addressable dst _ Dd) Cd) in Vt. rewrite Vc in Vt.
        destruct (Rd1 is_ Bd) as (v & Hv). rewrite (load_peek _ _ _ Hv) in Vt. apply load_inv in Vt. congruence. }
    simpl in Vc. destruct (nth_error m2 (length m)) as [[cs|]|]; try congruence. exists cs. split; [exact H|reflexivity]. }
  destruct (release_ok m2 t Ow2) as (m3 & E3 & F3). rewrite E3. cbn [bind].
  exists m3. split; [reflexivity|].
  assert (Ndst : forall is_, in_box (dims dst) is_ -> ~ same_block (elem dst is_) (c_data t)).
  { intros is_ B. rewrite (default_elem dst _ Dd B). destruct (c_data dst); [intros []|]. simpl. exact Nblk. }
  split.
  - intros is_ Ci. assert (Cd : coord_of dst is_) by (unfold coord_of; rewrite Ed'; exact Ci).
    assert (Ct : coord_of t is_) by (unfold coord_of; rewrite Ed; exact Ci).
    rewrite (get_load m3 dst is_ (default_addressable dst _ Dd) Cd).
    unfold load. rewrite F3 by (apply Ndst; apply Cd). fold (load m2 (elem dst (vals is_))).
    rewrite <- (get_load m2 dst is_ (default_addressable dst _ Dd) Cd).
    destruct (V2 is_ Cd) as [-> _].
    rewrite (get_load m1 t is_ (default_addressable t _ Dt) Ct).
    rewrite (get_load m src is_ (default_addressable src _ Ds) Ci).
    destruct Ci as [_ B]. destruct Ct as [_ Bt].
    destruct (Rs _ B) as (v & Hv). rewrite (load_peek _ _ _ Hv). apply load_peek.
    rewrite (default_elem t _ Dt Bt), Ed, V by (apply rank_range; exact B).
    rewrite <- default_elem by assumption. exact Hv.
  - intros p Vp Np.
    assert (Nt : ~ same_block p (c_data t)).
    { destruct Nu as [->|[-> _]]; [destruct p; intros []|]. destruct p as [|b o]; [intros []|]. simpl. intros ->.
      unfold valid in Vp. rewrite cell_fresh in Vp. congruence. }
    rewrite F3 by exact Nt. rewrite F2; [apply X; exact Vp|].
    intros is_ B. split; [apply Np; exact B|]. intros ->. apply Nt.
    assert (Bt : in_box (dims t) is_) by (rewrite Ed, <- Ed'; exact B).
    rewrite (default_elem t is_ Dt Bt). unfold valid in Vp. rewrite (default_elem t is_ Dt Bt) in Vp.
    destruct (c_data t); [simpl in Vp; congruence|reflexivity].
Qed.

(** ** New tables *)
Lemma new_table_l {T} (m : mem T) ss sh : legal sh -> sh <> [] ->
  exists m' t, make_table m ss ss sh None None = Ok (m', t) /\ default_layout t /\ c_shape t = sh /\
    writable m' t /\ extends m m' /\
    forall is_, in_box (vals sh) is_ -> ~ valid m (elem t is_).
Proof.
  intros Lg Ne. unfold make_table. rewrite (numel_ok sh Lg Ne). cbn [bind cval int].
  pose proof (legal_prod _ Lg) as Hp. unfold new_block, alloc.
  assert (G : forall m1 data, exists t,
     (' (k, st) <- make_accessor ss ss sh None ;; Ok (m1 : mem T, Cn k sh st data)) = Ok (m1, t) /\
     default_layout t /\ c_shape t = sh /\ c_data t = data).
  { intros m1 data. destruct (make_view_default_l ss sh data Lg Ne) as (t & Et & D & Es & Ed).
    unfold make_view in Et. destruct (make_accessor ss ss sh None) as [[k st]| | |]; cbn [bind] in *; try discriminate.
    injection Et as Et. exists t. rewrite Et. auto. }
  destruct (Z.eqb_spec (prod (vals sh)) 0) as [Z0|NZ]; cbn [bind].
  - destruct (G m Null) as (t & Et & D & Es & Ed). exists m, t. split; [exact Et|]. split; [exact D|].
    split; [exact Es|].
    assert (No : forall is_, in_box (vals sh) is_ -> False) by (intros is_ B; apply rank_range in B; lia).
    split; [intros is_ B; unfold dims in B; rewrite Es in B; destruct (No _ B)|].
    split; [intros p _; reflexivity|]. intros is_ B. destruct (No _ B).
  - destruct (G (m ++ [Some (repeat None (Z.to_nat (prod (vals sh))))]) (Ptr (length m) 0)) as (t & Et & D & Es & Ed).
    eexists _, t. split; [exact Et|]. split; [exact D|]. split; [exact Es|].
    assert (El : forall is_, in_box (vals sh) is_ -> elem t is_ = Ptr (length m) (rank (vals sh) is_)).
    { intros is_ B. rewrite default_elem; [|exact D|unfold dims; rewrite Es; exact B].
      unfold dims. rewrite Ed, Es. simpl. reflexivity. }
    split; [|split].
    + intros is_ B. unfold dims in B. rewrite Es in B. rewrite El by exact B. unfold valid.
      pose proof (cell_alloc m (prod (vals sh)) (rank (vals sh) is_) (rank_range _ _ B)) as C.
      unfold alloc in C; cbn [fst] in C. rewrite C. discriminate.
    + intros p Vp. apply cell_app. exact Vp.
    + intros is_ B. rewrite El by exact B. unfold valid. rewrite cell_fresh. auto.
Qed.

(** ** Default-constructed strides *)
Lemma linearize_zero_l is_ : forall acc, wfc acc -> cval acc = 0 -> wfs is_ ->
  exists i, linearize_from acc (stride_default (length is_)) is_ = Ok i /\ cval i = 0.
Proof.
  induction is_ as [|x is_ IH]; intros acc Wa Va W; simpl.
  - exists acc. auto.
  - inversion W as [|? ? Wx W']; subst.
    assert (M : exists p, cmul (int 0) x = Ok p /\ wfc p /\ cval p = 0).
    { unfold cmul, arith. cbn [cty int].
      change (cval (int 0)) with 0. cbv zeta.
      assert (C0 : cast (common I32 (cty x)) 0 = 0).
      { apply cast_id. unfold in_ty. destruct (cty x); vm_compute; split; discriminate. }
      rewrite C0, Z.mul_0_l.
      assert (I0 : in_ty (common I32 (cty x)) 0) by (unfold in_ty; destruct (cty x); vm_compute; split; discriminate).
      destruct (is_signed (common I32 (cty x))).
      - replace (in_tyb (common I32 (cty x)) 0) with true by (symmetry; apply in_tyb_spec; exact I0).
        eexists. split; [reflexivity|]. split; [exact I0|reflexivity].
      - eexists. split; [reflexivity|]. rewrite C0. split; [exact I0|reflexivity]. }
    destruct M as (p & Hp & Wp & Vp). rewrite Hp. cbn [bind].
    destruct (arith_nonneg Z.add acc p) as (r & Hr & Vr & Wr & _); try assumption; try lia; [unfold max31; lia|].
    unfold cadd. rewrite Hr. cbn [bind]. apply IH; [exact Wr|lia|exact W'].
Qed.

(** Exchange of a stack table with itself. *)
Lemma swap_cells_self {T} n : forall (m : mem T) p,
  (forall k, 0 <= k < Z.of_nat n -> exists v, peek m (padd p k) = Some v) ->
  exists m', swap_cells m p p n = Ok m' /\ forall q, cell m' q = cell m q.
Proof.
  induction n as [|n IH]; intros m p R.
  - exists m. split; [reflexivity|auto].
  - destruct (R 0 ltac:(lia)) as (x & Hx). rewrite padd_0 in Hx. simpl swap_cells.
    rewrite (load_peek _ _ _ Hx). cbn [bind].
    rewrite store_valid by (eapply peek_valid; exact Hx). cbn [bind].
    rewrite store_valid by (apply valid_upd; eapply peek_valid; exact Hx). cbn [bind].
    assert (C : forall q, cell (upd (upd m p x) p x) q = cell m q).
    { intros q. destruct (ptr_eq_dec p q) as [<-|N].
      - rewrite cell_upd_same by (apply valid_upd; eapply peek_valid; exact Hx).
        unfold peek in Hx. destruct (cell m p) as [[y|]|]; congruence.
      - rewrite !cell_upd_other by exact N. reflexivity. }
    destruct (IH (upd (upd m p x) p x) (padd p 1)) as (m' & E & F).
    + intros k Hk. rewrite padd_padd. unfold peek. rewrite C. apply R. lia.
    + exists m'. split; [exact E|]. intros q. rewrite F. apply C.
Qed.

Lemma swap_stack_self_l {T} (m : mem T) a : default_layout a -> c_kind a = KStatic -> readable m a ->
  exists m', swap_stack m a a = Ok (m', a, a) /\ forall q, cell m' q = cell m q.
Proof.
  intros D K R. unfold swap_stack. rewrite (numel_ok _ (proj1 D) (proj1 (proj2 D))). cbn [bind cval int].
  pose proof (legal_prod _ (proj1 D)) as Hp.
  destruct (swap_cells_self (Z.to_nat (prod (vals (c_shape a)))) m (c_data a)) as (m' & E & F).
  - rewrite Z2Nat.id by lia. apply default_contiguous; assumption.
  - rewrite E. cbn [bind]. exists m'. unfold swap_accessors. rewrite K. split; [|exact F].
    destruct a; simpl in *; subst; reflexivity.
Qed.

Lemma assign_source_l {T} (m : mem T) dst src : default_layout dst -> default_layout src ->
  same_type dst src -> owns m dst -> readable m src -> ~ same_block (c_data src) (c_data dst) ->
  exists m' d, assign_table m dst src = Ok (m', d) /\
    forall is_, coord_of src is_ -> get m' src is_ = get m src is_.
Proof.
  intros Dd Ds St Ow R N.
  destruct (assign_table_l m dst src Dd Ds St Ow R) as (m' & d & E & _ & _ & _ & _ & F).
  exists m', d. split; [exact E|]. intros is_ Ci.
  rewrite !(get_load _ src is_ (default_addressable src _ Ds) Ci). destruct Ci as [_ B].
  destruct (R _ B) as (v & Hv). unfold load. rewrite F; [reflexivity|eapply peek_valid; exact Hv|].
  rewrite (default_elem src _ Ds B). destruct (c_data src); [intros []|exact N].
Qed.

(** Checkers. *)
Definition default_layoutb (c : container) (ss : bool) : Prop :=
  legal (c_shape c) /\ c_shape c <> [] /\ make_accessor ss ss (c_shape c) None = Ok (c_kind c, c_stride c).

Lemma default_by ss c : default_layoutb c ss -> default_layout c.
Proof. intros (A & B & C). split; [exact A|]. split; [exact B|]. exists ss. exact C. Qed.

(** Boxes are finite: quantification over in-range coordinates is decided by enumeration. *)
Lemma box_forall ns (P : list Z -> Prop) : Forall (fun n => 0 <= n) ns -> Forall P (box ns) -> forall is_, in_box ns is_ -> P is_.
Proof. intros N F is_ B. rewrite Forall_forall in F. apply F. apply box_In. exact B. Qed.

(** Decides a statement about every in-range coordinate of a concrete shape. *)
Ltac by_box :=
  let is_ := fresh "is_" in let B := fresh "B" in
  intros is_ B; apply box_In in B; vm_compute in B;
  repeat (destruct B as [<-|B]; [vm_compute; first [discriminate | eexists; reflexivity]|]); contradiction.
Ltac by_default ss := apply (default_by ss); split; [by_check|split; [discriminate|reflexivity]].

Lemma default_stride_aliases_l {T} (m : mem T) sh data a b c :
  (2 < length sh)%nat -> wfs a -> wfs b -> length a = length sh -> length b = length sh ->
  make_view false false sh (Some (stride_default (length sh))) data = Ok c ->
  address c a = Ok data /\ address c b = Ok data /\ get m c a = get m c b.
Proof.
  intros L Wa Wb La Lb Mk.
  assert (Ec : c = Cn KGen sh (stride_default (length sh)) data).
  { unfold make_view, make_accessor in Mk. destruct sh as [|? [|? [|? ?]]]; simpl in L; try lia.
    cbn [andb] in Mk. apply bind_inv in Mk. destruct Mk as ([k st] & E & Mk). apply bind_inv in E. destruct E as (d & _ & E).
    injection E as <- <-. injection Mk as <-. reflexivity. }
  assert (Ad : forall x, wfs x -> length x = length sh -> address c x = Ok data).
  { intros x Wx Lx. subst c. unfold address, index. cbn [c_kind c_stride c_data]. unfold linearize.
    rewrite <- Lx.
    destruct (linearize_zero_l x (int 0)) as (i & Ei & Vi);
      [apply wfc_small_int; unfold max31; lia|reflexivity|exact Wx|].
    rewrite Ei. cbn [bind]. rewrite Vi. change (cast I64 0) with 0. rewrite padd_0. reflexivity. }
  split; [auto|]. split; [auto|]. unfold get, ref. rewrite (Ad a), (Ad b) by assumption. reflexivity.
Qed.
