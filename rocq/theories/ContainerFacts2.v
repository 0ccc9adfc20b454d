From Coq Require Import ZArith List Bool Lia.
From Verif Require Import Outcome CInt CIntFacts Spec SpecFacts ShapeSpec Shape ShapeFacts ShapeFacts2
  Memory MemFacts Container ContainerSpec ContainerFacts.
Import ListNotations.
Open Scope Z_scope.

(** ** Reading and writing at a coordinate *)
Lemma get_load {T} (m : mem T) c is_ : addressable c (map cty is_) -> coord_of c is_ ->
  get m c is_ = load m (elem c (vals is_)).
Proof.
  intros A [W B]. unfold get, ref. rewrite elem_address by assumption. cbn [bind].
  destruct (validb m (elem c (vals is_))) eqn:V; [reflexivity|].
  cbn [bind]. unfold load. unfold validb in V. destruct (cell m _); [discriminate|reflexivity].
Qed.

Lemma put_store {T} (m : mem T) c is_ v : addressable c (map cty is_) -> coord_of c is_ ->
  put m c is_ v = store m (elem c (vals is_)) v.
Proof.
  intros A [W B]. unfold put, ref. rewrite elem_address by assumption. cbn [bind].
  unfold store. destruct (validb m (elem c (vals is_))) eqn:V; [|reflexivity].
  cbn [bind]. rewrite V. reflexivity.
Qed.

Lemma strided_access_l {T} (m : mem T) c is_ : addressable c (map cty is_) -> coord_of c is_ ->
  (forall v, get m c is_ = Ok v <-> peek m (elem c (vals is_)) = Some v) /\
  (forall v, valid m (elem c (vals is_)) ->
     exists m', put m c is_ v = Ok m' /\ peek m' (elem c (vals is_)) = Some v /\
       forall p, p <> elem c (vals is_) -> cell m' p = cell m p) /\
  (~ valid m (elem c (vals is_)) -> get m c is_ = UB /\ forall v, put m c is_ v = UB).
Proof.
  intros A B. rewrite (get_load m c is_ A B). split; [|split].
  - intros v. split; [apply load_inv|apply load_peek].
  - intros v V. rewrite (put_store m c is_ v A B), store_valid by exact V. eexists; split; [reflexivity|].
    split; [apply peek_upd_same; exact V|]. intros p N. apply cell_upd_other. congruence.
  - unfold valid. intros N. split.
    + unfold load. destruct (cell m _); [exfalso; apply N; discriminate|reflexivity].
    + intros v. rewrite (put_store m c is_ v A B). unfold store, validb.
      destruct (cell m _); [exfalso; apply N; discriminate|reflexivity].
Qed.

(** ** Sequences of writes *)
Lemma puts_frame {T} c (ws : list (list cint * T)) : forall m,
  (forall is_ v, In (is_, v) ws -> addressable c (map cty is_) /\ coord_of c is_) ->
  writable m c ->
  exists m', puts m c ws = Ok m' /\
    (forall p, (forall is_, in_box (dims c) is_ -> p <> elem c is_) -> cell m' p = cell m p).
Proof.
  induction ws as [|[is_ v] ws IH]; intros m H W; simpl.
  - exists m. split; [reflexivity|auto].
  - destruct (H is_ v (or_introl eq_refl)) as (A & B).
    rewrite (put_store m c is_ v A B). destruct B as [Wi B].
    rewrite store_valid by (apply W; exact B). cbn [bind].
    destruct (IH (upd m (elem c (vals is_)) v)) as (m' & E & F).
    + intros; apply (H is_0 v0); right; assumption.
    + intros js Hj. apply valid_upd, W, Hj.
    + exists m'. split; [exact E|]. intros p Hp. rewrite F by exact Hp. apply cell_upd_other.
      intros G. apply (Hp (vals is_) B). congruence.
Qed.

(** ** New blocks *)
Lemma new_block_ok {T} (m : mem T) n src : 0 <= n ->
  (forall k, 0 <= k < n -> exists v, peek m (padd src k) = Some v) ->
  exists m' data, new_block m n (Some src) = Ok (m', data) /\
    (forall k, 0 <= k < n -> peek m' (padd data k) = peek m (padd src k)) /\
    extends m m' /\
    (forall k, ~ valid m (padd data k)) /\
    (n = 0 -> data = Null /\ m' = m) /\
    (0 < n -> data = Ptr (length m) 0 /\ length m' = S (length m) /\
              exists cs, nth_error m' (length m) = Some (Some cs)).
Proof.
  intros Hn R. unfold new_block. destruct (Z.eqb_spec n 0) as [->|Nz].
  - exists m, Null. simpl. split; [reflexivity|]. split; [intros; lia|]. split; [intros p _; reflexivity|].
    split; [intros k H; apply H; reflexivity|]. split; [auto|lia].
  - unfold alloc. cbn [fst snd].
    destruct (R 0 ltac:(lia)) as (v0 & Hv0). rewrite padd_0 in Hv0.
    destruct src as [|sb so]; [discriminate|].
    pose proof (cell_block_lt m sb so (peek_valid _ _ _ Hv0)) as Hsb.
    pose (m1 := m ++ [Some (repeat (@None T) (Z.to_nat n))]).
    destruct (copy_elements_ok (Z.to_nat n) m1 sb so (length m) 0) as (m' & E & V & F & S & L).
    + lia.
    + intros k Hk. rewrite Z2Nat.id in Hk by lia. destruct (R k Hk) as (v & Hv). exists v.
      unfold peek, m1. simpl padd in Hv. rewrite cell_app by (eapply peek_valid; exact Hv). exact Hv.
    + intros k Hk. rewrite Z2Nat.id in Hk by lia. rewrite Z.add_0_l.
      pose proof (cell_alloc m n k Hk) as G. unfold alloc in G; cbn [fst] in G. unfold m1. rewrite G. discriminate.
    + exists m', (Ptr (length m) 0). fold m1. rewrite E. cbn [bind]. split; [reflexivity|].
      rewrite Z2Nat.id in * by lia. split; [|split; [|split; [|split]]].
      * intros k Hk. simpl padd. specialize (V k Hk). simpl in V. rewrite V.
        destruct (R k Hk) as (v & Hv). unfold peek, m1. simpl padd in Hv |- *.
        rewrite cell_app by (eapply peek_valid; exact Hv). reflexivity.
      * intros p Vp. rewrite F.
        -- unfold m1. apply cell_app. exact Vp.
        -- intros k Hk ->. apply cell_block_lt in Vp. lia.
      * intros k. unfold valid. simpl padd. rewrite cell_fresh. auto.
      * lia.
      * intros _. split; [reflexivity|]. split.
        -- rewrite L. unfold m1. rewrite app_length. simpl. lia.
        -- assert (G : cell m' (Ptr (length m) 0) <> None).
           { apply S. pose proof (cell_alloc m n 0 ltac:(lia)) as G.
             unfold alloc in G; cbn [fst] in G. unfold m1. rewrite G. discriminate. }
           simpl in G. destruct (nth_error m' (length m)) as [[cs|]|]; [eauto| |]; congruence.
Qed.

(** The elements of a container read contiguously from its origin. *)
Definition contiguous {T} (m : mem T) (c : container) : Prop :=
  forall k, 0 <= k < prod (dims c) -> exists v, peek m (padd (c_data c) k) = Some v.

Lemma default_contiguous {T} (m : mem T) c : default_layout c -> readable m c <-> contiguous m c.
Proof.
  intros D. split; intros R.
  - intros k Hk. destruct (default_index_surj_l c k D Hk) as (is_ & B & E & _).
    rewrite <- E, <- default_elem by assumption. apply R. exact B.
  - intros is_ B. rewrite default_elem by assumption. apply R. apply rank_range. exact B.
Qed.

(** ** Tables built from containers *)
Definition retyped (ty c : container) : Prop :=
  match c_kind ty with
  | KStatic => c_shape ty = c_shape c
  | K1 | K1S => length (c_shape c) = 1%nat
  | K2 | K2S => length (c_shape c) = 2%nat
  | KGen => True
  end.

(** The layout of a table of the type of [ty] built from [c]: the default one, except for types with
    their own static strides. *)
Definition plain (c : container) : Prop :=
  legal (c_shape c) /\ c_shape c <> [] /\ wf_container c /\
  (strides_z c = strides_of (dims c)).

Lemma plain_addressable c tys : plain c -> addressable c tys.
Proof.
  intros (Lg & Ne & W & Sz).
  assert (Nn : nonnegs (strides_z c)) by (rewrite Sz; apply strides_of_nonneg, Lg).
  split; [exact W|]. split; [left; exact Nn|]. left.
  intros is_ B. rewrite absdot_dot; [|exact Nn|eapply in_box_nonneg; exact B].
  rewrite Sz, <- rank_dot by (apply in_box_length; exact B).
  pose proof (rank_range _ _ B). pose proof (legal_prod _ Lg). unfold dims, max31 in *. lia.
Qed.

Lemma plain_elem c is_ : plain c -> in_box (dims c) is_ ->
  elem c is_ = padd (c_data c) (rank (dims c) is_).
Proof.
  intros (_ & _ & _ & Sz) B. unfold elem. rewrite Sz, <- rank_dot by (apply in_box_length; exact B). reflexivity.
Qed.

Lemma default_plain c : default_layout c -> plain c.
Proof.
  intros D. destruct (default_wf c D) as (W & Sz & _). destruct D as (Lg & Ne & _).
  repeat (split; [assumption|]). exact Sz.
Qed.

(** Every accessor other than a static one is rebuilt with the default layout. *)
Lemma rebuild_ok ty c : legal (c_shape c) -> c_shape c <> [] -> retyped ty c ->
  (c_kind ty = KStatic -> wf_container ty /\ strides_z ty = strides_of (dims ty)) ->
  exists k sh st, rebuild_accessor ty (c_shape c) = Ok (k, sh, st) /\
    forall data, plain (Cn k sh st data) /\ c_shape (Cn k sh st data) = c_shape c /\ k = c_kind ty /\
      (k = KStatic -> st = c_stride ty).
Proof.
  intros Lg Ne Rt Ks.
  destruct (as_stride_ok (c_shape c) Lg Ne) as (st & As & Vst & Wst).
  assert (Lst : length st = length (c_shape c)).
  { apply (f_equal (@length Z)) in Vst. rewrite strides_of_length, !vals_length in Vst. exact Vst. }
  unfold rebuild_accessor, retyped in *. destruct (c_kind ty) eqn:Ek.
  - rewrite As. cbn [bind]. do 3 eexists. split; [reflexivity|]. intros data.
    split; [|split; [reflexivity|split; [reflexivity|discriminate]]].
    split; [exact Lg|]. split; [exact Ne|]. split; [|unfold strides_z, dims; exact Vst].
    split; [apply Lg|]. split; [apply Lg|]. split; [|exact I]. exists st. split; [reflexivity|]. split; assumption.
  - destruct (Ks eq_refl) as (W & Sz). do 3 eexists. split; [reflexivity|]. intros data.
    split; [|split; [exact Rt|split; [reflexivity|reflexivity]]].
    split; [simpl; rewrite Rt; exact Lg|]. split; [simpl; rewrite Rt; exact Ne|].
    unfold wf_container, strides_z, dims, get_stride in *. rewrite Ek in *. cbn [c_kind c_shape c_stride] in *.
    split; assumption.
  - do 3 eexists. split; [reflexivity|]. intros data.
    split; [|split; [reflexivity|split; [reflexivity|discriminate]]].
    destruct (c_shape c) as [|n [|]] eqn:Es; try discriminate.
    split; [exact Lg|]. split; [exact Ne|].
    split; [|reflexivity]. split; [apply Lg|]. split; [apply Lg|].
    split; [|reflexivity]. exists [int 1]. split; [reflexivity|]. split; [|reflexivity].
    repeat constructor; vm_compute; discriminate.
  - rewrite As. cbn [bind]. do 3 eexists. split; [reflexivity|]. intros data.
    split; [|split; [reflexivity|split; [reflexivity|discriminate]]].
    split; [exact Lg|]. split; [exact Ne|]. split; [|unfold strides_z, dims; exact Vst].
    split; [apply Lg|]. split; [apply Lg|]. split; [|exact Rt]. exists st. split; [reflexivity|]. split; assumption.
  - do 3 eexists. split; [reflexivity|]. intros data.
    split; [|split; [reflexivity|split; [reflexivity|discriminate]]].
    destruct (c_shape c) as [|n0 [|n1 [|]]] eqn:Es; try discriminate.
    split; [exact Lg|]. split; [exact Ne|].
    split.
    + split; [apply Lg|]. split; [apply Lg|]. split; [|reflexivity].
      exists [n1; int 1]. split; [reflexivity|]. split; [|reflexivity].
      destruct Lg as [W _]. inversion W as [|? ? _ W']; inversion W'; subst.
      constructor; [assumption|]. repeat constructor; vm_compute; discriminate.
    + unfold strides_z, dims. simpl. rewrite !prod_cons. change (prod []) with 1. rewrite Z.mul_1_r. reflexivity.
  - rewrite As. cbn [bind]. do 3 eexists. split; [reflexivity|]. intros data.
    split; [|split; [reflexivity|split; [reflexivity|discriminate]]].
    split; [exact Lg|]. split; [exact Ne|]. split; [|unfold strides_z, dims; exact Vst].
    split; [apply Lg|]. split; [apply Lg|]. split; [|exact Rt]. exists st. split; [reflexivity|]. split; assumption.
Qed.

Lemma table_like_ok {T} (m : mem T) ty c : legal (c_shape c) -> c_shape c <> [] -> retyped ty c ->
  (c_kind ty = KStatic -> wf_container ty /\ strides_z ty = strides_of (dims ty)) ->
  contiguous m c ->
  exists m' t, table_like m ty c = Ok (m', t) /\ plain t /\ c_shape t = c_shape c /\ c_kind t = c_kind ty /\
    (c_kind ty = KStatic -> c_stride t = c_stride ty) /\
    (forall k, 0 <= k < prod (dims c) -> peek m' (padd (c_data t) k) = peek m (padd (c_data c) k)) /\
    extends m m' /\ (forall k, ~ valid m (padd (c_data t) k)) /\ owns m' t /\
    (c_data t = Null \/ (c_data t = Ptr (length m) 0 /\ 0 < prod (dims c))).
Proof.
  intros Lg Ne Rt Ks R.
  pose proof (numel_ok (c_shape c) Lg Ne) as En.
  assert (Hn : exists n, numel (c_shape c) = Ok n /\ cval n = prod (dims c)) by (eexists; split; [exact En|reflexivity]).
  clear En. destruct Hn as (n & En & Vn).
  pose proof (legal_prod _ Lg) as Hp.
  destruct (new_block_ok m (cval n) (c_data c)) as (m' & data & E & V & X & Fr & Z0 & Zp).
  - rewrite Vn. unfold dims. lia.
  - rewrite Vn. exact R.
  - destruct (rebuild_ok ty c Lg Ne Rt Ks) as (k & sh & st & Er & P).
    destruct (P data) as (Pl & Es & Ek & Est).
    exists m', (Cn k sh st data). unfold table_like, settings. rewrite En. cbn [bind]. rewrite E. cbn [bind].
    rewrite Er. cbn [bind]. split; [reflexivity|]. split; [exact Pl|]. split; [exact Es|]. split; [exact Ek|].
    split; [intros G; apply Est; simpl in Ek; congruence|].
    rewrite Vn in V. split; [exact V|]. split; [exact X|]. split; [exact Fr|].
    destruct (Z.eq_dec (cval n) 0) as [G|G].
    + destruct (Z0 G) as [-> ->]. split; left; reflexivity.
    + destruct Zp as (-> & L & cs & Hcs); [unfold dims in *; lia|]. split; [|right; split; [reflexivity|unfold dims in *; lia]].
      right. exists (length m), cs. split; [reflexivity|exact Hcs].
Qed.

Lemma default_retyped c : default_layout c -> retyped c c.
Proof.
  intros D. destruct (default_wf c D) as ((_ & _ & _ & K) & _). unfold retyped.
  destruct (c_kind c); auto.
Qed.

(** ** C25: copies of default-layout tables *)
Lemma default_static c : default_layout c -> c_kind c = KStatic ->
  wf_container c /\ strides_z c = strides_of (dims c).
Proof. intros D _. destruct (default_wf c D) as (W & Sz & _). split; assumption. Qed.

(** The default layout is a function of kind and shape, so the copy has it too. *)
Lemma default_kind_inv c : default_layout c ->
  match c_kind c with
  | KGen => as_stride (c_shape c) = Ok (c_stride c) /\ (2 < length (c_shape c))%nat
  | KStatic => as_stride (c_shape c) = Ok (c_stride c)
  | K1 => c_stride c = [] /\ length (c_shape c) = 1%nat
  | K2 => c_stride c = [] /\ length (c_shape c) = 2%nat
  | _ => False
  end.
Proof.
  intros (Lg & Ne & ss & Mk).
  destruct (as_stride_ok (c_shape c) Lg Ne) as (st & As & _).
  unfold make_accessor in Mk. destruct ss.
  - rewrite As in Mk. cbn [bind] in Mk. injection Mk as <- <-. exact As.
  - destruct (c_shape c) as [|? [|? [|]]] eqn:Es; [congruence| | |].
    + injection Mk as <- <-. split; reflexivity.
    + injection Mk as <- <-. split; reflexivity.
    + rewrite As in Mk. cbn [bind] in Mk. injection Mk as <- <-. split; [exact As|simpl; lia].
Qed.

Lemma default_of_kind c t : default_layout c -> c_shape t = c_shape c -> c_kind t = c_kind c ->
  rebuild_accessor c (c_shape c) = Ok (c_kind t, c_shape t, c_stride t) -> default_layout t.
Proof.
  intros D Es Ek R. pose proof (default_kind_inv c D) as Ki. destruct D as (Lg & Ne & ss & Mk).
  split; [rewrite Es; exact Lg|]. split; [rewrite Es; exact Ne|].
  exists ss. rewrite Es, Mk, Ek. f_equal. f_equal.
  unfold rebuild_accessor in R. destruct (c_kind c) eqn:Ec; try contradiction.
  - destruct Ki as [As _]. rewrite As in R. cbn [bind] in R. injection R as _ _ E. exact E.
  - injection R as _ _ E. exact E.
  - injection R as _ _ E. destruct Ki as [-> _]. exact E.
  - injection R as _ _ E. destruct Ki as [-> _]. exact E.
Qed.

Lemma table_like_inv {T} (m : mem T) ty c m' t : table_like m ty c = Ok (m', t) ->
  rebuild_accessor ty (c_shape c) = Ok (c_kind t, c_shape t, c_stride t).
Proof.
  unfold table_like, settings. destruct (numel (c_shape c)) as [n| | |]; cbn [bind]; try discriminate.
  destruct (new_block m (cval n) (Some (c_data c))) as [[m1 d]| | |]; cbn [bind]; try discriminate.
  destruct (rebuild_accessor ty (c_shape c)) as [[[k sh] st]| | |]; cbn [bind]; try discriminate.
  intros E. injection E as _ <-. reflexivity.
Qed.

Lemma copy_table_deep_l {T} (m : mem T) c : default_layout c -> readable m c ->
  exists m' t, copy_table m c = Ok (m', t) /\ default_layout t /\ c_shape t = c_shape c /\
    (forall is_, coord_of c is_ -> exists v, get m c is_ = Ok v /\ get m' t is_ = Ok v) /\
    extends m m' /\
    (forall ws, Forall (fun w => coord_of t (fst w)) ws -> exists m'', puts m' t ws = Ok m'' /\
       forall is_, coord_of c is_ -> get m'' c is_ = get m c is_) /\
    (forall ws, Forall (fun w => coord_of c (fst w)) ws -> exists m'', puts m' c ws = Ok m'' /\
       forall is_, coord_of c is_ -> get m'' t is_ = get m c is_).
Proof.
  intros D R. pose proof (default_contiguous m c D) as RC. destruct D as (Lg & Ne & D0).
  assert (D : default_layout c) by (split; [|split]; assumption).
  destruct (table_like_ok m c c Lg Ne (default_retyped c D) (default_static c D)) as
    (m' & t & E & Pl & Es & Ek & _ & V & X & Fr & _ & _); [apply RC; exact R|].
  pose proof (default_of_kind c t D Es Ek (table_like_inv _ _ _ _ _ E)) as Dt.
  assert (Ed : dims t = dims c) by (unfold dims; rewrite Es; reflexivity).
  assert (Ct : forall is_, coord_of t is_ <-> coord_of c is_) by (intros; unfold coord_of; rewrite Ed; tauto).
  assert (Dis : forall a b, in_box (dims c) a -> in_box (dims c) b -> elem t a <> elem c b).
  { intros a b Ba Bb G. destruct (R b Bb) as (v & Hv). apply peek_valid in Hv.
    rewrite <- G, default_elem in Hv by (try exact Dt; rewrite Ed; exact Ba).
    exact (Fr _ Hv). }
  assert (Pk : forall is_, in_box (dims c) is_ -> peek m' (elem t is_) = peek m (elem c is_)).
  { intros is_ B. rewrite (default_elem c is_ D B), (default_elem t is_ Dt) by (rewrite Ed; exact B).
    rewrite Ed. apply V. apply rank_range. exact B. }
  assert (Wt : writable m' t).
  { intros is_ B. rewrite Ed in B. destruct (R is_ B) as (v & Hv). rewrite <- (Pk is_ B) in Hv.
    eapply peek_valid; exact Hv. }
  assert (Wc : writable m' c).
  { intros is_ B. destruct (R is_ B) as (v & Hv). apply peek_valid in Hv. unfold valid. rewrite X; exact Hv. }
  exists m', t. split; [exact E|]. split; [exact Dt|]. split; [exact Es|]. split; [|split; [exact X|split]].
  - intros is_ Ci. rewrite (get_load m c is_ (default_addressable c _ D) Ci).
    rewrite (get_load m' t is_ (default_addressable t _ Dt)) by (apply Ct; exact Ci).
    destruct Ci as [_ B]. destruct (R _ B) as (v & Hv). exists v. split; apply load_peek; [exact Hv|].
    rewrite Pk by exact B. exact Hv.
  - intros ws Hw. rewrite Forall_forall in Hw.
    destruct (puts_frame t ws m') as (m'' & E'' & F); [|exact Wt|].
    + intros is_ v Hin. split; [apply default_addressable; exact Dt|apply (Hw _ Hin)].
    + exists m''. split; [exact E''|]. intros is_ Ci.
      rewrite !(get_load _ c is_ (default_addressable c _ D) Ci). destruct Ci as [_ B].
      unfold load. rewrite F.
      * rewrite X; [reflexivity|]. destruct (R _ B) as (v & Hv). eapply peek_valid; exact Hv.
      * intros js Hj G. rewrite Ed in Hj. exact (Dis js (vals is_) Hj B (eq_sym G)).
  - intros ws Hw. rewrite Forall_forall in Hw.
    destruct (puts_frame c ws m') as (m'' & E'' & F); [|exact Wc|].
    + intros is_ v Hin. split; [apply default_addressable; exact D|apply (Hw _ Hin)].
    + exists m''. split; [exact E''|]. intros is_ Ci.
      rewrite (get_load m c is_ (default_addressable c _ D) Ci).
      rewrite (get_load m'' t is_ (default_addressable t _ Dt)) by (apply Ct; exact Ci).
      destruct Ci as [_ B]. destruct (R _ B) as (v & Hv). rewrite (load_peek _ _ _ Hv). apply load_peek.
      unfold peek. rewrite F.
      * rewrite <- (Pk _ B) in Hv. exact Hv.
      * intros js Hj G. exact (Dis (vals is_) js B Hj G).
Qed.

(** ** C26, C27: views and tables built from the settings of a container *)
Lemma view_of_contiguous_l ss c : legal (c_shape c) -> c_shape c <> [] ->
  exists v, view_of ss c = Ok v /\ default_layout v /\ c_shape v = c_shape c /\
    forall is_, coord_of c is_ -> address v is_ = Ok (padd (c_data c) (rank (dims c) (vals is_))).
Proof.
  intros Lg Ne. unfold view_of, settings.
  destruct (make_view_default_l ss (c_shape c) (c_data c) Lg Ne) as (v & E & D & Es & Ed).
  exists v. split; [exact E|]. split; [exact D|]. split; [exact Es|]. intros is_ [W B].
  assert (B' : in_box (dims v) (vals is_)) by (unfold dims; rewrite Es; exact B).
  destruct (default_index_rank_l v is_ D W B') as (_ & _ & _ & _ & A). rewrite A, Ed.
  unfold dims. rewrite Es. reflexivity.
Qed.

Lemma view_of_default_l ss c : default_layout c ->
  exists v, view_of ss c = Ok v /\ c_shape v = c_shape c /\
    forall is_, coord_of c is_ -> address v is_ = address c is_ /\
      forall (T : Type) (m : mem T), get m v is_ = get m c is_ /\
        forall x, put m v is_ x = put m c is_ x.
Proof.
  intros D. destruct (view_of_contiguous_l ss c (proj1 D) (proj1 (proj2 D))) as (v & E & _ & Es & A).
  exists v. split; [exact E|]. split; [exact Es|]. intros is_ Ci.
  assert (Eq : address v is_ = address c is_).
  { rewrite (A is_ Ci). destruct Ci as [W B].
    destruct (default_index_rank_l c is_ D W B) as (_ & _ & _ & _ & A'). symmetry. exact A'. }
  split; [exact Eq|]. intros T m. unfold get, put, ref. rewrite Eq. split; reflexivity.
Qed.

Lemma view_of_strided_l ss c is_ v : addressable c (map cty is_) -> legal (c_shape c) -> c_shape c <> [] ->
  c_data c <> Null -> coord_of c is_ -> view_of ss c = Ok v ->
  (address v is_ = address c is_ <-> dot (strides_z c) (vals is_) = rank (dims c) (vals is_)).
Proof.
  intros A Lg Ne Nn Ci Ev.
  destruct (view_of_contiguous_l ss c Lg Ne) as (v' & E & _ & _ & Av).
  rewrite Ev in E. injection E as <-. rewrite (Av is_ Ci). destruct Ci as [W B].
  rewrite elem_address by assumption. unfold elem. destruct (c_data c) as [|b o]; [congruence|].
  split.
  - intros G. injection G as G. lia.
  - intros ->. reflexivity.
Qed.

Lemma reshape_view_l ss c sh : legal (c_shape c) -> legal sh -> sh <> [] ->
  prod (vals sh) = prod (dims c) -> default_layout c ->
  exists v, reshape_view ss c sh = Ok v /\ c_shape v = sh /\
    forall is_ js, wfs is_ -> in_box (vals sh) (vals is_) -> coord_of c js ->
      rank (vals sh) (vals is_) = rank (dims c) (vals js) -> address v is_ = address c js.
Proof.
  intros _ Lg Ne _ D. unfold reshape_view, settings.
  destruct (make_view_default_l ss sh (c_data c) Lg Ne) as (v & E & Dv & Es & Ed).
  exists v. split; [exact E|]. split; [exact Es|]. intros is_ js W B [Wj Bj] R.
  assert (B' : in_box (dims v) (vals is_)) by (unfold dims; rewrite Es; exact B).
  destruct (default_index_rank_l v is_ Dv W B') as (_ & _ & _ & _ & A).
  destruct (default_index_rank_l c js D Wj Bj) as (_ & _ & _ & _ & A').
  rewrite A, A', Ed. unfold dims at 1. rewrite Es, R. reflexivity.
Qed.

Lemma table_of_contiguous_l {T} (m : mem T) ss c : legal (c_shape c) -> c_shape c <> [] ->
  (forall k, 0 <= k < prod (dims c) -> exists v, peek m (padd (c_data c) k) = Some v) ->
  exists m' t, table_of m ss c = Ok (m', t) /\ default_layout t /\ c_shape t = c_shape c /\
    (forall is_, coord_of c is_ -> get m' t is_ = load m (padd (c_data c) (rank (dims c) (vals is_)))) /\
    extends m m'.
Proof.
  intros Lg Ne R. pose proof (numel_ok (c_shape c) Lg Ne) as En.
  assert (Hn : exists n, numel (c_shape c) = Ok n /\ cval n = prod (dims c)) by (eexists; split; [exact En|reflexivity]).
  clear En. destruct Hn as (n & En & Vn).
  pose proof (legal_prod _ Lg) as Hp.
  destruct (new_block_ok m (cval n) (c_data c)) as (m' & data & E & V & X & Fr & _ & _).
  - rewrite Vn. unfold dims. lia.
  - rewrite Vn. exact R.
  - destruct (make_view_default_l ss (c_shape c) data Lg Ne) as (t & Et & D & Es & Ed).
    unfold make_view in Et. unfold table_of, settings, make_table. rewrite En. cbn [bind]. rewrite E. cbn [bind].
    destruct (make_accessor ss ss (c_shape c) None) as [[k st]| | |]; cbn [bind] in *; try discriminate.
    injection Et as Et. rewrite Et. exists m', t. split; [reflexivity|]. split; [exact D|]. split; [exact Es|].
    split; [|exact X]. intros is_ Ci.
    assert (Ed' : dims t = dims c) by (unfold dims; rewrite Es; reflexivity).
    assert (Ct : coord_of t is_) by (unfold coord_of; rewrite Ed'; exact Ci).
    rewrite (get_load m' t is_ (default_addressable t _ D) Ct). destruct Ct as [_ B].
    rewrite (default_elem t _ D B), Ed, Ed'. rewrite Ed' in B.
    pose proof (rank_range _ _ B) as Rr. rewrite Vn in V. specialize (V _ Rr).
    destruct (R _ Rr) as (v & Hv). rewrite (load_peek _ _ _ Hv). apply load_peek. congruence.
Qed.

Lemma copy_strided_l {T} (m : mem T) c : c_kind c <> KStatic -> wf_container c ->
  legal (c_shape c) -> c_shape c <> [] ->
  (forall k, 0 <= k < prod (dims c) -> exists v, peek m (padd (c_data c) k) = Some v) ->
  exists m' t, copy_table m c = Ok (m', t) /\ c_shape t = c_shape c /\
    (forall is_, coord_of c is_ -> get m' t is_ = load m (padd (c_data c) (rank (dims c) (vals is_)))) /\
    extends m m'.
Proof.
  intros Nk Wf Lg Ne R.
  assert (Rt : retyped c c) by (destruct Wf as (_ & _ & _ & K); unfold retyped; destruct (c_kind c); auto).
  destruct (table_like_ok m c c Lg Ne Rt) as (m' & t & E & Pl & Es & _ & _ & V & X & _);
    [congruence|exact R|].
  exists m', t. split; [exact E|]. split; [exact Es|]. split; [|exact X]. intros is_ Ci.
  assert (Ed' : dims t = dims c) by (unfold dims; rewrite Es; reflexivity).
  assert (Ct : coord_of t is_) by (unfold coord_of; rewrite Ed'; exact Ci).
  rewrite (get_load m' t is_ (plain_addressable t _ Pl) Ct). destruct Ct as [_ B].
  rewrite (plain_elem t _ Pl B), Ed'. rewrite Ed' in B.
  pose proof (rank_range _ _ B) as Rr. specialize (V _ Rr).
  destruct (R _ Rr) as (v & Hv). rewrite (load_peek _ _ _ Hv). apply load_peek. congruence.
Qed.

(** ** C28: assignment and swap *)
Lemma release_ok {T} (m : mem T) c : owns m c ->
  exists m', release m (c_data c) = Ok m' /\
    forall p, ~ same_block p (c_data c) -> cell m' p = cell m p.
Proof.
  intros [->|(b & cs & -> & Hb)].
  - exists m. split; [reflexivity|auto].
  - simpl. rewrite Hb. eexists. split; [reflexivity|]. intros [|b' o] N; [reflexivity|].
    unfold cell. rewrite set_nth_other; [reflexivity|]. simpl in N. congruence.
Qed.

Lemma swap_heap_l a b : same_type a b -> wf_container a -> wf_container b ->
  let (a', b') := swap_containers a b in
  c_shape a' = c_shape b /\ c_shape b' = c_shape a /\
  (forall is_, elem a' is_ = elem b is_) /\ (forall is_, elem b' is_ = elem a is_) /\
  (forall is_, index a' is_ = index b is_) /\ (forall is_, index b' is_ = index a is_).
Proof.
  intros (Ek & _ & St) Wa Wb. unfold swap_containers, swap_accessors.
  unfold elem, strides_z, get_stride, index. destruct (c_kind a) eqn:Ka; rewrite <- Ek; simpl;
    repeat split; try reflexivity; try (destruct (St eq_refl) as [Es Et]; congruence);
    try (intros; destruct (St eq_refl) as [Es Et]; rewrite ?Es, ?Et; reflexivity).
Qed.

Lemma same_type_sym a b : same_type a b -> same_type b a.
Proof. intros (A & B & C). split; [congruence|]. split; [congruence|]. intros K. rewrite A in C.
  destruct (C K). split; congruence. Qed.

Lemma assign_table_l {T} (m : mem T) dst src : default_layout dst -> default_layout src ->
  same_type dst src -> owns m dst -> readable m src ->
  exists m' d, assign_table m dst src = Ok (m', d) /\ default_layout d /\ c_shape d = c_shape src /\
    (forall is_, coord_of src is_ -> get m' d is_ = get m src is_) /\
    (forall is_, in_box (dims d) is_ -> ~ valid m (elem d is_)) /\
    (forall p, valid m p -> ~ same_block p (c_data dst) -> cell m' p = cell m p).
Proof.
  intros Dd Ds St Ow R.
  assert (Ek : c_kind dst = c_kind src) by apply St.
  assert (Rt : retyped dst src).
  { pose proof (default_retyped src Ds) as G. unfold retyped in *. rewrite Ek. destruct (c_kind src) eqn:E; auto.
    apply St. congruence. }
  destruct (table_like_ok m dst src (proj1 Ds) (proj1 (proj2 Ds)) Rt (default_static dst Dd))
    as (m1 & t & E & Pl & Es & Ekt & Est & V & X & Fr & Owt & Nu); [apply default_contiguous; assumption|].
  assert (Wt : wf_container t) by apply Pl.
  assert (Wd : wf_container dst) by apply (default_wf dst Dd).
  assert (Dt : default_layout t).
  { apply (default_of_kind src t Ds Es); [congruence|].
    pose proof (table_like_inv _ _ _ _ _ E) as G. unfold rebuild_accessor in *. rewrite <- Ek.
    destruct (c_kind dst) eqn:K; try exact G.
    destruct St as (_ & _ & St). destruct (St K) as [<- <-]. exact G. }
  unfold assign_table. rewrite E. cbn [bind]. unfold swap_containers, swap_accessors.
  assert (Ow1 : owns m1 dst).
  { destruct Ow as [H|(b & cs & H & Hb)]; [left; exact H|].
    destruct (Nat.eq_dec (length cs) 0) as [Hc|Hc].
    - (* an empty block: it still exists *)
      right. exists b.
      assert (Hlt : (b < length m)%nat) by (eapply nth_lt; exact Hb).
      revert E. unfold table_like, settings. destruct (numel (c_shape src)) as [n| | |]; cbn [bind]; try discriminate.
      unfold new_block. intros E.
      assert (Pres : forall n0 (mm : mem T) s d, nth_error mm b = Some (Some cs) ->
        forall mm', copy_elements mm s d n0 = Ok mm' -> exists cs', nth_error mm' b = Some (Some cs')).
      { clear -Hc. induction n0 as [|n0 IH]; intros mm s d Hm mm' Hcopy; simpl in Hcopy.
        - injection Hcopy as <-. eauto.
        - destruct (load mm s) as [v| | |]; cbn [bind] in Hcopy; try discriminate.
          unfold store in Hcopy. destruct (validb mm d) eqn:Vd; cbn [bind] in Hcopy; [|discriminate].
          eapply IH; [|exact Hcopy]. destruct d as [|bd od]; [exact Hm|]. unfold upd.
          destruct (nth_error mm bd) as [[csd|]|] eqn:Ed; try exact Hm.
          destruct (0 <=? od); [|exact Hm].
          destruct (Nat.eq_dec bd b) as [->|Nb].
          + rewrite Hm in Ed. injection Ed as <-. rewrite set_nth_same by (eapply nth_lt; exact Hm).
            destruct cs; [reflexivity|discriminate].
          + rewrite set_nth_other by exact Nb. exact Hm. }
      destruct (cval n =? 0) eqn:En0.
      + destruct (copy_elements m (c_data src) Null (Z.to_nat (cval n))) as [m2| | |] eqn:Ec; cbn [bind] in E; try discriminate.
        destruct (rebuild_accessor dst (c_shape src)) as [[[k sh] st]| | |]; cbn [bind] in E; try discriminate.
        injection E as <- _. destruct (Pres _ _ _ _ Hb _ Ec) as (cs' & H'). eauto.
      + unfold alloc in E.
        destruct (copy_elements _ (c_data src) _ (Z.to_nat (cval n))) as [m2| | |] eqn:Ec in E; cbn [bind] in E; try discriminate.
        destruct (rebuild_accessor dst (c_shape src)) as [[[k sh] st]| | |]; cbn [bind] in E; try discriminate.
        injection E as <- _. eapply Pres in Ec as (cs' & H'); [eauto|].
        rewrite nth_error_app1 by exact Hlt. exact Hb.
    - right. exists b. destruct cs as [|c0 cs]; [simpl in Hc; lia|].
      assert (Vb : valid m (Ptr b 0)) by (unfold valid; simpl; rewrite Hb; simpl; discriminate).
      pose proof (X _ Vb) as Xb. unfold valid in Vb. rewrite <- Xb in Vb. simpl in Vb.
      destruct (nth_error m1 b) as [[cs'|]|]; try congruence. eauto. }
  destruct (release_ok m1 dst Ow1) as (m2 & Erel & Frel).
  assert (Nb : forall k, ~ same_block (padd (c_data t) k) (c_data dst)).
  { intros k. destruct Nu as [->|[-> _]]; [intros []|]. simpl.
    destruct Ow as [->|(b & cs & -> & Hb)]; [intros []|]. simpl. intros <-. apply nth_lt in Hb. lia. }
  assert (Fin : forall d, d = t -> default_layout d /\ c_shape d = c_shape src /\
    (forall is_, coord_of src is_ -> get m2 d is_ = get m src is_) /\
    (forall is_, in_box (dims d) is_ -> ~ valid m (elem d is_)) /\
    (forall p, valid m p -> ~ same_block p (c_data dst) -> cell m2 p = cell m p)).
  { intros d ->. split; [exact Dt|]. split; [exact Es|].
    assert (Ed : dims t = dims src) by (unfold dims; rewrite Es; reflexivity). split; [|split].
    - intros is_ Ci. rewrite (get_load m src is_ (default_addressable src _ Ds) Ci).
      assert (Ct : coord_of t is_) by (unfold coord_of; rewrite Ed; exact Ci).
      rewrite (get_load m2 t is_ (default_addressable t _ Dt) Ct). destruct Ci as [_ B].
      destruct (R _ B) as (v & Hv). rewrite (load_peek _ _ _ Hv). apply load_peek.
      rewrite (plain_elem t) by (try exact Pl; rewrite Ed; exact B). rewrite Ed.
      unfold peek. rewrite Frel by apply Nb. fold (peek m1 (padd (c_data t) (rank (dims src) (vals is_)))).
      rewrite V by (apply rank_range; exact B). rewrite <- default_elem by assumption. exact Hv.
    - intros is_ B. rewrite (plain_elem t is_ Pl B). apply Fr.
    - intros p Vp Np. rewrite Frel by exact Np. apply X. exact Vp. }
  assert (Eqt : c_kind dst = KStatic -> c_shape t = c_shape dst /\ c_stride t = c_stride dst).
  { intros K. split; [rewrite Es; symmetry; apply St; exact K|apply Est; exact K]. }
  destruct (c_kind dst) eqn:Kd; cbn [fst snd c_data]; rewrite Erel; cbn [bind]; eexists m2, _;
    (split; [reflexivity|]); apply Fin; destruct t as [kt sht stt dt]; simpl in *; subst kt; f_equal.
  - destruct Eqt as [-> ->]; reflexivity.
  - destruct Eqt as [-> ->]; reflexivity.
  - pose proof (default_kind_inv dst Dd) as A. pose proof (default_kind_inv _ Dt) as B. simpl in B.
    rewrite Kd in A. destruct A, B; congruence.
  - pose proof (default_kind_inv dst Dd) as A. pose proof (default_kind_inv _ Dt) as B. simpl in B.
    rewrite Kd in A. destruct A, B; congruence.
Qed.
