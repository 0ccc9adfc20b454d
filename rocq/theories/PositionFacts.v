From Coq Require Import ZArith List Bool Lia.
From Verif Require Import Outcome CInt CIntFacts Spec SpecFacts ShapeSpec Shape ShapeFacts ShapeFacts2
  ForEachFacts Memory MemFacts Container ContainerSpec ContainerFacts ContainerFacts2 ContainerFacts3
  Algo AlgoSpec AlgoFacts AlgoFacts2 AlgoFacts3 AlgoFacts4 ReverseFacts Position PositionSpec.
Import ListNotations.
Open Scope Z_scope.

(** ** Comparison *)

Lemma pos_eq_from_l n : forall i p q, ints p -> ints q -> (i + n = length p)%nat -> length q = length p ->
  exists b, pos_eq_from n i p q = Ok b /\ (b = true <-> vals (skipn i p) = vals (skipn i q)).
Proof.
  induction n as [|n IH]; intros i p q Hp Hq L Lq.
  - exists true. split; [reflexivity|]. rewrite !skipn_all2 by lia. tauto.
  - assert (Sp : exists a p', nth_error p i = Some a /\ skipn i p = a :: p' /\ skipn (S i) p = p').
    { clear -L. revert p L. induction i as [|i IH]; intros [|x p] L; cbn in L; try lia.
      - exists x, p. auto.
      - destruct (IH p ltac:(lia)) as (a & p' & H). exists a, p'. exact H. }
    assert (Sq : exists b q', nth_error q i = Some b /\ skipn i q = b :: q' /\ skipn (S i) q = q').
    { rewrite <- Lq in L. clear -L. revert q L. induction i as [|i IH]; intros [|x p] L; cbn in L; try lia.
      - exists x, p. auto.
      - destruct (IH p ltac:(lia)) as (a & p' & H). exists a, p'. exact H. }
    destruct Sp as (a & p' & Na & Ea & Ta). destruct Sq as (b & q' & Nb & Eb & Tb).
    cbn [pos_eq_from]. unfold pos_at. rewrite Na, Nb, !bind_ok.
    assert (Wa : wfc a /\ cty a = I32).
    { destruct Hp as [W F]. apply nth_error_In in Na. unfold wfs in W. rewrite Forall_forall in W, F. auto. }
    assert (Wb : wfc b /\ cty b = I32).
    { destruct Hq as [W F]. apply nth_error_In in Nb. unfold wfs in W. rewrite Forall_forall in W, F. auto. }
    rewrite ceqb_exact; [|apply Wa|apply Wb|left; rewrite (proj2 Wa), (proj2 Wb); reflexivity].
    rewrite Ea, Eb. cbn [vals map]. destruct (Z.eqb_spec (cval a) (cval b)) as [E|E]; cbn [negb].
    + destruct (IH (S i) p q Hp Hq ltac:(lia) Lq) as (r & Er & Hr). exists r. split; [exact Er|].
      rewrite Hr, Ta, Tb. unfold vals in *. split; [intros ->; rewrite E; reflexivity|intros H; injection H as _ H; exact H].
    + exists false. split; [reflexivity|]. split; [discriminate|]. intros H. injection H as H _. congruence.
Qed.
Lemma pos_eq_l p q : ints p -> ints q -> length p = length q ->
  exists b, pos_eq p q = Ok b /\ (b = true <-> p = q).
Proof.
  intros Hp Hq L. unfold pos_eq. rewrite (proj2 (Nat.eqb_eq _ _) L).
  destruct (pos_eq_from_l (length p) 0 p q Hp Hq eq_refl (eq_sym L)) as (b & E & H). exists b. split; [exact E|].
  rewrite H. cbn [skipn]. destruct Hp as [_ Fp], Hq as [_ Fq]. clear -Fp Fq L. revert q L Fq.
  induction Fp as [|x p Hx Fp IH]; intros [|y q] L Fq; try discriminate; [tauto|]. inversion Fq; subst.
  cbn [vals map]. specialize (IH q ltac:(cbn in L; congruence) ltac:(assumption)). unfold vals in IH. split.
  - intros Q. injection Q as Q1 Q2. f_equal; [|apply IH; exact Q2]. destruct x, y; cbn in *; congruence.
  - intros Q. injection Q as -> ->. reflexivity.
Qed.

(** ** Positions as coordinates *)
Lemma position_wfs ns pos : in_box (vals ns) (vals pos) -> map cty pos = map (fun _ => I32) ns ->
  Forall (fun n => n <= 2147483648) (vals ns) -> ints pos.
Proof.
  revert ns. induction pos as [|p pos IH]; intros [|n ns] B Ty F; try discriminate; [split; constructor|].
  cbn [vals map] in *. injection Ty as T1 Ty. inversion B; subst. inversion F; subst.
  destruct (IH ns ltac:(assumption) Ty ltac:(assumption)) as [W1 W2]. split; constructor; try assumption.
  unfold wfc, in_ty. rewrite T1. cbn [tmin tmax]. lia.
Qed.

Lemma addressable_ints c tys pos : addressable c tys -> ints pos -> addressable c (map cty pos).
Proof.
  intros (W & Sg & R) [_ F]. split; [exact W|]. split; [|exact R]. destruct Sg as [N|[St _]]; [left; exact N|right].
  split; [exact St|]. clear -F. induction F as [|x l Hx F IH]; cbn; constructor; [rewrite Hx; reflexivity|exact IH].
Qed.

Lemma found_ref {T} (m : mem T) c pos : can_read m c c -> ints pos -> in_box (dims c) (vals pos) ->
  address c pos = Ok (elem c (vals pos)) /\ get m c pos = match peek m (elem c (vals pos)) with Some v => Ok v | None => UB end.
Proof.
  intros (A & _ & Rd) Hi B. pose proof (addressable_ints _ _ _ A Hi) as A'.
  assert (Ad : address c pos = Ok (elem c (vals pos))).
  { apply elem_address; [exact A'|apply Hi|exact B]. }
  split; [exact Ad|]. unfold get, ref. rewrite Ad, bind_ok. destruct (Rd _ B) as (v & Hv). unfold value in Hv.
  assert (Vb : validb m (elem c (vals pos)) = true) by (apply validb_true; unfold peek in Hv; destruct (cell m _); congruence).
  rewrite Vb, bind_ok, (load_peek _ _ _ Hv), Hv. reflexivity.
Qed.

Lemma found_put {T} (m : mem T) c pos x : can_write m c c -> ints pos -> in_box (dims c) (vals pos) ->
  exists m', put m c pos x = Ok m' /\ peek m' (elem c (vals pos)) = Some x /\ same_cells m m' /\
    forall p, p <> elem c (vals pos) -> cell m' p = cell m p.
Proof.
  intros (A & _ & _ & V) Hi B. pose proof (addressable_ints _ _ _ A Hi) as A'.
  unfold put. rewrite (ref_ok m c pos A' (proj1 Hi) B (V _ B)), bind_ok.
  rewrite store_valid by (apply V; exact B). eexists. split; [reflexivity|].
  split; [|split].
  - unfold peek. rewrite cell_upd_same by (apply V; exact B). reflexivity.
  - intros p. unfold valid. destruct (ptr_eq_dec p (elem c (vals pos))) as [->|N].
    + rewrite cell_upd_same by (apply V; exact B). split; [discriminate|intros _; apply V; exact B].
    + rewrite cell_upd_other by congruence. tauto.
  - intros p N. apply cell_upd_other. congruence.
Qed.

Lemma read_bounds {T} (m : mem T) c pos : can_read m c c -> Forall (fun n => n <= 2147483648) (dims c) ->
  map cty pos = map (fun _ => I32) (c_shape c) -> in_box (dims c) (vals pos) -> ints pos.
Proof. intros _ F Ty B. exact (position_wfs (c_shape c) pos B Ty F). Qed.

Lemma find_read_l {T} c (f : T -> bool) m : can_read m c c -> Forall (fun n => n <= 2147483648) (dims c) ->
  exists r, find_if c f m = Ok (r, m) /\
    match r with
    | Some p => ints p /\ in_box (dims c) (vals p) /\ (exists v, get m c p = Ok v /\ f v = true) /\
        forall q v, ints q -> in_box (dims c) (vals q) -> get m c q = Ok v -> f v = true -> q = p \/ lex (vals p) (vals q)
    | None => forall q v, ints q -> in_box (dims c) (vals q) -> get m c q = Ok v -> f v = false
    end.
Proof.
  intros CR F. destruct (find_if_l c f m CR F) as (r & E & H). exists r. split; [exact E|].
  assert (G : forall q v, ints q -> in_box (dims c) (vals q) -> get m c q = Ok v -> value m c (vals q) v).
  { intros q v Hq B G. destruct (found_ref m c q CR Hq B) as [_ Q]. rewrite Q in G. unfold value.
    destruct (peek m _); congruence. }
  destruct r as [p|].
  - destruct H as (Ty & B & (v & Hv & Hf) & Hm). pose proof (read_bounds m c p CR F Ty B) as Hp.
    split; [exact Hp|]. split; [exact B|]. split.
    + exists v. split; [|exact Hf]. destruct (found_ref m c p CR Hp B) as [_ Q]. rewrite Q. unfold value in Hv.
      rewrite Hv. reflexivity.
    + intros q w Hq Bq Gq Hfw. destruct (Hm (vals q) w Bq (G q w Hq Bq Gq) Hfw) as [Eq|L]; [left|right; exact L].
      destruct Hp as [_ Fp], Hq as [_ Fq]. clear -Eq Fp Fq. revert q Eq Fq.
      induction Fp as [|x p Hx Fp IH]; intros [|y q] Eq Fq; try discriminate; [reflexivity|].
      inversion Fq; subst. cbn [vals map] in Eq. injection Eq as Q1 Q2. f_equal; [|apply IH; assumption].
      destruct x, y; cbn in *; congruence.
  - intros q v Hq B Gq. apply (H (vals q) v B). apply G; assumption.
Qed.

(** ** find, overwrite, repeat *)
Lemma can_read_write {T} (m m' : mem T) c pos x : can_read m c c -> peek m' (elem c (vals pos)) = Some x ->
  (forall p, p <> elem c (vals pos) -> cell m' p = cell m p) -> can_read m' c c.
Proof.
  intros (A & Cv & Rd) Hx Ho. split; [exact A|]. split; [exact Cv|]. intros is_ B. unfold value.
  destruct (ptr_eq_dec (elem c is_) (elem c (vals pos))) as [->|N]; [eauto|].
  destruct (Rd _ B) as (v & Hv). exists v. unfold value, peek in *. rewrite Ho by exact N. exact Hv.
Qed.
Lemma can_write_same {T} (m m' : mem T) c : can_write m c c -> same_cells m m' -> can_write m' c c.
Proof. intros (A & Cv & D & V) S. split; [exact A|]. split; [exact Cv|]. split; [exact D|]. intros is_ B. apply S, V, B. Qed.

Lemma values_write {T} (m m' : mem T) c pos x vs : nonnegs (dims c) -> distinct_on c c -> values m c c vs -> in_box (dims c) (vals pos) ->
  peek m' (elem c (vals pos)) = Some x -> (forall p, p <> elem c (vals pos) -> cell m' p = cell m p) ->
  exists a v b, vs = a ++ v :: b /\ value m c (vals pos) v /\ values m' c c (a ++ x :: b).
Proof.
  intros Nn D V B Hx Ho. apply box_In in B. destruct (in_split _ _ B) as (pre & post & E).
  pose proof (box_NoDup (dims c) Nn) as ND. unfold values in *. rewrite E in V.
  apply Forall2_app_inv_l in V. destruct V as (a & vb & Va & Vb & ->). inversion Vb as [|? v ? b Hv Vb']; subst.
  exists a, v, b. split; [reflexivity|]. split; [exact Hv|]. rewrite E.
  assert (Keep : forall l ws, (forall is_, In is_ l -> In is_ (box (dims c)) /\ is_ <> vals pos) ->
    Forall2 (fun is_ v => value m c is_ v) l ws -> Forall2 (fun is_ v => value m' c is_ v) l ws).
  { intros l ws Hl F. induction F as [|is_ w l ws Hw F IH]; constructor.
    - destruct (Hl is_ (or_introl eq_refl)) as [I N]. unfold value, peek in *. rewrite Ho; [exact Hw|].
      intros Q. apply N. apply (D is_ (vals pos)); [apply box_In; exact I|apply box_In; exact B|exact Q].
    - apply IH. intros j Hj. apply Hl. right. exact Hj. }
  rewrite E in ND. apply NoDup_remove_2 in ND. apply Forall2_app.
  - apply Keep; [|exact Va]. intros is_ I. split; [rewrite E; apply in_or_app; left; exact I|].
    intros ->. apply ND. apply in_or_app. left. exact I.
  - constructor; [exact Hx|]. apply Keep; [|exact Vb']. intros is_ I. split; [rewrite E; apply in_or_app; right; right; exact I|].
    intros ->. apply ND. apply in_or_app. right. exact I.
Qed.

Lemma frame_refl {T} c (m : mem T) : frame c c m m.
Proof. split; [intros p; tauto|reflexivity]. Qed.

Lemma replace_found_l {T} n : forall c (f : T -> bool) x m vs, can_read m c c -> can_write m c c ->
  Forall (fun n => n <= 2147483648) (dims c) -> f x = false -> values m c c vs -> (length (filter f vs) < n)%nat ->
  exists m', replace_found n c f x m = Ok m' /\ values m' c c (map (fun v => if f v then x else v) vs) /\ frame c c m m'.
Proof.
  induction n as [|n IH]; intros c f x m vs CR CW F Fx V L; [lia|]. cbn [replace_found].
  destruct (find_if_l c f m CR F) as (r & E & H). rewrite E, bind_ok. cbn [fst snd]. destruct r as [p|].
  - destruct H as (Ty & B & (v & Hv & Hf) & _). pose proof (read_bounds m c p CR F Ty B) as Hp.
    destruct (found_put m c p x CW Hp B) as (m1 & E1 & X1 & S1 & O1). rewrite E1, bind_ok.
    destruct (values_write m m1 c p x vs (proj1 (proj2 (proj1 (proj1 CR)))) (proj1 (proj2 (proj2 CW))) V B X1 O1) as (a & w & b & -> & Hw & V1).
    assert (w = v) as -> by (unfold value in *; congruence).
    rewrite filter_app in L. cbn [filter] in L. rewrite Hf in L. rewrite app_length in L. cbn [length] in L.
    destruct (IH c f x m1 (a ++ x :: b)) as (m' & E' & V' & Fr').
    + eapply can_read_write; eassumption.
    + eapply can_write_same; eassumption.
    + exact F.
    + exact Fx.
    + exact V1.
    + rewrite filter_app. cbn [filter]. rewrite Fx, app_length. lia.
    + exists m'. split; [exact E'|]. split.
      * rewrite map_app in *. cbn [map] in *. rewrite Fx in V'. rewrite Hf. exact V'.
      * destruct Fr' as [Sc Fr']. split; [intros q; rewrite (S1 q); apply Sc|]. intros q Nq. rewrite Fr' by exact Nq.
        apply O1. apply Nq. exact B.
  - exists m. split; [reflexivity|]. split; [|apply frame_refl].
    assert (Id : map (fun v => if f v then x else v) vs = vs).
    { unfold values in V. assert (G : forall l, (forall is_, In is_ l -> in_box (dims c) is_) ->
        Forall2 (fun is_ v => value m c is_ v) l vs -> map (fun v => if f v then x else v) vs = vs).
      { clear -H. intros l Hl Fv. induction Fv as [|is_ v l vs Hv Fv IHv]; [reflexivity|]. cbn [map].
        rewrite (H is_ v (Hl is_ (or_introl eq_refl)) Hv). f_equal. apply IHv. intros j Hj. apply Hl. right. exact Hj. }
      apply (G _ (fun is_ I => proj1 (box_In _ _) I) V). }
    rewrite Id. exact V.
Qed.

Lemma replace_found_forever {T} n : forall c (f : T -> bool) x m, can_read m c c -> can_write m c c ->
  Forall (fun n => n <= 2147483648) (dims c) -> f x = true ->
  (exists is_ v, in_box (dims c) is_ /\ value m c is_ v /\ f v = true) -> replace_found n c f x m = NoFuel.
Proof.
  induction n as [|n IH]; intros c f x m CR CW F Fx (is_ & v & B & Hv & Hf); [reflexivity|]. cbn [replace_found].
  destruct (find_if_l c f m CR F) as (r & E & H). rewrite E, bind_ok. cbn [fst snd]. destruct r as [p|].
  - destruct H as (Ty & Bp & _ & _). pose proof (read_bounds m c p CR F Ty Bp) as Hp.
    destruct (found_put m c p x CW Hp Bp) as (m1 & E1 & X1 & S1 & O1). rewrite E1, bind_ok.
    apply IH; [eapply can_read_write; eassumption|eapply can_write_same; eassumption|exact F|exact Fx|].
    exists (vals p), x. split; [exact Bp|]. split; [exact X1|exact Fx].
  - exfalso. rewrite (H is_ v B Hv) in Hf. discriminate.
Qed.

(** ** Positions of find_last and of the binary searches *)
Lemma found_read {T} (m : mem T) c p (P : T -> Prop) : can_read m c c -> Forall (fun n => n <= 2147483648) (dims c) ->
  map cty p = map (fun _ => I32) (c_shape c) -> in_box (dims c) (vals p) -> (exists v, value m c (vals p) v /\ P v) ->
  exists v, get m c p = Ok v /\ P v.
Proof.
  intros CR F Ty B (v & Hv & Hp). exists v. split; [|exact Hp].
  destruct (found_ref m c p CR (read_bounds m c p CR F Ty B) B) as [_ Q]. rewrite Q. unfold value in Hv. rewrite Hv. reflexivity.
Qed.

Lemma legal_bound c : legal (c_shape c) -> Forall (fun n => n <= 2147483648) (dims c).
Proof. intros L. eapply Forall_impl; [|exact (legal_dims c L)]. intros n H. cbv beta in *. unfold max31 in H. lia. Qed.

Lemma find_last_read_l {T} ss c (f : T -> bool) m : default_layout c -> no_u32 c -> readable m c ->
  exists r, find_last_if ss c f m = Ok (r, m) /\
    match r with
    | Some p => (exists v, get m c p = Ok v /\ f v = true) /\
        forall q v, coord_of c q -> get m c q = Ok v -> f v = true -> vals q = vals p \/ lex (vals q) (vals p)
    | None => forall q v, coord_of c q -> get m c q = Ok v -> f v = false
    end.
Proof.
  intros D S R. destruct (find_last_if_typed ss c f m D S R) as (r & E & H). exists r. split; [exact E|].
  assert (G : forall q v, coord_of c q -> get m c q = Ok v -> value m c (vals q) v).
  { intros q v C G. apply (strided_access_l m c q (default_addressable c _ D) C). exact G. }
  destruct r as [p|]; cbn in H.
  - destruct H as (Ty & B & Hv & Hm). split.
    + apply found_read; [|apply legal_bound; apply D|exact Ty|exact B|exact Hv].
      split; [apply default_addressable; exact D|]. split; [intros is_ Bi; exact Bi|exact R].
    + intros q v C Gq Hf. apply (Hm (vals q) v); [apply C|apply G; assumption|exact Hf].
  - intros q v C Gq. destruct (f v) eqn:Q; [|reflexivity]. exfalso.
    apply (H (vals q) v); [apply C|apply G; assumption|exact Q].
Qed.

(** ** Searches under the rule against narrowing *)
Lemma narrows_U64 t : narrows t U64 = is_signed t.
Proof. destruct t; reflexivity. Qed.
Lemma poss_ok_spec c : poss_ok c = true <-> Forall (fun n => is_signed (cty n) = false) (c_shape c).
Proof.
  unfold poss_ok. rewrite forallb_forall, Forall_forall. split; intros H n I; specialize (H n I);
    rewrite narrows_U64 in *; destruct (is_signed (cty n)); simpl in *; congruence.
Qed.

Lemma strict_find_l {T} c (f : T -> bool) m : can_read m c c -> Forall (fun n => n <= 2147483648) (dims c) ->
  (exists r, strict_find_if c f m = Ok r) <-> Forall (fun n => is_signed (cty n) = false) (c_shape c).
Proof.
  intros CR F. rewrite <- poss_ok_spec. unfold strict_find_if. split.
  - intros (r & E). destruct (poss_ok c); [reflexivity|discriminate].
  - intros ->. destruct (find_if_l c f m CR F) as (r & E & _). exists (r, m). exact E.
Qed.

Lemma strict_find_last_l {T} ss c (f : T -> bool) m : default_layout c -> readable m c ->
  (Exists (fun n => is_signed (cty n) = true) (c_shape c) -> forall r, strict_find_last_if ss c f m <> Ok r) /\
  (Forall (fun n => cty n = U8 \/ cty n = U16 \/ cty n = U64) (c_shape c) ->
   exists r, strict_find_last_if ss c f m = Ok (r, m) /\ last_at m c (fun v => f v = true) r).
Proof.
  intros D R.
  assert (Sh : forall rc, reverse ss c = Ok rc -> c_shape rc = c_shape c).
  { intros rc Er. unfold reverse in Er. apply bind_inv in Er. destruct Er as (s & _ & Er).
    apply bind_inv in Er. destruct Er as (ns & _ & Er).
    apply bind_inv in Er. destruct Er as (k & _ & Er). unfold make_view in Er. apply bind_inv in Er.
    destruct Er as ([ka st] & _ & Er). injection Er as <-. reflexivity. }
  unfold strict_find_last_if. split.
  - intros Ex r E. apply bind_inv in E. destruct E as (rc & Er & E). specialize (Sh _ Er).
    destruct (poss_ok rc) eqn:Q; [|discriminate]. apply poss_ok_spec in Q. rewrite Sh in Q.
    apply Exists_exists in Ex. destruct Ex as (n & I & Sn). rewrite Forall_forall in Q. rewrite (Q n I) in Sn. discriminate.
  - intros F.
    assert (N : no_u32 c) by (unfold no_u32; eapply Forall_impl; [|exact F]; intros n [-> |[-> | ->]]; discriminate).
    destruct (reverse_typed_l ss c D N) as (rc & Er & Sr & _). rewrite Er, bind_ok.
    assert (Q : poss_ok rc = true).
    { apply poss_ok_spec. rewrite Sr. eapply Forall_impl; [|exact F]. intros n [-> |[-> | ->]]; reflexivity. }
    rewrite Q. exact (find_last_if_typed ss c f m D N R).
Qed.

(** ** Extents beyond 2^31 *)
Lemma find_wraps_l {T} (f : T -> bool) (m : mem T) n b o k v : wfc (CI I64 n) -> 0 <= k < n -> 2147483648 <= k < 4294967296 ->
  (forall i, 0 <= i < n -> exists w, peek m (Ptr b (o + i)) = Some w) ->
  peek m (Ptr b (o + k)) = Some v -> f v = true ->
  (forall i w, 0 <= i < k -> peek m (Ptr b (o + i)) = Some w -> f w = false) ->
  find_if (Cn K1 [CI I64 n] [] (Ptr b o)) f m = Ok (Some [int (k - 4294967296)], m).
Proof.
  intros Wn Hk Hk2 Rd Hv Hf Hfirst. set (c := Cn K1 [CI I64 n] [] (Ptr b o)).
  assert (Inv : forall is_, in_box (dims c) is_ -> exists i, is_ = [i] /\ 0 <= i < n).
  { intros is_ B. inversion B as [|? ? ? ? Hi B']; subst. inversion B'; subst. eexists. split; [reflexivity|exact Hi]. }
  destruct (find_if_coord c f m (fun is_ => Ptr b (o + hd 0 is_))) as [(t & R & Wt & Ty & Bt & (w & Hw & Hfw) & Hm)|(R & H)].
  - constructor; [exact Wn|constructor].
  - constructor; [cbn; lia|constructor].
  - intros is_ Wi Ti Bi. destruct (Inv _ Bi) as (i & E & Hi). destruct is_ as [|x [|]]; try discriminate.
    cbn [vals map] in E. injection E as E. unfold address, index. cbn [c c_kind bind c_data padd vals map hd].
    rewrite E. rewrite cast_id; [reflexivity|]. unfold wfc, in_ty in *. cbn [tmin tmax cty cval] in *. lia.
  - intros is_ B. destruct (Inv _ B) as (i & -> & Hi). cbn [hd]. apply Rd. exact Hi.
  - rewrite R. destruct (Inv _ Bt) as (i & E & Hi). destruct t as [|x [|]]; try discriminate. cbn [vals map] in E.
    injection E as E. cbn [vals map hd] in *. rewrite E in *.
    assert (i = k) as ->.
    { destruct (Hm [k] v) as [Q|Q]; [repeat constructor; cbn; lia|exact Hv|exact Hf|injection Q as ->; reflexivity|].
      assert (~ i < k). { intros L. rewrite (Hfirst i w ltac:(lia) Hw) in Hfw. discriminate. }
      inversion Q; subst; lia. }
    cbn [to_pos map]. unfold conv at 2. cbn [cval]. rewrite E. rewrite (cast_id U64) by (unfold in_ty; cbn [tmin tmax]; lia).
    unfold conv. cbn [cval]. unfold cast. cbn [modulus tmax]. rewrite Z.mod_small by lia.
    destruct (Z.leb_spec k 2147483647); [lia|]. reflexivity.
  - exfalso. rewrite (H [k] v) in Hf; [discriminate|repeat constructor; cbn; lia|exact Hv].
Qed.

(** A block of [n] copies of a value and another value behind them. *)
Lemma peek_block {T} (v w : T) n i : 0 <= n -> 0 <= i <= n ->
  peek [Some (repeat (Some v) (Z.to_nat n) ++ [Some w])] (Ptr 0 (0 + i)) = Some (if i <? n then v else w).
Proof.
  intros Hn Hi. unfold peek, cell. cbn [nth_error]. rewrite Z.add_0_l. rewrite (proj2 (Z.leb_le 0 i)) by lia.
  destruct (Z.ltb_spec i n).
  - rewrite nth_error_app1 by (rewrite repeat_length; lia). rewrite nth_error_repeat by lia. reflexivity.
  - rewrite nth_error_app2 by (rewrite repeat_length; lia). rewrite repeat_length.
    replace (Z.to_nat i - Z.to_nat n)%nat with O by lia. reflexivity.
Qed.
Lemma get_negative {T} (m : mem T) n b z : in_ty I32 z -> z < 0 ->
  get m (Cn K1 [CI I64 n] [] (Ptr b 0)) [int z] = UB.
Proof.
  intros I Z0. unfold get, ref, address, index. cbn [c_kind bind c_data padd cval int].
  rewrite cast_id by (unfold in_ty in *; cbn [tmin tmax] in *; lia).
  assert (V : validb m (Ptr b (0 + z)) = false); [|rewrite V; reflexivity].
  unfold validb, cell. destruct (nth_error m b) as [[cs|]|]; try reflexivity.
  destruct (Z.leb_spec 0 (0 + z)); [lia|reflexivity].
Qed.
Lemma find_wraps_refuted_l : exists (m : mem Z) n p,
  (forall i, 0 <= i < n -> exists w, get m (Cn K1 [CI I64 n] [] (Ptr 0 0)) [CI I64 i] = Ok w) /\
  find_if (Cn K1 [CI I64 n] [] (Ptr 0 0)) (fun v => v =? 1) m = Ok (Some p, m) /\
  get m (Cn K1 [CI I64 n] [] (Ptr 0 0)) p = UB.
Proof.
  exists [Some (repeat (Some 0) (Z.to_nat 2147483648) ++ [Some 1])], 2147483649, [int (2147483648 - 4294967296)].
  assert (Pk : forall i, 0 <= i <= 2147483648 ->
    peek [Some (repeat (Some 0) (Z.to_nat 2147483648) ++ [Some 1])] (Ptr 0 (0 + i)) = Some (if i <? 2147483648 then 0 else 1)).
  { intros i Hi. apply peek_block; lia. }
  revert Pk. generalize (repeat (Some 0) (Z.to_nat 2147483648) ++ [Some 1]). intros blk Pk.
  split; [|split].
  - intros i Hi. specialize (Pk i ltac:(lia)). unfold get, ref, address, index. cbn [c_kind bind c_data padd cval].
    rewrite cast_id by (unfold in_ty; cbn [tmin tmax]; lia).
    assert (V : validb [Some blk] (Ptr 0 (0 + i)) = true).
    { apply validb_true. unfold peek in Pk. destruct (cell _ _); congruence. }
    rewrite V, bind_ok, (load_peek _ _ _ Pk). eauto.
  - apply find_wraps_l with (v := 1).
    + unfold wfc, in_ty. cbn [tmin tmax cty cval]. lia.
    + lia.
    + lia.
    + intros i Hi. rewrite Pk by lia. eauto.
    + rewrite Pk by lia. reflexivity.
    + reflexivity.
    + intros i w Hi Hw. rewrite Pk in Hw by lia. destruct (Z.ltb_spec i 2147483648); [|lia]. injection Hw as <-. reflexivity.
  - apply get_negative; [unfold in_ty; cbn [tmin tmax]; lia|lia].
Qed.
