(** Facts about data sources. *)
From Coq Require Import ZArith List Bool Lia.
From Verif Require Import Outcome CInt CIntFacts Spec SpecFacts ShapeSpec Shape ShapeFacts ShapeFacts2 Prefilled PrefilledSpec
  PrefilledFacts PrefilledFacts2 PrefilledFacts3 Memory MemFacts Container ContainerSpec ContainerFacts ContainerFacts2 ContainerFacts3 AlgoSpec ViewFacts OutputFacts
  Literals LiteralsSpec LiteralsFacts Source SourceSpec.
Import ListNotations.
Open Scope Z_scope.

Lemma of_size_1 dbg c : wfc c -> (p <- of_size dbg [EInt c] ;; to_values p) = Ok [c].
Proof.
  intros W. destruct c as [t v]. unfold wfc in W. cbn [cty cval] in W.
  assert (E : of_size dbg [EInt (CI t v)] = Ok {| pdesc := normalize [(None, CType t)]; pstore := [conv t (CI t v)] |})
    by reflexivity.
  rewrite E. cbn [bind]. unfold conv. cbn [cval]. rewrite cast_id by exact W. reflexivity.
Qed.

Lemma range_shape dbg p n : 0 <= n < 18446744073709551616 -> default_shape dbg (SRange p n) = Ok [CI U64 n].
Proof. intros H. unfold default_shape. apply of_size_1. unfold wfc, in_ty. simpl. lia. Qed.

Lemma ptr_shape dbg p : default_shape dbg (SPtr p) = Ok [int 0].
Proof. unfold default_shape. apply of_size_1. apply wfc_int. unfold max31. lia. Qed.

Lemma range_legal n : 0 <= n <= 2147483647 -> legal [CI U64 n].
Proof.
  intros H. split; [|split].
  - constructor; [unfold wfc, in_ty; simpl; lia|constructor].
  - constructor; [simpl; lia|constructor].
  - unfold posprod, max31. simpl. lia.
Qed.

Lemma range_view_l dbg p n : 0 <= n <= 2147483647 ->
  exists v, view_on dbg None (SRange p n) = Ok v /\ dims v = [n] /\ default_layout v /\
    forall k, 0 <= k < n -> elem v [k] = padd p k.
Proof.
  intros H. unfold view_on, pick_size. rewrite range_shape by lia. cbn [bind default_static storage].
  destruct (make_view_default_l false [CI U64 n] p (range_legal n H)) as (v & E & D & Es & Ed); [discriminate|].
  assert (Dv : dims v = [n]) by (unfold dims; rewrite Es; reflexivity).
  exists v. split; [exact E|]. split; [exact Dv|]. split; [exact D|].
  intros k Hk. rewrite (default_elem v [k] D); [|rewrite Dv; constructor; [lia|constructor]].
  rewrite Ed, Dv. f_equal.
Qed.

Lemma holds_firstn_cells {T} (m : mem T) p vs n : holds m p vs -> (n <= length vs)%nat ->
  cells_at m p (zrange 0 n) (firstn n vs).
Proof.
  intros H L. unfold cells_at.
  assert (G : forall k s, (s + k <= length vs)%nat ->
    Forall2 (fun z v => peek m (padd p z) = Some v) (zrange (Z.of_nat s) k) (firstn k (skipn s vs))).
  { induction k as [|k IH]; intros s Hs; [constructor|].
    destruct (skipn s vs) as [|x r] eqn:E.
    - apply (f_equal (@length T)) in E. rewrite skipn_length in E. simpl in E. lia.
    - simpl. constructor.
      + apply H. rewrite <- (firstn_skipn s vs), E. rewrite nth_error_app2; rewrite firstn_length_le by lia; [|lia].
        rewrite Nat.sub_diag. reflexivity.
      + replace (Z.of_nat s + 1) with (Z.of_nat (S s)) by lia.
        assert (E2 : skipn (S s) vs = r).
        { clear -E. revert vs E. induction s as [|s IHs]; intros [|y vs] E; try discriminate.
          - simpl in E. injection E as _ ->. reflexivity.
          - simpl in E. simpl. apply IHs. exact E. }
        rewrite <- E2. apply IH. lia. }
  specialize (G n 0%nat). simpl in G. apply G. lia.
Qed.

Lemma cells_readable {T} (m : mem T) p zs vs : cells_at m p zs vs -> forall k, In k zs -> exists v, peek m (padd p k) = Some v.
Proof.
  intros H. induction H; intros k I; [contradiction|]. destruct I as [<-|I]; [eauto|]. apply IHForall2. exact I.
Qed.

Lemma table_sized_l {T} (m : mem T) dbg st sh s vs : legal sh -> sh <> [] -> holds m (storage s) vs ->
  prod (vals sh) <= Z.of_nat (length vs) ->
  exists m' t, table_from m dbg (Some (st, sh)) s = Ok (m', t) /\ default_layout t /\ c_shape t = sh /\
    values m' t t (firstn (Z.to_nat (prod (vals sh))) vs) /\ extends m m' /\
    forall is_, in_box (vals sh) is_ -> ~ valid m (elem t is_).
Proof.
  intros Lg Ne H L. pose proof (legal_prod _ Lg) as Hp.
  assert (C : cells_at m (storage s) (zrange 0 (Z.to_nat (prod (vals sh)))) (firstn (Z.to_nat (prod (vals sh))) vs)).
  { apply holds_firstn_cells; [exact H|lia]. }
  destruct (new_block_ok m (prod (vals sh)) (storage s)) as (m' & data & E & V & X & Fr & _).
  - lia.
  - intros k Hk. eapply cells_readable; [exact C|]. apply zrange_In. lia.
  - unfold table_from, pick_size. cbn [bind]. unfold make_table. rewrite (numel_ok sh Lg Ne). cbn [bind cval int].
    rewrite E. cbn [bind]. destruct (make_view_default_l st sh data Lg Ne) as (t & Et & D & Es & Ed).
    unfold make_view in Et. destruct (make_accessor st st sh None) as [[k sd]| | |]; cbn [bind] in *; try discriminate.
    injection Et as <-. eexists _, _. split; [reflexivity|]. split; [exact D|]. split; [reflexivity|].
    split; [|split; [exact X|]].
    + apply (default_values_rank m' _ _ D). cbn [c_data]. unfold dims. cbn [c_shape].
      unfold cells_at in *. revert C. apply Forall2_ext_in. intros a v I Hv. apply zrange_In in I. rewrite V by lia. exact Hv.
    + intros is_ B. rewrite (default_elem _ is_ D) by exact B. apply Fr.
Qed.

Lemma range_table_l {T} (m : mem T) dbg p vs : holds m p vs -> Z.of_nat (length vs) <= 2147483647 ->
  exists m' t, table_from m dbg None (SRange p (Z.of_nat (length vs))) = Ok (m', t) /\ default_layout t /\
    dims t = [Z.of_nat (length vs)] /\ values m' t t vs /\ extends m m'.
Proof.
  intros H L. assert (E : table_from m dbg None (SRange p (Z.of_nat (length vs))) =
    table_from m dbg (Some (false, [CI U64 (Z.of_nat (length vs))])) (SRange p (Z.of_nat (length vs)))).
  { unfold table_from, pick_size. rewrite range_shape by lia. reflexivity. }
  rewrite E. clear E.
  assert (Pp : prod (vals [CI U64 (Z.of_nat (length vs))]) = Z.of_nat (length vs)).
  { unfold prod. simpl. lia. }
  destruct (table_sized_l m dbg false [CI U64 (Z.of_nat (length vs))] (SRange p (Z.of_nat (length vs))) vs)
    as (m' & t & E & D & Es & V & X & _).
  - apply range_legal. lia.
  - discriminate.
  - exact H.
  - rewrite Pp. lia.
  - exists m', t. split; [exact E|]. split; [exact D|]. split; [unfold dims; rewrite Es; reflexivity|].
    split; [|exact X]. rewrite Pp, Nat2Z.id, firstn_all in V. exact V.
Qed.

(** Copying from cells that do not exist. *)
Lemma copy_elements_ub {T} n : forall (m : mem T) src db d_o k, 0 <= k < Z.of_nat n -> peek m (padd src k) = None ->
  match src with Null => True | Ptr b _ => b <> db end ->
  (forall j, 0 <= j < Z.of_nat n -> cell m (Ptr db (d_o + j)) <> None) ->
  copy_elements m src (Ptr db d_o) n = UB.
Proof.
  induction n as [|n IH]; intros m src db d_o k Hk Hp Ns W; [lia|].
  simpl copy_elements. destruct (peek m src) as [v|] eqn:Ev.
  - rewrite (load_peek _ _ _ Ev). cbn [bind]. pose proof (W 0 ltac:(lia)) as W0. rewrite Z.add_0_r in W0.
    rewrite store_valid by exact W0. cbn [bind].
    destruct (Z.eq_dec k 0) as [->|Nk]; [rewrite padd_0 in Hp; congruence|].
    apply (IH _ _ _ _ (k - 1)); [lia| | |].
    + rewrite padd_padd. replace (1 + (k - 1)) with k by lia. rewrite peek_upd_other; [exact Hp|].
      destruct src; [discriminate|]. simpl. intros G. injection G. congruence.
    + destruct src; simpl; auto.
    + intros j Hj. apply valid_upd. replace (d_o + 1 + j) with (d_o + (1 + j)) by lia. apply W. lia.
  - unfold load. unfold peek in Ev. destruct (cell m src) as [[x|]|]; [discriminate| |]; reflexivity.
Qed.

Lemma table_overrun_l {T} (m : mem T) dbg st sh s k : legal sh -> sh <> [] -> known m (storage s) ->
  0 <= k < prod (vals sh) -> peek m (padd (storage s) k) = None ->
  table_from m dbg (Some (st, sh)) s = UB.
Proof.
  intros Lg Ne Kn Hk Hp. unfold table_from, pick_size. cbn [bind]. unfold make_table. rewrite (numel_ok sh Lg Ne).
  cbn [bind cval int]. unfold new_block. destruct (Z.eqb_spec (prod (vals sh)) 0) as [Z0|Nz]; [lia|].
  unfold alloc. rewrite (copy_elements_ub _ _ _ _ _ k); [reflexivity|lia| | |].
  - unfold known in Kn. destruct (padd (storage s) k) as [|b o] eqn:Ep.
    + reflexivity.
    + unfold peek in *. destruct (storage s) as [|b' o']; [discriminate|]. simpl in Ep. injection Ep as -> <-.
      unfold cell in *. rewrite nth_error_app1 by lia. exact Hp.
  - unfold known in Kn. destruct (storage s); [exact I|]. lia.
  - intros j Hj. rewrite Z.add_0_l. pose proof (cell_alloc m (prod (vals sh)) j ltac:(lia)) as G. unfold alloc in G.
    cbn [fst] in G. rewrite G. discriminate.
Qed.

(** Ranges of 2^31 elements or more. *)
Lemma numel_u64 n : 0 <= n < 18446744073709551616 -> numel [CI U64 n] = Ok (CI I32 (cast I32 n)).
Proof.
  intros H. unfold numel. change (kfold_left cmul [CI U64 n] (int 1)) with (bind (cmul (int 1) (CI U64 n)) (fun r => Ok r)).
  assert (E : cmul (int 1) (CI U64 n) = Ok (CI U64 n)).
  { unfold cmul, arith. cbn [cty cval int]. change (common I32 U64) with U64. cbn [is_signed].
    assert (W : in_ty U64 n) by (unfold in_ty; simpl; lia).
    rewrite (cast_id U64 n W), (cast_id U64 1), Z.mul_1_l, (cast_id U64 n W) by (unfold in_ty; simpl; lia). reflexivity. }
  rewrite E. reflexivity.
Qed.

Lemma range_too_long_l dbg p n : 2147483648 <= n < 18446744073709551616 ->
  exists v r, view_on dbg None (SRange p n) = Ok v /\ c_size v = Ok (CI U64 n) /\ c_numel v = Ok r /\
    cval r <> n /\ cval r = cast I32 n.
Proof.
  intros H. unfold view_on, pick_size. rewrite range_shape by lia. cbn [bind default_static storage].
  eexists _, _. split; [reflexivity|]. split; [reflexivity|]. split; [apply numel_u64; cbn; lia|].
  cbn [cval]. split; [|reflexivity]. pose proof (cast_range I32 n) as R. unfold in_ty in R. simpl in R. lia.
Qed.

Lemma copy_elements_same {T} n : forall (m : mem T) src dst m', copy_elements m src dst n = Ok m' ->
  forall p, cell m' p <> None <-> cell m p <> None.
Proof.
  induction n as [|n IH]; intros m src dst m' E p; simpl in E; [injection E as <-; tauto|].
  destruct (load m src); cbn [bind] in E; try discriminate. unfold store in E.
  destruct (validb m dst); cbn [bind] in E; try discriminate.
  rewrite (IH _ _ _ _ E). apply valid_upd.
Qed.

Lemma new_block_end {T} (m : mem T) n src m' data : 0 <= n -> new_block m n src = Ok (m', data) ->
  cell m' (padd data n) = None.
Proof.
  intros Hn E. unfold new_block in E. destruct (Z.eqb_spec n 0) as [->|Nz].
  - destruct src as [src|]; [simpl in E|]; injection E as <- <-; reflexivity.
  - assert (G : cell (m ++ [Some (repeat (@None T) (Z.to_nat n))]) (Ptr (length m) n) = None).
    { unfold cell. rewrite nth_error_app2 by lia. rewrite Nat.sub_diag. simpl.
      destruct (Z.leb_spec 0 n); [|reflexivity]. apply nth_error_None. rewrite repeat_length. lia. }
    unfold alloc in E. destruct src as [src|].
    + destruct (copy_elements _ src (Ptr (length m) 0) (Z.to_nat n)) as [m2| | |] eqn:Ec; cbn [bind] in E; try discriminate.
      injection E as <- <-. simpl padd. pose proof (copy_elements_same _ _ _ _ _ Ec (Ptr (length m) n)) as S.
      destruct (cell m2 (Ptr (length m) n)); [|reflexivity]. exfalso. apply (proj1 S); [discriminate|exact G].
    + injection E as <- <-. exact G.
Qed.

Lemma cast_i32_low n : 0 <= n -> n mod 4294967296 < 2147483648 -> cast I32 n = n mod 4294967296.
Proof.
  intros Hn H. pose proof (Z.mod_pos_bound n 4294967296 ltac:(lia)).
  unfold cast. change (modulus I32) with 4294967296. change (tmax I32) with 2147483647. cbv zeta.
  destruct (Z.leb_spec (n mod 4294967296) 2147483647); lia.
Qed.

Lemma long_range_table_l {T} (m : mem T) dbg p n : 4294967296 <= n < 18446744073709551616 ->
  n mod 4294967296 < 2147483648 ->
  (forall k, 0 <= k < n -> exists v, peek m (padd p k) = Some v) ->
  exists m' t i, table_from m dbg None (SRange p n) = Ok (m', t) /\ c_size t = Ok (CI U64 n) /\
    wfc i /\ 0 <= cval i < n /\ get m' t [i] = UB.
Proof.
  intros H L R. set (k := n mod 4294967296) in *.
  assert (Kr : 0 <= k < 4294967296) by (apply Z.mod_pos_bound; lia).
  unfold table_from, pick_size. rewrite range_shape by lia. cbn [bind default_static storage].
  unfold make_table. rewrite numel_u64 by lia. cbn [bind cval]. rewrite cast_i32_low by (fold k; lia). fold k.
  destruct (new_block_ok m k p) as (m' & data & E & _); [lia|intros j Hj; apply R; lia|].
  rewrite E. cbn [bind]. unfold make_accessor. cbn [bind].
  assert (Wk : in_ty I64 k) by (unfold in_ty; simpl; lia).
  exists m', (Cn K1 [CI U64 n] [] data), (CI U64 k). split; [reflexivity|]. split; [reflexivity|].
  split; [unfold wfc, in_ty; simpl; lia|]. split; [cbn [cval]; lia|].
  unfold get, ref, address, index. cbn [c_kind bind c_data cval]. rewrite (cast_id I64 k Wk).
  unfold validb. rewrite (new_block_end _ k _ _ _ (proj1 Kr) E). reflexivity.
Qed.

(** A pointer alone. *)
Lemma ptr_default_l {T} (m : mem T) dbg p :
  (exists v, view_on dbg None (SPtr p) = Ok v /\ dims v = [0] /\ c_empty v = Ok true) /\
  (exists t, table_from m dbg None (SPtr p) = Ok (m, t) /\ dims t = [0] /\ c_empty t = Ok true).
Proof.
  unfold view_on, table_from, pick_size. rewrite ptr_shape. split; eexists; (split; [reflexivity|]); split; reflexivity.
Qed.

(** Default construction. *)
Lemma default_values ds : to_values (pdefault ds) = Ok (map default_value ds).
Proof. rewrite to_values_ok by apply pdefault_wfp. rewrite pdefault_values. reflexivity. Qed.

Lemma default_shape_zero ds : is_fully_static ds = false -> In 0 (vals (map default_value ds)).
Proof.
  intros H. rewrite fully_static_nb in H. apply Nat.eqb_neq in H.
  induction ds as [|d ds IH]; [contradiction|]. simpl in *. unfold default_value at 1.
  destruct (acont d) eqn:E; [left; reflexivity..|]. right. apply IH. exact H.
Qed.

Lemma default_accessor_run ds sh : to_values (pdefault ds) = Ok sh -> legal sh -> sh <> [] ->
  is_fully_static ds = false ->
  exists k st, default_accessor ds = Ok (k, sh, st) /\ forall p, wf_container (Cn k sh st p).
Proof.
  intros E Lg Ne Fs. unfold default_accessor. rewrite E, Fs. cbn [bind]. unfold make_accessor.
  destruct Lg as (W & Nn & L). pose proof (conj W (conj Nn L) : legal sh) as Lg.
  assert (W0 : wfc (int 0)) by (apply wfc_int; unfold max31; lia).
  assert (W1 : wfc (int 1)) by (apply wfc_int; unfold max31; lia).
  destruct sh as [|n0 [|n1 [|n2 sh]]]; [congruence| | |]; cbn [bind].
  - do 2 eexists. split; [reflexivity|]. intros p. split; [exact W|]. split; [exact Nn|]. split; [|reflexivity].
    exists [int 1]. split; [reflexivity|]. split; [constructor; [exact W1|constructor]|reflexivity].
  - do 2 eexists. split; [reflexivity|]. intros p. split; [exact W|]. split; [exact Nn|]. split; [|reflexivity].
    exists [n1; int 1]. split; [reflexivity|]. inversion W as [|? ? ? W']; subst. inversion W'; subst.
    split; [repeat (constructor; try assumption)|reflexivity].
  - destruct (as_stride_ok _ Lg Ne) as (st & As & _). rewrite As. cbn [bind].
    do 2 eexists. split; [reflexivity|]. intros p. split; [exact W|]. split; [exact Nn|]. split; [|exact I].
    eexists. split; [reflexivity|]. unfold stride_default. split; [|apply repeat_length].
    apply Forall_forall. intros x Hx. apply repeat_spec in Hx. subst x. exact W0.
Qed.

Lemma default_empty_l {T} (m : mem T) ds sh : to_values (pdefault ds) = Ok sh -> legal sh -> sh <> [] ->
  is_fully_static ds = false ->
  exists c, default_view ds = Ok c /\ default_table m ds = Ok (m, c) /\ c_shape c = sh /\
    c_data c = Null /\ c_empty c = Ok true /\ forall is_, ~ in_box (dims c) is_.
Proof.
  intros E Lg Ne Fs. destruct (default_accessor_run ds sh E Lg Ne Fs) as (k & st & Ac & W).
  assert (Z0 : In 0 (vals sh)).
  { rewrite default_values in E. injection E as <-. apply default_shape_zero. exact Fs. }
  exists (Cn k sh st Null). unfold default_view, default_table. rewrite Ac, Fs. cbn [bind].
  split; [reflexivity|]. split; [reflexivity|]. split; [reflexivity|]. split; [reflexivity|]. split.
  - rewrite (c_empty_legal _ (W Null) Lg Ne). unfold dims. cbn [c_shape]. apply prod_zero_iff in Z0. rewrite Z0. reflexivity.
  - intros is_ B. apply in_box_prod_pos in B. unfold dims in B. cbn [c_shape] in B. rewrite Forall_forall in B.
    specialize (B 0 Z0). lia.
Qed.

Lemma default_accessor_static ds sh : to_values (pdefault ds) = Ok sh -> legal sh -> sh <> [] ->
  is_fully_static ds = true ->
  exists st, default_accessor ds = Ok (KStatic, sh, st) /\ make_accessor true true sh None = Ok (KStatic, st).
Proof.
  intros E Lg Ne Fs. unfold default_accessor. rewrite E, Fs. cbn [bind]. unfold make_accessor.
  destruct (as_stride_ok sh Lg Ne) as (st & As & _). rewrite As. cbn [bind]. eauto.
Qed.

Lemma default_static_view_l {T} (m : mem T) ds sh : to_values (pdefault ds) = Ok sh -> legal sh -> sh <> [] ->
  is_fully_static ds = true ->
  exists c, default_view ds = Ok c /\ default_layout c /\ c_shape c = sh /\
    forall is_, coord_of c is_ -> get m c is_ = UB.
Proof.
  intros E Lg Ne Fs. destruct (default_accessor_static ds sh E Lg Ne Fs) as (st & Ac & Mk).
  unfold default_view. rewrite Ac. cbn [bind]. eexists. split; [reflexivity|].
  assert (D : default_layout (Cn KStatic sh st Null)) by (split; [exact Lg|split; [exact Ne|exists true; exact Mk]]).
  split; [exact D|]. split; [reflexivity|]. intros is_ [Wi B].
  destruct (default_index_rank_l _ is_ D Wi B) as (i & _ & _ & _ & A). unfold get, ref. rewrite A. reflexivity.
Qed.

Lemma default_static_table_l {T} (m : mem T) ds sh : to_values (pdefault ds) = Ok sh -> legal sh -> sh <> [] ->
  is_fully_static ds = true ->
  exists m' c, default_table m ds = Ok (m', c) /\ default_layout c /\ c_shape c = sh /\ extends m m' /\
    writable m' c /\ (forall is_, in_box (dims c) is_ -> ~ valid m (elem c is_)) /\
    forall is_, coord_of c is_ -> get m' c is_ = UB.
Proof.
  intros E Lg Ne Fs. destruct (default_accessor_static ds sh E Lg Ne Fs) as (st & Ac & Mk).
  unfold default_table. rewrite Ac, Fs. cbn [bind]. rewrite (numel_ok sh Lg Ne). cbn [bind cval int]. unfold alloc.
  do 2 eexists. split; [reflexivity|].
  set (c := Cn KStatic sh st (Ptr (length m) 0)). set (m' := m ++ _).
  assert (D : default_layout c) by (split; [exact Lg|split; [exact Ne|exists true; exact Mk]]).
  assert (Cl : forall r, 0 <= r < prod (vals sh) -> cell m' (Ptr (length m) (0 + r)) = Some None).
  { intros r Hr. unfold cell, m'. rewrite nth_error_app2 by lia. rewrite Nat.sub_diag. cbn [nth_error].
    destruct (Z.leb_spec 0 (0 + r)); [|lia]. apply nth_error_repeat. lia. }
  split; [exact D|]. split; [reflexivity|]. split; [|split; [|split]].
  - intros p V. unfold valid, cell in V. unfold cell, m'. destruct p as [|b o]; [contradiction|].
    destruct (nth_error m b) eqn:Eb; [|contradiction].
    rewrite nth_error_app1 by (apply nth_error_Some; congruence). rewrite Eb. reflexivity.
  - intros is_ B. unfold valid. rewrite (default_elem c is_ D B). cbn [c_data c padd].
    rewrite Cl; [discriminate|]. apply (rank_range (dims c) is_ B).
  - intros is_ B V. rewrite (default_elem c is_ D B) in V. apply V. cbn [c_data c padd]. unfold cell.
    rewrite (proj2 (nth_error_None m (length m))) by lia. reflexivity.
  - intros is_ [Wi B]. destruct (default_index_rank_l c is_ D Wi B) as (i & _ & _ & _ & A).
    unfold get, ref. rewrite A. cbn [bind c_data c padd]. unfold validb.
    rewrite Cl by (apply (rank_range (dims c) _ B)). cbn [bind]. unfold load.
    rewrite Cl by (apply (rank_range (dims c) _ B)). reflexivity.
Qed.

(** Static arrays. *)
Lemma ceqb_refl c : ceqb c c = true.
Proof. unfold ceqb. apply Z.eqb_refl. Qed.

Lemma static_normalize cs : forall i n,
  map2 (expected (int 0)) (normalize_from i n (map (fun e => (None, to_descriptor e)) (map EConst cs))) (map EConst cs) = cs /\
  clash (normalize_from i n (map (fun e => (None, to_descriptor e)) (map EConst cs))) (map EConst cs) = false /\
  length (normalize_from i n (map (fun e => (None, to_descriptor e)) (map EConst cs))) = length cs.
Proof.
  induction cs as [|c cs IH]; intros i n; [auto|]. cbn [map normalize_from to_descriptor map2 clash length].
  destruct (IH (i + 1) n) as (A & B & C). rewrite A, B, C. split; [reflexivity|]. split; [|reflexivity].
  unfold contradictsb. cbn [acont]. cbn. rewrite ?ceqb_refl. reflexivity.
Qed.

Lemma static_shape dbg cs : (p <- of_size dbg (map EConst cs) ;; to_values p) = Ok cs.
Proof.
  unfold of_size, normalize.
  destruct (static_normalize cs 0 (Z.of_nat (length (map (fun e => (@None axis_id, to_descriptor e)) (map EConst cs))))) as (A & B & C).
  match goal with |- bind (pconstruct dbg ?ds _ _) _ = _ => set (d := ds) in * end.
  destruct (pconstruct_ok dbg d (int 0) (map EConst cs)) as (_ & G); [rewrite map_length; unfold d in *; rewrite C; lia|].
  cbv zeta in G. rewrite map_length, C, Nat.sub_diag in G. cbn [repeat app] in G.
  rewrite B, andb_false_r in G. destruct (G eq_refl) as (p & E & Dp & W & V). rewrite E. cbn [bind].
  rewrite to_values_ok by exact W. rewrite V, A. reflexivity.
Qed.

Lemma array_view_l dbg p a : legal (array_sizes a) -> array_sizes a <> [] ->
  exists v, view_on dbg None (SArray p a) = Ok v /\ default_layout v /\ c_shape v = array_sizes a /\ c_data v = p.
Proof.
  intros Lg Ne. unfold view_on, pick_size, default_shape. rewrite static_shape. cbn [bind default_static storage].
  apply make_view_default_l; assumption.
Qed.

Lemma carray_legal a : only_c a -> fine_extents a -> posprod (extents a) <= 2147483647 ->
  vals (array_sizes a) = extents a /\ legal (array_sizes a).
Proof.
  intros O F P. destruct (c_sizes a O F) as [V Ws]. split; [exact V|].
  split; [exact Ws|]. rewrite V. split; [|exact P].
  unfold nonnegs. eapply Forall_impl; [|exact F]. simpl. intros; lia.
Qed.

Lemma carray_view_l dbg p a : only_c a -> a <> Elem -> fine_extents a -> posprod (extents a) <= 2147483647 ->
  exists v, view_on dbg None (SArray p a) = Ok v /\ dims v = extents a /\
    forall is_, wfs is_ -> in_box (extents a) (vals is_) ->
      address v is_ = Ok (padd p (mem_offset a (vals is_))).
Proof.
  intros O Ne F P. destruct (carray_legal a O F P) as [V Lg].
  destruct (array_view_l dbg p a Lg) as (v & E & D & Sh & Da).
  { destruct a; [contradiction|contradiction|discriminate]. }
  exists v. split; [exact E|]. assert (Dv : dims v = extents a) by (unfold dims; rewrite Sh; exact V).
  split; [exact Dv|]. intros is_ W B.
  destruct (default_index_rank_l v is_ D W) as (i & _ & _ & _ & A); [rewrite Dv; exact B|].
  rewrite A, Da, Dv, mem_offset_rank; [reflexivity|]. apply in_box_length in B. exact B.
Qed.
