From Coq Require Import ZArith List Bool Lia Permutation.
From Verif Require Import Outcome CInt CIntFacts Spec SpecFacts ShapeSpec Shape ShapeFacts ShapeFacts2 Prefilled Literals
  Memory MemFacts Container ContainerSpec ContainerFacts ContainerFacts2 ContainerFacts3 AlgoSpec
  Source SourceSpec SourceFacts Label Convert ConvertSpec ConvertFacts Slicer SlicerFacts3 Settings SettingsSpec.
Import ListNotations.
Open Scope Z_scope.

(** ** Look up *)
Lemma at_key_in o x : distinct o -> In x o -> at_key (keyword x) o = Some x.
Proof.
  unfold distinct, at_key. induction o as [|y o IH]; intros D I; [contradiction|]. cbn [map find] in *. inversion D as [|? ? N D']; subst.
  destruct I as [->|I]; [rewrite Nat.eqb_refl; reflexivity|].
  destruct (Nat.eqb_spec (keyword y) (keyword x)) as [E|_]; [|apply IH; assumption].
  exfalso. apply N. rewrite E. apply in_map. exact I.
Qed.
Lemma at_key_some k o x : at_key k o = Some x -> In x o /\ keyword x = k.
Proof. unfold at_key. intros E. apply find_some in E. destruct E as [I E]. apply Nat.eqb_eq in E. auto. Qed.
Lemma at_key_none k o : (forall x, In x o -> keyword x <> k) -> at_key k o = None.
Proof.
  intros H. destruct (at_key k o) as [x|] eqn:E; [|reflexivity]. apply at_key_some in E. destruct E as [I E]. destruct (H x I E).
Qed.
Lemma at_key_perm k o o' : distinct o -> Permutation o o' -> at_key k o = at_key k o'.
Proof.
  intros D P. assert (D' : distinct o') by (unfold distinct in *; eapply Permutation_NoDup; [apply Permutation_map; exact P|exact D]).
  destruct (at_key k o) as [x|] eqn:E.
  - apply at_key_some in E. destruct E as [I <-]. symmetry. apply at_key_in; [exact D'|]. eapply Permutation_in; eassumption.
  - symmetry. apply at_key_none. intros x I Ek. apply (Permutation_in x (Permutation_sym P)) in I.
    pose proof (at_key_in o x D I) as F. rewrite Ek, E in F. discriminate.
Qed.

Ltac by_key := intros x I; destruct x; cbn; intros E; try discriminate; match goal with H : _ |- _ => solve [eapply H; exact I] end.
Lemma type_some o t : distinct o -> In (OType t) o -> type_of o = Some t.
Proof. intros D I. unfold type_of. change 0%nat with (keyword (OType t)). rewrite (at_key_in o _ D I). reflexivity. Qed.
Lemma type_none o : no_type o -> type_of o = None.
Proof. intros N. unfold type_of. rewrite at_key_none; [reflexivity|]. by_key. Qed.
Lemma source_some o t s : distinct o -> In (OSource t s) o -> source_of o = Some (t, s).
Proof. intros D I. unfold source_of. change 1%nat with (keyword (OSource t s)). rewrite (at_key_in o _ D I). reflexivity. Qed.
Lemma source_none o : no_source o -> source_of o = None.
Proof. intros N. unfold source_of. rewrite at_key_none; [reflexivity|]. by_key. Qed.
Lemma size_some o st sh : distinct o -> In (OSize st sh) o -> size_of o = Some (st, sh).
Proof. intros D I. unfold size_of. change 2%nat with (keyword (OSize st sh)). rewrite (at_key_in o _ D I). reflexivity. Qed.
Lemma size_absent o : no_size o -> size_of o = None.
Proof. intros N. unfold size_of. rewrite at_key_none; [reflexivity|]. by_key. Qed.
Lemma strides_some o st sd : distinct o -> In (OStrides st sd) o -> strides_of_ o = Some (st, sd).
Proof. intros D I. unfold strides_of_. change 3%nat with (keyword (OStrides st sd)). rewrite (at_key_in o _ D I). reflexivity. Qed.
Lemma strides_none o : no_strides o -> strides_of_ o = None.
Proof. intros N. unfold strides_of_. rewrite at_key_none; [reflexivity|]. by_key. Qed.
Lemma alloc_some o a : distinct o -> In (OAlloc a) o -> alloc_of o = Some a.
Proof. intros D I. unfold alloc_of. change 5%nat with (keyword (OAlloc a)). rewrite (at_key_in o _ D I). reflexivity. Qed.
Lemma alloc_none o : no_alloc o -> alloc_of o = None.
Proof. intros N. unfold alloc_of. rewrite at_key_none; [reflexivity|]. by_key. Qed.
Lemma label_iff o l : distinct o -> label_of_ o = Some l <-> In (OLabel l) o.
Proof.
  intros D. unfold label_of_. split.
  - destruct (at_key 4 o) as [x|] eqn:E; [|discriminate]. apply at_key_some in E. destruct E as [I _]. destruct x; try discriminate.
    intros F. injection F as ->. exact I.
  - intros I. change 4%nat with (keyword (OLabel l)). rewrite (at_key_in o _ D I). reflexivity.
Qed.
Lemma unreachable_iff o : distinct o -> unreachable_of o = true <-> In OUnreachable o.
Proof.
  intros D. unfold unreachable_of. split.
  - destruct (at_key 6 o) as [x|] eqn:E; [|discriminate]. apply at_key_some in E. destruct E as [I K]. destruct x; try discriminate. auto.
  - intros I. change 6%nat with (keyword OUnreachable). rewrite (at_key_in o _ D I). reflexivity.
Qed.
Lemma strides_cases o : distinct o -> (strides_of_ o = None /\ no_strides o) \/ exists st sd, strides_of_ o = Some (st, sd) /\ In (OStrides st sd) o.
Proof.
  intros D. destruct (strides_of_ o) as [[st sd]|] eqn:E.
  - right. exists st, sd. split; [reflexivity|]. unfold strides_of_ in E. destruct (at_key 3 o) as [x|] eqn:F; [|discriminate].
    apply at_key_some in F. destruct F as [I _]. destruct x; try discriminate. injection E as -> ->. exact I.
  - left. split; [reflexivity|]. intros st sd I. rewrite (strides_some o st sd D I) in E. discriminate.
Qed.

(** ** Order *)
Lemma build_view_order dbg o o' : distinct o -> Permutation o o' -> build_view dbg o = build_view dbg o'.
Proof.
  intros D P. unfold build_view, pick_type_view, pick_size_of, pick_accessor, pick_source,
    type_of, source_of, size_of, strides_of_, label_of_, unreachable_of.
  rewrite !(fun k => at_key_perm k o o' D P). reflexivity.
Qed.
Lemma build_table_order m dbg o o' : distinct o -> Permutation o o' -> build_table m dbg o = build_table m dbg o'.
Proof.
  intros D P. unfold build_table, pick_type_table, pick_size_of, pick_accessor, pick_source, pick_alloc,
    type_of, source_of, size_of, strides_of_, label_of_, unreachable_of, alloc_of.
  rewrite !(fun k => at_key_perm k o o' D P). reflexivity.
Qed.

(** ** Sizes *)
Lemma default_shape_any dbg s : real_source s -> exists d, default_shape dbg s = Ok d.
Proof.
  intros R. destruct s as [p n|p a|p].
  - rewrite range_shape by exact R. eauto.
  - cbn [default_shape]. rewrite static_shape. eauto.
  - rewrite ptr_shape. eauto.
Qed.
Lemma pick_size_is dbg o st sh : distinct o -> (forall t s, In (OSource t s) o -> real_source s) -> size_is o st sh ->
  pick_size_of dbg o = Ok (st, sh).
Proof.
  intros D R H. unfold pick_size_of. destruct H as [st sh I|t p n N I|t p a N I|t p N I|N Ns].
  - destruct (default_shape_any dbg (pick_source o)) as (d & E).
    { unfold pick_source. destruct (source_of o) as [[t s]|] eqn:E; [|constructor]. unfold source_of in E.
      destruct (at_key 1 o) as [x|] eqn:F; [|discriminate]. apply at_key_some in F. destruct F as [J _]. destruct x; try discriminate.
      injection E as -> ->. eapply R. exact J. }
    rewrite E, bind_ok, (size_some o st sh D I). reflexivity.
  - rewrite (size_absent o N). unfold pick_source. rewrite (source_some o _ _ D I). rewrite range_shape by exact (R _ _ I). reflexivity.
  - rewrite (size_absent o N). unfold pick_source. rewrite (source_some o _ _ D I). cbn [default_shape]. rewrite static_shape. reflexivity.
  - rewrite (size_absent o N). unfold pick_source. rewrite (source_some o _ _ D I), ptr_shape. reflexivity.
  - rewrite (size_absent o N). unfold pick_source. rewrite (source_none o Ns), ptr_shape. reflexivity.
Qed.

(** ** Accessors *)
Lemma pick_accessor_ok o st sh data : distinct o -> legal sh -> sh <> [] ->
  exists k sd, pick_accessor st sh o = Ok (k, sd) /\ (no_strides o -> default_layout (Cn k sh sd data)) /\
    forall s d, In (OStrides s d) o -> get_stride (Cn k sh sd data) = Ok d.
Proof.
  intros D Lg Ne. unfold pick_accessor. destruct (strides_cases o D) as [[-> N]|(s & d & -> & I)]; cbn [option_map snd].
  - destruct (make_view_default_l st sh data Lg Ne) as (t & Et & Dt & Es & Ed). unfold make_view in Et.
    destruct (make_accessor st st sh None) as [[k sd]| | |]; cbn [bind] in Et; try discriminate. injection Et as <-.
    exists k, sd. split; [reflexivity|]. split; [auto|]. intros s d I. destruct (N _ _ I).
  - destruct (make_view_given st s sh d data Lg Ne) as (v & Ev). destruct (kind_given _ _ _ _ _ _ Ev) as (_ & _ & G & _).
    unfold make_view in Ev. destruct (make_accessor st s sh (Some d)) as [[k sd]| | |]; cbn [bind] in Ev; try discriminate. injection Ev as <-.
    exists k, sd. split; [reflexivity|]. split; [intros N; destruct (N _ _ I)|]. intros s' d' I'.
    pose proof (strides_some o s d D I) as F. rewrite (strides_some o s' d' D I') in F.
    injection F as -> ->. exact G.
Qed.

Lemma described_by o t blk k sh sd data : distinct o -> (forall s d, In (OStrides s d) o -> get_stride (Cn k sh sd data) = Ok d) ->
  described o (Built t (label_of_ o) (negb (unreachable_of o)) blk (Cn k sh sd data)).
Proof.
  intros D G. split; [intros l; apply label_iff; exact D|]. split; [|exact G]. cbn [b_reach].
  rewrite negb_false_iff. apply unreachable_iff. exact D.
Qed.

(** ** Views *)
Lemma view_options_l dbg o t s st sh : distinct o -> In (OSource t s) o -> real_source s -> no_type o -> size_is o st sh ->
  legal sh -> sh <> [] ->
  exists b, build_view dbg o = Ok b /\ b_type b = t /\ c_shape (b_cont b) = sh /\ c_data (b_cont b) = storage s /\ b_block b = Shallow /\
    described o b /\ (no_strides o -> default_layout (b_cont b)).
Proof.
  intros D I R N Sz Lg Ne. unfold build_view, pick_type_view. rewrite (source_some o t s D I), (type_none o N), bind_ok.
  rewrite (pick_size_is dbg o st sh D); [|intros t' s' I'|exact Sz].
  2: { pose proof (source_some o t s D I) as F. rewrite (source_some o _ _ D I') in F. injection F as -> ->. exact R. }
  rewrite bind_ok. unfold pick_source. rewrite (source_some o t s D I).
  destruct (pick_accessor_ok o st sh (storage s) D Lg Ne) as (k & sd & E & Dl & Gs). rewrite E, bind_ok.
  eexists. split; [reflexivity|]. repeat (split; [reflexivity|]). split; [apply described_by; assumption|exact Dl].
Qed.

Lemma null_get {T} (m : mem T) c is_ v : c_data c = Null -> get m c is_ <> Ok v.
Proof.
  intros E. unfold get, ref, address. rewrite E. destruct (index c is_) as [i| | |]; cbn [bind padd]; try discriminate.
Qed.

Lemma view_null_l dbg o t st sh : distinct o -> In (OType t) o -> no_source o -> size_is o st sh -> legal sh -> sh <> [] ->
  exists b, build_view dbg o = Ok b /\ b_type b = t /\ c_shape (b_cont b) = sh /\ described o b /\
    forall T (m : mem T) is_ v, get m (b_cont b) is_ <> Ok v.
Proof.
  intros D I N Sz Lg Ne. unfold build_view, pick_type_view. rewrite (source_none o N), (type_some o t D I), bind_ok.
  rewrite (pick_size_is dbg o st sh D); [|intros t' s' I'; destruct (N _ _ I')|exact Sz].
  rewrite bind_ok. unfold pick_source. rewrite (source_none o N). cbn [storage].
  destruct (pick_accessor_ok o st sh Null D Lg Ne) as (k & sd & E & Dl & Gs). rewrite E, bind_ok.
  eexists. split; [reflexivity|]. repeat (split; [reflexivity|]). split; [apply described_by; assumption|].
  intros T m is_ v. apply null_get. reflexivity.
Qed.

Lemma view_both_l dbg o t t' s : distinct o -> In (OType t) o -> In (OSource t' s) o -> build_view dbg o = UB.
Proof. intros D I J. unfold build_view, pick_type_view. rewrite (source_some o _ _ D J), (type_some o _ D I). reflexivity. Qed.
Lemma view_neither_l dbg o : no_type o -> no_source o -> build_view dbg o = UB.
Proof. intros D I. unfold build_view, pick_type_view. rewrite (source_none o I), (type_none o D). reflexivity. Qed.

(** ** Tables *)
Lemma block_by o st : distinct o -> block_is o st (if st then Stack else Heap (pick_alloc o)).
Proof.
  intros D. destruct st; [reflexivity|]. split.
  - intros N. unfold pick_alloc. rewrite (alloc_none o N). reflexivity.
  - intros a I. unfold pick_alloc. rewrite (alloc_some o a D I). reflexivity.
Qed.

Lemma source_unique o t s t' s' : distinct o -> In (OSource t s) o -> In (OSource t' s') o -> t' = t /\ s' = s.
Proof.
  intros D I I'. pose proof (source_some o t s D I) as F. rewrite (source_some o _ _ D I') in F. injection F as -> ->. auto.
Qed.

Lemma holds_firstn {T} (m : mem T) p n vs : holds m p vs -> holds m p (firstn n vs).
Proof.
  intros H k v Hk. apply H. rewrite <- (firstn_skipn n vs). rewrite nth_error_app1; [exact Hk|]. apply nth_error_Some. congruence.
Qed.

Lemma table_source_l m dbg o t s st sh vs : distinct o -> In (OSource t s) o -> real_source s -> no_type o -> size_is o st sh ->
  legal sh -> sh <> [] -> holds m (storage s) vs -> prod (vals sh) <= Z.of_nat (length vs) ->
  exists m' b, build_table m dbg o = Ok (m', b) /\ b_type b = t /\ c_shape (b_cont b) = sh /\ block_is o st (b_block b) /\ described o b /\
    holds m' (c_data (b_cont b)) (firstn (Z.to_nat (prod (vals sh))) vs) /\ extends m m' /\
    (forall k, ~ valid m (padd (c_data (b_cont b)) k)) /\ (no_strides o -> default_layout (b_cont b)).
Proof.
  intros D I R N Sz Lg Ne H L. pose proof (legal_prod _ Lg) as Hp. unfold build_table, pick_type_table.
  rewrite (source_some o t s D I), (type_none o N), bind_ok.
  rewrite (pick_size_is dbg o st sh D); [|intros t' s' I'; destruct (source_unique o _ _ _ _ D I I') as [-> ->]; exact R|exact Sz].
  rewrite bind_ok, (numel_ok sh Lg Ne), bind_ok. cbn [cval int].
  destruct (new_block_ok m (prod (vals sh)) (storage s)) as (m' & data & E & V & X & Fr & _); [lia| |].
  { intros k Hk. destruct (nth_error vs (Z.to_nat k)) as [v|] eqn:F; [|apply nth_error_None in F; lia].
    exists v. pose proof (H _ _ F) as G. rewrite Z2Nat.id in G by lia. exact G. }
  rewrite E, bind_ok. destruct (pick_accessor_ok o st sh data D Lg Ne) as (k & sd & Ea & Dl & Gs). rewrite Ea, bind_ok.
  eexists _, _. split; [reflexivity|]. split; [reflexivity|]. split; [reflexivity|]. split; [apply block_by; exact D|].
  split; [apply described_by; assumption|]. split; [|split; [exact X|split; [exact Fr|exact Dl]]].
  intros j v Hj. assert (Hl : (j < length (firstn (Z.to_nat (prod (vals sh))) vs))%nat) by (apply nth_error_Some; congruence).
  rewrite firstn_length in Hl. cbn [b_cont c_data]. rewrite V by lia. exact (holds_firstn m (storage s) _ vs H j v Hj).
Qed.

Lemma table_typed_l m dbg o to t s st sh vs : distinct o -> In (OType to) o -> In (OSource t s) o -> real_source s -> size_is o st sh ->
  legal sh -> sh <> [] -> holds m (storage s) vs -> prod (vals sh) <= Z.of_nat (length vs) ->
  Forall (convertible to) (firstn (Z.to_nat (prod (vals sh))) vs) ->
  exists m' b ws, build_table m dbg o = Ok (m', b) /\ b_type b = to /\ c_shape (b_cont b) = sh /\ block_is o st (b_block b) /\ described o b /\
    holds m' (c_data (b_cont b)) ws /\ Forall2 (converted to) (firstn (Z.to_nat (prod (vals sh))) vs) ws /\ extends m m' /\
    (forall k, ~ valid m (padd (c_data (b_cont b)) k)) /\ (no_strides o -> default_layout (b_cont b)).
Proof.
  intros D It I R Sz Lg Ne H L C. pose proof (legal_prod _ Lg) as Hp. unfold build_table, pick_type_table.
  rewrite (source_some o t s D I), (type_some o to D It), bind_ok.
  rewrite (pick_size_is dbg o st sh D); [|intros t' s' I'; destruct (source_unique o _ _ _ _ D I I') as [-> ->]; exact R|exact Sz].
  rewrite bind_ok, (numel_ok sh Lg Ne), bind_ok. cbn [cval int].
  set (n := Z.to_nat (prod (vals sh))) in *.
  assert (Ln : length (firstn n vs) = n) by (rewrite firstn_length; lia).
  pose proof (new_block_as_ok to m (storage s) (firstn n vs) (holds_firstn m (storage s) n vs H)) as Nb. rewrite Ln in Nb.
  assert (En : Z.of_nat n = prod (vals sh)) by lia. rewrite En in Nb.
  destruct (mapM_converted to _ C) as (ws & Ew & F). rewrite Ew in Nb. destruct Nb as (m' & data & E & V & X & Fr).
  rewrite E, bind_ok. destruct (pick_accessor_ok o st sh data D Lg Ne) as (k & sd & Ea & Dl & Gs). rewrite Ea, bind_ok.
  eexists _, _, ws. split; [reflexivity|]. split; [reflexivity|]. split; [reflexivity|]. split; [apply block_by; exact D|].
  split; [apply described_by; assumption|]. split; [exact V|]. split; [exact F|]. split; [exact X|]. split; [exact Fr|exact Dl].
Qed.

Lemma table_blank_l m dbg o t st sh : distinct o -> In (OType t) o -> no_source o -> size_is o st sh -> legal sh -> sh <> [] ->
  exists m' b, build_table m dbg o = Ok (m', b) /\ b_type b = t /\ c_shape (b_cont b) = sh /\ block_is o st (b_block b) /\ described o b /\
    extends m m' /\ (forall k, 0 <= k < prod (vals sh) -> cell m' (padd (c_data (b_cont b)) k) = Some None) /\
    (forall k, ~ valid m (padd (c_data (b_cont b)) k)) /\ (no_strides o -> default_layout (b_cont b)).
Proof.
  intros D It N Sz Lg Ne. pose proof (legal_prod _ Lg) as Hp. unfold build_table, pick_type_table.
  rewrite (source_none o N), (type_some o t D It), bind_ok.
  rewrite (pick_size_is dbg o st sh D); [|intros t' s' I'; destruct (N _ _ I')|exact Sz].
  rewrite bind_ok, (numel_ok sh Lg Ne), bind_ok. cbn [cval int].
  assert (Nb : exists m' data, new_block m (prod (vals sh)) None = Ok (m', data) /\ extends m m' /\
     (forall k, 0 <= k < prod (vals sh) -> cell m' (padd data k) = Some None) /\ forall k, ~ valid m (padd data k)).
  { unfold new_block. destruct (Z.eqb_spec (prod (vals sh)) 0) as [E|E].
    - exists m, Null. split; [reflexivity|]. split; [intros p _; reflexivity|]. split; [intros; lia|]. intros k G. apply G. reflexivity.
    - unfold alloc. do 2 eexists. split; [reflexivity|]. split; [|split].
      + intros p V. unfold valid, cell in V. unfold cell. destruct p as [|b i]; [contradiction|].
        destruct (nth_error m b) eqn:Eb; [|contradiction].
        rewrite nth_error_app1 by (apply nth_error_Some; congruence). rewrite Eb. reflexivity.
      + intros k Hk. cbn [padd cell]. rewrite nth_error_app2 by lia. rewrite Nat.sub_diag. cbn [nth_error].
        destruct (Z.leb_spec 0 (0 + k)); [|lia]. apply nth_error_repeat. lia.
      + intros k V. apply V. cbn [padd cell]. rewrite (proj2 (nth_error_None m (length m))) by lia. reflexivity. }
  destruct Nb as (m' & data & E & X & Ce & Fr).
  rewrite E, bind_ok. destruct (pick_accessor_ok o st sh data D Lg Ne) as (k & sd & Ea & Dl & Gs). rewrite Ea, bind_ok.
  eexists _, _. split; [reflexivity|]. split; [reflexivity|]. split; [reflexivity|]. split; [apply block_by; exact D|].
  split; [apply described_by; assumption|]. split; [exact X|]. split; [exact Ce|]. split; [exact Fr|exact Dl].
Qed.

(** ** Options about something else *)
Lemma at_key_skip k x o : keyword x <> k -> at_key k (x :: o) = at_key k o.
Proof. intros N. unfold at_key. cbn [find]. destruct (Nat.eqb_spec (keyword x) k); [contradiction|reflexivity]. Qed.
Lemma skip_all x o : about_elements x = false ->
  type_of (x :: o) = type_of o /\ source_of (x :: o) = source_of o /\ size_of (x :: o) = size_of o /\ strides_of_ (x :: o) = strides_of_ o.
Proof.
  intros N. unfold type_of, source_of, size_of, strides_of_.
  rewrite !at_key_skip by (destruct x; cbn in *; discriminate). auto.
Qed.
Lemma view_neutral_l dbg x o : about_elements x = false ->
  (b <- build_view dbg (x :: o) ;; Ok (b_type b, b_cont b)) = (b <- build_view dbg o ;; Ok (b_type b, b_cont b)).
Proof.
  intros N. destruct (skip_all x o N) as (A & B & C & E).
  unfold build_view, pick_type_view, pick_size_of, pick_accessor, pick_source. rewrite A, B, C, E.
  repeat match goal with |- bind (bind ?e _) _ = _ => destruct e as [?| | |]; cbn [bind]; try reflexivity
                    | p : (_ * _)%type |- _ => destruct p end; reflexivity.
Qed.
Lemma table_neutral_l m dbg x o : about_elements x = false ->
  (' (m', b) <- build_table m dbg (x :: o) ;; Ok (m', b_type b, b_cont b)) = (' (m', b) <- build_table m dbg o ;; Ok (m', b_type b, b_cont b)).
Proof.
  intros N. destruct (skip_all x o N) as (A & B & C & E).
  unfold build_table, pick_type_table, pick_size_of, pick_accessor, pick_source. rewrite A, B, C, E.
  repeat match goal with |- bind (bind ?e _) _ = _ => destruct e as [?| | |]; cbn [bind]; try reflexivity
                    | p : (_ * _)%type |- _ => destruct p end; reflexivity.
Qed.

(** ** Default strides that nobody uses *)
Lemma strides_overflow_l dbg o st sd a b c : distinct o -> (forall t s, In (OSource t s) o -> real_source s) ->
  In (OStrides st sd) o -> In (OSize false [int a; int b; int c]) o ->
  0 < b <= 2147483647 -> 0 < c <= 2147483647 -> 2147483647 < b * c -> build_view dbg o = UB.
Proof.
  intros D R I J Hb Hc Hbc. unfold build_view. destruct (pick_type_view o) as [t| | |] eqn:Et.
  2-4: unfold pick_type_view in Et; destruct (source_of o) as [[? ?]|], (type_of o); try discriminate; reflexivity.
  rewrite bind_ok, (pick_size_is dbg o false [int a; int b; int c] D R (size_given _ _ _ J)), bind_ok.
  unfold pick_accessor. rewrite (strides_some o _ _ D I). cbn [option_map snd]. unfold make_accessor. cbn [andb].
  assert (E : as_stride [int a; int b; int c] = UB).
  { unfold as_stride. cbn [kfold_left bind front]. unfold cmul, arith.
    change (common (cty (int c)) (cty (int 1))) with I32. cbn [cval int is_signed].
    assert (Ic : in_ty I32 c) by (unfold in_ty; cbn; lia). assert (Ib : in_ty I32 b) by (unfold in_ty; cbn; lia).
    rewrite (cast_id I32 c Ic). change (cast I32 1) with 1. rewrite Z.mul_1_r, (proj2 (in_tyb_spec I32 c) Ic). cbn [bind front cty cval int].
    change (common I32 I32) with I32. rewrite (cast_id I32 b Ib), (cast_id I32 c Ic). cbn [is_signed].
    destruct (in_tyb I32 (b * c)) eqn:F; [|reflexivity]. apply in_tyb_spec in F. unfold in_ty in F. cbn in F. lia. }
  rewrite E. reflexivity.
Qed.

(** ** Merged settings, and the containers of the other files *)
Lemma merge_in a b x : In x (merge a b) <-> In x a \/ (In x b /\ forall y, In y a -> keyword y <> keyword x).
Proof.
  unfold merge. rewrite in_app_iff, filter_In, negb_true_iff. split; (intros [H|[H G]]; [left; exact H|right; split; [exact H|]]).
  - intros y I E. assert (F : existsb (fun y => Nat.eqb (keyword y) (keyword x)) a = true); [|rewrite F in G; discriminate].
    apply existsb_exists. exists y. split; [exact I|apply Nat.eqb_eq; exact E].
  - destruct (existsb _ a) eqn:F; [|reflexivity]. apply existsb_exists in F. destruct F as (y & I & E). apply Nat.eqb_eq in E.
    destruct (G y I E).
Qed.
Lemma merge_distinct a b : distinct a -> distinct b -> distinct (merge a b).
Proof.
  unfold distinct, merge. intros A B. rewrite map_app.
  assert (F : NoDup (map keyword (filter (fun x => negb (existsb (fun y => Nat.eqb (keyword y) (keyword x)) a)) b))).
  { clear A. induction b as [|x b IH]; [constructor|]. cbn [map] in B. inversion B as [|? ? N B']; subst. cbn [filter].
    destruct (negb _); [|apply IH; exact B']. cbn [map]. constructor; [|apply IH; exact B'].
    intros I. apply N. apply in_map_iff in I. destruct I as (y & E & I). apply filter_In in I. rewrite <- E. apply in_map. apply I. }
  assert (Dj : forall k, In k (map keyword a) -> ~ In k (map keyword (filter (fun x => negb (existsb (fun y => Nat.eqb (keyword y) (keyword x)) a)) b))).
  { intros k I J. apply in_map_iff in I, J. destruct I as (y & Ey & Iy), J as (x & Ex & Ix). apply filter_In in Ix. destruct Ix as [_ Ix].
    apply negb_true_iff in Ix. assert (G : existsb (fun y => Nat.eqb (keyword y) (keyword x)) a = true); [|rewrite G in Ix; discriminate].
    apply existsb_exists. exists y. split; [exact Iy|]. apply Nat.eqb_eq. congruence. }
  induction a as [|x a IH] in A, F, Dj |- *; cbn [map app]; [exact F|].
  revert F Dj. generalize (map keyword (filter (fun x0 => negb (existsb (fun y => Nat.eqb (keyword y) (keyword x0)) (x :: a))) b)). intros ks F Dj.
  clear IH. revert A Dj. cbn [map]. generalize (keyword x) as k0. generalize (map keyword a) as l. clear - F.
  intros l k0 A Dj. change (NoDup ((k0 :: l) ++ ks)). revert A Dj. generalize (k0 :: l). clear l k0.
  induction l as [|k l IH]; intros A Dj; [exact F|]. cbn [app]. inversion A as [|? ? N A']; subst. constructor.
  - rewrite in_app_iff. intros [I|I]; [exact (N I)|]. apply (Dj k); [left; reflexivity|exact I].
  - apply IH; [exact A'|]. intros j Ij. apply Dj. right. exact Ij.
Qed.

Lemma relabel_built_l dbg t st lab c l :
  relabel st (L lab c) l = (b <- build_view dbg (merge [OLabel l] (settings_of t st c)) ;; Ok (L (b_label b) (b_cont b))).
Proof.
  unfold relabel, view_of, make_view, build_view, pick_type_view, pick_size_of, pick_accessor, pick_source. cbn -[default_shape make_accessor numel new_block new_block_as]. rewrite ptr_shape. cbn -[default_shape make_accessor numel new_block new_block_as].
  unfold merge_label, metadata_from. destruct l as [[|] x]; cbn -[make_accessor]; destruct (make_accessor st st (c_shape c) None) as [[k sd]| | |]; reflexivity.
Qed.
Lemma reshape_built_l dbg t st st' c sh :
  reshape_view st' c sh = (b <- build_view dbg (merge [OSize st' sh] (settings_of t st c)) ;; Ok (b_cont b)).
Proof.
  unfold reshape_view, make_view, build_view, pick_type_view, pick_size_of, pick_accessor, pick_source. cbn -[default_shape make_accessor numel new_block new_block_as]. rewrite ptr_shape. cbn -[default_shape make_accessor numel new_block new_block_as].
  destruct (make_accessor st' st' sh None) as [[k sd]| | |]; reflexivity.
Qed.
Lemma view_of_built_l dbg t st c : view_of st c = (b <- build_view dbg (settings_of t st c) ;; Ok (b_cont b)).
Proof.
  unfold view_of, make_view, build_view, pick_type_view, pick_size_of, pick_accessor, pick_source. cbn -[default_shape make_accessor numel new_block new_block_as]. rewrite ptr_shape. cbn -[default_shape make_accessor numel new_block new_block_as].
  destruct (make_accessor st st (c_shape c) None) as [[k sd]| | |]; reflexivity.
Qed.
Lemma table_of_built_l m dbg t st c : table_of m st c = (' (m', b) <- build_table m dbg (settings_of t st c) ;; Ok (m', b_cont b)).
Proof.
  unfold table_of, make_table, build_table, pick_type_table, pick_size_of, pick_accessor, pick_source. cbn -[default_shape make_accessor numel new_block new_block_as]. rewrite ptr_shape. cbn -[default_shape make_accessor numel new_block new_block_as].
  destruct (numel (c_shape c)); cbn [bind]; try reflexivity.
  destruct (new_block m _ _) as [[m1 d]| | |]; cbn [bind]; try reflexivity.
  destruct (make_accessor st st (c_shape c) None) as [[k sd]| | |]; reflexivity.
Qed.
Lemma view_on_built_l dbg t s given : real_source s ->
  view_on dbg given s = (b <- build_view dbg (OSource t s :: match given with Some (st, sh) => [OSize st sh] | None => [] end) ;; Ok (b_cont b)).
Proof.
  intros R. destruct (default_shape_any dbg s R) as (d & E). unfold view_on, pick_size, build_view, make_view.
  destruct given as [[st sh]|]; unfold pick_type_view, pick_size_of, pick_accessor, pick_source; cbn -[default_shape make_accessor numel new_block new_block_as]; rewrite E; cbn -[default_shape make_accessor numel new_block new_block_as].
  - destruct (make_accessor st st sh None) as [[k sd]| | |]; reflexivity.
  - destruct (make_accessor _ _ d None) as [[k sd]| | |]; reflexivity.
Qed.
Lemma table_as_built_l m dbg to t s given : real_source s ->
  table_as to m dbg given s =
  (' (m', b) <- build_table m dbg (OType to :: OSource t s :: match given with Some (st, sh) => [OSize st sh] | None => [] end) ;; Ok (m', b_cont b)).
Proof.
  intros R. destruct (default_shape_any dbg s R) as (d & E). unfold table_as, pick_size, build_table.
  destruct given as [[st sh]|]; unfold pick_type_table, pick_size_of, pick_accessor, pick_source; cbn -[default_shape make_accessor numel new_block new_block_as]; rewrite E; cbn -[default_shape make_accessor numel new_block new_block_as].
  - destruct (numel sh); cbn [bind]; try reflexivity. destruct (new_block_as _ m _ _) as [[m1 p]| | |]; cbn [bind]; try reflexivity.
    destruct (make_accessor st st sh None) as [[k sd]| | |]; reflexivity.
  - destruct (numel d); cbn [bind]; try reflexivity. destruct (new_block_as _ m _ _) as [[m1 p]| | |]; cbn [bind]; try reflexivity.
    destruct (make_accessor _ _ d None) as [[k sd]| | |]; reflexivity.
Qed.
