(** Facts about elements of type bool (C102), continued. *)
From Coq Require Import ZArith QArith List Bool Lia.
From Verif Require Import Outcome CInt CIntFacts Spec SpecFacts ShapeSpec Shape ShapeFacts ShapeFacts2 ForEach ForEachSpec ForEachFacts
  Memory MemFacts Container ContainerSpec ContainerFacts ContainerFacts2 ContainerFacts3 Source SourceSpec SourceFacts ViewFacts
  Algo AlgoSpec AlgoFacts AlgoFacts2 AlgoFacts3 AlgoFacts4 Sums SumsSpec SumsFacts
  Convert ConvertSpec ConvertFacts FloatSums FloatCompare Bools BoolsSpec BoolsFacts.
Import ListNotations.
Open Scope Z_scope.

(** ** Products *)
Lemma trues_ands bs cs : trues (ands bs cs) = both_true bs cs.
Proof.
  unfold both_true, ands. generalize (combine bs cs). clear. induction l as [|p l IH]; [reflexivity|]. cbn [map]. rewrite trues_cons, IH.
  cbn [filter]. destruct (fst p && snd p); cbn [length]; [change (Z.b2z true) with 1|change (Z.b2z false) with 0]; lia.
Qed.
Lemma bool_dot_l c1 c2 m bs cs t z : can_read m c1 c1 -> can_read m c1 c2 -> bools m c1 bs -> values m c1 c2 (map SBool cs) ->
  in_ty t z -> in_ty t (z + both_true bs cs) ->
  sdot_from c1 c2 (SI (CI t z)) m = Ok (SI (CI t (z + both_true bs cs)), m).
Proof.
  intros CR1 CR2 V1 V2 Hz Hs. rewrite <- trues_ands in *. rewrite (sdot_from_l c1 c2 _ m bs cs) by assumption. rewrite fold_trues by assumption. reflexivity.
Qed.
Lemma both_nonneg bs cs : 0 <= both_true bs cs.
Proof. unfold both_true. lia. Qed.
Lemma bool_dot_int_l c1 c2 m bs cs : can_read m c1 c1 -> can_read m c1 c2 -> bools m c1 bs -> values m c1 c2 (map SBool cs) ->
  both_true bs cs <= 2147483647 -> bool_dot c1 c2 m = Ok (SI (int (both_true bs cs)), m).
Proof.
  intros CR1 CR2 V1 V2 H. unfold bool_dot. change (szero (TArith (AInt I32))) with (SI (CI I32 0)).
  pose proof (both_nonneg bs cs). rewrite (bool_dot_l c1 c2 m bs cs) by (try assumption; unfold in_ty; cbn; lia). reflexivity.
Qed.
Lemma bool_dot_or_l c1 c2 m bs cs a : can_read m c1 c1 -> can_read m c1 c2 -> bools m c1 bs -> values m c1 c2 (map SBool cs) ->
  exists r, sdot_from c1 c2 (SBool a) m = Ok (SBool r, m) /\
    (r = true <-> a = true \/ exists k, nth_error bs k = Some true /\ nth_error cs k = Some true).
Proof.
  intros CR1 CR2 V1 V2. rewrite (sdot_from_l c1 c2 _ m bs cs) by assumption. rewrite fold_or. eexists. split; [reflexivity|].
  rewrite or_iff, ands_in. reflexivity.
Qed.
Lemma bool_inner_l dbg c1 c2 m init : legal (c_shape c1) -> legal (c_shape c2) -> c_shape c1 <> [] -> length (c_shape c1) = length (c_shape c2) ->
  (dims c1 = dims c2 -> sinner_from dbg c1 c2 init m = sdot_from c1 c2 init m /\ bool_inner dbg c1 c2 m = bool_dot c1 c2 m) /\
  (dims c1 <> dims c2 -> sinner_from true c1 c2 init m = Abort /\ sinner_from false c1 c2 init m = sdot_from c1 c2 init m).
Proof.
  intros L1 L2 Ne Hl. unfold bool_inner, sinner_from. destruct (shape_eq_same_order _ _ L1 L2 Ne Hl) as (r & E & H). rewrite E. split; intros Eq.
  - rewrite (proj2 H Eq). destruct dbg; split; reflexivity.
  - destruct r; [exfalso; apply Eq, H; reflexivity|]. split; reflexivity.
Qed.

(** ** Assignments *)
(** [write_loop] of AlgoFacts2.v with the values the inputs had before the loop. *)
Lemma write_loop0 {T} out cs rs (m : mem T) (g : list T -> list Z -> option T) body :
  can_write m out out -> Forall (live m out) cs -> Forall (can_read m out) rs ->
  Forall (fun i => no_cross_alias out i out) rs ->
  (forall is_ m' vs, in_box (dims out) is_ -> same_cells m m' ->
     Forall2 (fun c v => value m c is_ v) rs vs -> Forall2 (fun c v => value m' c is_ v) rs vs ->
     body (map (fun c => elem c is_) (out :: cs)) (tt, m') =
     Ok (tt, match g vs is_ with Some v => upd m' (elem out is_) v | None => m' end)) ->
  exists m', run_map (map_containers body out cs (tt, m)) = Ok m' /\
    (forall is_ vs, in_box (dims out) is_ -> Forall2 (fun c v => value m c is_ v) rs vs ->
       match g vs is_ with
       | Some v => value m' out is_ v
       | None => cell m' (elem out is_) = cell m (elem out is_)
       end) /\ frame out out m m'.
Proof.
  intros CW L CR NA Hb.
  pose (val := fun (_ : list (list Z)) is_ =>
     match mapM (load m) (map (fun c => elem c is_) rs) with Ok vs => g vs is_ | _ => None end).
  destruct (live_wf m out (can_write_live _ _ _ CW)) as [_ Nn].
  pose proof CW as (_ & _ & D & V).
  pose proof (pmem_result out val out m Nn D V) as (R & F). cbv zeta in R, F.
  exists (pmem out val m (box (dims out))). unfold run_map.
  change (tt, m) with (tt, pmem out val m []).
  rewrite (map_containers_inv body out cs m (fun pre => (tt, pmem out val m pre))).
  - split; [reflexivity|]. split; [|exact F]. intros is_ vs B Hv.
    destruct (box_split _ _ B) as (pre & post & E). specialize (R pre is_ post E).
    unfold val in R at 1. rewrite (mapM_load_unique m is_ rs vs Hv) in R. exact R.
  - apply can_write_live. exact CW.
  - exact L.
  - intros pre. apply pmem_same.
  - intros pre is_ post E. destruct (box_split_notin _ _ _ _ Nn E) as (_ & B & _).
    destruct (mapM_load m out is_ rs B CR) as (vs & El & Hv).
    rewrite (Hb is_ (pmem out val m pre) vs B (pmem_same _ _ _ _) Hv).
    + rewrite pmem_step. unfold val at 3. rewrite El. reflexivity.
    + clearbody val. clear -Hv NA E Nn. induction Hv as [|c v cs vs Hc _ IH]; [constructor|]. inversion NA; subst.
      constructor; [|apply IH; assumption]. unfold value, peek. rewrite (pmem_read out c out val m pre is_ post); assumption.
Qed.
Lemma bool_transform_l f out c0 cs m : can_write m out out ->
  Forall (can_read m out) (c0 :: cs) -> Forall (fun i => no_cross_alias out i out) (c0 :: cs) ->
  exists m', stransform TBool f out c0 cs m = Ok m' /\
    (forall is_ vs, in_box (dims out) is_ -> Forall2 (fun c v => value m c is_ v) (c0 :: cs) vs ->
       exists w, value m' out is_ w /\ bool_for (f vs) w) /\ frame out out m m'.
Proof.
  intros CW CR NA. destruct (transform_l (fun vs => SBool (truth (f vs))) out c0 cs m CW CR NA) as (m' & E & R & F).
  exists m'. split; [exact E|]. split; [|exact F]. intros is_ vs B Hv. eexists. split; [exact (R is_ vs B Hv)|apply bool_for_truth].
Qed.
Lemma bool_copy_l out in_ m : can_write m out out -> can_read m out in_ -> no_cross_alias out in_ out ->
  exists m', scopy TBool out in_ m = Ok m' /\
    (forall is_ v, in_box (dims out) is_ -> value m in_ is_ v -> exists w, value m' out is_ w /\ bool_for v w) /\ frame out out m m'.
Proof.
  intros CW CR NA. destruct (bool_transform_l (fun vs => hd (SBool false) vs) out in_ [] m CW) as (m' & E & R & F);
    [constructor; [exact CR|constructor]|constructor; [exact NA|constructor]|].
  exists m'. split; [exact E|]. split; [|exact F]. intros is_ v B Hv. exact (R is_ [v] B ltac:(constructor; [exact Hv|constructor])).
Qed.
Lemma bool_copy_if_l f out in_ m : can_write m out out -> can_read m out in_ -> no_cross_alias out in_ out ->
  exists m', scopy_if TBool f out in_ m = Ok m' /\
    (forall is_ v, in_box (dims out) is_ -> value m in_ is_ v ->
       if f v then exists w, value m' out is_ w /\ bool_for v w else cell m' (elem out is_) = cell m (elem out is_)) /\ frame out out m m'.
Proof.
  intros CW CR NA. unfold scopy_if.
  destruct (write_loop out [in_] [in_] m
    (fun vs _ => match vs with v :: _ => if f v then Some (SBool (truth v)) else None | [] => None end)
    (fun ps sm => match ps with [o; i] => v <- load (snd sm) i ;; if f v then sassign TBool o v sm else Ok sm | _ => UB end))
    as (m' & E & R & F); try assumption.
  - constructor; [apply can_read_live; exact CR|constructor].
  - constructor; [exact CR|constructor].
  - constructor; [exact NA|constructor].
  - intros is_ m' vs B S Hv. destruct (Forall2_1 _ _ _ Hv) as (v & -> & Hv1). cbn [map snd].
    rewrite (load_peek _ _ _ Hv1), bind_ok. destruct (f v); [|reflexivity]. unfold sassign. cbn [sconvert bind]. eapply assign_valid; eassumption.
  - exists m'. split; [exact E|]. split; [|exact F]. intros is_ v B Hv.
    pose proof (R is_ [v] B ltac:(constructor; [exact Hv|constructor])) as G. simpl in G.
    destruct (f v); [eexists; split; [exact G|apply bool_for_truth]|exact G].
Qed.
Lemma bool_fill_l out v m : can_write m out out ->
  exists m', sfill TBool out v m = Ok m' /\
    (forall is_, in_box (dims out) is_ -> exists w, value m' out is_ w /\ bool_for v w) /\ frame out out m m'.
Proof.
  intros CW. destruct (fill_l out (SBool (truth v)) m CW) as (m' & E & R & F). exists m'. split; [exact E|]. split; [|exact F].
  intros is_ B. eexists. split; [exact (R is_ B)|apply bool_for_truth].
Qed.
Lemma bool_generate_l f out m : can_write m out out ->
  exists m', sgenerate TBool f out m = Ok m' /\
    (forall tis, wfs tis -> map cty tis = ctypes out -> in_box (dims out) (vals tis) ->
       exists w, value m' out (vals tis) w /\ bool_for (f tis) w) /\ frame out out m m'.
Proof.
  intros CW. destruct (generate_l (fun tis => SBool (truth (f tis))) out m CW) as (m' & E & R & F). exists m'. split; [exact E|]. split; [|exact F].
  intros tis W T B. eexists. split; [exact (R tis W T B)|apply bool_for_truth].
Qed.
Lemma bool_replace_if_l out f v m : can_write m out out -> can_read m out out ->
  exists m', sreplace_if TBool out f v m = Ok m' /\
    (forall is_ x, in_box (dims out) is_ -> value m out is_ x ->
       exists w, value m' out is_ w /\ if f x then bool_for v w else w = x) /\ frame out out m m'.
Proof.
  intros CW CR. destruct (replace_if_l out f (SBool (truth v)) m CW CR) as (m' & E & R & F). exists m'. split; [exact E|]. split; [|exact F].
  intros is_ x B Hx. eexists. split; [exact (R is_ x B Hx)|]. destruct (f x); [apply bool_for_truth|reflexivity].
Qed.

(** ** bools as numbers *)
Lemma copy_bools_l a out in_ m : can_write m out out -> can_read m out in_ -> no_cross_alias out in_ out ->
  (forall is_ v, in_box (dims out) is_ -> value m in_ is_ v -> is_bool v) ->
  exists m', scopy (TArith a) out in_ m = Ok m' /\
    (forall is_ b, in_box (dims out) is_ -> value m in_ is_ (SBool b) -> value m' out is_ (SNum a (num_for a b))) /\ frame out out m m'.
Proof.
  intros CW CR NA Bl. unfold scopy, stransform.
  destruct (write_loop0 out [in_] [in_] m
    (fun vs _ => match vs with SBool b :: _ => Some (SNum a (num_for a b)) | _ => None end)
    (fun ps sm => match ps with
                  | o :: ins => vs <- mapM (load (snd sm)) ins ;; sassign (TArith a) o (hd (SBool false) vs) sm
                  | [] => UB
                  end)) as (m' & E & R & F); try assumption.
  - constructor; [apply can_read_live; exact CR|constructor].
  - constructor; [exact CR|constructor].
  - constructor; [exact NA|constructor].
  - intros is_ m' vs B S Hv0 Hv. destruct (Forall2_1 _ _ _ Hv) as (v & -> & Hv1). destruct (Forall2_1 _ _ _ Hv0) as (v' & Ev & Hv2).
    injection Ev as <-. destruct (Bl is_ v B Hv2) as (b & ->). cbn [map snd mapM].
    rewrite (load_peek _ _ _ Hv1), !bind_ok. cbn [hd]. unfold sassign. rewrite sconvert_num, bind_ok. eapply assign_valid; eassumption.
  - exists m'. split; [exact E|]. split; [|exact F]. intros is_ b B Hv.
    exact (R is_ [SBool b] B ltac:(constructor; [exact Hv|constructor])).
Qed.
Lemma copy_bools_stands a out in_ m : can_write m out out -> can_read m out in_ -> no_cross_alias out in_ out ->
  (forall is_ v, in_box (dims out) is_ -> value m in_ is_ v -> is_bool v) ->
  exists m', scopy (TArith a) out in_ m = Ok m' /\
    (forall is_ b, in_box (dims out) is_ -> value m in_ is_ (SBool b) -> exists w, value m' out is_ w /\ stands_for a b w) /\ frame out out m m'.
Proof.
  intros CW CR NA Bl. destruct (copy_bools_l a out in_ m CW CR NA Bl) as (m' & E & R & F). exists m'. split; [exact E|]. split; [|exact F].
  intros is_ b B Hv. eexists. split; [exact (R is_ b B Hv)|apply num_for_value].
Qed.
Lemma stands_back a b w x : stands_for a b w -> bool_for w x -> x = SBool b.
Proof.
  intros (n & q & -> & _ & Hn & Hq) (c & -> & H). f_equal. unfold nonzero in H. destruct b, c; try reflexivity.
  - exfalso. assert (false = true) by (apply H; intros r Hr Z; rewrite Hn in Hr; injection Hr as <-; rewrite Hq in Z; discriminate). discriminate.
  - exfalso. apply (proj1 H eq_refl q Hn Hq).
Qed.

(** ** Comparisons *)
Lemma sequal_int a b x y : is_int a x -> is_int b y -> is_bool a \/ is_bool b -> sequal a b = (x =? y).
Proof.
  assert (P : forall t z, in_ty t z -> in_ty (CInt.common I32 t) z) by (intros t z H; unfold in_ty in *; destruct t; cbn in *; lia).
  assert (P' : forall t z, in_ty t z -> in_ty (CInt.common t I32) z) by (intros t z H; unfold in_ty in *; destruct t; cbn in *; lia).
  assert (Q : forall t b, in_ty (CInt.common I32 t) (Z.b2z b)) by (intros t c; unfold in_ty; destruct t, c; cbn; lia).
  assert (Q' : forall t b, in_ty (CInt.common t I32) (Z.b2z b)) by (intros t c; unfold in_ty; destruct t, c; cbn; lia).
  intros [(p & -> & ->)|(t & -> & Ht)] [(q & -> & ->)|(u & -> & Hu)] Hb.
  - destruct p, q; reflexivity.
  - unfold sequal. cbn [atype_of number_of]. unfold equal_number. cbn [usual compare_in].
    rewrite !cast_id by auto. rewrite Z.eqb_compare. reflexivity.
  - unfold sequal. cbn [atype_of number_of]. unfold equal_number. cbn [usual compare_in].
    rewrite !cast_id by auto. rewrite Z.eqb_compare. reflexivity.
  - destruct Hb as [(?&?)|(?&?)]; discriminate.
Qed.
Lemma filter_ints v z : forall vs zs, is_int v z -> Forall2 is_int vs zs -> is_bool v \/ Forall is_bool vs ->
  length (filter (fun e => sequal e v) vs) = length (filter (fun x => x =? z) zs).
Proof.
  intros vs zs Iv F. induction F as [|e x vs zs He _ IH]; intros Hb; [reflexivity|]. cbn [filter].
  rewrite (sequal_int e v x z He Iv) by (destruct Hb as [Hb|Hb]; [auto|inversion Hb; subst; auto]).
  assert (IH' := IH ltac:(destruct Hb as [Hb|Hb]; [auto|inversion Hb; subst; auto])). destruct (x =? z); cbn [length]; rewrite IH'; reflexivity.
Qed.
Lemma scount_l c m vs zs v z : can_read m c c -> values m c c vs -> prod (dims c) < 2 ^ 64 -> Forall2 is_int vs zs -> is_int v z ->
  is_bool v \/ Forall is_bool vs -> scount c v m = Ok (Z.of_nat (length (filter (fun x => x =? z) zs)), m).
Proof.
  intros CR V P Iz Iv Hb. change (scount c v m) with (count_if c (fun e => sequal e v) m). rewrite (count_if_l c _ m vs CR V P), (filter_ints v z vs zs) by assumption. reflexivity.
Qed.
Lemma count_occ_b bs b : length (filter (fun x => x =? Z.b2z b) (map Z.b2z bs)) = count_occ bool_dec bs b.
Proof.
  induction bs as [|c bs IH]; [reflexivity|]. cbn [map filter count_occ]. rewrite <- IH.
  destruct (bool_dec c b) as [->|N]; [rewrite Z.eqb_refl; reflexivity|]. destruct (Z.eqb_spec (Z.b2z c) (Z.b2z b)) as [E|_]; [|reflexivity].
  exfalso. apply N. destruct b, c; (reflexivity || discriminate).
Qed.
Lemma bools_ints bs : Forall2 is_int (map SBool bs) (map Z.b2z bs).
Proof. induction bs; constructor; [left; eauto|assumption]. Qed.
Lemma bools_all bs : Forall is_bool (map SBool bs).
Proof. induction bs; constructor; [eexists; reflexivity|assumption]. Qed.
Lemma bool_count_l c m bs b : can_read m c c -> bools m c bs -> prod (dims c) < 2 ^ 64 ->
  scount c (SBool b) m = Ok (Z.of_nat (count_occ bool_dec bs b), m).
Proof.
  intros CR V P. rewrite (scount_l c m (map SBool bs) (map Z.b2z bs) (SBool b) (Z.b2z b)); try assumption.
  - rewrite count_occ_b. reflexivity.
  - apply bools_ints.
  - left. eauto.
  - left. eexists. reflexivity.
Qed.
Lemma sfind_l c v z m : can_read m c c -> Forall (fun n => n <= 2147483648) (dims c) -> is_int v z ->
  (forall is_ e, in_box (dims c) is_ -> value m c is_ e -> (exists x, is_int e x) /\ (is_bool v \/ is_bool e)) ->
  exists r, sfind c v m = Ok (r, m) /\ first_at m c (fun e => is_int e z) r.
Proof.
  intros CR Fd Iv H. destruct (find_first_l sequal c v m CR Fd) as (r & E & R). exists r. split; [exact E|].
  assert (G : forall is_ e, in_box (dims c) is_ -> value m c is_ e -> (sequal e v = true <-> is_int e z)).
  { intros is_ e B Hv. destruct (H is_ e B Hv) as ((x & Hx) & Hb). rewrite (sequal_int e v x z Hx Iv) by tauto. rewrite Z.eqb_eq.
    split; [intros <-; exact Hx|]. intros Hz. destruct Hx as [(b & -> & ->)|(t & -> & Ht)], Hz as [(b' & E' & ->)|(t' & E' & Ht')]; congruence. }
  destruct r as [pos|]; cbn [first_at] in *.
  - destruct R as (T & B & (e & Hv & Hs) & Mn). split; [exact T|]. split; [exact B|]. split.
    + exists e. split; [exact Hv|]. apply (G _ _ B Hv), Hs.
    + intros is_ w Bw Hw Hi. apply (Mn is_ w Bw Hw), (G _ _ Bw Hw), Hi.
  - intros is_ e B Hv Hi. apply (R is_ e B Hv), (G _ _ B Hv), Hi.
Qed.
Lemma sreplace_bool_l out old z new m : can_write m out out -> can_read m out out -> is_int old z ->
  exists m', sreplace TBool out old new m = Ok m' /\
    (forall is_ b, in_box (dims out) is_ -> value m out is_ (SBool b) ->
       exists w, value m' out is_ w /\ (Z.b2z b = z -> bool_for new w) /\ (Z.b2z b <> z -> w = SBool b)) /\ frame out out m m'.
Proof.
  intros CW CR Io. destruct (bool_replace_if_l out (fun e => sequal e old) new m CW CR) as (m' & E & R & F).
  exists m'. split; [exact E|]. split; [|exact F]. intros is_ b B Hv. destruct (R is_ _ B Hv) as (w & Hw & C). exists w. split; [exact Hw|].
  rewrite (sequal_int (SBool b) old (Z.b2z b) z) in C; [|left; eauto|exact Io|left; eexists; reflexivity].
  destruct (Z.eqb_spec (Z.b2z b) z) as [G|G]; split; intros K; try assumption; contradiction.
Qed.

(** ** Tables *)
Lemma scopy_block_ok to g : forall vs m sb so db d_o, sb <> db ->
  (forall v, In v vs -> sconvert to v = Ok (g v)) ->
  (forall k v, nth_error vs k = Some v -> peek m (Ptr sb (so + Z.of_nat k)) = Some v) ->
  (forall k, 0 <= k < Z.of_nat (length vs) -> cell m (Ptr db (d_o + k)) <> None) ->
  exists m', scopy_block to m (Ptr sb so) (Ptr db d_o) (length vs) = Ok m' /\
      (forall k v, nth_error vs k = Some v -> peek m' (Ptr db (d_o + Z.of_nat k)) = Some (g v)) /\
      (forall p, (forall k, 0 <= k < Z.of_nat (length vs) -> p <> Ptr db (d_o + k)) -> cell m' p = cell m p).
Proof.
  induction vs as [|v vs IH]; intros m sb so db d_o N C R W; cbn [length scopy_block].
  - exists m. split; [reflexivity|]. split; [intros [|k] w; discriminate|auto].
  - pose proof (R 0%nat v eq_refl) as Hv. rewrite Z.add_0_r in Hv. rewrite (load_peek _ _ _ Hv), bind_ok.
    unfold sput at 1. rewrite (C v (or_introl eq_refl)), bind_ok.
    pose proof (W 0 ltac:(cbn [length]; lia)) as Wv. rewrite Z.add_0_r in Wv. rewrite store_valid by exact Wv. cbn [bind padd].
    destruct (IH (upd m (Ptr db d_o) (g v)) sb (so + 1) db (d_o + 1) N) as (m' & E & V & F).
    { intros u Hu. apply C. right. exact Hu. }
    { intros k u Hu. rewrite peek_upd_other by congruence. replace (so + 1 + Z.of_nat k) with (so + Z.of_nat (S k)) by lia. apply R. exact Hu. }
    { intros k Hk. apply valid_upd. replace (d_o + 1 + k) with (d_o + (k + 1)) by lia. apply W. cbn [length]. lia. }
    exists m'. split; [exact E|]. split.
    + intros [|k] u Hu.
      * injection Hu as <-. rewrite Z.add_0_r. unfold peek. rewrite F; [|intros k' Hk' G; injection G; lia].
        rewrite cell_upd_same by exact Wv. reflexivity.
      * replace (d_o + Z.of_nat (S k)) with (d_o + 1 + Z.of_nat k) by lia. apply V. exact Hu.
    + intros p Hp. rewrite F.
      * apply cell_upd_other. specialize (Hp 0 ltac:(cbn [length]; lia)). rewrite Z.add_0_r in Hp. congruence.
      * intros k Hk. specialize (Hp (k + 1) ltac:(cbn [length]; lia)). replace (d_o + 1 + k) with (d_o + (k + 1)) by lia. exact Hp.
Qed.
Lemma snew_block_ok to g m src vs : holds m src vs -> (forall v, In v vs -> sconvert to v = Ok (g v)) ->
  exists m' data, (let '(m1, d) := if Z.of_nat (length vs) =? 0 then (m, Null) else alloc m (Z.of_nat (length vs)) in
      m2 <- scopy_block to m1 src d (length vs) ;; Ok (m2, d)) = Ok (m', data) /\
    holds m' data (map g vs) /\ extends m m' /\ (forall k, ~ valid m (padd data k)).
Proof.
  intros H C. destruct vs as [|v vs].
  - cbn. exists m, Null. split; [reflexivity|]. split; [intros [|k] w; discriminate|]. split; [intros p _; reflexivity|]. intros k G. apply G. reflexivity.
  - destruct (Z.eqb_spec (Z.of_nat (length (v :: vs))) 0) as [E|_]; [cbn [length] in E; lia|].
    set (us := v :: vs) in *. unfold alloc. rewrite Nat2Z.id.
    pose proof (H 0%nat v eq_refl) as H0. change (Z.of_nat 0) with 0 in H0. rewrite padd_0 in H0.
    destruct src as [|sb so]; [discriminate|]. pose proof (cell_block_lt m sb so (peek_valid _ _ _ H0)) as Hsb.
    pose (m1 := m ++ [Some (repeat (@None scalar) (length us))]).
    destruct (scopy_block_ok to g us m1 sb so (length m) 0 ltac:(lia) C) as (m' & E & V & F).
    { intros k u Hu. pose proof (H k u Hu) as P. cbn [padd] in P. unfold peek, m1. rewrite cell_app by (eapply peek_valid; exact P). exact P. }
    { intros k Hk. rewrite Z.add_0_l. pose proof (cell_alloc m (Z.of_nat (length us)) k Hk) as G. unfold alloc in G; cbn [fst] in G.
      rewrite Nat2Z.id in G. unfold m1. rewrite G. discriminate. }
    fold m1. exists m', (Ptr (length m) 0). rewrite E, bind_ok. split; [reflexivity|]. split; [|split].
    + intros k w Hw. cbn [padd]. rewrite nth_error_map in Hw. destruct (nth_error us k) as [u|] eqn:Eu; [|discriminate]. injection Hw as <-. apply V, Eu.
    + intros p Vp. rewrite F; [unfold m1; apply cell_app; exact Vp|]. intros k Hk ->. apply cell_block_lt in Vp. lia.
    + intros k. unfold valid. cbn [padd]. rewrite cell_fresh. auto.
Qed.
Lemma stable_as_l to g m dbg st sh s vs : legal sh -> sh <> [] -> holds m (storage s) vs -> prod (vals sh) <= Z.of_nat (length vs) ->
  (forall v, In v vs -> sconvert to v = Ok (g v)) ->
  exists m' t, stable_as to m dbg (Some (st, sh)) s = Ok (m', t) /\ default_layout t /\ c_shape t = sh /\
      values m' t t (map g (firstn (Z.to_nat (prod (vals sh))) vs)) /\ extends m m' /\ forall is_, in_box (vals sh) is_ -> ~ valid m (elem t is_).
Proof.
  intros Lg Ne H L C. pose proof (legal_prod _ Lg) as Hp. set (n := Z.to_nat (prod (vals sh))).
  assert (Hf : holds m (storage s) (firstn n vs)).
  { intros k v Hk. apply H. rewrite <- (firstn_skipn n vs). rewrite nth_error_app1; [exact Hk|].
    apply nth_error_Some. congruence. }
  assert (Ln : length (firstn n vs) = n) by (rewrite firstn_length; lia).
  destruct (snew_block_ok to g m (storage s) (firstn n vs) Hf) as (m' & data & E & V & X & Fr).
  { intros v Hv. apply C. rewrite <- (firstn_skipn n vs). apply in_or_app. left. exact Hv. }
  rewrite Ln in E.
  assert (En : Z.of_nat n = prod (vals sh)) by lia. rewrite En in E.
  unfold stable_as, pick_size. rewrite bind_ok, (numel_ok sh Lg Ne), bind_ok. cbn [cval int]. fold n.
  destruct (if prod (vals sh) =? 0 then (m, Null) else alloc m (prod (vals sh))) as [m1 d].
  destruct (scopy_block to m1 (storage s) d n) as [m2| | |]; cbn [bind] in E; try discriminate. injection E as -> ->. rewrite bind_ok.
  destruct (make_view_default_l st sh data Lg Ne) as (t & Et & D & Es & Ed).
  unfold make_view in Et. destruct (make_accessor st st sh None) as [[k sd]| | |]; cbn [bind] in *; try discriminate.
  injection Et as <-. eexists _, _. split; [reflexivity|]. split; [exact D|]. split; [reflexivity|]. split; [|split; [exact X|]].
  - apply (default_values_rank m' _ _ D). cbn [c_data]. unfold dims. cbn [c_shape]. fold n.
    assert (Lw : length (map g (firstn n vs)) = n) by (rewrite map_length; exact Ln).
    rewrite <- (firstn_all (map g (firstn n vs))). rewrite Lw. apply holds_firstn_cells; [exact V|lia].
  - intros is_ B. rewrite (default_elem _ is_ D) by exact B. apply Fr.
Qed.
Lemma table_of_bool_l m dbg st sh s vs : legal sh -> sh <> [] -> holds m (storage s) vs -> prod (vals sh) <= Z.of_nat (length vs) ->
  exists m' t bs, stable_as TBool m dbg (Some (st, sh)) s = Ok (m', t) /\ default_layout t /\ c_shape t = sh /\
    bools m' t bs /\ Forall2 (fun v b => bool_for v (SBool b)) (firstn (Z.to_nat (prod (vals sh))) vs) bs /\ extends m m'.
Proof.
  intros Lg Ne H L. destruct (stable_as_l TBool (fun v => SBool (truth v)) m dbg st sh s vs Lg Ne H L) as (m' & t & E & D & Es & V & X & _).
  { reflexivity. }
  exists m', t, (map truth (firstn (Z.to_nat (prod (vals sh))) vs)). repeat (split; [assumption|]). split; [unfold bools; rewrite map_map; exact V|].
  split; [|exact X]. generalize (firstn (Z.to_nat (prod (vals sh))) vs). clear. induction l; constructor; [apply bool_for_truth|assumption].
Qed.
Lemma table_from_bools_l a m dbg st sh s bs : legal sh -> sh <> [] -> holds m (storage s) (map SBool bs) -> prod (vals sh) <= Z.of_nat (length bs) ->
  exists m' t ws, stable_as (TArith a) m dbg (Some (st, sh)) s = Ok (m', t) /\ default_layout t /\ c_shape t = sh /\
    values m' t t ws /\ Forall2 (stands_for a) (firstn (Z.to_nat (prod (vals sh))) bs) ws /\ extends m m'.
Proof.
  intros Lg Ne H L. destruct (stable_as_l (TArith a) (fun v => match v with SBool b => SNum a (num_for a b) | x => x end) m dbg st sh s (map SBool bs) Lg Ne H)
    as (m' & t & E & D & Es & V & X & _).
  { rewrite map_length. exact L. }
  { intros v Hv. apply in_map_iff in Hv as (b & <- & _). apply sconvert_num. }
  eexists m', t, _. repeat (split; [eassumption|]). split; [|exact X].
  rewrite firstn_map, map_map. generalize (firstn (Z.to_nat (prod (vals sh))) bs). clear. induction l; constructor; [apply num_for_value|assumption].
Qed.

(** ** Sums that do not fit *)
Definition ints (bs : list bool) : list cint := map (fun b => int (Z.b2z b)) bs.
Lemma fold_ints bs : forall c, foldo sadd_to (map SBool bs) (SI c) = (r <- foldo add_to (ints bs) c ;; Ok (SI r)).
Proof.
  induction bs as [|b bs IH]; intros c; cbn [map foldo ints]; [reflexivity|].
  assert (E : sadd_to (SI c) (SBool b) = (r <- add_to c (int (Z.b2z b)) ;; Ok (SI r))).
  { destruct c as [t z]. unfold sadd_to, add_to, SI. cbn [promoted cty cval type_of bind]. destruct (cadd (CI t z) (int (Z.b2z b))) as [s| | |]; reflexivity. }
  rewrite E. fold (ints bs). destruct (add_to c (int (Z.b2z b))) as [r| | |]; cbn [bind]; [apply IH|reflexivity..].
Qed.
Lemma total_ints bs : total (map cval (ints bs)) = trues bs.
Proof. induction bs as [|b bs IH]; [reflexivity|]. cbn [ints map total cval int]. fold (ints bs). rewrite IH, trues_cons. reflexivity. Qed.
Lemma bool_total_wraps_l c m bs t z : can_read m c c -> bools m c bs -> in_ty t z -> is_signed t = false \/ width t < 32 ->
  ssum_from c (SI (CI t z)) m = Ok (SI (CI t (cast t (z + trues bs))), m).
Proof.
  intros CR V Hz H. unfold ssum_from. rewrite (reduce_by_l _ _ _ _ _ CR V), fold_ints, fold_step_wraps, total_ints; [reflexivity| |exact Hz].
  apply Forall_forall. intros v Hv. apply in_map_iff in Hv as (b & <- & _). intros y Hy.
  assert (K : width t < 32 \/ is_signed (CInt.common t I32) = false) by (destruct H as [H|H]; [|auto]; destruct t; cbn in *; (discriminate || auto; left; lia)).
  destruct K as [K|K].
  - apply (add_to_fits (CI t y) (int (Z.b2z b))); [exact Hy|apply int_wf|]. cbn [cty cval int]. unfold in_ty in *. destruct t, b; cbn in *; lia.
  - apply (add_to_wraps (CI t y) (int (Z.b2z b))). exact K.
Qed.
Lemma bool_total_overflow_l c m bs t z : can_read m c c -> bools m c bs -> in_ty t z -> is_signed t = true -> 32 <= width t ->
  ~ in_ty t (z + trues bs) -> ssum_from c (SI (CI t z)) m = UB.
Proof.
  intros CR V Hz S W N. unfold ssum_from. rewrite (reduce_by_l _ _ _ _ _ CR V), fold_ints, (fold_overflow t I32); [reflexivity| | |exact S|exact Hz|].
  - apply Forall_forall. intros v Hv. apply in_map_iff in Hv as (b & <- & _). split; [reflexivity|apply int_wf].
  - destruct t; cbn in *; (discriminate || reflexivity || lia).
  - intros P. apply N. specialize (P (length (map cval (ints bs))) ltac:(lia)). rewrite firstn_all, total_ints in P. exact P.
Qed.
Lemma bool_counts_l c m bs t z : can_read m c c -> bools m c bs -> in_ty t z ->
  (in_ty t (z + trues bs) -> ssum_from c (SI (CI t z)) m = Ok (SI (CI t (z + trues bs)), m)) /\
  (is_signed t = false \/ width t < 32 -> ssum_from c (SI (CI t z)) m = Ok (SI (CI t (cast t (z + trues bs))), m)) /\
  (is_signed t = true -> 32 <= width t -> ~ in_ty t (z + trues bs) -> ssum_from c (SI (CI t z)) m = UB).
Proof.
  intros CR V Hz. split; [|split]; intros; [apply bool_total_l|apply bool_total_wraps_l|eapply bool_total_overflow_l]; eassumption.
Qed.
Lemma bool_sum_from_l c m bs a : can_read m c c -> bools m c bs ->
  exists r, ssum_from c (SBool a) m = Ok (SBool r, m) /\ (r = true <-> a = true \/ In true bs).
Proof.
  intros CR V. unfold ssum_from. rewrite (reduce_by_l _ _ _ _ _ CR V), fold_or, bind_ok. eexists. split; [reflexivity|apply or_iff].
Qed.
Lemma bools_round_l a out1 out2 in_ m : can_write m out1 out1 -> can_read m out1 in_ -> no_cross_alias out1 in_ out1 ->
  dims out1 = dims out2 -> (forall is_ v, in_box (dims out1) is_ -> value m in_ is_ v -> is_bool v) ->
  (forall m1, scopy (TArith a) out1 in_ m = Ok m1 -> can_write m1 out2 out2 /\ can_read m1 out2 out1 /\ no_cross_alias out2 out1 out2) ->
  exists m1 m2, scopy (TArith a) out1 in_ m = Ok m1 /\ scopy TBool out2 out1 m1 = Ok m2 /\
    forall is_ b, in_box (dims out1) is_ -> value m in_ is_ (SBool b) -> value m2 out2 is_ (SBool b).
Proof.
  intros CW CR NA Ed Bl Nx. destruct (copy_bools_stands a out1 in_ m CW CR NA Bl) as (m1 & E1 & R1 & _). destruct (Nx m1 E1) as (CW2 & CR2 & NA2).
  destruct (bool_copy_l out2 out1 m1 CW2 CR2 NA2) as (m2 & E2 & R2 & _). exists m1, m2. split; [exact E1|]. split; [exact E2|].
  intros is_ b B Hv. destruct (R1 is_ b B Hv) as (w & Hw & Sw). rewrite Ed in B. destruct (R2 is_ w B Hw) as (x & Hx & Bx).
  rewrite <- (stands_back a b w x Sw Bx). exact Hx.
Qed.
