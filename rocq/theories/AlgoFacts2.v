From Coq Require Import ZArith List Bool Lia.
From Verif Require Import Outcome CInt CIntFacts Spec SpecFacts ShapeSpec Shape ShapeFacts ShapeFacts2
  ForEach ForEachSpec ForEachFacts Memory MemFacts Container ContainerSpec ContainerFacts ContainerFacts2
  ContainerFacts3 Algo AlgoSpec AlgoFacts.
Import ListNotations.
Open Scope Z_scope.

Lemma mapM_ext {A B} (f g : A -> outcome B) l : (forall x, In x l -> f x = g x) -> mapM f l = mapM g l.
Proof.
  induction l as [|x l IH]; intros H; simpl; [reflexivity|]. rewrite (H x) by (left; reflexivity).
  rewrite IH; [reflexivity|]. intros; apply H; right; assumption.
Qed.

Lemma mapM_load {T} (m : mem T) c0 is_ cs : in_box (dims c0) is_ -> Forall (can_read m c0) cs ->
  exists vs, mapM (load m) (map (fun c => elem c is_) cs) = Ok vs /\
             Forall2 (fun c v => value m c is_ v) cs vs.
Proof.
  intros B. induction 1 as [|c cs (_ & _ & R) _ IH]; simpl.
  - exists []. split; [reflexivity|constructor].
  - destruct (R is_ B) as (v & Hv). destruct IH as (vs & E & F).
    rewrite (load_peek _ _ _ Hv), bind_ok, E, bind_ok. exists (v :: vs). split; [reflexivity|]. constructor; assumption.
Qed.

Lemma mapM_load_unique {T} (m : mem T) is_ cs vs : Forall2 (fun c v => value m c is_ v) cs vs ->
  mapM (load m) (map (fun c => elem c is_) cs) = Ok vs.
Proof.
  induction 1 as [|c v cs vs Hv _ IH]; simpl; [reflexivity|].
  rewrite (load_peek _ _ _ Hv), bind_ok, IH. reflexivity.
Qed.

(** ** Loops that write the elements of a container, coordinate by coordinate *)
Definition opt {A} (r : outcome A) : option A := match r with Ok a => Some a | _ => None end.

Lemma write_loop {T} out cs rs (m : mem T) (g : list T -> list Z -> option T) body :
  can_write m out out -> Forall (live m out) cs -> Forall (can_read m out) rs ->
  Forall (fun i => no_cross_alias out i out) rs ->
  (forall is_ m' vs, in_box (dims out) is_ -> same_cells m m' ->
     Forall2 (fun c v => value m' c is_ v) rs vs ->
     body (map (fun c => elem c is_) (out :: cs)) (tt, m') =
     Ok (tt, match g vs is_ with Some v => upd m' (elem out is_) v | None => m' end)) ->
  exists m', run_map (map_containers body out cs (tt, m)) = Ok m' /\
    (forall is_ vs, in_box (dims out) is_ -> Forall2 (fun c v => value m c is_ v) rs vs ->
       match g vs is_ with
       | Some v => value m' out is_ v
       | None => cell m' (elem out is_) = cell m (elem out is_)
       end) /\ frame out out m m'.
Proof.
  intros CW L CR NA Hb.
  pose (val := fun (_ : list (list Z)) is_ =>
     match mapM (load m) (map (fun c => elem c is_) rs) with Ok vs => g vs is_ | _ => None end).
  destruct (live_wf m out (can_write_live _ _ _ CW)) as [_ Nn].
  pose proof CW as (_ & _ & D & V).
  pose proof (pmem_result out val out m Nn D V) as (R & F). cbv zeta in R, F.
  exists (pmem out val m (box (dims out))). unfold run_map.
  change (tt, m) with (tt, pmem out val m []).
  rewrite (map_containers_inv body out cs m (fun pre => (tt, pmem out val m pre))).
  - split; [reflexivity|]. split; [|exact F]. intros is_ vs B Hv.
    destruct (box_split _ _ B) as (pre & post & E). specialize (R pre is_ post E).
    unfold val in R at 1. rewrite (mapM_load_unique m is_ rs vs Hv) in R. exact R.
  - apply can_write_live. exact CW.
  - exact L.
  - intros pre. apply pmem_same.
  - intros pre is_ post E. destruct (box_split_notin _ _ _ _ Nn E) as (_ & B & _).
    destruct (mapM_load m out is_ rs B CR) as (vs & El & Hv).
    rewrite (Hb is_ (pmem out val m pre) vs B (pmem_same _ _ _ _)).
    + rewrite pmem_step. unfold val at 3. rewrite El. reflexivity.
    + clearbody val. clear -Hv NA E Nn. induction Hv as [|c v cs vs Hc _ IH]; [constructor|]. inversion NA; subst.
      constructor; [|apply IH; assumption]. unfold value, peek. rewrite (pmem_read out c out val m pre is_ post); assumption.
Qed.

Lemma distinct_no_cross c : distinct_on c c -> no_cross_alias c c c.
Proof. intros D a b Ha Hb N E. apply N. apply D; assumption. Qed.

Lemma assign_valid {T} (m m' : mem T) c c0 is_ v : can_write m c0 c -> in_box (dims c0) is_ -> same_cells m m' ->
  assign (elem c is_) v (tt, m') = Ok (tt, upd m' (elem c is_) v).
Proof.
  intros (_ & _ & _ & V) B S. unfold assign. cbn [snd]. rewrite store_valid by (apply S, V, B). reflexivity.
Qed.

(** ** C32 *)
Lemma transform_l {T} f out c0 cs (m : mem T) : can_write m out out ->
  Forall (can_read m out) (c0 :: cs) -> Forall (fun i => no_cross_alias out i out) (c0 :: cs) ->
  exists m', transform f out c0 cs m = Ok m' /\
    (forall is_ vs, in_box (dims out) is_ -> Forall2 (fun c v => value m c is_ v) (c0 :: cs) vs ->
       value m' out is_ (f vs)) /\ frame out out m m'.
Proof.
  intros CW CR NA. unfold transform.
  destruct (write_loop out (c0 :: cs) (c0 :: cs) m (fun vs _ => Some (f vs))
    (fun ps sm => match ps with o :: ins => vs <- mapM (load (snd sm)) ins ;; assign o (f vs) sm | [] => UB end))
    as (m' & E & R & F); try assumption.
  - eapply Forall_impl; [|exact CR]. intros c. apply can_read_live.
  - intros is_ m' vs B S Hv. cbn [map fst snd]. 
    pose proof (mapM_load_unique m' is_ (c0 :: cs) vs Hv) as G. cbn [map] in G. rewrite G, bind_ok.
    eapply assign_valid; eassumption.
  - exists m'. split; [exact E|]. split; [|exact F]. intros is_ vs B Hv. exact (R is_ vs B Hv).
Qed.

Lemma Forall2_1 {A B} (P : A -> B -> Prop) x l : Forall2 P [x] l -> exists y, l = [y] /\ P x y.
Proof. intros H. inversion H as [|? y ? l' H1 H2]; subst. inversion H2; subst. eauto. Qed.

Lemma copy_l {T} out in_ (m : mem T) : can_write m out out -> can_read m out in_ ->
  no_cross_alias out in_ out ->
  exists m', copy out in_ m = Ok m' /\
    (forall is_ v, in_box (dims out) is_ -> value m in_ is_ v -> value m' out is_ v) /\ frame out out m m'.
Proof.
  intros CW CR NA. unfold copy.
  destruct (write_loop out [in_] [in_] m (fun vs _ => match vs with v :: _ => Some v | [] => None end)
    (fun ps sm => match ps with [o; i] => v <- load (snd sm) i ;; assign o v sm | _ => UB end))
    as (m' & E & R & F); try assumption.
  - constructor; [apply can_read_live; exact CR|constructor].
  - constructor; [exact CR|constructor].
  - constructor; [exact NA|constructor].
  - intros is_ m' vs B S Hv. destruct (Forall2_1 _ _ _ Hv) as (v & -> & Hv1). cbn [map snd].
    rewrite (load_peek _ _ _ Hv1), bind_ok. eapply assign_valid; eassumption.
  - exists m'. split; [exact E|]. split; [|exact F]. intros is_ v B Hv.
    exact (R is_ [v] B ltac:(constructor; [exact Hv|constructor])).
Qed.

(** ** C33 *)
Lemma copy_if_l {T} f out in_ (m : mem T) : can_write m out out -> can_read m out in_ ->
  no_cross_alias out in_ out ->
  exists m', copy_if f out in_ m = Ok m' /\
    (forall is_ v, in_box (dims out) is_ -> value m in_ is_ v ->
       if f v then value m' out is_ v else cell m' (elem out is_) = cell m (elem out is_)) /\
    frame out out m m'.
Proof.
  intros CW CR NA. unfold copy_if.
  destruct (write_loop out [in_] [in_] m
    (fun vs _ => match vs with v :: _ => if f v then Some v else None | [] => None end)
    (fun ps sm => match ps with [o; i] => v <- load (snd sm) i ;; if f v then assign o v sm else Ok sm | _ => UB end))
    as (m' & E & R & F); try assumption.
  - constructor; [apply can_read_live; exact CR|constructor].
  - constructor; [exact CR|constructor].
  - constructor; [exact NA|constructor].
  - intros is_ m' vs B S Hv. destruct (Forall2_1 _ _ _ Hv) as (v & -> & Hv1). cbn [map snd].
    rewrite (load_peek _ _ _ Hv1), bind_ok. destruct (f v); [|reflexivity]. eapply assign_valid; eassumption.
  - exists m'. split; [exact E|]. split; [|exact F]. intros is_ v B Hv.
    pose proof (R is_ [v] B ltac:(constructor; [exact Hv|constructor])) as G. simpl in G.
    destruct (f v); exact G.
Qed.

(** ** C34 *)
Lemma fill_l {T} out v (m : mem T) : can_write m out out ->
  exists m', fill out v m = Ok m' /\
    (forall is_, in_box (dims out) is_ -> value m' out is_ v) /\ frame out out m m'.
Proof.
  intros CW. unfold fill.
  destruct (write_loop out [] [] m (fun _ _ => Some v)
    (fun ps sm => match ps with [o] => assign o v sm | _ => UB end)) as (m' & E & R & F); try assumption; try constructor.
  - intros is_ m' vs B S Hv. cbn [map]. eapply assign_valid; eassumption.
  - exists m'. split; [exact E|]. split; [|exact F]. intros is_ B. exact (R is_ [] B ltac:(constructor)).
Qed.

Lemma ctypes_unique c a b : map cty a = ctypes c -> map cty b = ctypes c -> vals a = vals b -> a = b.
Proof.
  intros Ha Hb. rewrite <- Hb in Ha. clear Hb. revert b Ha. induction a as [|x a IH]; intros [|y b] H V;
    try discriminate; [reflexivity|]. simpl in H, V. injection H as Ht H. injection V as Hv V.
  f_equal; [destruct x, y; simpl in *; congruence|apply IH; assumption].
Qed.

Lemma typed_coord c is_ : wf_container c -> in_box (dims c) is_ ->
  exists tis, wfs tis /\ vals tis = is_ /\ map cty tis = ctypes c.
Proof.
  intros (W & _) B. assert (I : In is_ (map vals (tbox (c_shape c)))) by (rewrite tbox_vals; apply box_In; exact B).
  apply in_map_iff in I. destruct I as (t & E & I). exists t.
  pose proof (tbox_wfs _ W) as TW. pose proof (tbox_types (c_shape c)) as TT. rewrite Forall_forall in TW, TT.
  split; [apply TW; exact I|]. split; [exact E|apply TT; exact I].
Qed.

(** The typed coordinate with the types of the extents. *)
Definition retype (tys : list ity) (is_ : list Z) : list cint := map (fun p => CI (fst p) (snd p)) (combine tys is_).

Lemma retype_id tis : retype (map cty tis) (vals tis) = tis.
Proof. unfold retype. induction tis as [|[t z] tis IH]; [reflexivity|]. simpl. f_equal. exact IH. Qed.

Lemma generate_l {T} f out (m : mem T) : can_write m out out ->
  exists m', generate f out m = Ok m' /\
    (forall tis, wfs tis -> map cty tis = ctypes out -> in_box (dims out) (vals tis) ->
       value m' out (vals tis) (f tis)) /\ frame out out m m'.
Proof.
  intros CW. pose (val := fun (_ : list (list Z)) is_ => Some (f (retype (ctypes out) is_))).
  destruct (live_wf m out (can_write_live _ _ _ CW)) as [_ Nn].
  pose proof CW as (_ & _ & D & V).
  pose proof (pmem_result out val out m Nn D V) as (R & F). cbv zeta in R, F.
  exists (pmem out val m (box (dims out))). unfold generate, run_map.
  change (tt, m) with (tt, pmem out val m []).
  rewrite (map_index_inv _ out m (fun pre => (tt, pmem out val m pre))).
  - split; [reflexivity|]. split; [|exact F]. intros tis W Ty B.
    destruct (box_split _ _ B) as (pre & post & E). specialize (R pre _ post E). unfold val in R at 1.
    rewrite <- Ty, retype_id in R. exact R.
  - apply can_write_live. exact CW.
  - intros pre. apply pmem_same.
  - intros pre is_ post tis E W <- Ty. destruct (box_split_notin _ _ _ _ Nn E) as (_ & B & _).
    rewrite (assign_valid m (pmem out val m pre) out out); try assumption; [|apply pmem_same].
    rewrite pmem_step. assert (G : val pre (vals tis) = Some (f tis)) by (unfold val; rewrite <- Ty, retype_id; reflexivity).
    rewrite G. reflexivity.
Qed.

(** ** C36 *)
Lemma replace_if_l {T} out f v (m : mem T) : can_write m out out -> can_read m out out ->
  exists m', replace_if out f v m = Ok m' /\
    (forall is_ x, in_box (dims out) is_ -> value m out is_ x -> value m' out is_ (if f x then v else x)) /\
    frame out out m m'.
Proof.
  intros CW CR. unfold replace_if. assert (D : distinct_on out out) by apply CW.
  destruct (write_loop out [] [out] m
    (fun vs _ => match vs with x :: _ => if f x then Some v else None | [] => None end)
    (fun ps sm => match ps with [o] => x <- load (snd sm) o ;; if f x then assign o v sm else Ok sm | _ => UB end))
    as (m' & E & R & F); try assumption.
  - constructor.
  - constructor; [exact CR|constructor].
  - constructor; [apply distinct_no_cross; exact D|constructor].
  - intros is_ m' vs B S Hv. destruct (Forall2_1 _ _ _ Hv) as (x & -> & Hx). cbn [map snd].
    rewrite (load_peek _ _ _ Hx), bind_ok. destruct (f x); [|reflexivity]. eapply assign_valid; eassumption.
  - exists m'. split; [exact E|]. split; [|exact F]. intros is_ x B Hx.
    pose proof (R is_ [x] B ltac:(constructor; [exact Hx|constructor])) as G. simpl in G.
    destruct (f x); [exact G|]. unfold value, peek. rewrite G. exact Hx.
Qed.

(** ** C35 *)
Lemma iota_state_l et out (m : mem cint) (st : Z -> cint) (next : cint -> outcome cint) body :
  can_write m out out ->
  (forall o v m', body [o] (v, m') = (m'' <- store m' o (conv et v) ;; v' <- next v ;; Ok (v', m''))) ->
  (forall k, 0 <= k < prod (dims out) -> next (st k) = Ok (st (k + 1))) ->
  exists m', (r <- map_containers body out [] (st 0, m) ;; Ok (snd r)) = Ok m' /\
    (forall is_, in_box (dims out) is_ -> value m' out is_ (conv et (st (rank (dims out) is_)))) /\
    frame out out m m'.
Proof.
  intros CW Hbody Hn.
  pose (val := fun (pre : list (list Z)) (_ : list Z) => Some (conv et (st (Z.of_nat (length pre))))).
  destruct (live_wf m out (can_write_live _ _ _ CW)) as [_ Nn].
  pose proof CW as (_ & _ & D & V).
  pose proof (pmem_result out val out m Nn D V) as (R & F). cbv zeta in R, F.
  exists (pmem out val m (box (dims out))).
  change (st 0, m) with (st (Z.of_nat (length (@nil (list Z)))), pmem out val m []).
  rewrite (map_containers_inv body out [] m (fun pre => (st (Z.of_nat (length pre)), pmem out val m pre))).
  - split; [reflexivity|]. split; [|exact F]. intros is_ B.
    destruct (box_split _ _ B) as (pre & post & E). specialize (R pre _ post E). unfold val in R at 1.
    rewrite (box_split_rank _ _ _ _ Nn E) in R.
    rewrite firstn_length_le, Z2Nat.id in R; [exact R| |].
    + apply rank_range. exact B.
    + pose proof (rank_range _ _ B). pose proof (box_length (dims out) Nn). lia.
  - apply can_write_live. exact CW.
  - constructor.
  - intros pre. apply pmem_same.
  - intros pre is_ post E. destruct (box_split_notin _ _ _ _ Nn E) as (_ & B & _). cbn [map].
    rewrite Hbody. rewrite store_valid by (apply pmem_same, V, B). rewrite bind_ok.
    rewrite Hn, bind_ok.
    + rewrite pmem_step. rewrite app_length. cbn [length]. do 3 f_equal. lia.
    + pose proof (box_length (dims out) Nn) as L. rewrite E, app_length in L. cbn [length] in L.
      pose proof (prod_nonneg _ Nn). lia.
Qed.

Lemma advance v d k : wfc v -> wfc d -> compat v d -> 0 <= k ->
  in_ty (cty v) (cval v + k * cval d) -> in_ty (cty v) (cval v + (k + 1) * cval d) ->
  (s <- cadd (CI (cty v) (cval v + k * cval d)) d ;; Ok (conv (cty v) s)) =
  Ok (CI (cty v) (cval v + (k + 1) * cval d)).
Proof.
  intros Wv Wd C K H1 H2. unfold cadd. rewrite arith_exact.
  - rewrite bind_ok. cbn [cty cval]. rewrite conv_exact by (cbn [cval]; replace (_ + _ + _) with (cval v + (k + 1) * cval d) by lia; exact H2).
    cbn [cval]. do 2 f_equal. lia.
  - exact H1.
  - exact Wd.
  - destruct C as [C|[C1 C2]]; [left; exact C|right]. cbn [cval]. split; nia.
  - cbn [cty cval]. replace (_ + _ + _) with (cval v + (k + 1) * cval d) by lia.
    apply in_ty_common_l; [exact H2|]. destruct C as [C|[C1 C2]]; [left; exact C|right; nia].
Qed.

Lemma iota_step_l et out v step (m : mem cint) : can_write m out out -> wfc v -> wfc step ->
  compat v step ->
  (forall k, 0 <= k <= prod (dims out) -> in_ty (cty v) (cval v + k * cval step)) ->
  exists m', @iota_step et out v step m = Ok m' /\
    (forall is_, in_box (dims out) is_ ->
       in_ty et (cval v + rank (dims out) is_ * cval step) ->
       value m' out is_ (CI et (cval v + rank (dims out) is_ * cval step))) /\
    frame out out m m'.
Proof.
  intros CW Wv Ws C H. unfold iota_step.
  destruct (iota_state_l et out m (fun k => CI (cty v) (cval v + k * cval step))
    (fun w => s <- cadd w step ;; Ok (conv (cty w) s))
    (fun ps sm => match ps with
                  | [o] => m' <- store (snd sm) o (conv et (fst sm)) ;;
                           s <- cadd (fst sm) step ;; Ok (conv (cty (fst sm)) s, m')
                  | _ => UB
                  end)) as (m' & E & R & F).
  - exact CW.
  - intros o w m'. cbn [fst snd]. destruct (store m' o (conv et w)); try reflexivity. rewrite !bind_ok.
    destruct (cadd w step); reflexivity.
  - intros k K. cbn [cty]. apply advance; try assumption; try (apply H; lia). lia.
  - exists m'. assert (Ev : CI (cty v) (cval v + 0 * cval step) = v)
      by (rewrite Z.mul_0_l, Z.add_0_r; destruct v; reflexivity).
    cbv beta in E. rewrite Ev in E. split; [exact E|]. split; [|exact F].
    intros is_ B Ht. specialize (R is_ B). rewrite conv_exact in R by exact Ht. exact R.
Qed.

Lemma iota_l et out v (m : mem cint) : can_write m out out -> wfc v ->
  in_ty (cty v) (cval v + prod (dims out)) ->
  exists m', @iota et out v m = Ok m' /\
    (forall is_, in_box (dims out) is_ -> in_ty et (cval v + rank (dims out) is_) ->
       value m' out is_ (CI et (cval v + rank (dims out) is_))) /\
    frame out out m m'.
Proof.
  intros CW Wv H. unfold iota.
  assert (Hk : forall k, 0 <= k <= prod (dims out) -> in_ty (cty v) (cval v + k)).
  { unfold wfc, in_ty in *. intros k K. lia. }
  destruct (iota_state_l et out m (fun k => CI (cty v) (cval v + k)) cincr
    (fun ps sm => match ps with
                  | [o] => m' <- store (snd sm) o (conv et (fst sm)) ;;
                           v' <- cincr (fst sm) ;; Ok (v', m')
                  | _ => UB
                  end)) as (m' & E & R & F).
  - exact CW.
  - intros o w m'. reflexivity.
  - intros k K. unfold cincr. cbn [cty].
    pose proof (advance v (int 1) k Wv) as A. cbn [cval] in A. rewrite !Z.mul_1_r in A.
    replace (cval v + (k + 1)) with (cval v + (k + 1)) by lia. apply A; try (apply Hk; lia); try lia.
    + unfold wfc, in_ty; simpl; lia.
    + destruct (is_signed (cty v)) eqn:S; [apply compat_signed; [exact S|reflexivity]|].
      apply compat_nonneg; [|cbn; lia]. clear -Wv S. destruct v as [[] z]; try discriminate S; unfold wfc, in_ty in Wv; cbn in Wv; cbn [cval]; lia.
  - exists m'. assert (Ev : CI (cty v) (cval v + 0) = v)
      by (rewrite Z.add_0_r; destruct v; reflexivity).
    cbv beta in E. rewrite Ev in E. split; [exact E|]. split; [|exact F].
    intros is_ B Ht. specialize (R is_ B). rewrite conv_exact in R by exact Ht. exact R.
Qed.
