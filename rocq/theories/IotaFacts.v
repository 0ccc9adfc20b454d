(** Lemmas about iota when the running value leaves its type. *)
From Coq Require Import ZArith List Bool Lia.
From Verif Require Import Outcome CInt CIntFacts Spec SpecFacts ShapeSpec Shape ShapeFacts ShapeFacts2
  ForEach ForEachSpec ForEachFacts Memory MemFacts Container ContainerSpec ContainerFacts ContainerFacts2
  ContainerFacts3 Algo AlgoSpec AlgoFacts AlgoFacts2 AlgoFacts3 AlgoFacts4 Sums SumsSpec SumsFacts CallSpec CallFacts4.
Import ListNotations.
Open Scope Z_scope.

(** The step of the running value: wraps, or overflows. *)
Lemma step_wraps v step w : wfc step -> in_ty (cty v) w ->
  is_signed (common (cty v) (cty step)) = false \/ (forall w, in_ty (cty v) w -> in_ty (common (cty v) (cty step)) (w + cval step)) ->
  (s <- cadd (CI (cty v) w) step ;; Ok (conv (cty v) s)) = Ok (CI (cty v) (cast (cty v) (w + cval step))).
Proof.
  intros Ws Ww H. destruct (is_signed (common (cty v) (cty step))) eqn:S.
  - destruct H as [H|H]; [discriminate|]. rewrite cadd_fits; [reflexivity|exact Ww|exact Ws|apply H; exact Ww].
  - unfold cadd, arith. cbn [cty cval]. cbv zeta. rewrite S. cbn [bind]. unfold conv. cbn [cval].
    rewrite cast_common. do 2 f_equal. clear S H. set (u := cty step).
    rewrite <- (cast_common (cty v) u), cast_add_l, cast_add_r, cast_common. reflexivity.
Qed.
Lemma iota_step_wraps_l et out v step (m : mem cint) : can_write m out out -> wfc v -> wfc step ->
  is_signed (common (cty v) (cty step)) = false \/ (forall w, in_ty (cty v) w -> in_ty (common (cty v) (cty step)) (w + cval step)) ->
  exists m', @iota_step et out v step m = Ok m' /\
    (forall is_, in_box (dims out) is_ ->
       value m' out is_ (CI et (cast et (cast (cty v) (cval v + rank (dims out) is_ * cval step))))) /\
    frame out out m m'.
Proof.
  intros CW Wv Ws H. unfold iota_step.
  destruct (iota_state_l et out m (fun k => CI (cty v) (cast (cty v) (cval v + k * cval step)))
    (fun w => s <- cadd w step ;; Ok (conv (cty w) s))
    (fun ps sm => match ps with
                  | [o] => m' <- store (snd sm) o (conv et (fst sm)) ;;
                           s <- cadd (fst sm) step ;; Ok (conv (cty (fst sm)) s, m')
                  | _ => UB
                  end)) as (m' & E & R & F).
  - exact CW.
  - intros o w m'. cbn [fst snd]. destruct (store m' o (conv et w)); try reflexivity. rewrite !bind_ok.
    destruct (cadd w step); reflexivity.
  - intros k K. cbn [cty]. rewrite step_wraps by (try assumption; apply cast_range). rewrite cast_add_l. do 3 f_equal. lia.
  - exists m'. assert (Ev : CI (cty v) (cast (cty v) (cval v + 0 * cval step)) = v)
      by (rewrite Z.mul_0_l, Z.add_0_r, cast_id by exact Wv; destruct v; reflexivity).
    cbv beta in E. rewrite Ev in E. split; [exact E|]. split; [|exact F].
    intros is_ B. exact (R is_ B).
Qed.
Lemma iota_is_step et out v (m : mem cint) : @iota et out v m = @iota_step et out v (int 1) m.
Proof.
  unfold iota, iota_step.
  pose proof (map_containers_sim eq
    (fun ps (sm : cint * mem cint) => match ps with
                  | [o] => m' <- store (snd sm) o (conv et (fst sm)) ;;
                           v' <- cincr (fst sm) ;; Ok (v', m')
                  | _ => UB
                  end)
    (fun ps (sm : cint * mem cint) => match ps with
                  | [o] => m' <- store (snd sm) o (conv et (fst sm)) ;;
                           s <- cadd (fst sm) (int 1) ;; Ok (conv (cty (fst sm)) s, m')
                  | _ => UB
                  end) out [] v v m) as G.
  match type of G with ?A -> _ => assert (HA : A) end.
  { intros ps s s' mm <-. destruct ps as [|o [|]]; try exact Logic.I. cbn [fst snd]. unfold cincr.
    destruct (store mm o (conv et s)); try exact Logic.I. rewrite !bind_ok.
    destruct (cadd s (int 1)); try exact Logic.I. split; reflexivity. }
  specialize (G HA eq_refl). revert G.
  match goal with |- agrees ?X ?Y _ -> _ => destruct X as [[a ma]| | |], Y as [[b mb]| | |] end;
    cbn [agrees fst snd bind]; try tauto. intros [_ ->]. reflexivity.
Qed.

Lemma step_overflows t v step k : t = cty v -> common t (cty step) = t -> is_signed t = true -> wfc step ->
  in_ty t (cval v + k * cval step) ->
  (s <- cadd (CI t (cval v + k * cval step)) step ;; Ok (conv t s)) =
  if in_tyb t (cval v + (k + 1) * cval step) then Ok (CI t (cval v + (k + 1) * cval step)) else UB.
Proof.
  intros Et C S Ws H. unfold cadd, arith. cbn [cty cval]. cbv zeta. rewrite C, S, (cast_id t (cval v + _)) by exact H.
  assert (Wc : in_ty t (cval step)) by (rewrite <- C; apply common_r_in; [exact Ws|rewrite C; exact S]).
  rewrite (cast_id t (cval step)) by exact Wc.
  replace (cval v + k * cval step + cval step) with (cval v + (k + 1) * cval step) by lia.
  destruct (in_tyb t (cval v + (k + 1) * cval step)) eqn:B; [|reflexivity].
  rewrite bind_ok, conv_exact by (cbn [cval]; apply in_tyb_spec; exact B). reflexivity.
Qed.

(** A loop that fails at the n-th coordinate. *)
Lemma run_fails {X S} (step : X -> S -> outcome S) (st : list X -> S) l n :
  (forall pre c post, l = pre ++ c :: post -> (length pre < n)%nat -> step c (st pre) = Ok (st (pre ++ [c]))) ->
  (forall pre c post, l = pre ++ c :: post -> length pre = n -> step c (st pre) = UB) ->
  (n < length l)%nat -> run step l (st []) = UB.
Proof.
  intros H1 H2 Hn.
  assert (G : forall post pre, l = pre ++ post -> (length pre <= n)%nat -> run step post (st pre) = UB).
  { induction post as [|c post IH]; intros pre E L.
    - rewrite app_nil_r in E. subst. lia.
    - cbn [run]. destruct (Nat.eq_dec (length pre) n) as [En|En].
      + rewrite (H2 pre c post E En). reflexivity.
      + rewrite (H1 pre c post E) by lia. cbn [bind]. apply IH; [rewrite E, <- app_assoc; reflexivity|].
        rewrite app_length. cbn [length]. lia. }
  apply (G l []); [reflexivity|cbn; lia].
Qed.
Lemma map_containers_fails {T S} (body : list ptr -> S * mem T -> outcome (S * mem T)) c0 cs m0 n
    (st : list (list Z) -> S * mem T) :
  live m0 c0 c0 -> Forall (live m0 c0) cs -> (forall pre, same_cells m0 (snd (st pre))) ->
  (forall pre is_ post, box (dims c0) = pre ++ is_ :: post -> (length pre < n)%nat ->
     body (map (fun c => elem c is_) (c0 :: cs)) (st pre) = Ok (st (pre ++ [is_]))) ->
  (forall pre is_ post, box (dims c0) = pre ++ is_ :: post -> length pre = n ->
     body (map (fun c => elem c is_) (c0 :: cs)) (st pre) = UB) ->
  (n < length (box (dims c0)))%nat -> map_containers body c0 cs (st []) = UB.
Proof.
  intros L0 Ls Sm Hb Hf Hn. destruct (live_wf m0 c0 L0) as [W N].
  unfold map_containers. rewrite for_each_run by assumption.
  pose (st' := fun l => st (map vals l)). change (st []) with (st' []). unfold dims in Hn. rewrite <- tbox_vals, map_length in Hn.
  apply (run_fails _ st' _ n); [| |exact Hn]; intros pre c post E Lp;
    destruct (tbox_at _ _ _ _ W E) as (Wc & Bc & Ty & Eb);
    (rewrite (mapM_refs m0 (snd (st' pre)) c0 (c0 :: cs) c); try assumption; [|constructor; assumption|apply Sm]);
    rewrite bind_ok; unfold st'.
  - rewrite map_app. eapply Hb; [exact Eb|rewrite map_length; exact Lp].
  - eapply Hf; [exact Eb|rewrite map_length; exact Lp].
Qed.
Lemma first_bad (P : nat -> bool) n : (forall k, (k < n)%nat -> P k = true) \/
  exists k, (k < n)%nat /\ P k = false /\ forall j, (j < k)%nat -> P j = true.
Proof.
  induction n as [|n [IH|(k & Hk & Hb & Hj)]].
  - left. lia.
  - destruct (P n) eqn:E.
    + left. intros k Hk. destruct (Nat.eq_dec k n) as [->|]; [exact E|apply IH; lia].
    + right. exists n. split; [lia|]. split; [exact E|exact IH].
  - right. exists k. split; [lia|]. split; assumption.
Qed.

Lemma iota_step_overflows_l et out v step (m : mem cint) : can_write m out out -> wfc v -> wfc step ->
  common (cty v) (cty step) = cty v -> is_signed (cty v) = true ->
  (@iota_step et out v step m = UB <->
   exists k, 0 < k <= prod (dims out) /\ ~ in_ty (cty v) (cval v + k * cval step)).
Proof.
  intros CW Wv Ws C S. destruct (live_wf m out (can_write_live _ _ _ CW)) as [_ Nn].
  pose proof (box_length (dims out) Nn) as Lb. pose proof (prod_nonneg _ Nn) as Np.
  pose (P := fun j => in_tyb (cty v) (cval v + (Z.of_nat j + 1) * cval step)).
  destruct (first_bad P (Z.to_nat (prod (dims out)))) as [G|(n & Hn & Hb & Hj)].
  - split; [intros U|].
    + exfalso. destruct (iota_step_l et out v step m CW Wv Ws) as (m' & E & _).
      * left. rewrite C. exact S.
      * intros k K. destruct (Z.eq_dec k 0) as [->|]; [rewrite Z.mul_0_l, Z.add_0_r; exact Wv|].
        specialize (G (Z.to_nat (k - 1)) ltac:(lia)). unfold P in G. rewrite Z2Nat.id in G by lia.
        apply in_tyb_spec. replace (k - 1 + 1) with k in G by lia. exact G.
      * congruence.
    + intros (k & K & B). exfalso. apply B. specialize (G (Z.to_nat (k - 1)) ltac:(lia)). unfold P in G.
      rewrite Z2Nat.id in G by lia. apply in_tyb_spec. replace (k - 1 + 1) with k in G by lia. exact G.
  - split; [intros _; exists (Z.of_nat n + 1); split; [lia|]; intros Y; apply in_tyb_spec in Y; unfold P in Hb; congruence|].
    intros _. pose proof CW as (_ & _ & D & V). unfold iota_step.
    pose (st := fun k => CI (cty v) (cval v + k * cval step)).
    pose (val := fun (pre : list (list Z)) (_ : list Z) => Some (conv et (st (Z.of_nat (length pre))))).
    assert (Ev : (v, m) = (st (Z.of_nat (length (@nil (list Z)))), pmem out val m [])).
    { unfold st. cbn [length Z.of_nat]. rewrite Z.mul_0_l, Z.add_0_r. destruct v; reflexivity. }
    assert (In : forall j, (j <= n)%nat -> in_ty (cty v) (cval v + Z.of_nat j * cval step)).
    { intros [|j] Lj; [cbn [Z.of_nat]; rewrite Z.mul_0_l, Z.add_0_r; exact Wv|]. specialize (Hj j ltac:(lia)). unfold P in Hj.
      apply in_tyb_spec. rewrite Nat2Z.inj_succ. unfold Z.succ. exact Hj. }
    rewrite Ev. rewrite (map_containers_fails _ out [] m n (fun pre => (st (Z.of_nat (length pre)), pmem out val m pre))); [reflexivity| | | | | |].
    + apply can_write_live. exact CW.
    + constructor.
    + intros pre. apply pmem_same.
    + intros pre is_ post E Lp. destruct (box_split_notin _ _ _ _ Nn E) as (_ & B & _). cbn [map fst snd].
      rewrite store_valid by (apply pmem_same, V, B). rewrite bind_ok.
      pose proof (step_overflows (cty v) v step (Z.of_nat (length pre)) eq_refl C S Ws (In (length pre) ltac:(lia))) as X.
      specialize (Hj (length pre) Lp). unfold P in Hj. rewrite Hj in X. unfold st at 1 2. cbn [cty].
      destruct (cadd _ step) as [s| | |]; cbn [bind] in X |- *; try discriminate. assert (X' : conv (cty v) s = st (Z.of_nat (length pre) + 1)) by (unfold st; congruence).
      rewrite X', pmem_step, app_length. cbn [length]. do 3 f_equal. lia.
    + intros pre is_ post E Lp. destruct (box_split_notin _ _ _ _ Nn E) as (_ & B & _). cbn [map fst snd].
      rewrite store_valid by (apply pmem_same, V, B). rewrite bind_ok.
      pose proof (step_overflows (cty v) v step (Z.of_nat (length pre)) eq_refl C S Ws (In (length pre) ltac:(lia))) as X.
      unfold P in Hb. rewrite Lp in *. rewrite Hb in X. unfold st at 1 2. cbn [cty].
      destruct (cadd _ step) as [s| | |]; cbn [bind] in X |- *; try discriminate. reflexivity.
    + lia.
Qed.
Lemma iota_wraps_l et out v (m : mem cint) : can_write m out out -> wfc v -> cty v <> I32 -> cty v <> I64 ->
  exists m', @iota et out v m = Ok m' /\
    (forall is_, in_box (dims out) is_ -> value m' out is_ (CI et (cast et (cast (cty v) (cval v + rank (dims out) is_))))) /\
    frame out out m m'.
Proof.
  intros CW Wv N1 N2. rewrite iota_is_step.
  destruct (iota_step_wraps_l et out v (int 1) m CW Wv) as (m' & E & R & F).
  - unfold wfc, in_ty; cbn; lia.
  - destruct (cty v); try congruence; first [left; reflexivity|right; intros w; unfold in_ty; cbn; lia].
  - exists m'. split; [exact E|]. split; [|exact F]. intros is_ B. specialize (R is_ B). cbn [cval] in R. rewrite Z.mul_1_r in R. exact R.
Qed.
Lemma iota_overflows_l et out v (m : mem cint) : can_write m out out -> wfc v -> cty v = I32 \/ cty v = I64 ->
  (@iota et out v m = UB <-> 0 < prod (dims out) /\ ~ in_ty (cty v) (cval v + prod (dims out))).
Proof.
  intros CW Wv Ht. rewrite iota_is_step, iota_step_overflows_l; try assumption.
  - change (cval (int 1)) with 1. split.
    + intros (k & K & B). split; [lia|]. intros H. apply B. unfold wfc, in_ty in *. lia.
    + intros [Hp B]. exists (prod (dims out)). split; [lia|]. rewrite Z.mul_1_r. exact B.
  - unfold wfc, in_ty; cbn; lia.
  - destruct Ht as [-> | ->]; reflexivity.
  - destruct Ht as [-> | ->]; reflexivity.
Qed.
