From Coq Require Import ZArith List Bool Lia.
From Verif Require Import Outcome CInt CIntFacts Spec SpecFacts ShapeSpec Shape ShapeFacts ShapeFacts2
  ForEach ForEachSpec ForEachFacts Memory MemFacts Container ContainerSpec ContainerFacts ContainerFacts2
  Algo AlgoSpec AlgoFacts AlgoFacts2 AlgoFacts3 AlgoFacts4 Calls CallSpec CallFacts CallFacts4 Uses UsesSpec UsesFacts.
Import ListNotations.
Open Scope Z_scope.

(** ** Algorithms without effects *)
Lemma reduce_reads_l {T A} c (f : A -> T -> mem T -> outcome (A * mem T)) (g : A -> T -> A) init m vs : can_read m c c ->
  values m c c vs -> (forall a v, In v vs -> f a v m = Ok (g a v, m)) ->
  reduce_use c f init m = Ok (fold_left g vs init, m).
Proof.
  intros CR V H. unfold reduce_use.
  pose (st := fun pre : list (list Z) => (fold_left g (firstn (length pre) vs) init, m)).
  change (init, m) with (st []).
  rewrite (map_containers_inv _ c [] m st).
  - unfold st. rewrite (Forall2_len _ _ _ V), firstn_all. reflexivity.
  - apply can_read_live. exact CR.
  - constructor.
  - intros pre. apply same_refl.
  - intros pre is_ post E. destruct (values_at _ _ _ _ _ _ _ V E) as (v & Ev & Hv).
    cbn [map st snd fst]. rewrite (load_peek _ _ _ Hv), bind_ok. rewrite H by (eapply nth_error_In; exact Ev).
    unfold st. rewrite app_length. cbn [length]. rewrite Nat.add_1_r, (firstn_snoc _ _ _ Ev), fold_left_app. reflexivity.
Qed.

Lemma find_if_reads_l {T} c (f : T -> mem T -> outcome (bool * mem T)) m : can_read m c c ->
  Forall (fun n => n <= 2147483648) (dims c) ->
  (forall is_ v, in_box (dims c) is_ -> value m c is_ v -> exists b, f v m = Ok (b, m)) ->
  exists r, find_if_use c f m = Ok (r, m) /\ first_at m c (fun v => f v m = Ok (true, m)) r.
Proof.
  intros CR Fd H. pose proof (can_read_live _ _ _ CR) as L. destruct (live_wf m c L) as [W Nn].
  pose (g := fun v => match f v m with Ok (b, _) => b | _ => false end).
  assert (E : find_if_use c f m = find_if c g m).
  { unfold find_if_use, find_if. rewrite !for_until_run by assumption. f_equal.
    assert (G : forall l pos, (forall t, In t l -> In t (tbox (c_shape c))) ->
      run_until (fun is_ pm => p <- ref (snd pm) c is_ ;; v <- load (snd pm) p ;; r <- f v (snd pm) ;;
        if fst r then Ok (true, (map (fun i => conv I32 (conv U64 i)) is_, snd r)) else Ok (false, (fst pm, snd r))) l (pos, m) =
      run_until (fun is_ pm => p <- ref (snd pm) c is_ ;; v <- load (snd pm) p ;;
        if g v then Ok (true, (map (fun i => conv I32 (conv U64 i)) is_, snd pm)) else Ok (false, pm)) l (pos, m)).
    { induction l as [|t l IH]; intros pos Hl; [reflexivity|]. cbn [run_until].
      destruct (in_split _ _ (Hl t (or_introl eq_refl))) as (pre & post & Et).
      destruct (tbox_at _ _ _ _ W Et) as (Wt & Bt & Ty & _).
      cbn [snd fst]. rewrite (ref_at m m c c t L (same_refl m) Wt Ty Bt), !bind_ok.
      destruct CR as (_ & _ & Rd). destruct (Rd _ Bt) as (v & Hv). rewrite (load_peek _ _ _ Hv), !bind_ok.
      destruct (H _ v Bt Hv) as (b & Eb). unfold g at 1. rewrite Eb, bind_ok. cbn [fst snd].
      destruct b; cbn [bind fst snd]; [reflexivity|]. apply IH. intros x Hx. apply Hl. right. exact Hx. }
    apply G. auto. }
  destruct (find_if_l c g m CR Fd) as (r & Er & Hr). exists r. split; [rewrite E; exact Er|].
  assert (Gt : forall is_ v, in_box (dims c) is_ -> value m c is_ v -> (g v = true <-> f v m = Ok (true, m))).
  { intros is_ v B Hv. destruct (H is_ v B Hv) as (b & Eb). unfold g. rewrite Eb. split; intros X; [subst; reflexivity|congruence]. }
  destruct r as [pos|]; cbn [first_at].
  - destruct Hr as (A & B & (v & Hv & Gv) & C). split; [exact A|]. split; [exact B|]. split.
    + exists v. split; [exact Hv|]. apply (Gt _ v B Hv). exact Gv.
    + intros is_ w Bw Hw Fw. apply (C is_ w Bw Hw). apply (Gt is_ w Bw Hw). exact Fw.
  - intros is_ v B Hv Fv. apply (Gt is_ v B Hv) in Fv. rewrite (Hr is_ v B Hv) in Fv. discriminate.
Qed.

(** ** Tallies *)
Lemma sent_app {T} (at_ : T -> list cint) b l v : sent at_ b (l ++ [v]) =
  sent at_ b l ++ (if list_eq_dec Z.eq_dec (vals (at_ v)) b then [v] else []).
Proof. unfold sent. rewrite filter_app. cbn [filter]. destruct (list_eq_dec Z.eq_dec (vals (at_ v)) b); reflexivity. Qed.

Lemma tally_l {T} c h (at_ : T -> list cint) (g : T -> T -> T) m vs : can_read m c c -> values m c c vs ->
  readable m h -> distinct_on h h ->
  (forall is_ js, in_box (dims c) is_ -> in_box (dims h) js -> elem c is_ <> elem h js) ->
  (forall v, In v vs -> coord_of h (at_ v) /\ addressable h (map cty (at_ v))) ->
  exists m', for_each_use (tally h at_ g) c [] m = Ok m' /\ frame h h m m' /\
    forall b x, in_box (dims h) b -> value m h b x -> value m' h b (fold_left g (sent at_ b vs) x).
Proof.
  intros CR V Rh D NA At. pose proof (can_read_live _ _ _ CR) as L. destruct (live_wf m c L) as [_ Nn].
  pose (Inv := fun (pre : list (list Z)) (s : unit * mem T) =>
    (same_cells m (snd s) /\ (forall p, outside h p -> cell (snd s) p = cell m p)) /\
    forall b x, in_box (dims h) b -> value m h b x -> value (snd s) h b (fold_left g (sent at_ b (firstn (length pre) vs)) x)).
  unfold for_each_use, run_map.
  match goal with |- context [for_each_containers ?b c [] (tt, m)] =>
    destruct (map_containers_ind b c [] m Inv (tt, m)) as ([[] m'] & E & (Sm & Fr) & H) end.
  - exact L.
  - constructor.
  - intros pre s H. apply H.
  - split; [split; [apply same_refl|reflexivity]|]. intros b x _ Hx. exact Hx.
  - intros pre is_ post [[] m1] Eb ((Sm & Fr) & Hp). cbn [snd] in *.
    destruct (box_split_notin _ _ _ _ Nn Eb) as (_ & B & _).
    destruct (values_at _ _ _ _ _ _ _ V Eb) as (v & Ev & Hv).
    assert (Hv1 : peek m1 (elem c is_) = Some v).
    { unfold value, peek in *. rewrite Fr; [exact Hv|]. intros js Bj. apply NA; assumption. }
    cbn [map mapM]. rewrite (load_peek _ _ _ Hv1), !bind_ok. cbn [tally].
    destruct (At v (nth_error_In _ _ Ev)) as [[Wa Ba] Ad].
    destruct (Rh _ Ba) as (x & Hx). pose proof (Hp _ x Ba Hx) as Hx1. set (x1 := fold_left g _ x) in Hx1.
    assert (Vh : cell m1 (elem h (vals (at_ v))) <> None) by (eapply peek_valid; exact Hx1).
    unfold get, Container.put. rewrite (ref_ok m1 h (at_ v) Ad Wa Ba Vh), !bind_ok, (load_peek _ _ _ Hx1), !bind_ok.
    rewrite store_valid by exact Vh. rewrite bind_ok. eexists. split; [reflexivity|]. unfold Inv. cbn [snd]. split; [split|].
    + apply same_upd. exact Sm.
    + intros p Op. rewrite cell_upd_other; [apply Fr; exact Op|]. intros E. apply (Op _ Ba). symmetry. exact E.
    + intros b y Bb Hy. rewrite app_length. cbn [length]. rewrite Nat.add_1_r, (firstn_snoc _ _ _ Ev), sent_app, fold_left_app.
      destruct (list_eq_dec Z.eq_dec (vals (at_ v)) b) as [<-|Nb].
      * assert (y = x) by (unfold value in Hx, Hy; congruence). subst y. cbn [fold_left]. fold x1. unfold value. apply peek_upd_same. exact Vh.
      * cbn [fold_left]. unfold value. rewrite peek_upd_other; [exact (Hp b y Bb Hy)|]. intros E. apply Nb. apply D; assumption.
  - exists m'. unfold map_containers in E. unfold for_each_containers. rewrite E, bind_ok. cbn [snd] in *. split; [reflexivity|].
    split; [split; [exact Sm|exact Fr]|]. intros b x Bb Hx. specialize (H b x Bb Hx).
    rewrite (Forall2_len _ _ _ V), firstn_all in H. exact H.
Qed.

(** ** Callables made of reads *)
Lemma reads_ret {T A} R (v : A) : @reads T A R (fun m => Ok (v, m)).
Proof. intros m m' x m1 _ E. injection E as -> ->. split; reflexivity. Qed.
Lemma reads_bind {T A B} R (k : mem T -> outcome (A * mem T)) (f : A -> mem T -> outcome (B * mem T)) :
  reads R k -> (forall a, reads R (f a)) -> reads R (fun m => r <- k m ;; f (fst r) (snd r)).
Proof.
  intros K F m m' v m1 H E. destruct (k m) as [[a m2]| | |] eqn:Ek; cbn [bind] in E; try discriminate. cbn [fst snd] in E.
  destruct (K m m' a m2 H Ek) as [-> Ek']. destruct (F a m m' v m1 H E) as [-> Ef]. split; [reflexivity|].
  rewrite Ek'. cbn [bind fst snd]. exact Ef.
Qed.
Lemma reads_get {T} (R : ptr -> Prop) c is_ : addressable c (map cty is_) -> coord_of c is_ -> R (elem c (vals is_)) ->
  @reads T T R (fun m => v <- get m c is_ ;; Ok (v, m)).
Proof.
  intros Ad (Wi & B) Re m m' v m1 H E. pose proof (elem_address c is_ Ad Wi B) as A. unfold get, ref in *. rewrite A in *. cbn [bind] in *.
  specialize (H _ Re). unfold validb, load in *. rewrite H. destruct (cell m (elem c (vals is_))) as [[x|]|] eqn:C; cbn [bind] in E |- *;
    rewrite ?C in E; rewrite ?H; cbn [bind] in E |- *; try discriminate.
  injection E as E1 E2. subst. split; reflexivity.
Qed.
