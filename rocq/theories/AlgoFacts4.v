From Coq Require Import ZArith List Bool Lia Sorted.
From Verif Require Import Outcome CInt CIntFacts Spec SpecFacts ShapeSpec Shape ShapeFacts ShapeFacts2
  EndRatioSpec EndRatioFacts ForEach ForEachSpec ForEachFacts Memory MemFacts Container ContainerSpec ContainerFacts
  ContainerFacts2 ContainerFacts3 Algo AlgoSpec AlgoFacts AlgoFacts2 AlgoFacts3.
Import ListNotations.
Open Scope Z_scope.

(** ** C41 *)
Lemma run_until_inv {A S} (f : A -> S -> outcome (bool * S)) (l : list A) s (P : A -> bool) (out : A -> S) :
  (forall c, In c l -> f c s = Ok (if P c then (true, out c) else (false, s))) ->
  (exists pre c post, l = pre ++ c :: post /\ P c = true /\ (forall d, In d pre -> P d = false) /\
     run_until f l s = Ok (true, out c)) \/
  ((forall d, In d l -> P d = false) /\ run_until f l s = Ok (false, s)).
Proof.
  induction l as [|x l IH]; intros H.
  - right. split; [intros d []|reflexivity].
  - cbn [run_until]. rewrite H by (left; reflexivity). rewrite bind_ok. destruct (P x) eqn:Px.
    + left. exists [], x, l. split; [reflexivity|]. split; [exact Px|]. split; [intros d []|reflexivity].
    + cbn [fst snd]. destruct IH as [(pre & c & post & -> & Pc & Hp & E)|(Hn & E)].
      * intros c Hc. apply H. right. exact Hc.
      * left. exists (x :: pre), c, post. split; [reflexivity|]. split; [exact Pc|]. split; [|exact E].
        intros d [<-|Hd]; [exact Px|apply Hp; exact Hd].
      * right. split; [|exact E]. intros d [<-|Hd]; [exact Px|apply Hn; exact Hd].
Qed.

Definition to_pos (is_ : list cint) : list cint := map (fun i => conv I32 (conv U64 i)) is_.

Lemma to_pos_ok ns is_ : wfs is_ -> in_box ns (vals is_) -> Forall (fun n => n <= 2147483648) ns ->
  vals (to_pos is_) = vals is_ /\ map cty (to_pos is_) = map (fun _ => I32) is_ /\ wfs (to_pos is_).
Proof.
  intros W. revert ns. induction W as [|i is_ Wi W IH]; intros ns B F.
  - split; [reflexivity|]. split; [reflexivity|constructor].
  - inversion B as [|n ? ns' ? Hi B']; subst. inversion F; subst.
    destruct (IH _ B') as (E1 & E2 & E3); [assumption|]. 
    assert (C : conv I32 (conv U64 i) = CI I32 (cval i)).
    { rewrite (conv_exact U64) by (unfold in_ty; simpl; lia).
      rewrite (conv_exact I32) by (unfold in_ty; simpl; lia). reflexivity. }
    unfold to_pos in *. cbn [map vals]. rewrite C. split; [cbn; f_equal; exact E1|]. split; [cbn; f_equal; exact E2|].
    constructor; [unfold wfc, in_ty; simpl; lia|exact E3].
Qed.

Lemma sorted_split {A} (R : A -> A -> Prop) l : StronglySorted R l -> forall pre c post, l = pre ++ c :: post ->
  (forall d, In d pre -> R d c) /\ (forall d, In d post -> R c d).
Proof.
  induction 1 as [|x l S IH F]; intros pre c post E; [destruct pre; discriminate|].
  rewrite Forall_forall in F. destruct pre as [|p pre]; simpl in E; injection E as -> E.
  - subst. split; [intros d []|]. intros d Hd. apply F. exact Hd.
  - destruct (IH _ _ _ E) as [H1 H2]. split; [|exact H2]. intros d [<-|Hd]; [|apply H1; exact Hd].
    apply F. rewrite E. apply in_elt.
Qed.

Lemma lex_asym a b : lex a b -> lex b a -> False.
Proof. intros H. induction H; intros G; inversion G; subst; try lia; try (apply IHlex; assumption). Qed.

Lemma find_if_l {T} c (f : T -> bool) m : can_read m c c -> Forall (fun n => n <= 2147483648) (dims c) ->
  exists r, find_if c f m = Ok (r, m) /\
    match r with
    | Some pos => map cty pos = map (fun _ => I32) (c_shape c) /\ in_box (dims c) (vals pos) /\
        (exists v, value m c (vals pos) v /\ f v = true) /\
        (forall is_ v, in_box (dims c) is_ -> value m c is_ v -> f v = true ->
           is_ = vals pos \/ lex (vals pos) is_)
    | None => forall is_ v, in_box (dims c) is_ -> value m c is_ v -> f v = false
    end.
Proof.
  intros CR Fd. pose proof (can_read_live _ _ _ CR) as L. destruct (live_wf m c L) as [W Nn].
  unfold find_if. rewrite for_until_run by assumption.
  pose (P := fun is_ : list cint => match peek m (elem c (vals is_)) with Some v => f v | None => false end).
  destruct (run_until_inv
    (fun is_ pm => p <- ref (snd pm) c is_ ;; v <- load (snd pm) p ;;
       if f v then Ok (true, (map (fun i => conv I32 (conv U64 i)) is_, snd pm)) else Ok (false, pm))
    (tbox (c_shape c)) ([], m) P (fun is_ => (to_pos is_, m))) as [(pre & t & post & E & Pt & Hp & R)|(Hn & R)].
  - intros t It. destruct (in_split _ _ It) as (pre & post & E).
    destruct (tbox_at _ _ _ _ W E) as (Wt & Bt & Ty & _).
    cbn [snd]. rewrite (ref_at m m c c t L (same_refl m) Wt Ty Bt), bind_ok.
    destruct CR as (_ & _ & Rd). destruct (Rd _ Bt) as (v & Hv). unfold P. rewrite Hv.
    rewrite (load_peek _ _ _ Hv), bind_ok. destruct (f v); reflexivity.
  - rewrite R, bind_ok. cbn [fst snd]. exists (Some (to_pos t)). split; [reflexivity|].
    destruct (tbox_at _ _ _ _ W E) as (Wt & Bt & Ty & Eb).
    destruct (to_pos_ok _ _ Wt Bt Fd) as (Ev & Et & _).
    split; [|rewrite Ev; split; [exact Bt|split]].
    + rewrite Et. clear -Bt. assert (Hl : length t = length (c_shape c)).
      { apply in_box_length in Bt. unfold vals in Bt. rewrite !map_length in Bt. congruence. }
      revert Hl. clear. generalize (c_shape c). induction t as [|x t IH]; intros [|y s] H; try discriminate; [reflexivity|].
      simpl. f_equal. apply IH. simpl in H. congruence.
    + unfold P in Pt. destruct CR as (_ & _ & Rd). destruct (Rd _ Bt) as (v & Hv). rewrite Hv in Pt. eauto.
    + intros is_ v B Hv Hf. pose proof (box_In (dims c) is_) as I. apply I in B. fold (dims c) in Eb. rewrite Eb in B.
      apply in_app_iff in B. destruct B as [B|[B|B]].
      * exfalso. apply in_map_iff in B. destruct B as (d & <- & Hd). specialize (Hp d Hd). unfold P in Hp.
        unfold value in Hv. rewrite Hv in Hp. congruence.
      * left. congruence.
      * right. destruct (sorted_split _ _ (box_sorted (dims c)) _ _ _ Eb) as [_ H]. apply H. exact B.
  - rewrite R, bind_ok. cbn [fst snd]. exists None. split; [reflexivity|].
    intros is_ v B Hv. apply box_In in B. unfold dims in B. rewrite <- tbox_vals in B. apply in_map_iff in B.
    destruct B as (t & <- & It). specialize (Hn t It). unfold P in Hn. unfold value in Hv. rewrite Hv in Hn. exact Hn.
Qed.

Lemma find_first_of_l {T} (eqb : T -> T -> bool) c vals_ (m : mem T) vs : can_read m c c ->
  can_read m vals_ vals_ -> values m vals_ vals_ vs ->
  find_first_of eqb c vals_ m = find_if c (fun e => existsb (fun x => eqb x e) vs) m.
Proof.
  intros CR CV V. pose proof (can_read_live _ _ _ CR) as L. destruct (live_wf m c L) as [W Nn].
  unfold find_first_of, find_if. rewrite !for_until_run by assumption. f_equal.
  assert (G : forall l pos, (forall t, In t l -> In t (tbox (c_shape c))) ->
    run_until (fun is_ pm => p <- ref (snd pm) c is_ ;; e <- load (snd pm) p ;;
       bm <- any_of vals_ (fun x => eqb x e) (snd pm) ;;
       if fst bm then Ok (true, (map (fun i => conv I32 (conv U64 i)) is_, snd bm))
       else Ok (false, (fst pm, snd bm))) l (pos, m) =
    run_until (fun is_ pm => p <- ref (snd pm) c is_ ;; v <- load (snd pm) p ;;
       if existsb (fun x => eqb x v) vs then Ok (true, (map (fun i => conv I32 (conv U64 i)) is_, snd pm)) else Ok (false, pm))
       l (pos, m)).
  { induction l as [|t l IH]; intros pos Hl; [reflexivity|]. cbn [run_until snd].
    destruct (in_split _ _ (Hl t (or_introl eq_refl))) as (pre & post & E).
    destruct (tbox_at _ _ _ _ W E) as (Wt & Bt & Ty & _).
    rewrite (ref_at m m c c t L (same_refl m) Wt Ty Bt), !bind_ok.
    destruct CR as (_ & _ & Rd). destruct (Rd _ Bt) as (v & Hv). rewrite (load_peek _ _ _ Hv), !bind_ok.
    unfold any_of. rewrite (reduce_l vals_ _ _ m vs CV V), fold_or, bind_ok. cbn [fst snd orb].
    destruct (existsb (fun x => eqb x v) vs); rewrite !bind_ok; cbn [fst snd]; [reflexivity|].
    apply IH. intros; apply Hl; right; assumption. }
  apply G. intros t H. exact H.
Qed.

(** ** C42 *)
Lemma mirror_box ns is_ : in_box ns is_ -> in_box ns (mirror_coord ns is_).
Proof. induction 1; simpl; constructor; try lia; assumption. Qed.
Lemma mirror_invol ns is_ : in_box ns is_ -> mirror_coord ns (mirror_coord ns is_) = is_.
Proof. induction 1; simpl; f_equal; try lia; assumption. Qed.
Lemma mirror_length ns is_ : in_box ns is_ -> length (mirror_coord ns is_) = length ns.
Proof. intros B. apply in_box_length, mirror_box. exact B. Qed.
Lemma mirror_lex ns a b : in_box ns a -> in_box ns b -> lex a b -> lex (mirror_coord ns b) (mirror_coord ns a).
Proof.
  intros Ha Hb L. revert ns Ha Hb. induction L as [i j a b Hij Hl|i a b L IH]; intros ns Ha Hb;
    inversion Ha; subst; inversion Hb; subst; simpl.
  - apply lex_head; [lia|]. rewrite (mirror_length ns0 b), (mirror_length ns0 a) by assumption. reflexivity.
  - apply lex_tail. apply IH; assumption.
Qed.
Lemma mirror_rank ns is_ : in_box ns is_ -> rank ns (mirror_coord ns is_) = prod ns - 1 - rank ns is_.
Proof.
  intros B. induction B as [|n ns i is_ Hi B IH]; [reflexivity|].
  simpl mirror_coord. rewrite (rank_cons n ns i is_) by (apply in_box_length; exact B).
  rewrite rank_cons by (apply mirror_length; exact B). rewrite prod_cons, IH. nia.
Qed.

Lemma dot_opp s is_ : dot (map Z.opp s) is_ = - dot s is_.
Proof. revert is_. induction s as [|x s IH]; intros [|i is_]; simpl; try reflexivity. rewrite IH. lia. Qed.
Lemma absdot_opp s is_ : absdot (map Z.opp s) is_ = absdot s is_.
Proof. revert is_. induction s as [|x s IH]; intros [|i is_]; simpl; try reflexivity. rewrite IH. lia. Qed.

Lemma mapM_neg st : wfs st -> signeds st -> Forall (fun s => Z.abs (cval s) <= max31) st ->
  exists ns, mapM cneg st = Ok ns /\ vals ns = map Z.opp (vals st) /\ wfs ns /\ signeds ns /\ length ns = length st.
Proof.
  intros W S F. induction W as [|s st Ws W IH].
  - exists []. repeat split; constructor.
  - inversion S as [|? ? S1 S2]; subst. inversion F as [|? ? F1 F2]; subst.
    destruct (IH S2 F2) as (ns & E & V & Wn & Sn & Ln).
    assert (Sg : sgn_ty s) by (split; [exact Ws|destruct (cty s); simpl in *; congruence]).
    destruct (cneg_sgn_total s Sg F1) as (n & En). destruct (cneg_sgn s n Sg En) as (Vn & Wn1 & _).
    assert (Sn1 : is_signed (cty n) = true).
    { unfold cneg in En. destruct (cty s) eqn:Ty; simpl in S1; try discriminate S1; cbn [promote is_signed] in En;
        destruct (in_tyb _ _); try discriminate En; injection En as <-; reflexivity. }
    exists (n :: ns). cbn [mapM]. rewrite En, bind_ok, E, bind_ok. split; [reflexivity|].
    split; [cbn; f_equal; assumption|]. split; [constructor; assumption|]. split; [constructor; assumption|].
    cbn; congruence.
Qed.

Lemma as_stride_signed s st : signeds s -> as_stride s = Ok st -> signeds st.
Proof.
  intros S E. destruct s as [|a s]; [discriminate|]. destruct s as [|b s].
  - injection E as <-. repeat constructor.
  - inversion S as [|? ? _ S']; subst. unfold as_stride in E. remember (b :: s) as l eqn:El. clear El a b s S.
    revert st E. induction S' as [|m l Hm Hl IH]; intros st E.
    + simpl in E. injection E as <-. repeat constructor.
    + cbn [kfold_left] in E. apply bind_inv in E. destruct E as (st' & E1 & E2).
      apply bind_inv in E2. destruct E2 as (f & Ef & E2). apply bind_inv in E2. destruct E2 as (x & Ex & E2).
      injection E2 as <-. specialize (IH _ E1). constructor; [|exact IH].
      destruct st' as [|g st']; [discriminate|]. injection Ef as ->. inversion IH; subst.
      unfold cmul, arith in Ex. destruct (is_signed (common (cty m) (cty f))) eqn:Sc.
      * destruct (in_tyb _ _); [|discriminate]. injection Ex as <-. exact Sc.
      * rewrite common_signed in Sc by assumption. discriminate.
Qed.

Lemma strides_bound ns : nonnegs ns -> Forall (fun x => 0 <= x <= posprod ns) (strides_of ns).
Proof.
  induction 1 as [|n ns Hn Hns IH]; [constructor|]. pose proof (posprod_tail_le n ns).
  cbn [strides_of]. constructor.
  - pose proof (prod_le_posprod ns Hns). pose proof (prod_nonneg ns Hns). lia.
  - eapply Forall_impl; [|exact IH]. intros x Hx. cbv beta in *. lia.
Qed.

Lemma default_stride c : default_layout c -> signeds (c_shape c) ->
  exists st, get_stride c = Ok st /\ wfs st /\ signeds st /\ length st = length (c_shape c) /\
             vals st = strides_of (dims c) /\ Forall (fun s => Z.abs (cval s) <= max31) st.
Proof.
  intros D S. destruct (default_wf c D) as ((W & N & (st & G & Ws & L) & K) & Sz & Nn).
  exists st. split; [exact G|]. split; [exact Ws|].
  assert (Vs : vals st = strides_of (dims c)) by (unfold strides_z in Sz; rewrite G in Sz; exact Sz).
  split; [|split; [exact L|split; [exact Vs|]]].
  - pose proof (default_kind_inv c D) as Ki. unfold get_stride in G. destruct (c_kind c).
    + destruct Ki as [Ki _]. injection G as <-. eapply as_stride_signed; eassumption.
    + injection G as <-. eapply as_stride_signed; eassumption.
    + injection G as <-. repeat constructor.
    + contradiction.
    + destruct (c_shape c) as [|a [|b s]]; try discriminate. injection G as <-.
      inversion S as [|? ? _ S']; inversion S'; subst. repeat constructor. assumption.
    + contradiction.
  - destruct D as (Lg & Ne & _). pose proof (strides_bound (dims c) N) as B. rewrite <- Vs in B.
    destruct Lg as (_ & _ & Pp). fold (dims c) in Pp. unfold max31.
    clear -B Pp. induction st as [|x st IH]; [constructor|]. inversion B; subst. constructor; [lia|apply IH; assumption].
Qed.

Lemma reverse_l ss c : default_layout c -> signeds (c_shape c) ->
  exists rc, reverse ss c = Ok rc /\ c_shape rc = c_shape c /\ addressable rc (ctypes c) /\
    forall is_, in_box (dims c) is_ -> elem rc is_ = elem c (mirror_coord (dims c) is_).
Proof.
  intros D S. destruct (default_stride c D S) as (st & G & Ws & Ss & Ls & Vs & Fs).
  destruct (default_wf c D) as ((W & N & _ & _) & Sz & Nn).
  destruct (mapM_neg st Ws Ss Fs) as (ns & Em & Vn & Wn & Sn & Ln).
  pose proof (default_reach c D) as Rc.
  pose proof D as (Lg & Ne & _). unfold reverse. rewrite G, bind_ok, Em, bind_ok, (numel_ok _ Lg Ne), bind_ok.
  change (cval (int (prod (vals (c_shape c))))) with (prod (dims c)).
  unfold make_view, make_accessor. set (data := padd (padd (c_data c) (prod (dims c))) (-1)).
  assert (Ad : forall k, (match k with K1 | K2 => False | K1S => length (c_shape c) = 1%nat
                          | K2S => length (c_shape c) = 2%nat | _ => True end) ->
    let rc := Cn k (c_shape c) ns data in
    c_shape rc = c_shape c /\ addressable rc (ctypes c) /\
    forall is_, in_box (dims c) is_ -> elem rc is_ = elem c (mirror_coord (dims c) is_)).
  { intros k Hk rc. assert (Gs : get_stride rc = Ok ns) by (destruct k; try contradiction; reflexivity).
    assert (Zs : strides_z rc = map Z.opp (strides_of (dims c))).
    { unfold strides_z. rewrite Gs, Vn, Vs. reflexivity. }
    split; [reflexivity|]. split; [split; [|split]|].
    - split; [exact W|]. split; [exact N|]. split; [exists ns; split; [exact Gs|split; [exact Wn|simpl; congruence]]|].
      destruct k; try contradiction; simpl; auto.
    - right. split; [exists ns; split; assumption|]. unfold ctypes. clear -S. unfold signeds in S.
      induction S; simpl; constructor; assumption.
    - left. intros is_ B. rewrite Zs, absdot_opp, <- Sz. apply Rc. exact B.
    - intros is_ B. unfold elem at 1. rewrite Zs, dot_opp. rewrite (default_elem c) by (try apply mirror_box; assumption).
      rewrite mirror_rank by exact B. rewrite <- rank_dot by (apply in_box_length; exact B).
      change (c_data rc) with data. unfold data. rewrite !padd_padd. f_equal. lia. }
  destruct (as_stride_ok _ Lg Ne) as (dst & Ed & _).
  destruct ss; cbn [andb]; rewrite ?Ed.
  - cbn [bind]. eexists. split; [reflexivity|]. apply (Ad KStatic I).
  - destruct (c_shape c) as [|a [|b [|d s]]] eqn:Es; cbn [bind]; eexists; (split; [reflexivity|]).
    + congruence.
    + apply (Ad K1S). reflexivity.
    + apply (Ad K2S). reflexivity.
    + apply (Ad KGen I).
Qed.

Lemma mirror_pos s pos : legal s -> signeds s -> wfs pos -> map cty pos = map (fun _ => I32) s ->
  in_box (vals s) (vals pos) ->
  exists ps, mapM (fun np => a <- csub (fst np) (int 1) ;; b <- csub a (snd np) ;; Ok (conv I32 b)) (combine s pos)
    = Ok ps /\ vals ps = mirror_coord (vals s) (vals pos) /\ map cty ps = map (fun _ => I32) s.
Proof.
  intros (W & N & P) S Wp. revert s W N P S. induction Wp as [|p pos Wp1 Wp IH]; intros s W N P S Ty B.
  - destruct s; [|discriminate]. exists []. repeat split.
  - destruct s as [|n s]; [discriminate|]. cbn [vals map] in B. inversion B as [|? ? ? ? Hi B']; subst.
    cbn [map] in Ty. injection Ty as Ty1 Ty. inversion W as [|? ? W1 W2]; subst. inversion N as [|? ? N1 N2]; subst.
    inversion S as [|? ? S1 S2]; subst. unfold vals in P. cbn [map] in P.
    pose proof (posprod_tail_le (cval n) (vals s)). pose proof (posprod_head_le (cval n) (vals s)). fold (vals s) in P.
    destruct (IH s W2 N2 ltac:(lia) S2 Ty B') as (ps & E & V & T).
    cbn [combine mapM fst snd].
    assert (S1' : is_signed (common (cty n) I32) = true) by (apply common_signed; [exact S1|reflexivity]).
    assert (E1 : csub n (int 1) = Ok (CI (common (cty n) I32) (cval n - 1))).
    { unfold csub. rewrite arith_exact; [reflexivity|exact W1|unfold wfc, in_ty; simpl; lia| |].
      - apply compat_signed; [exact S1|reflexivity].
      - apply in_ty_common_signed; [exact S1'|]. unfold max31. cbn [cval int]. lia. }
    rewrite E1, bind_ok.
    assert (E2 : csub (CI (common (cty n) I32) (cval n - 1)) p = Ok (CI (common (common (cty n) I32) (cty p)) (cval n - 1 - cval p))).
    { unfold csub. rewrite arith_exact; [reflexivity| |exact Wp1| |].
      - unfold wfc. cbn [cty cval]. apply in_ty_common_signed; [exact S1'|]. unfold max31. lia.
      - apply compat_signed; [exact S1'|rewrite Ty1; reflexivity].
      - apply in_ty_common_signed; [|unfold max31; cbn [cval]; lia]. apply common_signed; [exact S1'|rewrite Ty1; reflexivity]. }
    rewrite E2, !bind_ok, E, bind_ok. eexists. split; [reflexivity|].
    rewrite conv_exact by (unfold in_ty; simpl; lia). cbn [vals map cval cty mirror_coord].
    split; f_equal; assumption.
Qed.

Lemma find_last_if_l {T} ss c (f : T -> bool) m : default_layout c -> signeds (c_shape c) -> readable m c ->
  exists r, find_last_if ss c f m = Ok (r, m) /\
    match r with
    | Some pos => map cty pos = map (fun _ => I32) (c_shape c) /\ in_box (dims c) (vals pos) /\
        (exists v, value m c (vals pos) v /\ f v = true) /\
        (forall is_ v, in_box (dims c) is_ -> value m c is_ v -> f v = true ->
           is_ = vals pos \/ lex is_ (vals pos))
    | None => forall is_ v, in_box (dims c) is_ -> value m c is_ v -> f v = false
    end.
Proof.
  intros D S R. destruct (reverse_l ss c D S) as (rc & Er & Sh & Ad & El).
  assert (Ed : dims rc = dims c) by (unfold dims; rewrite Sh; reflexivity).
  assert (Hv : forall is_ v, in_box (dims c) is_ -> (value m rc is_ v <-> value m c (mirror_coord (dims c) is_) v)).
  { intros is_ v B. unfold value. rewrite (El is_ B). tauto. }
  assert (CR : can_read m rc rc).
  { split; [unfold ctypes; rewrite Sh; exact Ad|]. split; [intros is_ B; exact B|]. rewrite Ed. intros is_ B.
    destruct (R _ (mirror_box _ _ B)) as (v & Hvv). exists v. apply Hv; assumption. }
  pose proof D as (Lg & Ne & _).
  assert (Fd : Forall (fun n => n <= 2147483648) (dims rc)).
  { rewrite Ed. destruct Lg as (_ & _ & Pp). fold (dims c) in Pp. revert Pp. generalize (dims c).
    clear. induction l as [|n l IH]; intros P; constructor.
    - pose proof (posprod_head_le n l). lia.
    - apply IH. pose proof (posprod_tail_le n l). lia. }
  destruct (find_if_l rc f m CR Fd) as (r & E & H). unfold find_last_if. rewrite Er, bind_ok, E, bind_ok.
  destruct r as [pos|].
  - destruct H as (Ty & B & (v & Hvv & Hf) & Hm). rewrite Ed in B, Hm. rewrite Sh in Ty.
    assert (Wp : wfs pos).
    { destruct Lg as (_ & _ & Pp). fold (dims c) in Pp. revert Ty B Pp. unfold dims. generalize (c_shape c). clear.
      induction pos as [|p pos IH]; intros [|n s] Ty B Pp; try discriminate; constructor.
      - cbn [vals map] in *. injection Ty as Ty1 _. inversion B; subst. unfold wfc, in_ty. rewrite Ty1. simpl.
        pose proof (posprod_head_le (cval n) (vals s)). unfold vals in *. lia.
      - cbn [vals map] in *. injection Ty as _ Ty. inversion B; subst. apply (IH s Ty); [assumption|].
        pose proof (posprod_tail_le (cval n) (vals s)). unfold vals in *. lia. }
    destruct (mirror_pos (c_shape c) pos Lg S Wp Ty B) as (ps & Eps & Vps & Tps). fold (dims c) in Vps.
    rewrite Eps, bind_ok. exists (Some ps). split; [reflexivity|]. split; [exact Tps|]. rewrite Vps.
    split; [apply mirror_box; exact B|]. split; [exists v; split; [apply Hv; assumption|exact Hf]|].
    intros is_ w Bi Hw Hfw. destruct (Hm (mirror_coord (dims c) is_) w) as [Eq|Lx].
    + apply mirror_box; exact Bi.
    + apply Hv; [apply mirror_box; exact Bi|]. rewrite mirror_invol by exact Bi. exact Hw.
    + exact Hfw.
    + left. rewrite <- Eq, mirror_invol by exact Bi. reflexivity.
    + right. rewrite <- (mirror_invol (dims c) is_ Bi). apply mirror_lex; [exact B|apply mirror_box; exact Bi|exact Lx].
  - exists None. split; [reflexivity|]. intros is_ v B Hvv. rewrite Ed in H.
    apply (H (mirror_coord (dims c) is_) v); [apply mirror_box; exact B|].
    apply Hv; [apply mirror_box; exact B|]. rewrite mirror_invol by exact B. exact Hvv.
Qed.

(** ** C52 *)
Lemma for_each_l {T S} (f : list ptr -> S * mem T -> outcome (S * mem T)) c0 cs s m :
  live m c0 c0 -> Forall (live m c0) cs ->
  (forall ps s m s' m', f ps (s, m) = Ok (s', m') -> same_cells m m') ->
  for_each_containers f c0 cs (s, m) =
  run (fun is_ => f (map (fun c => elem c (vals is_)) (c0 :: cs))) (tbox (c_shape c0)) (s, m).
Proof.
  intros L0 Ls Hf. destruct (live_wf m c0 L0) as [W N]. unfold for_each_containers.
  rewrite for_each_run by assumption.
  assert (G : forall l s m', same_cells m m' -> (forall t, In t l -> In t (tbox (c_shape c0))) ->
    run (fun is_ sm => ps <- mapM (fun c => ref (snd sm) c is_) (c0 :: cs) ;; f ps sm) l (s, m') =
    run (fun is_ => f (map (fun c => elem c (vals is_)) (c0 :: cs))) l (s, m')).
  { induction l as [|t l IH]; intros s' m' Sm Hl; [reflexivity|]. cbn [run].
    destruct (in_split _ _ (Hl t (or_introl eq_refl))) as (pre & post & E).
    destruct (tbox_at _ _ _ _ W E) as (Wt & Bt & Ty & _).
    rewrite (mapM_refs m (snd (s', m')) c0 (c0 :: cs) t); try assumption; [|constructor; assumption].
    rewrite bind_ok. destruct (f _ (s', m')) as [[s'' m'']| | |] eqn:Ef; try reflexivity. rewrite !bind_ok.
    apply IH; [|intros; apply Hl; right; assumption]. intros p. rewrite (Sm p). apply (Hf _ _ _ _ _ Ef). }
  apply G; [apply same_refl|]. intros t H. exact H.
Qed.

Lemma for_each_index_l {T S} (f : ptr -> list cint -> S * mem T -> outcome (S * mem T)) c s m :
  live m c c -> (forall p is_ s m s' m', f p is_ (s, m) = Ok (s', m') -> same_cells m m') ->
  for_each_index f c (s, m) = run (fun is_ => f (elem c (vals is_)) is_) (tbox (c_shape c)) (s, m).
Proof.
  intros L0 Hf. destruct (live_wf m c L0) as [W N]. unfold for_each_index.
  rewrite for_each_run by assumption.
  assert (G : forall l s m', same_cells m m' -> (forall t, In t l -> In t (tbox (c_shape c))) ->
    run (fun is_ sm => p <- ref (snd sm) c is_ ;; f p is_ sm) l (s, m') =
    run (fun is_ => f (elem c (vals is_)) is_) l (s, m')).
  { induction l as [|t l IH]; intros s' m' Sm Hl; [reflexivity|]. cbn [run].
    destruct (in_split _ _ (Hl t (or_introl eq_refl))) as (pre & post & E).
    destruct (tbox_at _ _ _ _ W E) as (Wt & Bt & Ty & _).
    rewrite (ref_at m (snd (s', m')) c c t); try assumption. rewrite bind_ok.
    destruct (f _ _ (s', m')) as [[s'' m'']| | |] eqn:Ef; try reflexivity. rewrite !bind_ok.
    apply IH; [|intros; apply Hl; right; assumption]. intros p. rewrite (Sm p). apply (Hf _ _ _ _ _ _ Ef). }
  apply G; [apply same_refl|]. intros t H. exact H.
Qed.

(** ** Where the hypotheses come from *)
Lemma default_can_read {T} (m : mem T) c0 c : default_layout c -> dims c0 = dims c -> readable m c -> can_read m c0 c.
Proof.
  intros D E R. split; [apply default_addressable; exact D|]. unfold covers. rewrite E. split; [auto|exact R].
Qed.

Lemma padd_inj p j k : p <> Null -> padd p j = padd p k -> j = k.
Proof. destruct p; [congruence|]. simpl. intros _ E. injection E. lia. Qed.

Lemma default_can_write {T} (m : mem T) c0 c : default_layout c -> dims c0 = dims c -> writable m c -> can_write m c0 c.
Proof.
  intros D E Wr. split; [apply default_addressable; exact D|]. unfold covers, distinct_on. rewrite E.
  split; [auto|]. split; [|exact Wr]. intros a b Ha Hb H. rewrite !default_elem in H by assumption.
  apply padd_inj in H; [apply (rank_inj (dims c)); assumption|]. intros N. apply (Wr a Ha). unfold elem. rewrite N. reflexivity.
Qed.

Lemma default_no_cross {T} (m : mem T) c : default_layout c -> writable m c -> no_cross_alias c c c.
Proof. intros D W. apply distinct_no_cross. apply (default_can_write m c c D eq_refl W). Qed.

Lemma other_block_no_alias c0 i o bi oi bo oo : c_data i = Ptr bi oi -> c_data o = Ptr bo oo -> bi <> bo ->
  no_alias c0 i o.
Proof. intros Ei Eo N a b _ _. unfold elem. rewrite Ei, Eo. simpl. intros H. injection H. congruence. Qed.

Lemma readable_writable {T} (m : mem T) c : readable m c -> writable m c.
Proof. intros R is_ B. destruct (R is_ B) as (v & Hv). eapply peek_valid; exact Hv. Qed.

Lemma no_alias_cross c0 i o : no_alias c0 i o -> no_cross_alias c0 i o.
Proof. intros N a b Ha Hb _. apply N; assumption. Qed.

Lemma replace_l {T} (eqb : T -> T -> bool) out a b (m : mem T) : (forall x y, eqb x y = true <-> x = y) ->
  can_write m out out -> can_read m out out ->
  exists m', replace eqb out a b m = Ok m' /\
    (forall is_ x, in_box (dims out) is_ -> value m out is_ x -> (x = a -> value m' out is_ b) /\ (x <> a -> value m' out is_ x)) /\
    (a <> b -> forall is_, in_box (dims out) is_ -> ~ value m' out is_ a) /\ frame out out m m'.
Proof.
  intros Heq CW CR. destruct (replace_if_l out (fun x => eqb x a) b m CW CR) as (m' & E & R & F).
  exists m'. split; [exact E|].
  assert (R' : forall is_ x, in_box (dims out) is_ -> value m out is_ x ->
    (x = a -> value m' out is_ b) /\ (x <> a -> value m' out is_ x)).
  { intros is_ x B Hx. specialize (R is_ x B Hx). destruct (eqb x a) eqn:Ex.
    - apply Heq in Ex. split; [intros _; exact R|congruence].
    - split; [|intros _; exact R]. intros ->. assert (eqb a a = true) by (apply Heq; reflexivity). congruence. }
  split; [exact R'|]. split; [|exact F]. intros Ne is_ B Ha.
  destruct CR as (_ & _ & Rd). destruct (Rd is_ B) as (x & Hx). destruct (R' is_ x B Hx) as [R1 R2].
  unfold value in *. assert (Dec : x = a \/ x <> a).
  { destruct (eqb x a) eqn:Ex; [left; apply Heq; exact Ex|right]. intros ->.
    assert (eqb a a = true) by (apply Heq; reflexivity). congruence. }
  destruct Dec as [->|Nx]; [rewrite (R1 eq_refl) in Ha|rewrite (R2 Nx) in Ha]; congruence.
Qed.

(** ** Packaging *)
Lemma iota_default_l et out (m : mem cint) : can_write m out out -> in_ty et (prod (dims out)) ->
  exists m', @iota_default et out m = Ok m' /\
    (forall is_, in_box (dims out) is_ -> value m' out is_ (CI et (rank (dims out) is_))) /\
    frame out out m m'.
Proof.
  intros CW H. assert (W0 : wfc (CI et 0)) by (unfold wfc, in_ty; cbn [cty cval]; destruct et; simpl; lia).
  destruct (iota_l et out (CI et 0) m CW W0) as (m' & E & R & F).
  { cbn [cty cval]. exact H. }
  exists m'. split; [exact E|]. split; [|exact F]. intros is_ B. specialize (R is_ B). cbn [cval] in R.
  rewrite Z.add_0_l in R. apply R. pose proof (rank_range _ _ B). unfold in_ty in *. destruct et; simpl in *; lia.
Qed.

Lemma reduce_values_l {T A} c (f : A -> T -> A) init m : can_read m c c ->
  exists vs, values m c c vs /\ Z.of_nat (length vs) = prod (dims c) /\
    reduce c f init m = Ok (fold_left f vs init, m).
Proof.
  intros CR. destruct (values_exist m c c CR) as (vs & V). exists vs. split; [exact V|].
  split; [|apply reduce_l; assumption]. rewrite <- (Forall2_len _ _ _ V). apply box_length.
  apply (live_wf m c (can_read_live _ _ _ CR)).
Qed.
Lemma count_if_values_l {T} c (f : T -> bool) m : can_read m c c -> prod (dims c) < 2 ^ 64 ->
  exists vs, values m c c vs /\ count_if c f m = Ok (Z.of_nat (length (filter f vs)), m).
Proof.
  intros CR P. destruct (values_exist m c c CR) as (vs & V). exists vs. split; [exact V|]. apply count_if_l; assumption.
Qed.
Lemma count_values_l {T} (eqb : T -> T -> bool) c v m : can_read m c c -> prod (dims c) < 2 ^ 64 ->
  exists vs, values m c c vs /\ count eqb c v m = Ok (Z.of_nat (length (filter (fun x => eqb x v) vs)), m).
Proof. intros CR P. exact (count_if_values_l c (fun x => eqb x v) m CR P). Qed.
Lemma transform_reduce_values_l {T A B} c1 c2 (R : A -> B -> A) (f : T -> T -> B) init m :
  can_read m c1 c1 -> can_read m c1 c2 ->
  exists vs1 vs2, values m c1 c1 vs1 /\ values m c1 c2 vs2 /\
    transform_reduce c1 c2 init R f m =
    Ok (fold_left (fun a p => R a (f (fst p) (snd p))) (combine vs1 vs2) init, m).
Proof.
  intros CR1 CR2. destruct (values_exist m c1 c1 CR1) as (vs1 & V1). destruct (values_exist m c1 c2 CR2) as (vs2 & V2).
  exists vs1, vs2. split; [exact V1|]. split; [exact V2|]. apply reduce2_l; assumption.
Qed.
Lemma inner_product_values_l {T A B} dbg c1 c2 (R : A -> B -> A) (f : T -> T -> B) init m :
  can_read m c1 c1 -> can_read m c1 c2 ->
  legal (c_shape c1) -> legal (c_shape c2) -> c_shape c1 <> [] -> dims c1 = dims c2 ->
  exists vs1 vs2, values m c1 c1 vs1 /\ values m c1 c2 vs2 /\
    inner_product dbg c1 c2 init R f m =
    Ok (fold_left (fun a p => R a (f (fst p) (snd p))) (combine vs1 vs2) init, m).
Proof.
  intros CR1 CR2 L1 L2 Ne Eq. destruct (values_exist m c1 c1 CR1) as (vs1 & V1). destruct (values_exist m c1 c2 CR2) as (vs2 & V2).
  exists vs1, vs2. split; [exact V1|]. split; [exact V2|]. apply inner_product_l; assumption.
Qed.
Lemma inclusive_values_l {T B} in_ out (init : T) (f1 : T -> B -> T) f2 m :
  can_read m in_ in_ -> can_write m in_ out -> no_cross_alias in_ in_ out ->
  exists vs m', values m in_ in_ vs /\ transform_inclusive_scan in_ out init f1 f2 m = Ok m' /\
    (forall is_, in_box (dims in_) is_ ->
       value m' out is_ (fold_left (fun a v => f1 a (f2 v))
                           (firstn (Z.to_nat (rank (dims in_) is_) + 1) vs) init)) /\
    frame in_ out m m'.
Proof.
  intros CR CW NA. destruct (values_exist m in_ in_ CR) as (vs & V).
  destruct (inclusive_l in_ out init f1 f2 m vs CR CW NA V) as (m' & H). exists vs, m'. split; [exact V|exact H].
Qed.
Lemma exclusive_values_l {T B} in_ out (init : T) (f1 : T -> B -> T) f2 m :
  can_read m in_ in_ -> can_write m in_ out -> no_alias in_ in_ out ->
  exists vs m', values m in_ in_ vs /\ transform_exclusive_scan in_ out init f1 f2 m = Ok m' /\
    (forall is_, in_box (dims in_) is_ ->
       value m' out is_ (fold_left (fun a v => f1 a (f2 v))
                           (firstn (Z.to_nat (rank (dims in_) is_)) vs) init)) /\
    frame in_ out m m'.
Proof.
  intros CR CW NA. destruct (values_exist m in_ in_ CR) as (vs & V).
  destruct (exclusive_l in_ out init f1 f2 m vs CR CW NA V) as (m' & H). exists vs, m'. split; [exact V|exact H].
Qed.

Lemma first_at_of {T} (m : mem T) c (f : T -> bool) (P : T -> Prop) r :
  (forall v, f v = true <-> P v) ->
  match r with
  | Some pos => map cty pos = map (fun _ => I32) (c_shape c) /\ in_box (dims c) (vals pos) /\
      (exists v, value m c (vals pos) v /\ f v = true) /\
      (forall is_ v, in_box (dims c) is_ -> value m c is_ v -> f v = true ->
         is_ = vals pos \/ lex (vals pos) is_)
  | None => forall is_ v, in_box (dims c) is_ -> value m c is_ v -> f v = false
  end -> first_at m c P r.
Proof.
  intros Hf H. destruct r as [pos|]; cbn [first_at].
  - destruct H as (H1 & H2 & (v & Hv & Hfv) & H4). split; [exact H1|]. split; [exact H2|]. split.
    + exists v. split; [exact Hv|apply Hf; exact Hfv].
    + intros is_ w B Hw Ha. apply (H4 is_ w B Hw). apply Hf. exact Ha.
  - intros is_ v B Hv Ha. specialize (H is_ v B Hv). apply Hf in Ha. congruence.
Qed.
Lemma last_at_of {T} (m : mem T) c (f : T -> bool) (P : T -> Prop) r :
  (forall v, f v = true <-> P v) ->
  match r with
  | Some pos => map cty pos = map (fun _ => I32) (c_shape c) /\ in_box (dims c) (vals pos) /\
      (exists v, value m c (vals pos) v /\ f v = true) /\
      (forall is_ v, in_box (dims c) is_ -> value m c is_ v -> f v = true ->
         is_ = vals pos \/ lex is_ (vals pos))
  | None => forall is_ v, in_box (dims c) is_ -> value m c is_ v -> f v = false
  end -> last_at m c P r.
Proof.
  intros Hf H. destruct r as [pos|]; cbn [last_at].
  - destruct H as (H1 & H2 & (v & Hv & Hfv) & H4). split; [exact H1|]. split; [exact H2|]. split.
    + exists v. split; [exact Hv|apply Hf; exact Hfv].
    + intros is_ w B Hw Ha. apply (H4 is_ w B Hw). apply Hf. exact Ha.
  - intros is_ v B Hv Ha. specialize (H is_ v B Hv). apply Hf in Ha. congruence.
Qed.

Lemma find_if_first_l {T} c (f : T -> bool) m :
  can_read m c c -> Forall (fun n => n <= 2147483648) (dims c) ->
  exists r, find_if c f m = Ok (r, m) /\ first_at m c (fun v => f v = true) r.
Proof.
  intros CR Fd. destruct (find_if_l c f m CR Fd) as (r & E & H). exists r. split; [exact E|].
  apply (first_at_of m c f); [tauto|exact H].
Qed.
Lemma find_first_l {T} (eqb : T -> T -> bool) c x m :
  can_read m c c -> Forall (fun n => n <= 2147483648) (dims c) ->
  exists r, find eqb c x m = Ok (r, m) /\ first_at m c (fun v => eqb v x = true) r.
Proof. intros CR Fd. exact (find_if_first_l c (fun v => eqb v x) m CR Fd). Qed.
Lemma find_if_not_first_l {T} c (f : T -> bool) m :
  can_read m c c -> Forall (fun n => n <= 2147483648) (dims c) ->
  exists r, find_if_not c f m = Ok (r, m) /\ first_at m c (fun v => f v = false) r.
Proof.
  intros CR Fd. destruct (find_if_l c (fun v => negb (f v)) m CR Fd) as (r & E & H). exists r. split; [exact E|].
  apply (first_at_of m c (fun v => negb (f v))); [|exact H]. intros v. destruct (f v); simpl; split; congruence.
Qed.
Lemma find_first_of_first_l {T} (eqb : T -> T -> bool) c cv (m : mem T) :
  can_read m c c -> can_read m cv cv -> Forall (fun n => n <= 2147483648) (dims c) ->
  exists r, find_first_of eqb c cv m = Ok (r, m) /\
    first_at m c (fun v => exists is_ x, in_box (dims cv) is_ /\ value m cv is_ x /\ eqb x v = true) r.
Proof.
  intros CR CV Fd. destruct (values_exist m cv cv CV) as (vs & V).
  rewrite (find_first_of_l eqb c cv m vs CR CV V).
  destruct (find_if_l c (fun e => existsb (fun x => eqb x e) vs) m CR Fd) as (r & E & H).
  exists r. split; [exact E|]. apply (first_at_of m c (fun e => existsb (fun x => eqb x e) vs)); [|exact H].
  intros v. rewrite existsb_exists. split.
  - intros (x & I & Hx). apply (values_In m cv vs x V) in I. destruct I as (is_ & B & Hv). exists is_, x. auto.
  - intros (is_ & x & B & Hx & Hv). exists x. split; [|exact Hv]. apply (values_In m cv vs x V). eauto.
Qed.
Lemma find_last_if_last_l {T} ss c (f : T -> bool) m : default_layout c -> signeds (c_shape c) -> readable m c ->
  exists r, find_last_if ss c f m = Ok (r, m) /\ last_at m c (fun v => f v = true) r.
Proof.
  intros D S R. destruct (find_last_if_l ss c f m D S R) as (r & E & H). exists r. split; [exact E|].
  apply (last_at_of m c f); [tauto|exact H].
Qed.
Lemma find_last_last_l {T} (eqb : T -> T -> bool) ss c x m : default_layout c -> signeds (c_shape c) -> readable m c ->
  exists r, find_last eqb ss c x m = Ok (r, m) /\ last_at m c (fun v => eqb v x = true) r.
Proof. intros D S R. exact (find_last_if_last_l ss c (fun v => eqb v x) m D S R). Qed.
Lemma find_last_if_not_last_l {T} ss c (f : T -> bool) m : default_layout c -> signeds (c_shape c) -> readable m c ->
  exists r, find_last_if_not ss c f m = Ok (r, m) /\ last_at m c (fun v => f v = false) r.
Proof.
  intros D S R. destruct (find_last_if_l ss c (fun v => negb (f v)) m D S R) as (r & E & H). exists r. split; [exact E|].
  apply (last_at_of m c (fun v => negb (f v))); [|exact H]. intros v. destruct (f v); simpl; split; congruence.
Qed.

Lemma for_each_trace_l {T S} (f : list ptr -> S * mem T -> outcome (S * mem T)) c0 cs m :
  live m c0 c0 -> Forall (live m c0) cs ->
  (forall ps s m s' m', f ps (s, m) = Ok (s', m') -> same_cells m m') ->
  exists trace, visits_all (c_shape c0) trace /\
    forall s, for_each_containers f c0 cs (s, m) =
              run (fun is_ => f (map (fun c => elem c (vals is_)) (c0 :: cs))) trace (s, m).
Proof.
  intros L0 Ls Hf. exists (tbox (c_shape c0)). split; [apply tbox_visits, (live_wf m c0 L0)|].
  intros s. apply for_each_l; assumption.
Qed.
Lemma for_each_index_trace_l {T S} (f : ptr -> list cint -> S * mem T -> outcome (S * mem T)) c m :
  live m c c -> (forall p is_ s m s' m', f p is_ (s, m) = Ok (s', m') -> same_cells m m') ->
  exists trace, visits_all (c_shape c) trace /\
    forall s, for_each_index f c (s, m) = run (fun is_ => f (elem c (vals is_)) is_) trace (s, m).
Proof.
  intros L0 Hf. exists (tbox (c_shape c)). split; [apply tbox_visits, (live_wf m c L0)|].
  intros s. apply for_each_index_l; assumption.
Qed.
