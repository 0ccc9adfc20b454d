(** Construction, conversion and checks on mixed extents. *)
From Coq Require Import ZArith String List Bool Lia Permutation.
From Verif Require Import Outcome CInt CIntFacts Spec SpecFacts ShapeSpec Shape ShapeFacts ShapeFacts2
  Prefilled PrefilledSpec PrefilledFacts.
Import ListNotations.
Open Scope Z_scope.

Definition contradictsb (d : desc) (e : extent) : bool :=
  match acont d, e with
  | CStatic c, EInt v | CStatic c, EConst v => negb (ceqb v c)
  | _, _ => false
  end.

Lemma sane_eqb a b : sane a -> sane b -> ceqb a b = (cval a =? cval b).
Proof. intros [A1 A2] [B1 B2]. apply ceqb_exact; try assumption. apply compat_nonneg; assumption. Qed.

Lemma contradictsb_spec d e : sane_desc d -> sane_ext e ->
  (contradictsb d e = true <-> contradicts d e).
Proof.
  unfold contradictsb, contradicts, sane_desc, sane_ext. intros Hd He.
  destruct (acont d), e; try (split; [discriminate|tauto]);
  rewrite sane_eqb by assumption; rewrite negb_true_iff, Z.eqb_neq; tauto.
Qed.

Lemma replace_nth_id {A} n (x : A) l : nth_error l n = Some x -> replace_nth n x l = l.
Proof.
  revert n; induction l as [|y l IH]; intros [|n] H; simpl in *; try discriminate.
  - injection H as ->. reflexivity.
  - rewrite IH by exact H. reflexivity.
Qed.

Lemma replace_nth_split {A} n (x : A) l : (n < length l)%nat ->
  replace_nth n x l = firstn n l ++ x :: skipn (S n) l.
Proof.
  revert n; induction l as [|y l IH]; intros [|n] H; simpl in *; try lia; [reflexivity|].
  rewrite IH by lia. reflexivity.
Qed.

Lemma nth_static p n d c : wfp p -> nth_error (pdesc p) n = Some d -> acont d = CStatic c ->
  nth_error (values p) n = Some c.
Proof.
  intros Hw Hd Hc. unfold values. destruct (nth_index _ _ _ Hd) as (i & Ei).
  destruct (nth_interleave (pdesc p) 0 n i d Ei Hd) as [[[-> _]|(_ & _ & H3)] H4].
  - rewrite H4 by (apply wfp_length, Hw). cbn. rewrite Hc. reflexivity.
  - exfalso. apply (H3 _ Hc).
Qed.

Lemma construct_axis_ok dbg def i v p d : wfp p -> nth_error (pdesc p) i = Some d ->
  (dbg && contradictsb d v = true -> construct_axis dbg def i v p = Abort) /\
  (dbg && contradictsb d v = false -> exists p', construct_axis dbg def i v p = Ok p' /\
     pdesc p' = pdesc p /\ wfp p' /\ values p' = replace_nth i (expected def d v) (values p)).
Proof.
  intros Hw Hd. unfold construct_axis. rewrite (pcontains_ok _ _ _ Hd). cbn [bind].
  destruct (is_dynamic d) eqn:D.
  - assert (Hr : runtime d) by (apply is_dynamic_runtime; exact D).
    assert (Hc : contradictsb d v = false).
    { unfold contradictsb. destruct (acont d) eqn:E; [reflexivity..|exfalso; apply (Hr _ E)]. }
    rewrite Hc, andb_false_r. split; [discriminate|]. intros _.
    destruct (pset_ok p i d (as_dimension v def) Hw Hd Hr) as (p' & E & Hp & Hw' & Hv).
    exists p'. split; [exact E|]. split; [exact Hp|]. split; [exact Hw'|]. rewrite Hv. f_equal.
    unfold expected. destruct (acont d) eqn:E'; [| |exfalso; apply (Hr _ E')]; destruct v; reflexivity.
  - apply is_dynamic_static in D. destruct D as [c Hc].
    pose proof (nth_static p i d c Hw Hd Hc) as Hn.
    rewrite pget_ok, Hn by exact Hw. cbn [bind].
    assert (Hk : kassert dbg (if ext_is_joker v then Ok true else Ok (ext_eqb v c))
                 = if dbg && contradictsb d v then Abort else Ok tt).
    { unfold kassert, contradictsb. rewrite Hc. destruct dbg; [|reflexivity].
      destruct v as [|x|x]; cbn; [reflexivity|destruct (ceqb x c); reflexivity..]. }
    rewrite Hk. destruct (dbg && contradictsb d v); cbn [bind]; (split; [|]); try discriminate; [reflexivity|].
    intros _. exists p. split; [reflexivity|]. split; [reflexivity|]. split; [exact Hw|].
    unfold expected. rewrite Hc. symmetry. apply replace_nth_id, Hn.
Qed.

Fixpoint clash (ds : list desc) (es : list extent) : bool :=
  match ds, es with
  | d :: ds', e :: es' => contradictsb d e || clash ds' es'
  | _, _ => false
  end.

Lemma clash_spec ds : Forall sane_desc ds -> forall es, Forall sane_ext es -> (clash ds es = true <->
  exists i d e, nth_error ds i = Some d /\ nth_error es i = Some e /\ contradicts d e).
Proof.
  induction 1 as [|d ds Sd Sds IH]; intros es Hes; simpl.
  - split; [discriminate|]. intros (i & d & e & H & _). destruct i; discriminate.
  - destruct Hes as [|e es Se Ses].
    + split; [discriminate|]. intros (i & d' & e & _ & H & _). destruct i; discriminate.
    + rewrite orb_true_iff, (IH es Ses), contradictsb_spec by assumption. split.
      * intros [H|(i & d' & e' & H)]; [exists O, d, e; auto|exists (S i), d', e'; exact H].
      * intros ([|i] & d' & e' & H1 & H2 & H3); cbn [nth_error] in *.
        -- injection H1 as <-. injection H2 as <-. left; exact H3.
        -- right. exists i, d', e'. auto.
Qed.

Lemma skipn_cons_nth {A} i (l : list A) x : nth_error l i = Some x -> skipn i l = x :: skipn (S i) l.
Proof.
  revert i; induction l as [|y l IH]; intros [|i] H; simpl in *; try discriminate.
  - injection H as ->. reflexivity.
  - rewrite IH by exact H. reflexivity.
Qed.

Lemma firstn_snoc {A} i (l m : list A) x : (i <= length l)%nat ->
  firstn (S i) (firstn i l ++ x :: m) = firstn i l ++ [x].
Proof.
  intros H. rewrite firstn_app, firstn_length_le by exact H.
  rewrite firstn_all2 by (rewrite firstn_length; lia).
  replace (S i - i)%nat with 1%nat by lia. reflexivity.
Qed.

Lemma construct_from_ok dbg def vs : forall i p, wfp p -> (i + length vs = length (pdesc p))%nat ->
  (dbg && clash (skipn i (pdesc p)) vs = true -> construct_from dbg def i vs p = Abort) /\
  (dbg && clash (skipn i (pdesc p)) vs = false -> exists p', construct_from dbg def i vs p = Ok p' /\
     pdesc p' = pdesc p /\ wfp p' /\
     values p' = firstn i (values p) ++ map2 (expected def) (skipn i (pdesc p)) vs).
Proof.
  induction vs as [|v vs IH]; intros i p Hw Hl.
  - cbn [construct_from]. rewrite (skipn_all2 (pdesc p)) by (simpl in Hl; lia). cbn [clash map2].
    rewrite andb_false_r. split; [discriminate|]. intros _. exists p.
    rewrite app_nil_r, firstn_all2 by (rewrite values_length by exact Hw; simpl in Hl; lia).
    auto.
  - cbn [length] in Hl.
    destruct (nth_error (pdesc p) i) as [d|] eqn:Hd.
    2:{ apply nth_error_None in Hd. lia. }
    rewrite (skipn_cons_nth _ _ _ Hd). cbn [clash map2 construct_from].
    destruct (construct_axis_ok dbg def i v p d Hw Hd) as [A1 A2].
    destruct (dbg && contradictsb d v) eqn:C.
    + rewrite (A1 eq_refl). cbn [bind]. split; [reflexivity|].
      apply andb_true_iff in C. destruct C as [-> ->]. discriminate.
    + destruct (A2 eq_refl) as (p1 & E1 & D1 & W1 & V1). rewrite E1. cbn [bind].
      destruct (IH (S i) p1 W1) as [B1 B2]; [rewrite D1; lia|]. rewrite D1 in *.
      assert (HC : dbg && (contradictsb d v || clash (skipn (S i) (pdesc p)) vs)
                   = dbg && clash (skipn (S i) (pdesc p)) vs).
      { destruct dbg; [|reflexivity]. cbn [andb] in *. rewrite C. reflexivity. }
      rewrite HC. split; [exact B1|]. intros H. destruct (B2 H) as (p2 & E2 & D2 & W2 & V2).
      exists p2. split; [exact E2|]. split; [exact D2|]. split; [exact W2|].
      rewrite V2, V1.
      assert (Hi : (i < length (values p))%nat) by (rewrite values_length by exact Hw; lia).
      rewrite replace_nth_split by exact Hi. rewrite firstn_snoc by lia.
      rewrite <- app_assoc. reflexivity.
Qed.

(** As many values as axes. *)
Lemma construct_full_ok dbg ds def vs : length vs = length ds ->
  (dbg && clash ds vs = true -> construct_from dbg def 0 vs (pdefault ds) = Abort) /\
  (dbg && clash ds vs = false -> exists p', construct_from dbg def 0 vs (pdefault ds) = Ok p' /\
     pdesc p' = ds /\ wfp p' /\ values p' = map2 (expected def) ds vs).
Proof. intros Hl. apply (construct_from_ok dbg def vs 0 (pdefault ds) (pdefault_wfp ds)). exact Hl. Qed.

Lemma pconstruct_ok dbg ds def vs : (length vs <= length ds)%nat ->
  let ws := repeat (EInt (int 1)) (length ds - length vs) ++ vs in
  (dbg && clash ds ws = true -> pconstruct dbg ds def vs = Abort) /\
  (dbg && clash ds ws = false -> exists p', pconstruct dbg ds def vs = Ok p' /\
     pdesc p' = ds /\ wfp p' /\ values p' = map2 (expected def) ds ws).
Proof.
  intros Hl ws. unfold pconstruct. destruct (Nat.leb_spec (length vs) (length ds)); [|lia].
  apply construct_full_ok. unfold ws. rewrite app_length, repeat_length. lia.
Qed.

(** ** Named construction *)
Lemma locate_spec {A} (f : A -> bool) l : (locate f l < length l)%nat ->
  exists x, nth_error l (locate f l) = Some x /\ f x = true.
Proof.
  induction l as [|x l IH]; simpl; [lia|]. intros H. destruct (f x) eqn:E; [exists x; auto|].
  apply IH. lia.
Qed.

Lemma locate_lt {A} (f : A -> bool) l x : In x l -> f x = true -> (locate f l < length l)%nat.
Proof.
  induction l as [|y l IH]; simpl; [tauto|]. intros Hin Hx. destruct (f y) eqn:E; [lia|].
  destruct Hin as [->|Hin]; [congruence|]. specialize (IH Hin Hx). lia.
Qed.

Lemma find_axis_lt ds a : In a (map aid ds) -> (find_axis ds a < length ds)%nat.
Proof.
  intros H. apply in_map_iff in H. destruct H as (d & Hd & Hin). unfold find_axis.
  apply (locate_lt _ ds d Hin). apply axis_id_eqb_spec. exact Hd.
Qed.

Lemma find_axis_spec ds a : In a (map aid ds) ->
  exists d, nth_error ds (find_axis ds a) = Some d /\ aid d = a.
Proof.
  intros H. destruct (locate_spec (fun d => axis_id_eqb (aid d) a) ds (find_axis_lt ds a H)) as (d & H1 & H2).
  exists d. split; [exact H1|apply axis_id_eqb_spec; exact H2].
Qed.

Lemma NoDup_nth {A} (l : list A) i j x : NoDup l -> nth_error l i = Some x -> nth_error l j = Some x -> i = j.
Proof.
  intros Hn Hi Hj. rewrite NoDup_nth_error in Hn. apply Hn; [|congruence].
  apply nth_error_Some. congruence.
Qed.

Lemma find_axis_unique ds i d : distinct_axes ds -> nth_error ds i = Some d -> find_axis ds (aid d) = i.
Proof.
  intros Hn Hd.
  destruct (find_axis_spec ds (aid d)) as (d' & H1 & H2).
  { apply in_map. eapply nth_error_In, Hd. }
  apply (NoDup_nth (map aid ds) _ _ (aid d) Hn).
  - rewrite nth_error_map, H1. cbn. congruence.
  - rewrite nth_error_map, Hd. reflexivity.
Qed.

Definition named_clash (ds : list desc) (os : list (axis_id * extent)) : bool :=
  existsb (fun o => existsb (fun d => axis_id_eqb (aid d) (fst o) && contradictsb d (snd o)) ds) os.

(** The values after the options [os] have been applied to the values of [p]. *)
Definition named_value (def : cint) (os : list (axis_id * extent)) (d : desc) (old : cint) : cint :=
  if existsb (fun o => axis_id_eqb (aid d) (fst o)) os then expected def d (given os (aid d)) else old.

Lemma map2_ext_nth {A B C} (f : A -> B -> C) l m (r : list C) : length l = length m ->
  length r = length l ->
  (forall i x y, nth_error l i = Some x -> nth_error m i = Some y -> nth_error r i = Some (f x y)) ->
  r = map2 f l m.
Proof.
  revert m r; induction l as [|x l IH]; intros [|y m] [|z r] H1 H2 H; try discriminate; [reflexivity|].
  cbn [map2]. pose proof (H O x y eq_refl eq_refl) as H0. injection H0 as ->. f_equal.
  apply IH; [simpl in *; lia|simpl in *; lia|]. intros i a b Ha Hb. apply (H (S i)); assumption.
Qed.

Lemma map2_length {A B C} (f : A -> B -> C) l m : length l = length m -> length (map2 f l m) = length l.
Proof. revert m; induction l as [|x l IH]; intros [|y m] H; try discriminate; simpl in *; [reflexivity|]. rewrite IH; lia. Qed.

Lemma nth_map2 {A B C} (f : A -> B -> C) l m i x y : nth_error l i = Some x -> nth_error m i = Some y ->
  nth_error (map2 f l m) i = Some (f x y).
Proof.
  revert m i; induction l as [|a l IH]; intros [|b m] [|i] H1 H2; try discriminate; simpl in *.
  - congruence.
  - apply IH; assumption.
Qed.

Lemma construct_named_ok dbg def ds : distinct_axes ds -> forall os p, pdesc p = ds -> wfp p ->
  NoDup (map fst os) -> incl (map fst os) (map aid ds) ->
  (dbg && named_clash ds os = true -> kfold_right (construct_named_one dbg def) os p = Abort) /\
  (dbg && named_clash ds os = false -> exists p',
     kfold_right (construct_named_one dbg def) os p = Ok p' /\
     pdesc p' = ds /\ wfp p' /\ values p' = map2 (named_value def os) ds (values p)).
Proof.
  intros Hds os; induction os as [|[a e] os IH]; intros p Hp Hw Hnd Hin.
  - cbn [kfold_right named_clash existsb]. rewrite andb_false_r. split; [discriminate|]. intros _.
    exists p. split; [reflexivity|]. split; [exact Hp|]. split; [exact Hw|].
    apply map2_ext_nth.
    + rewrite values_length by exact Hw. congruence.
    + rewrite values_length by exact Hw. congruence.
    + intros i x y _ H. exact H.
  - cbn [map fst] in Hnd, Hin. inversion Hnd as [|a' l' Hna Hnd']; subst a' l'.
    destruct (find_axis_spec ds a) as (d & Hd & Ha); [apply Hin; left; reflexivity|].
    assert (Hcl : named_clash ds ((a, e) :: os) = contradictsb d e || named_clash ds os).
    { unfold named_clash. cbn [existsb fst snd]. f_equal.
      destruct (contradictsb d e) eqn:C.
      - apply existsb_exists. exists d. split; [eapply nth_error_In, Hd|].
        rewrite C, Ha, axis_id_eqb_refl. reflexivity.
      - apply not_true_is_false. intros H. apply existsb_exists in H. destruct H as (d' & Hin' & H).
        apply andb_true_iff in H. destruct H as [H1 H2]. apply axis_id_eqb_spec in H1.
        apply In_nth_error in Hin'. destruct Hin' as (j & Hj).
        pose proof (find_axis_unique ds j d' Hds Hj) as F. rewrite H1 in F. rewrite F, Hj in Hd.
        injection Hd as ->. congruence. }
    rewrite Hcl. cbn [kfold_right]. unfold construct_named_one at 1 3. cbn [fst snd]. rewrite Hp.
    assert (Hd' : nth_error (pdesc p) (find_axis ds a) = Some d) by (rewrite Hp; exact Hd).
    destruct (construct_axis_ok dbg def (find_axis ds a) e p d Hw Hd') as [A1 A2].
    destruct (dbg && contradictsb d e) eqn:C.
    + rewrite (A1 eq_refl). cbn [bind]. split; [reflexivity|].
      apply andb_true_iff in C. destruct C as [-> ->]. discriminate.
    + destruct (A2 eq_refl) as (p1 & E1 & D1 & W1 & V1). rewrite E1. cbn [bind].
      destruct (IH p1) as [B1 B2]; [congruence|exact W1|exact Hnd'|intros x Hx; apply Hin; right; exact Hx|].
      assert (HC : dbg && (contradictsb d e || named_clash ds os) = dbg && named_clash ds os).
      { destruct dbg; [|reflexivity]. cbn [andb] in *. rewrite C. reflexivity. }
      rewrite HC. split; [exact B1|]. intros H. destruct (B2 H) as (p2 & E2 & D2 & W2 & V2).
      exists p2. split; [exact E2|]. split; [exact D2|]. split; [exact W2|]. rewrite V2, V1.
      assert (Lv : length (values p) = length ds) by (rewrite values_length by exact Hw; congruence).
      apply map2_ext_nth; [congruence| |].
      * rewrite map2_length; [reflexivity|]. rewrite replace_nth_length. congruence.
      * intros i x y Hx Hy.
        assert (Hi : nth_error (replace_nth (find_axis ds a) (expected def d e) (values p)) i
                     = Some (if axis_id_eqb (aid x) a then expected def x e else y)).
        { destruct (Nat.eq_dec (find_axis ds a) i) as [<-|Hne].
          - rewrite Hd in Hx. injection Hx as ->. rewrite Ha, axis_id_eqb_refl.
            apply replace_nth_same. rewrite Lv. apply nth_error_Some. congruence.
          - rewrite replace_nth_other by exact Hne.
            destruct (axis_id_eqb (aid x) a) eqn:Ex; [|exact Hy].
            apply axis_id_eqb_spec in Ex. pose proof (find_axis_unique ds i x Hds Hx) as F.
            rewrite Ex in F. congruence. }
        rewrite (nth_map2 _ _ _ _ _ _ Hx Hi). f_equal. unfold named_value.
        cbn [existsb fst given].
        destruct (axis_id_eqb (aid x) a) eqn:Ex; cbn [orb].
        -- apply axis_id_eqb_spec in Ex.
           assert (Hno : existsb (fun o => axis_id_eqb (aid x) (fst o)) os = false).
           { apply not_true_is_false. intros H'. apply existsb_exists in H'. destruct H' as (o & Ho & H').
             apply axis_id_eqb_spec in H'. apply Hna. rewrite <- Ex, H'. apply in_map, Ho. }
           rewrite Hno. reflexivity.
        -- reflexivity.
Qed.
