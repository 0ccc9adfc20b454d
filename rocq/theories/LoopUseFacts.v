(** Facts about loops whose callables use containers. *)
From Coq Require Import ZArith List Bool Lia Sorted.
From Verif Require Import Outcome CInt CIntFacts Spec SpecFacts ShapeSpec Shape ShapeFacts ShapeFacts2
  ForEach ForEachSpec ForEachFacts Memory MemFacts Container ContainerSpec ContainerFacts ContainerFacts2
  Algo AlgoSpec AlgoFacts AlgoFacts2 AlgoFacts3 AlgoFacts4 OverlapFacts Slicer SlicerSpec SlicerFacts SlicerFacts2 SlicerFacts3 Uses UsesSpec UsesFacts UsesFacts2 LoopUse LoopUseSpec.
Import ListNotations.
Open Scope Z_scope.

Lemma run_prefix {A S} (f : A -> S -> outcome S) (Inv : list A -> S -> Prop) l s : Inv [] s ->
  (forall pre x post s, l = pre ++ x :: post -> Inv pre s -> exists s', f x s = Ok s' /\ Inv (pre ++ [x]) s') ->
  exists s', run f l s = Ok s' /\ Inv l s'.
Proof.
  intros H0 H. enough (G : forall post pre s, l = pre ++ post -> Inv pre s -> exists s', run f post s = Ok s' /\ Inv l s') by (apply (G l []); auto).
  induction post as [|x post IH]; intros pre s1 E I1.
  - rewrite app_nil_r in E. subst. exists s1. split; [reflexivity|exact I1].
  - destruct (H pre x post s1 E I1) as (s2 & F & I2). cbn [run]. rewrite F, bind_ok. apply (IH (pre ++ [x])); [|exact I2].
    rewrite <- app_assoc. exact E.
Qed.

Lemma tbox_coord s pre c post : wfs s -> tbox s = pre ++ c :: post -> shape_coord s c.
Proof.
  intros W E. destruct (tbox_at s pre c post W E) as (Wc & B & Ty & _). split; [exact Wc|]. split; assumption.
Qed.

Lemma sorted_unique a : forall b, StronglySorted lex a -> StronglySorted lex b -> (forall c, In c a <-> In c b) -> a = b.
Proof.
  induction a as [|x a IH]; intros b Sa Sb E.
  - destruct b as [|y b]; [reflexivity|]. exfalso. apply (E y). left. reflexivity.
  - destruct b as [|y b]; [exfalso; apply (E x); left; reflexivity|].
    apply StronglySorted_inv in Sa. apply StronglySorted_inv in Sb. destruct Sa as [Sa Fa], Sb as [Sb Fb].
    rewrite Forall_forall in Fa, Fb.
    assert (x = y).
    { destruct (proj1 (E x) (or_introl eq_refl)) as [->|Ix]; [reflexivity|].
      destruct (proj2 (E y) (or_introl eq_refl)) as [->|Iy]; [reflexivity|]. exfalso. exact (lex_asym _ _ (Fa _ Iy) (Fb _ Ix)). }
    subst y. f_equal. apply IH; try assumption. intros c. split; intros I1.
    + destruct (proj1 (E c) (or_intror I1)) as [<-|Q]; [|exact Q]. exfalso. exact (lex_irrefl _ (Fa _ I1)).
    + destruct (proj2 (E c) (or_intror I1)) as [<-|Q]; [|exact Q]. exfalso. exact (lex_irrefl _ (Fb _ I1)).
Qed.

Lemma sorted_filter (p : list Z -> bool) l : StronglySorted lex l -> StronglySorted lex (filter p l).
Proof.
  induction 1 as [|x l _ IH F]; [constructor|]. cbn [filter]. destruct (p x); [|exact IH]. constructor; [exact IH|].
  rewrite Forall_forall in *. intros y I1. apply filter_In in I1. apply F, I1.
Qed.

Definition sent_to (az : list Z -> list Z) (b : list Z) (c : list Z) : bool := if list_eq_dec Z.eq_dec (az c) b then true else false.

Lemma in_order_filter s az b cs : in_order s (fun c => az c = b) cs -> cs = filter (sent_to az b) (map vals (tbox s)).
Proof.
  intros [S1 E]. apply sorted_unique; [exact S1|apply sorted_filter; rewrite tbox_vals; apply box_sorted|].
  intros c. rewrite E, filter_In, tbox_vals, box_In. unfold sent_to. destruct (list_eq_dec Z.eq_dec (az c) b); intuition congruence.
Qed.

Section Loops.
Context {T : Type}.

Lemma combine_l {A} (s : shape) h at_ az (g : T -> A -> T) k w (m : mem T) : wfs s -> nonnegs (vals s) -> readable m h -> distinct_on h h ->
  chooses s h at_ az -> computes s h k w m ->
  exists m', shape_loop (combines h at_ g k) s m = Ok m' /\ frame h h m m' /\
    forall b x cs, in_box (dims h) b -> value m h b x -> in_order s (fun c => az c = b) cs -> value m' h b (fold_left g (map w cs) x).
Proof.
  intros W N Rh D Ch Co. unfold shape_loop. rewrite for_each_run by assumption.
  destruct (run_prefix (combines h at_ g k) (fun pre m1 => (same_cells m m1 /\ (forall p, outside h p -> cell m1 p = cell m p)) /\
    forall b x, in_box (dims h) b -> value m h b x -> value m1 h b (fold_left g (map w (filter (sent_to az b) (map vals pre))) x)) (tbox s) m)
    as (m' & E & (Sm & Fr) & H).
  - split; [split; [apply same_refl|reflexivity]|]. intros b x _ Hx. exact Hx.
  - intros pre is_ post m1 E ((Sm & Fr) & Hp). pose proof (tbox_coord _ _ _ _ W E) as Cc.
    destruct (Ch is_ Cc) as ((Wa & Ba) & Va & Ad). pose proof (Co is_ m1 Cc Fr) as Ek1. unfold combines. rewrite Ek1, bind_ok. cbn [fst snd].
    destruct (Rh _ Ba) as (x & Hx). pose proof (Hp _ x Ba Hx) as Hx1. set (x1 := fold_left g _ x) in Hx1.
    assert (Vh : cell m1 (elem h (vals (at_ is_))) <> None) by (eapply peek_valid; exact Hx1).
    unfold get, Container.put. rewrite (ref_ok m1 h (at_ is_) Ad Wa Ba Vh), !bind_ok, (load_peek _ _ _ Hx1), !bind_ok.
    rewrite store_valid by exact Vh. eexists. split; [reflexivity|]. split; [split|].
    + apply same_upd. exact Sm.
    + intros p Op. rewrite cell_upd_other; [apply Fr; exact Op|]. intros E1. apply (Op _ Ba). symmetry. exact E1.
    + intros b y Bb Hy. rewrite map_app, filter_app, map_app, fold_left_app. cbn [map filter]. unfold sent_to at 1.
      destruct (list_eq_dec Z.eq_dec (az (vals is_)) b) as [Eb|Nb].
      * rewrite <- Va in Eb. subst b. assert (y = x) by (unfold value in Hx, Hy; congruence). subst y. cbn [map fold_left]. fold x1.
        unfold value. apply peek_upd_same. exact Vh.
      * cbn [map fold_left]. unfold value. rewrite peek_upd_other; [exact (Hp b y Bb Hy)|].
        intros E1. apply Nb. rewrite <- Va. apply D; assumption.
  - exists m'. split; [exact E|]. split; [split; [exact Sm|exact Fr]|]. intros b x cs Bb Hx O1.
    rewrite (in_order_filter _ _ _ _ O1). exact (H b x Bb Hx).
Qed.

Lemma store_l (s : shape) h at_ az k w (m : mem T) : wfs s -> nonnegs (vals s) -> writable m h -> distinct_on h h ->
  chooses s h at_ az -> computes s h k w m ->
  exists m', shape_loop (stores h at_ k) s m = Ok m' /\ frame h h m m' /\
    (forall c, in_box (vals s) c -> (forall c', in_box (vals s) c' -> lex c c' -> az c' <> az c) -> value m' h (az c) (w c)) /\
    (forall b, in_box (dims h) b -> (forall c, in_box (vals s) c -> az c <> b) -> cell m' (elem h b) = cell m (elem h b)).
Proof.
  intros W N Wh D Ch Co. unfold shape_loop. rewrite for_each_run by assumption.
  destruct (run_prefix (stores h at_ k) (fun pre m1 => (same_cells m m1 /\ (forall p, outside h p -> cell m1 p = cell m p)) /\
    forall b, in_box (dims h) b ->
      match filter (sent_to az b) (rev (map vals pre)) with
      | [] => cell m1 (elem h b) = cell m (elem h b)
      | c :: _ => value m1 h b (w c)
      end) (tbox s) m)
    as (m' & E & (Sm & Fr) & H).
  - split; [split; [apply same_refl|reflexivity]|]. intros b _. reflexivity.
  - intros pre is_ post m1 E ((Sm & Fr) & Hp). pose proof (tbox_coord _ _ _ _ W E) as Cc.
    destruct (Ch is_ Cc) as ((Wa & Ba) & Va & Ad). pose proof (Co is_ m1 Cc Fr) as Ek1. unfold stores. rewrite Ek1, bind_ok. cbn [fst snd].
    assert (Vh : cell m1 (elem h (vals (at_ is_))) <> None) by (apply Sm, Wh; exact Ba).
    unfold Container.put. rewrite (ref_ok m1 h (at_ is_) Ad Wa Ba Vh), !bind_ok.
    rewrite store_valid by exact Vh. eexists. split; [reflexivity|]. split; [split|].
    + apply same_upd. exact Sm.
    + intros p Op. rewrite cell_upd_other; [apply Fr; exact Op|]. intros E1. apply (Op _ Ba). symmetry. exact E1.
    + intros b Bb. rewrite map_app, rev_app_distr. cbn [map rev app filter]. unfold sent_to at 1.
      destruct (list_eq_dec Z.eq_dec (az (vals is_)) b) as [Eb|Nb].
      * rewrite <- Va in Eb. subst b. unfold value. apply peek_upd_same. exact Vh.
      * assert (Ne : elem h (vals (at_ is_)) <> elem h b) by (intros E1; apply Nb; rewrite <- Va; apply D; assumption).
        specialize (Hp b Bb). destruct (filter (sent_to az b) (rev (map vals pre))).
        -- rewrite cell_upd_other by exact Ne. exact Hp.
        -- unfold value. rewrite peek_upd_other by exact Ne. exact Hp.
  - exists m'. split; [exact E|]. split; [split; [exact Sm|exact Fr]|]. rewrite tbox_vals in H. split.
    + intros c Bc La.
      assert (Bh : in_box (dims h) (az c)).
      { assert (I1 : In c (map vals (tbox s))) by (rewrite tbox_vals; apply box_In; exact Bc). apply in_map_iff in I1.
        destruct I1 as (t & <- & I1). apply in_split in I1. destruct I1 as (p1 & p2 & E1). destruct (Ch t (tbox_coord _ _ _ _ W E1)) as ((_ & Ba) & Va & _).
        rewrite <- Va. exact Ba. }
      specialize (H _ Bh). apply box_In in Bc. destruct (in_split _ _ Bc) as (p1 & p2 & Eb).
      assert (F2 : filter (sent_to az (az c)) (rev p2) = []).
      { destruct (filter (sent_to az (az c)) (rev p2)) as [|c' l] eqn:F; [reflexivity|]. exfalso.
        assert (I1 : In c' (c' :: l)) by (left; reflexivity). rewrite <- F in I1. apply filter_In in I1. destruct I1 as [I1 Q]. apply in_rev in I1.
        unfold sent_to in Q. destruct (list_eq_dec Z.eq_dec (az c') (az c)); [|discriminate].
        pose proof (box_sorted (vals s)) as Ss. rewrite Eb in Ss. destruct (SS_split _ _ _ _ Ss) as [_ Af].
        apply (La c'); [apply box_In; rewrite Eb; apply in_or_app; right; right; exact I1|apply Af; exact I1|assumption]. }
      rewrite Eb, rev_app_distr in H. cbn [rev] in H. rewrite <- app_assoc, filter_app, F2 in H. cbn [app filter] in H.
      unfold sent_to at 1 in H. destruct (list_eq_dec Z.eq_dec (az c) (az c)); [exact H|congruence].
    + intros b Bb No. specialize (H b Bb).
      destruct (filter (sent_to az b) (rev (box (vals s)))) as [|c l] eqn:F; [exact H|]. exfalso.
      assert (I1 : In c (c :: l)) by (left; reflexivity). rewrite <- F in I1. apply filter_In in I1. destruct I1 as [I1 Q]. apply in_rev in I1.
      unfold sent_to in Q. destruct (list_eq_dec Z.eq_dec (az c) b); [|discriminate]. apply (No c); [apply box_In; exact I1|assumption].
Qed.

Lemma index_shape_l (f : T -> list cint -> mem T -> outcome (mem T)) c m : wfs (c_shape c) -> nonnegs (dims c) ->
  index_loop f c m = shape_loop (fun is_ m => v <- get m c is_ ;; f v is_ m) (c_shape c) m.
Proof.
  intros W N. unfold index_loop, shape_loop, Algo.run_map, for_each_index. rewrite !for_each_run by assumption.
  generalize (tbox (c_shape c)) as l. intros l. revert m. induction l as [|x l IH]; intros m; [reflexivity|]. cbn [run snd].
  unfold get. destruct (ref m c x) as [p| | |]; try reflexivity. cbn [bind snd]. destruct (load m p) as [v| | |]; try reflexivity. cbn [bind].
  destruct (f v x m) as [m1| | |]; try reflexivity. cbn [bind]. apply IH.
Qed.
End Loops.

Lemma coord3 n p q is_ : shape_coord [n; p; q] is_ -> exists i j k, is_ = [i; j; k] /\ wfc i /\ wfc j /\ wfc k /\
  cty i = cty n /\ cty j = cty p /\ cty k = cty q /\ 0 <= cval i < cval n /\ 0 <= cval j < cval p /\ 0 <= cval k < cval q.
Proof.
  intros (W & Ty & B). destruct is_ as [|i [|j [|k [|]]]]; cbn in Ty; try discriminate. injection Ty as T1 T2 T3.
  cbn [vals map] in B. inversion B as [|? ? ? ? B1 Bs]; subst. inversion Bs as [|? ? ? ? B2 Bt]; subst. inversion Bt as [|? ? ? ? B3 _]; subst.
  inversion W as [|? ? W1 Wa]; subst. inversion Wa as [|? ? W2 Wb]; subst. inversion Wb as [|? ? W3 _]; subst.
  exists i, j, k. repeat (split; [assumption || reflexivity|]). assumption.
Qed.
Lemma coord2 n p is_ : shape_coord [n; p] is_ -> exists i j, is_ = [i; j] /\ wfc i /\ wfc j /\
  cty i = cty n /\ cty j = cty p /\ 0 <= cval i < cval n /\ 0 <= cval j < cval p.
Proof.
  intros (W & Ty & B). destruct is_ as [|i [|j [|]]]; cbn in Ty; try discriminate. injection Ty as T1 T2.
  cbn [vals map] in B. inversion B as [|? ? ? ? B1 Bs]; subst. inversion Bs as [|? ? ? ? B2 _]; subst.
  inversion W as [|? ? W1 Wa]; subst. inversion Wa as [|? ? W2 _]; subst.
  exists i, j. repeat (split; [assumption || reflexivity|]). assumption.
Qed.
Lemma box2 n p i j : 0 <= i < n -> 0 <= j < p -> in_box [n; p] [i; j].
Proof. intros A B. apply in_box_cons; [exact A|]. apply in_box_cons; [exact B|apply in_box_nil]. Qed.
Lemma wfs2 i j : wfc i -> wfc j -> wfs [i; j].
Proof. intros A B. constructor; [exact A|]. constructor; [exact B|constructor]. Qed.
Lemma get_value {T} (m : mem T) c is_ v : addressable c (map cty is_) -> coord_of c is_ -> value m c (vals is_) v -> get m c is_ = Ok v.
Proof.
  intros Ad (W & B) V. unfold get. rewrite (ref_ok m c is_ Ad W B), bind_ok; [exact (load_peek _ _ _ V)|]. eapply peek_valid. exact V.
Qed.

(** The coordinates (i, ., .) in order *)
Lemma lasts_sorted pre a n : StronglySorted lex (map (fun k => pre ++ [Z.of_nat k]) (seq a n)).
Proof.
  revert a. induction n as [|n IH]; intros a; [constructor|]. cbn [seq map]. constructor; [apply IH|]. rewrite Forall_forall. intros c I1.
  apply in_map_iff in I1. destruct I1 as (k & <- & I1). apply in_seq in I1. clear - I1. induction pre as [|x pre IH]; cbn [app].
  - apply lex_head; [lia|reflexivity].
  - apply lex_tail. exact IH.
Qed.

Lemma in_order_last n p q i j : 0 <= i < cval n -> 0 <= j < cval p -> 0 <= cval q ->
  in_order [n; p; q] (fun c => first2 c = [i; j]) (map (fun k => [i; j] ++ [Z.of_nat k]) (seq 0 (Z.to_nat (cval q)))).
Proof.
  intros Bi Bj Bq. split; [apply lasts_sorted|]. intros c. rewrite in_map_iff. split.
  - intros (k & <- & I1). apply in_seq in I1. split; [|reflexivity]. cbn [vals map app].
    apply in_box_cons; [exact Bi|]. apply in_box_cons; [exact Bj|]. apply in_box_cons; [lia|apply in_box_nil].
  - intros (B & E). cbn [vals map] in B. inversion B as [|? ? ? c1 B1 Bs]; subst. inversion Bs as [|? ? ? c2 B2 Bt]; subst.
    inversion Bt as [|? ? x c3 B3 Bu]; subst. inversion Bu; subst. cbn in E. injection E as -> ->.
    exists (Z.to_nat x). split; [cbn; rewrite Z2Nat.id by lia; reflexivity|]. apply in_seq. lia.
Qed.
Lemma in_order_last1 n p i : 0 <= i < cval n -> 0 <= cval p ->
  in_order [n; p] (fun c => first1 c = [i]) (map (fun k => [i] ++ [Z.of_nat k]) (seq 0 (Z.to_nat (cval p)))).
Proof.
  intros Bi Bq. split; [apply lasts_sorted|]. intros c. rewrite in_map_iff. split.
  - intros (k & <- & I1). apply in_seq in I1. split; [|reflexivity]. cbn [vals map app]. apply box2; lia.
  - intros (B & E). cbn [vals map] in B. inversion B as [|? ? ? c1 B1 Bs]; subst. inversion Bs as [|? ? x c2 B2 Bt]; subst.
    inversion Bt; subst. cbn in E. injection E as ->.
    exists (Z.to_nat x). split; [cbn; rewrite Z2Nat.id by lia; reflexivity|]. apply in_seq. lia.
Qed.
Lemma fold_map {A B C} (f : A -> B -> A) (h : C -> B) l : forall a, fold_left f (map h l) a = fold_left (fun a c => f a (h c)) l a.
Proof. induction l as [|x l IH]; intros a; [reflexivity|]. cbn [map fold_left]. apply IH. Qed.

Lemma product_l {T} (add mul : T -> T -> T) n p q a b c (A B : Z -> Z -> T) (m : mem T) :
  wfs [n; p; q] -> nonnegs (vals [n; p; q]) -> dims a = [cval n; cval q] -> dims b = [cval q; cval p] -> dims c = [cval n; cval p] ->
  addressable a [cty n; cty q] -> addressable b [cty q; cty p] -> addressable c [cty n; cty p] -> readable m c -> distinct_on c c ->
  (forall i k, in_box (dims a) [i; k] -> value m a [i; k] (A i k)) -> (forall k j, in_box (dims b) [k; j] -> value m b [k; j] (B k j)) ->
  (forall is_, in_box (dims a) is_ -> outside c (elem a is_)) -> (forall is_, in_box (dims b) is_ -> outside c (elem b is_)) ->
  exists m', shape_loop (combines c first2 add (products mul a b)) [n; p; q] m = Ok m' /\ frame c c m m' /\
    forall i j x, in_box (dims c) [i; j] -> value m c [i; j] x ->
      value m' c [i; j] (fold_left (fun s k => add s (mul (A i (Z.of_nat k)) (B (Z.of_nat k) j))) (seq 0 (Z.to_nat (cval q))) x).
Proof.
  intros W N Da Db Dc Aa Ab Ac Rc D Va Vb Oa Ob.
  destruct (combine_l [n; p; q] c first2 first2 add (products mul a b)
    (fun z => match z with [i; j; k] => mul (A i k) (B k j) | _ => A 0 0 end) m W N Rc D) as (m' & E & Fr & H).
  - intros is_ Hc. destruct (coord3 _ _ _ _ Hc) as (i & j & k & -> & Wi & Wj & Wk & Ti & Tj & Tk & Bi & Bj & Bk).
    cbn [first2 firstn vals map]. rewrite Ti, Tj. split; [|split; [reflexivity|exact Ac]]. split; [apply wfs2; assumption|].
    rewrite Dc. apply box2; assumption.
  - intros is_ m1 Hc Eq. destruct (coord3 _ _ _ _ Hc) as (i & j & k & -> & Wi & Wj & Wk & Ti & Tj & Tk & Bi & Bj & Bk).
    assert (Ca : coord_of a [i; k]) by (split; [apply wfs2; assumption|rewrite Da; apply box2; assumption]).
    assert (Cb : coord_of b [k; j]) by (split; [apply wfs2; assumption|rewrite Db; apply box2; assumption]).
    assert (Aa' : addressable a (map cty [i; k])) by (cbn; rewrite Ti, Tk; exact Aa).
    assert (Ab' : addressable b (map cty [k; j])) by (cbn; rewrite Tj, Tk; exact Ab).
    cbn [products vals map].
    assert (V1 : value m1 a [cval i; cval k] (A (cval i) (cval k))).
    { unfold value, peek. rewrite Eq by (apply Oa; exact (proj2 Ca)). exact (Va _ _ (proj2 Ca)). }
    assert (V2 : value m1 b [cval k; cval j] (B (cval k) (cval j))).
    { unfold value, peek. rewrite Eq by (apply Ob; exact (proj2 Cb)). exact (Vb _ _ (proj2 Cb)). }
    rewrite (get_value m1 a [i; k] _ Aa' Ca V1), bind_ok, (get_value m1 b [k; j] _ Ab' Cb V2), bind_ok. reflexivity.
  - exists m'. split; [exact E|]. split; [exact Fr|]. intros i j x Bc Hx. pose proof Bc as Bc'. rewrite Dc in Bc'.
    inversion Bc' as [|? ? ? ? Bi Bs]; subst. inversion Bs as [|? ? ? ? Bj _]; subst.
    assert (Bq : 0 <= cval q) by (unfold nonnegs in N; rewrite Forall_forall in N; apply (N (cval q)); cbn; auto).
    specialize (H [i; j] x _ Bc Hx (in_order_last n p q i j Bi Bj Bq)). rewrite map_map, fold_map in H. exact H.
Qed.

Lemma transpose_l {T} n p a t (m : mem T) : wfs [n; p] -> nonnegs (vals [n; p]) -> dims a = [cval n; cval p] -> dims t = [cval p; cval n] ->
  addressable a [cty n; cty p] -> addressable t [cty p; cty n] -> readable m a -> writable m t -> distinct_on t t ->
  (forall is_, in_box (dims a) is_ -> outside t (elem a is_)) ->
  exists m', shape_loop (stores t crossed (reading a)) [n; p] m = Ok m' /\ frame t t m m' /\
    forall i j x, in_box (dims a) [i; j] -> value m a [i; j] x -> value m' t [j; i] x.
Proof.
  intros W N Da Dt Aa At Ra Wt D Oa.
  destruct (in_dec Z.eq_dec 0 (vals [n; p])) as [Z0|Nz].
  - assert (Em : box (vals [n; p]) = []).
    { destruct (box (vals [n; p])) as [|c l] eqn:E; [reflexivity|]. exfalso. assert (I1 : In c (c :: l)) by (left; reflexivity).
      rewrite <- E in I1. apply box_In in I1. cbn [vals map] in I1. inversion I1 as [|? ? ? ? B1 Bs]; subst. inversion Bs as [|? ? ? ? B2 _]; subst.
      cbn in Z0. lia. }
    exists m. split; [|split; [split; [apply same_refl|reflexivity]|]].
    + unfold shape_loop. rewrite for_each_run by assumption. destruct (tbox [n; p]) as [|t0 l] eqn:E; [reflexivity|].
      exfalso. pose proof (tbox_vals [n; p]) as Q. rewrite E, Em in Q. discriminate.
    + intros i j x B. rewrite Da in B. change [cval n; cval p] with (vals [n; p]) in B. apply box_In in B. rewrite Em in B. contradiction.
  - assert (B00 : in_box (dims a) [0; 0]).
    { rewrite Da. unfold nonnegs in N. rewrite Forall_forall in N. pose proof (N (cval n) ltac:(cbn; auto)). pose proof (N (cval p) ltac:(cbn; auto)).
      cbn in Nz. apply box2; lia. }
    destruct (Ra _ B00) as (d & _).
    destruct (store_l [n; p] t crossed crossed (reading a) (fun z => match peek m (elem a z) with Some v => v | None => d end) m W N Wt D) as (m' & E & Fr & H & _).
    + intros is_ Hc. destruct (coord2 _ _ _ Hc) as (i & j & -> & Wi & Wj & Ti & Tj & Bi & Bj). cbn [crossed rev app vals map].
      rewrite Ti, Tj. split; [|split; [reflexivity|exact At]]. split; [apply wfs2; assumption|]. rewrite Dt. apply box2; assumption.
    + intros is_ m1 Hc Eq. destruct (coord2 _ _ _ Hc) as (i & j & -> & Wi & Wj & Ti & Tj & Bi & Bj).
      assert (Ca : coord_of a [i; j]) by (split; [apply wfs2; assumption|rewrite Da; apply box2; assumption]).
      assert (Aa' : addressable a (map cty [i; j])) by (cbn; rewrite Ti, Tj; exact Aa).
      unfold reading. destruct (Ra _ (proj2 Ca)) as (v & Ev).
      assert (V1 : value m1 a (vals [i; j]) v) by (unfold value, peek; rewrite Eq by (apply Oa; exact (proj2 Ca)); exact Ev).
      rewrite (get_value m1 a [i; j] v Aa' Ca V1), bind_ok, Ev. reflexivity.
    + exists m'. split; [exact E|]. split; [exact Fr|]. intros i j x B Hx. specialize (H [i; j]).
      assert (V : value m' t (crossed [i; j]) (match peek m (elem a [i; j]) with Some v => v | None => d end)).
      { apply H; [rewrite Da in B; exact B|]. intros c' _ L Ec. apply (f_equal (@rev Z)) in Ec. unfold crossed in Ec. rewrite !rev_involutive in Ec.
        subst. exact (lex_irrefl _ L). }
      unfold value in Hx. rewrite Hx in V. exact V.
Qed.

Lemma rows_l {T} (g : T -> T -> T) n p a r (A : Z -> Z -> T) (m : mem T) : c_shape a = [n; p] -> wfs [n; p] -> nonnegs (vals [n; p]) ->
  dims r = [cval n] -> addressable a [cty n; cty p] -> addressable r [cty n] -> readable m r -> distinct_on r r ->
  (forall i j, in_box (dims a) [i; j] -> value m a [i; j] (A i j)) -> (forall is_, in_box (dims a) is_ -> outside r (elem a is_)) ->
  exists m', index_loop (fun v is_ => combines r first1 g (fun _ m => Ok (v, m)) is_) a m = Ok m' /\ frame r r m m' /\
    forall i x, in_box (dims r) [i] -> value m r [i] x ->
      value m' r [i] (fold_left (fun s j => g s (A i (Z.of_nat j))) (seq 0 (Z.to_nat (cval p))) x).
Proof.
  intros Sa W N Dr Aa Ar Rr D Va Oa. assert (Da : dims a = [cval n; cval p]) by (unfold dims; rewrite Sa; reflexivity).
  rewrite index_shape_l by (rewrite ?Da, ?Sa; assumption). rewrite Sa.
  destruct (combine_l [n; p] r first1 first1 g (reading a) (fun z => match z with [i; j] => A i j | _ => A 0 0 end) m W N Rr D) as (m' & E & Fr & H).
  - intros is_ Hc. destruct (coord2 _ _ _ Hc) as (i & j & -> & Wi & Wj & Ti & Tj & Bi & Bj). cbn [first1 firstn vals map].
    rewrite Ti. split; [|split; [reflexivity|exact Ar]]. split; [constructor; [assumption|constructor]|]. rewrite Dr.
    apply in_box_cons; [exact Bi|apply in_box_nil].
  - intros is_ m1 Hc Eq. destruct (coord2 _ _ _ Hc) as (i & j & -> & Wi & Wj & Ti & Tj & Bi & Bj).
    assert (Ca : coord_of a [i; j]) by (split; [apply wfs2; assumption|rewrite Da; apply box2; assumption]).
    assert (Aa' : addressable a (map cty [i; j])) by (cbn; rewrite Ti, Tj; exact Aa).
    unfold reading.
    assert (V1 : value m1 a (vals [i; j]) (A (cval i) (cval j))).
    { unfold value, peek. rewrite Eq by (apply Oa; exact (proj2 Ca)). exact (Va _ _ (proj2 Ca)). }
    rewrite (get_value m1 a [i; j] _ Aa' Ca V1), bind_ok. reflexivity.
  - exists m'. split; [|split; [exact Fr|]].
    + rewrite <- E. unfold shape_loop. rewrite !for_each_run by assumption. clear. generalize (tbox [n; p]) as l. intros l. revert m.
      induction l as [|x l IH]; intros m; [reflexivity|]. cbn [run]. unfold combines at 1 3, reading at 1.
      destruct (get m a x) as [v| | |]; try reflexivity. cbn [bind fst snd].
      destruct (get m r (first1 x)) as [y| | |]; try reflexivity. cbn [bind].
      destruct (Container.put m r (first1 x) (g y v)) as [m1| | |]; try reflexivity. cbn [bind]. apply IH.
    + intros i x Br Hx. pose proof Br as Br'. rewrite Dr in Br'. inversion Br' as [|? ? ? ? Bi _]; subst.
      assert (Bp : 0 <= cval p) by (unfold nonnegs in N; rewrite Forall_forall in N; apply (N (cval p)); cbn; auto).
      specialize (H [i] x _ Br Hx (in_order_last1 n p i Bi Bp)). rewrite map_map, fold_map in H. exact H.
Qed.

Lemma default_distinct c : default_layout c -> c_data c <> Null -> distinct_on c c.
Proof.
  intros D N a b Ha Hb H. rewrite !default_elem in H by assumption. apply padd_inj in H; [apply (rank_inj (dims c)); assumption|exact N].
Qed.
Lemma apart_l a c is_ : c_data c <> Null -> ~ same_block (c_data a) (c_data c) -> outside c (elem a is_).
Proof.
  intros N H js _ E. apply H. unfold elem, padd in E. unfold same_block. destruct (c_data a), (c_data c); try discriminate; try congruence.
Qed.

(** ** Algorithms on slices *)
Lemma row_box p : box [1; p] = map (fun k => [0; Z.of_nat k]) (seq 0 (Z.to_nat p)).
Proof.
  apply sorted_unique; [apply box_sorted|apply (lasts_sorted [0])|]. intros c. rewrite box_In, in_map_iff. split.
  - intros B. inversion B as [|? ? x ? B1 Bs]; subst. inversion Bs as [|? ? y ? B2 Bt]; subst. inversion Bt; subst.
    exists (Z.to_nat y). split; [|apply in_seq; lia]. rewrite Z2Nat.id by lia. f_equal. lia.
  - intros (k & <- & I1). apply in_seq in I1. apply box2; lia.
Qed.
Lemma column_sorted a n : StronglySorted lex (map (fun k => [Z.of_nat k; 0]) (seq a n)).
Proof.
  revert a. induction n as [|n IH]; intros a; [constructor|]. cbn [seq map]. constructor; [apply IH|]. rewrite Forall_forall. intros c I1.
  apply in_map_iff in I1. destruct I1 as (k & <- & I1). apply in_seq in I1. apply lex_head; [lia|reflexivity].
Qed.
Lemma column_box n : box [n; 1] = map (fun k => [Z.of_nat k; 0]) (seq 0 (Z.to_nat n)).
Proof.
  apply sorted_unique; [apply box_sorted|apply column_sorted|]. intros c. rewrite box_In, in_map_iff. split.
  - intros B. inversion B as [|? ? x ? B1 Bs]; subst. inversion Bs as [|? ? y ? B2 Bt]; subst. inversion Bt; subst.
    exists (Z.to_nat x). split; [|apply in_seq; lia]. rewrite Z2Nat.id by lia. f_equal. f_equal. lia.
  - intros (k & <- & I1). apply in_seq in I1. apply box2; lia.
Qed.

Lemma reduced_slice {T} dbg a sls n p os ks ss (f : T -> T -> T) init (m1 : mem T) (W : list Z -> T) : default_layout a -> c_shape a = [n; p] ->
  length sls = 2%nat -> sliced [n; p] sls os ks ss -> (dbg = true -> Forall wide sls) -> Forall (fun s => 0 < s) ss ->
  (forall js, in_box ks js -> value m1 a (place os ss js) (W js)) ->
  (v <- slice_container dbg false false a sls ;; reduce v f init m1) = Ok (fold_left f (map W (box ks)) init, m1).
Proof.
  intros D Sa L2 Sl Wd Ps V. assert (Da : dims a = [cval n; cval p]) by (unfold dims; rewrite Sa; reflexivity).
  assert (G : forall tys, exists v, slice_container dbg false false a sls = Ok v /\ dims v = ks /\ addressable v tys /\
    forall js, in_box ks js -> elem v js = elem a (place os ss js)).
  { intros tys. destruct (slice_default_l dbg false false a sls [n; p] os ks ss tys D) as (v & Ev & Dv & _ & Ad & _ & _ & Pl & El).
    - rewrite L2, Sa. cbn. lia.
    - rewrite L2, Sa. reflexivity.
    - exact Sl.
    - exact Wd.
    - left. exact Ps.
    - exists v. split; [exact Ev|]. split; [exact Dv|]. split; [exact Ad|]. intros js B. specialize (V js B).
      assert (Bp : in_box (dims a) (place os ss js)).
      { rewrite Da. exact (proj1 (Pl js B)). }
      apply El; [exact B|exact Bp|]. rewrite L2, Sa, Da. cbn [length Nat.sub Nat.add]. unfold merge_coord.
      rewrite Da in Bp. inversion Bp as [|? ? x ? B1 Bs]; subst. inversion Bs as [|? ? y ? B2 Bt]; subst. inversion Bt; subst. reflexivity. }
  destruct (G []) as (v & Ev & Dv & _ & El). destruct (G (ctypes v)) as (v' & Ev' & _ & Ad & _).
  assert (v' = v) by congruence. subst v'. rewrite Ev, bind_ok.
  assert (CR : can_read m1 v v).
  { split; [exact Ad|]. split; [intros is_ B; exact B|]. intros is_ B. rewrite Dv in B. exists (W is_). unfold value. rewrite El by exact B. apply V. exact B. }
  destruct (reduce_values_l v f init m1 CR) as (vs & Vs & _ & R). rewrite R. do 3 f_equal.
  unfold values in Vs. rewrite Dv in Vs. clear - Vs V El.
  assert (H : forall js, In js (box ks) -> in_box ks js) by (intros js; apply box_In). revert H. induction Vs as [|js x l vs Hx _ IH]; intros H; [reflexivity|].
  cbn [map]. f_equal; [|apply IH; intros; apply H; right; assumption].
  assert (B : in_box ks js) by (apply H; left; reflexivity). specialize (V js B). unfold value in Hx, V. rewrite El in Hx by exact B. congruence.
Qed.

Lemma line_l {T} dbg (f : T -> T -> T) init n p a r k sl (m : mem T) (W : Z -> T) : default_layout a -> c_shape a = [n; p] ->
  wfs [k] -> nonnegs (vals [k]) -> dims r = [cval k] -> addressable r [cty k] -> writable m r -> distinct_on r r ->
  (forall i m1, wfc i -> cty i = cty k -> 0 <= cval i < cval k -> (forall q, outside r q -> cell m1 q = cell m q) ->
     (v <- slice_container dbg false false a (sl [i]) ;; reduce v f init m1) = Ok (W (cval i), m1)) ->
  exists m', shape_loop (stores r (fun is_ => is_) (reducing dbg a sl f init)) [k] m = Ok m' /\ frame r r m m' /\
    forall i, in_box (dims r) [i] -> value m' r [i] (W i).
Proof.
  intros D Sa Wk Nk Dr Ar Wr Dd H.
  destruct (store_l [k] r (fun is_ => is_) (fun z => z) (reducing dbg a sl f init) (fun z => match z with [i] => W i | _ => init end) m Wk Nk Wr Dd)
    as (m' & E & Fr & V & _).
  - intros is_ (Wi & Ty & B). destruct is_ as [|i [|]]; cbn in Ty; try discriminate. injection Ty as Ti.
    split; [split; [exact Wi|rewrite Dr; exact B]|]. split; [reflexivity|]. cbn. rewrite Ti. exact Ar.
  - intros is_ m1 (Wi & Ty & B) Eq. destruct is_ as [|i [|]]; cbn in Ty; try discriminate. injection Ty as Ti.
    inversion Wi; subst. cbn [vals map] in B |- *. inversion B; subst. unfold reducing. apply H; assumption.
  - exists m'. split; [exact E|]. split; [exact Fr|]. intros i B. rewrite Dr in B. apply (V [i] B). intros c' _ L Ec. subst c'. exact (lex_irrefl _ L).
Qed.

Lemma idx_inside n i : 0 <= cval i < cval n -> inside n (cval i) 1 1.
Proof. unfold inside. lia. Qed.
Lemma all_inside n : 0 < cval n -> inside n 0 (cval n) 1.
Proof. unfold inside. lia. Qed.

Lemma rows_slices_l {T} dbg (f : T -> T -> T) init n p a r (A : Z -> Z -> T) (m : mem T) : default_layout a -> c_shape a = [n; p] -> 0 < cval p ->
  (dbg = true -> promote (cty n) = cty n) -> dims r = [cval n] -> addressable r [cty n] -> writable m r -> distinct_on r r ->
  (forall i j, in_box (dims a) [i; j] -> value m a [i; j] (A i j)) -> (forall is_, in_box (dims a) is_ -> outside r (elem a is_)) ->
  exists m', shape_loop (stores r (fun is_ => is_) (reducing dbg a row f init)) [n] m = Ok m' /\ frame r r m m' /\
    forall i, in_box (dims r) [i] -> value m' r [i] (fold_left (fun s j => f s (A i (Z.of_nat j))) (seq 0 (Z.to_nat (cval p))) init).
Proof.
  intros D Sa Pp Wd Dr Ar Wr Dd Va Oa. assert (Da : dims a = [cval n; cval p]) by (unfold dims; rewrite Sa; reflexivity).
  pose proof D as ((Wa & Na & _) & _). rewrite Sa in Wa, Na. cbn [vals map] in Na. inversion Wa as [|? ? Wn _]; subst. inversion Na as [|? ? Nn _]; subst.
  apply (line_l dbg f init n p a r n row m _ D Sa); try assumption; try (constructor; [assumption|constructor]).
  intros i m1 Wi Ti Bi Eq. cbn [row].
  rewrite (reduced_slice dbg a [SIdx i; SAll] n p [cval i; 0] [1; cval p] [1; 1] f init m1
    (fun js => match js with [_; j] => A (cval i) j | _ => init end) D Sa).
  - rewrite row_box, map_map, fold_map. reflexivity.
  - reflexivity.
  - split; [exists SAll; split; [right; left; reflexivity|intros; discriminate]|].
    apply sliced_cons; [apply takes_index; exact Wi|apply idx_inside; exact Bi|]. apply sliced_cons; [apply takes_all|apply all_inside; exact Pp|apply sliced_nil].
  - intros E. constructor; [cbn; rewrite Ti; apply Wd; exact E|]. constructor; [exact Logic.I|constructor].
  - constructor; [lia|]. constructor; [lia|constructor].
  - intros js B. inversion B as [|? ? x ? B1 Bs]; subst. inversion Bs as [|? ? y ? B2 Bt]; subst. inversion Bt; subst.
    cbn [place]. replace (cval i + x * 1) with (cval i) by lia. replace (0 + y * 1) with y by lia.
    assert (Bp : in_box (dims a) [cval i; y]) by (rewrite Da; apply box2; lia).
    unfold value, peek. rewrite Eq by (apply Oa; exact Bp). exact (Va _ _ Bp).
Qed.

Lemma columns_slices_l {T} dbg (f : T -> T -> T) init n p a r (A : Z -> Z -> T) (m : mem T) : default_layout a -> c_shape a = [n; p] -> 0 < cval n ->
  (dbg = true -> promote (cty p) = cty p) -> dims r = [cval p] -> addressable r [cty p] -> writable m r -> distinct_on r r ->
  (forall i j, in_box (dims a) [i; j] -> value m a [i; j] (A i j)) -> (forall is_, in_box (dims a) is_ -> outside r (elem a is_)) ->
  exists m', shape_loop (stores r (fun is_ => is_) (reducing dbg a column f init)) [p] m = Ok m' /\ frame r r m m' /\
    forall j, in_box (dims r) [j] -> value m' r [j] (fold_left (fun s i => f s (A (Z.of_nat i) j)) (seq 0 (Z.to_nat (cval n))) init).
Proof.
  intros D Sa Pn Wd Dr Ar Wr Dd Va Oa. assert (Da : dims a = [cval n; cval p]) by (unfold dims; rewrite Sa; reflexivity).
  pose proof D as ((Wa & Na & _) & _). rewrite Sa in Wa, Na. cbn [vals map] in Na.
  inversion Wa as [|? ? _ Wa1]; subst. inversion Wa1 as [|? ? Wp _]; subst. inversion Na as [|? ? _ Na1]; subst. inversion Na1 as [|? ? Np _]; subst.
  apply (line_l dbg f init n p a r p column m _ D Sa); try assumption; try (constructor; [assumption|constructor]).
  intros j m1 Wj Tj Bj Eq. cbn [column].
  rewrite (reduced_slice dbg a [SAll; SIdx j] n p [0; cval j] [cval n; 1] [1; 1] f init m1
    (fun js => match js with [i; _] => A i (cval j) | _ => init end) D Sa).
  - rewrite column_box, map_map, fold_map. reflexivity.
  - reflexivity.
  - split; [exists SAll; split; [left; reflexivity|intros; discriminate]|].
    apply sliced_cons; [apply takes_all|apply all_inside; exact Pn|]. apply sliced_cons; [apply takes_index; exact Wj|apply idx_inside; exact Bj|apply sliced_nil].
  - intros E. constructor; [exact Logic.I|]. constructor; [cbn; rewrite Tj; apply Wd; exact E|constructor].
  - constructor; [lia|]. constructor; [lia|constructor].
  - intros js B. inversion B as [|? ? x ? B1 Bs]; subst. inversion Bs as [|? ? y ? B2 Bt]; subst. inversion Bt; subst.
    cbn [place]. replace (cval j + y * 1) with (cval j) by lia. replace (0 + x * 1) with x by lia.
    assert (Bp : in_box (dims a) [x; cval j]) by (rewrite Da; apply box2; lia).
    unfold value, peek. rewrite Eq by (apply Oa; exact Bp). exact (Va _ _ Bp).
Qed.
