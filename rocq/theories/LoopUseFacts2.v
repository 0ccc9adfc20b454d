(** Facts about loops whose calls work on regions of their own. *)
From Coq Require Import ZArith List Bool Lia Sorted.
From Verif Require Import Outcome CInt CIntFacts Spec SpecFacts ShapeSpec Shape ShapeFacts ShapeFacts2
  ForEach ForEachSpec ForEachFacts Memory MemFacts Container ContainerSpec ContainerFacts ContainerFacts2
  Algo AlgoSpec AlgoFacts AlgoFacts2 AlgoFacts3 AlgoFacts4 OverlapFacts Slicer SlicerSpec SlicerFacts SlicerFacts2 SlicerFacts3
  Uses UsesSpec UsesFacts UsesFacts2 LoopUse LoopUseSpec LoopUseFacts.
Import ListNotations.
Open Scope Z_scope.

Lemma independent_l {T} s R Q (f : list cint -> mem T -> outcome (mem T)) m : wfs s -> nonnegs (vals s) -> independent s R Q f m ->
  exists m', shape_loop f s m = Ok m' /\ same_cells m m' /\ (forall p, (forall c, in_box (vals s) c -> ~ R c p) -> cell m' p = cell m p) /\
    forall c, in_box (vals s) c -> Q c m'.
Proof.
  intros W N (Dj & Dp & St). unfold shape_loop. rewrite for_each_run by assumption.
  destruct (run_prefix f (fun pre m1 => same_cells m m1 /\ (forall p, (forall c, In c (map vals pre) -> ~ R c p) -> cell m1 p = cell m p) /\
    forall c, In c (map vals pre) -> Q c m1) (tbox s) m) as (m' & E & Sm & Fr & H).
  - split; [apply same_refl|]. split; [reflexivity|]. intros c [].
  - intros pre is_ post m1 E (Sm & Fr & Hq). pose proof (tbox_coord _ _ _ _ W E) as Cc. pose proof (proj2 (proj2 Cc)) as Bc.
    assert (Bp : forall c, In c (map vals pre) -> in_box (vals s) c /\ c <> vals is_).
    { intros c I1. pose proof (box_sorted (vals s)) as Ss. rewrite <- tbox_vals, E, map_app in Ss. cbn [map] in Ss.
      destruct (SS_split _ _ _ _ Ss) as [Bf _]. split; [|intros ->; exact (lex_irrefl _ (Bf _ I1))].
      apply box_In. rewrite <- tbox_vals, E, map_app. apply in_or_app. left. exact I1. }
    destruct (St is_ m1 Cc Sm) as (m2 & F & S2 & O2 & Q2).
    { intros p [Rp|No]; apply Fr; intros c I1 Rc; destruct (Bp c I1) as [B1 Ne].
      - apply Ne. apply (Dj c (vals is_) p); assumption.
      - exact (No c B1 Rc). }
    exists m2. split; [exact F|]. split; [|split].
    + intros p. rewrite (Sm p). apply S2.
    + intros p No. rewrite O2; [apply Fr|].
      * intros c I1. apply No. rewrite map_app. apply in_or_app. left. exact I1.
      * apply No. rewrite map_app. apply in_or_app. right. left. reflexivity.
    + intros c I1. rewrite map_app in I1. apply in_app_or in I1. destruct I1 as [I1|[<-|[]]]; [|exact Q2].
      apply (Dp c m1); [|apply Hq; exact I1]. intros p Rp. apply O2. intros Rs. destruct (Bp c I1) as [B1 Ne]. apply Ne. apply (Dj c (vals is_) p); assumption.
  - exists m'. split; [exact E|]. split; [exact Sm|]. rewrite tbox_vals in Fr, H. split.
    + intros p No. apply Fr. intros c I1. apply No, box_In, I1.
    + intros c B. apply H, box_In, B.
Qed.

(** The rows of a container *)
Lemma row_view dbg a n p i : default_layout a -> c_shape a = [n; p] -> 0 < cval p -> wfc i -> 0 <= cval i < cval n ->
  (dbg = true -> promote (cty i) = cty i) ->
  exists v, slice_container dbg false false a (row [i]) = Ok v /\ dims v = [1; cval p] /\ addressable v (ctypes v) /\
    forall j, 0 <= j < cval p -> elem v [0; j] = elem a [cval i; j].
Proof.
  intros D Sa Pp Wi Bi Wd. assert (Da : dims a = [cval n; cval p]) by (unfold dims; rewrite Sa; reflexivity). cbn [row].
  assert (G : forall tys, exists v, slice_container dbg false false a [SIdx i; SAll] = Ok v /\ dims v = [1; cval p] /\ addressable v tys /\
    forall j, 0 <= j < cval p -> elem v [0; j] = elem a [cval i; j]).
  { intros tys. destruct (slice_default_l dbg false false a [SIdx i; SAll] [n; p] [cval i; 0] [1; cval p] [1; 1] tys D) as (v & Ev & Dv & _ & Ad & _ & _ & _ & El).
    - rewrite Sa. cbn. lia.
    - rewrite Sa. reflexivity.
    - split; [exists SAll; split; [right; left; reflexivity|intros; discriminate]|].
      apply sliced_cons; [apply takes_index; exact Wi|apply idx_inside; exact Bi|]. apply sliced_cons; [apply takes_all|apply all_inside; exact Pp|apply sliced_nil].
    - intros E. constructor; [exact (Wd E)|]. constructor; [exact Logic.I|constructor].
    - left. constructor; [lia|]. constructor; [lia|constructor].
    - exists v. split; [exact Ev|]. split; [exact Dv|]. split; [exact Ad|]. intros j Bj. apply El.
      + apply box2; lia.
      + rewrite Da. apply box2; lia.
      + rewrite Sa, Da. cbn [length Nat.sub Nat.add]. unfold merge_coord, rank. cbn [firstn skipn rank_from place]. f_equal; [lia|]. f_equal. lia. }
  destruct (G []) as (v & Ev & Dv & _ & El). destruct (G (ctypes v)) as (v' & Ev' & _ & Ad & _). assert (v' = v) by congruence. subst v'.
  exists v. auto.
Qed.

Definition in_row (a : container) (p : Z) (c : list Z) (q : ptr) : Prop := match c with [i] => exists j, 0 <= j < p /\ q = elem a [i; j] | _ => False end.

Lemma row_coord p js : in_box [1; p] js -> exists j, js = [0; j] /\ 0 <= j < p.
Proof.
  intros B. inversion B as [|? ? x ? B1 Bs]; subst. inversion Bs as [|? ? y ? B2 Bt]; subst. inversion Bt; subst. exists y. split; [f_equal; lia|exact B2].
Qed.

Lemma rows_apart a n p c c' q : default_layout a -> c_data a <> Null -> dims a = [n; p] -> in_box [n] c -> in_box [n] c' ->
  in_row a p c q -> in_row a p c' q -> c = c'.
Proof.
  intros D Nn Da B B' I1 I2. inversion B as [|? ? x ? B1 Bs]; subst. inversion Bs; subst. inversion B' as [|? ? y ? B1' Bs']; subst. inversion Bs'; subst.
  destruct I1 as (j & Bj & E1), I2 as (j' & Bj' & E2).
  assert (E : [x; j] = [y; j']) by (apply (default_distinct a D Nn); [rewrite Da; apply box2; assumption|rewrite Da; apply box2; assumption|congruence]).
  injection E as -> _. reflexivity.
Qed.

Lemma row_frame {T} a v p i (m1 m2 : mem T) : dims v = [1; p] -> (forall j, 0 <= j < p -> elem v [0; j] = elem a [i; j]) -> frame v v m1 m2 ->
  same_cells m1 m2 /\ forall q, ~ in_row a p [i] q -> cell m2 q = cell m1 q.
Proof.
  intros Dv El [Sm Fr]. split; [exact Sm|]. intros q No. apply Fr. intros js B E. rewrite Dv in B. destruct (row_coord _ _ B) as (j & -> & Bj).
  apply No. exists j. split; [exact Bj|]. rewrite E. apply El. exact Bj.
Qed.

Definition filled {T} (a : container) (p : Z) (w : list Z -> T) (c : list Z) (m : mem T) : Prop :=
  match c with [i] => forall j, 0 <= j < p -> value m a [i; j] (w [i]) | _ => True end.

Lemma fill_independent {T} dbg n p a (w : list Z -> T) (m : mem T) : default_layout a -> c_shape a = [n; p] -> 0 < cval p -> c_data a <> Null -> writable m a ->
  (dbg = true -> promote (cty n) = cty n) -> independent [n] (in_row a (cval p)) (filled a (cval p) w) (filling dbg a w) m.
Proof.
  intros D Sa Pp Nn Wa Wd. assert (Da : dims a = [cval n; cval p]) by (unfold dims; rewrite Sa; reflexivity).
  split; [|split].
  - intros c c' q B B'. apply (rows_apart a (cval n) (cval p) c c' q D Nn Da B B').
  - intros c m1 m2 Eq Hq. destruct c as [|i [|]]; try exact Logic.I. intros j Bj. unfold value, peek. rewrite Eq by (exists j; split; [exact Bj|reflexivity]).
    exact (Hq j Bj).
  - intros is_ m1 (Wi & Ty & B) Sm _. destruct is_ as [|i [|]]; cbn in Ty; try discriminate. injection Ty as Ti. inversion Wi; subst.
    cbn [vals map] in B |- *. inversion B as [|? ? ? ? Bi _]; subst.
    destruct (row_view dbg a n p i D Sa Pp) as (v & Ev & Dv & Ad & El); try assumption; [intros Q; rewrite Ti; apply Wd; exact Q|].
    unfold filling. rewrite Ev, bind_ok. destruct (fill_l v (w (vals [i])) m1) as (m2 & E2 & V2 & F2).
    { split; [exact Ad|]. split; [intros js Bj; exact Bj|]. rewrite !Dv. split.
      - intros x y Bx By Exy. rewrite Dv in Bx, By. destruct (row_coord _ _ Bx) as (j & -> & Bj). destruct (row_coord _ _ By) as (j' & -> & Bj').
        rewrite !El in Exy by assumption. f_equal. apply (default_distinct a D Nn) in Exy; [injection Exy as ->; reflexivity|rewrite Da; apply box2; assumption|rewrite Da; apply box2; assumption].
      - intros js Bj. destruct (row_coord _ _ Bj) as (j & -> & Bj'). rewrite El by assumption. apply Sm, Wa. rewrite Da. apply box2; assumption. }
    exists m2. split; [exact E2|]. destruct (row_frame a v (cval p) (cval i) m1 m2 Dv El F2) as [S2 O2]. split; [exact S2|]. split; [exact O2|].
    intros j Bj. unfold value. rewrite <- El by exact Bj. apply V2. rewrite Dv. apply box2; lia.
Qed.

Lemma fill_rows_l {T} dbg n p a (w : list Z -> T) (m : mem T) : default_layout a -> c_shape a = [n; p] -> 0 < cval p -> c_data a <> Null -> writable m a ->
  (dbg = true -> promote (cty n) = cty n) ->
  exists m', shape_loop (filling dbg a w) [n] m = Ok m' /\ frame a a m m' /\
    forall i j, in_box (dims a) [i; j] -> value m' a [i; j] (w [i]).
Proof.
  intros D Sa Pp Nn Wa Wd. assert (Da : dims a = [cval n; cval p]) by (unfold dims; rewrite Sa; reflexivity).
  pose proof D as ((Ws & Ns & _) & _). rewrite Sa in Ws, Ns. cbn [vals map] in Ns. inversion Ws as [|? ? Wn _]; subst. inversion Ns as [|? ? Nn0 _]; subst.
  destruct (independent_l [n] (in_row a (cval p)) (filled a (cval p) w)
    (filling dbg a w) m) as (m' & E & Sm & Fr & H).
  - constructor; [exact Wn|constructor].
  - constructor; [exact Nn0|constructor].
  - apply fill_independent; assumption.
  - exists m'. split; [exact E|]. split.
    + split; [exact Sm|]. intros q No. apply Fr. intros c B Rc. cbn [vals map] in B. inversion B as [|? ? x ? B1 Bs]; subst. inversion Bs; subst.
      destruct Rc as (j & Bj & ->). apply (No [x; j]); [rewrite Da; apply box2; assumption|reflexivity].
    + intros i j B. rewrite Da in B. inversion B as [|? ? ? ? B1 Bs]; subst. inversion Bs as [|? ? ? ? B2 _]; subst.
      apply (H [i]); [apply in_box_cons; [exact B1|apply in_box_nil]|exact B2].
Qed.

Lemma scan_rows_l {T} dbg n p a (g : T -> T -> T) init (A : Z -> Z -> T) (m : mem T) : default_layout a -> c_shape a = [n; p] -> 0 < cval p -> c_data a <> Null ->
  (forall i j, in_box (dims a) [i; j] -> value m a [i; j] (A i j)) -> (dbg = true -> promote (cty n) = cty n) ->
  exists m', shape_loop (scanning dbg a g init) [n] m = Ok m' /\ frame a a m m' /\
    forall i j, in_box (dims a) [i; j] -> value m' a [i; j] (fold_left (fun s k => g s (A i (Z.of_nat k))) (seq 0 (Z.to_nat j + 1)) init).
Proof.
  intros D Sa Pp Nn Va Wd. assert (Da : dims a = [cval n; cval p]) by (unfold dims; rewrite Sa; reflexivity).
  pose proof D as ((Ws & Ns & _) & _). rewrite Sa in Ws, Ns. cbn [vals map] in Ns. inversion Ws as [|? ? Wn _]; subst. inversion Ns as [|? ? Nn0 _]; subst.
  destruct (independent_l [n] (in_row a (cval p)) (fun c m1 => match c with [i] => forall j, 0 <= j < cval p ->
      value m1 a [i; j] (fold_left (fun s k => g s (A i (Z.of_nat k))) (seq 0 (Z.to_nat j + 1)) init) | _ => True end)
    (scanning dbg a g init) m) as (m' & E & Sm & Fr & H).
  - constructor; [exact Wn|constructor].
  - constructor; [exact Nn0|constructor].
  - split; [|split].
    + intros c c' q B B'. apply (rows_apart a (cval n) (cval p) c c' q D Nn Da B B').
    + intros c m1 m2 Eq Hq. destruct c as [|i [|]]; try exact Logic.I. intros j Bj. unfold value, peek. rewrite Eq by (exists j; split; [exact Bj|reflexivity]).
      exact (Hq j Bj).
    + intros is_ m1 (Wi & Ty & B) Sm Eq. destruct is_ as [|i [|]]; cbn in Ty; try discriminate. injection Ty as Ti. inversion Wi; subst.
      cbn [vals map] in B, Eq |- *. inversion B as [|? ? ? ? Bi _]; subst.
      destruct (row_view dbg a n p i D Sa Pp) as (v & Ev & Dv & Ad & El); try assumption; [intros Q; rewrite Ti; apply Wd; exact Q|].
      assert (V1 : forall j, 0 <= j < cval p -> value m1 v [0; j] (A (cval i) j)).
      { intros j Bj. unfold value, peek. rewrite El by exact Bj. rewrite Eq by (left; exists j; split; [exact Bj|reflexivity]).
        apply Va. rewrite Da. apply box2; assumption. }
      assert (Dt : distinct_on v v).
      { intros x y Bx By Exy. rewrite Dv in Bx, By. destruct (row_coord _ _ Bx) as (j & -> & Bj). destruct (row_coord _ _ By) as (j' & -> & Bj').
        rewrite !El in Exy by assumption. f_equal. apply (default_distinct a D Nn) in Exy; [injection Exy as ->; reflexivity|rewrite Da; apply box2; assumption|rewrite Da; apply box2; assumption]. }
      unfold scanning. rewrite Ev, bind_ok. destruct (inclusive_values_l v v init g (fun x => x) m1) as (vs & m2 & Vs & E2 & V2 & F2).
      { split; [exact Ad|]. split; [intros js Bj; exact Bj|]. intros js Bj. rewrite Dv in Bj. destruct (row_coord _ _ Bj) as (j & -> & Bj').
        exists (A (cval i) j). apply V1. exact Bj'. }
      { split; [exact Ad|]. split; [intros js Bj; exact Bj|]. split; [exact Dt|]. intros js Bj. rewrite Dv in Bj. destruct (row_coord _ _ Bj) as (j & -> & Bj').
        eapply peek_valid. apply V1. exact Bj'. }
      { intros x y Bx By Ne Exy. apply Ne, Dt; assumption. }
      exists m2. split; [exact E2|]. destruct (row_frame a v (cval p) (cval i) m1 m2 Dv El F2) as [S2 O2]. split; [exact S2|]. split; [exact O2|].
      intros j Bj. unfold value. rewrite <- El by exact Bj. specialize (V2 [0; j]). rewrite Dv in V2.
      assert (Bb : in_box [1; cval p] [0; j]) by (apply box2; lia). specialize (V2 Bb).
      assert (Evs : vs = map (fun k => A (cval i) (Z.of_nat k)) (seq 0 (Z.to_nat (cval p)))).
      { unfold values in Vs. rewrite Dv, row_box in Vs. clear - Vs V1.
        assert (G : forall l, Forall2 (fun is_ x => value m1 v is_ x) (map (fun k => [0; Z.of_nat k]) l) vs -> (forall k, In k l -> Z.of_nat k < cval p) ->
          vs = map (fun k => A (cval i) (Z.of_nat k)) l).
        { clear Vs. intros l. revert vs. induction l as [|k l IH]; intros vs F Hl; inversion F; subst; [reflexivity|]. cbn [map]. f_equal.
          - specialize (V1 (Z.of_nat k)). pose proof (Hl k (or_introl eq_refl)). unfold value in *. rewrite V1 in H1 by lia. congruence.
          - apply IH; [assumption|]. intros q I1. apply Hl. right. exact I1. }
        apply (G _ Vs). intros k I1. apply in_seq in I1. lia. }
      assert (Rk : Z.to_nat (rank [1; cval p] [0; j]) = Z.to_nat j) by (unfold rank; cbn [rank_from]; f_equal; lia).
      rewrite Rk, Evs, firstn_map, fold_map in V2. cbn beta in V2.
      replace (seq 0 (Z.to_nat j + 1)) with (firstn (Z.to_nat j + 1) (seq 0 (Z.to_nat (cval p)))); [exact V2|].
      replace (Z.to_nat (cval p)) with ((Z.to_nat j + 1) + (Z.to_nat (cval p) - (Z.to_nat j + 1)))%nat by lia.
      rewrite seq_app, firstn_app, seq_length, Nat.sub_diag. cbn [firstn]. rewrite app_nil_r. rewrite <- (seq_length (Z.to_nat j + 1) 0) at 1. apply firstn_all.
  - exists m'. split; [exact E|]. split.
    + split; [exact Sm|]. intros q No. apply Fr. intros c B Rc. cbn [vals map] in B. inversion B as [|? ? x ? B1 Bs]; subst. inversion Bs; subst.
      destruct Rc as (j & Bj & ->). apply (No [x; j]); [rewrite Da; apply box2; assumption|reflexivity].
    + intros i j B. rewrite Da in B. inversion B as [|? ? ? ? B1 Bs]; subst. inversion Bs as [|? ? ? ? B2 _]; subst.
      apply (H [i]); [apply in_box_cons; [exact B1|apply in_box_nil]|exact B2].
Qed.
