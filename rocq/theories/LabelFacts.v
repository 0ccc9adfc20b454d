(** Facts about labels, for property C68. *)
From Coq Require Import ZArith String List Bool Lia.
From Verif Require Import Outcome CInt CIntFacts Spec SpecFacts ShapeSpec Shape ShapeFacts ShapeFacts2 ForEachSpec ForEachFacts
  Memory MemFacts Container ContainerSpec ContainerFacts ContainerFacts2 ContainerFacts3 Algo AlgoSpec AlgoFacts4
  Search Slicer Output OutputSpec OutputFacts Label.
Import ListNotations.
Open Scope Z_scope.

(** A typed coordinate for every position. *)
Lemma typed_coord c is_ : default_layout c -> in_box (dims c) is_ -> exists cs, coord_of c cs /\ vals cs = is_.
Proof.
  intros (Lg & _) B. apply box_In in B. unfold dims in B. rewrite <- tbox_vals in B.
  apply in_map_iff in B. destruct B as (cs & E & I). exists cs. split; [|exact E]. split.
  - pose proof (tbox_wfs _ (proj1 Lg)) as W. rewrite Forall_forall in W. exact (W _ I).
  - rewrite E. apply box_In. unfold dims. rewrite <- tbox_vals. apply in_map_iff. exists cs. split; assumption.
Qed.

Lemma get_peek {T} (m : mem T) c cs v : default_layout c -> coord_of c cs ->
  (get m c cs = Ok v <-> peek m (elem c (vals cs)) = Some v).
Proof.
  intros D C. rewrite get_load by (try apply default_addressable; assumption).
  unfold load, peek. destruct (cell m _) as [[x|]|]; split; intros H; congruence || discriminate.
Qed.

(** Two containers with the same shape and the same elements have the same text. *)
Lemma print_same {T} (show : T -> string) l (m m' : mem T) c c' : default_layout c -> default_layout c' ->
  c_shape c' = c_shape c -> readable m c -> (forall is_, coord_of c is_ -> get m' c' is_ = get m c is_) ->
  readable m' c' /\ print show l m' c' = print show l m c.
Proof.
  intros D D' Es R G.
  assert (Ed : dims c' = dims c) by (unfold dims; congruence).
  assert (Pk : forall is_ v, in_box (dims c) is_ -> peek m (elem c is_) = Some v -> peek m' (elem c' is_) = Some v).
  { intros is_ v B P. destruct (typed_coord c is_ D B) as (cs & C & <-).
    apply get_peek in P; [|assumption..].
    assert (C' : coord_of c' cs) by (destruct C as [W B']; split; [exact W|rewrite Ed; exact B']).
    apply (get_peek m' c' cs v D' C'). rewrite (G cs C). exact P. }
  assert (R' : readable m' c').
  { intros is_ B. rewrite Ed in B. destruct (R is_ B) as (v & P). exists v. exact (Pk is_ v B P). }
  split; [exact R'|].
  destruct (Z.eq_dec (prod (dims c)) 0) as [Z0|NZ].
  - rewrite (print_empty_l show l m c (proj1 (default_wf c D)) (proj1 D) (proj1 (proj2 D)) Z0).
    rewrite <- Ed in Z0.
    exact (print_empty_l show l m' c' (proj1 (default_wf c' D')) (proj1 D') (proj1 (proj2 D')) Z0).
  - assert (V0 : exists v0 : T, True).
    { destruct (box (dims c)) as [|i0 b0] eqn:Eb.
      - exfalso. apply NZ. pose proof (box_length (dims c)) as Hl. rewrite Eb in Hl. cbn [length] in Hl.
        assert (0 <= prod (dims c)) by (apply prod_nonneg; exact (proj1 (proj2 (proj1 D)))).
        specialize (Hl ltac:(exact (proj1 (proj2 (proj1 D))))). lia.
      - destruct (R i0) as (v0 & _); [apply box_In; rewrite Eb; left; reflexivity|]. exists v0. exact I. }
    destruct V0 as (v0 & _).
    set (f := fun is_ => match peek m (elem c is_) with Some v => v | None => v0 end).
    assert (F : forall is_, in_box (dims c) is_ -> value m c is_ (f is_)).
    { intros is_ B. destruct (R is_ B) as (v & P). unfold value, f. rewrite P. reflexivity. }
    rewrite (print_l show l m c f) by
      (try exact F; try exact NZ; try exact (proj1 D); try exact (proj1 (proj2 D)); apply default_can_read; auto).
    rewrite <- Ed.
    apply print_l; [apply default_can_read; auto|apply D'|apply (proj2 D')|congruence|].
    intros is_ B. rewrite Ed in B. apply Pk; [exact B|]. apply F. exact B.
Qed.

Lemma readable_text {T} (show : T -> string) l (m : mem T) c f : default_layout c -> readable m c -> prod (dims c) <> 0 ->
  (forall is_, in_box (dims c) is_ -> value m c is_ (f is_)) ->
  print show l m c = Ok (heading l ++ text (indent l) (dims c) (fun is_ => show (f is_)))%string.
Proof.
  intros D R NZ F. apply print_l; [apply default_can_read; auto|apply D|apply (proj2 D)|exact NZ|exact F].
Qed.

(** ** relabel, and what is deduced from a container *)
Lemma view_text {T} (show : T -> string) l (m : mem T) ss c : default_layout c -> readable m c ->
  exists v, view_of ss c = Ok v /\ c_shape v = c_shape c /\ print show l m v = print show l m c.
Proof.
  intros D R. destruct (view_of_contiguous_l ss c (proj1 D) (proj1 (proj2 D))) as (v & E & Dv & Es & _).
  destruct (view_of_default_l ss c D) as (v' & E' & _ & G). rewrite E in E'. injection E' as <-.
  exists v. split; [exact E|]. split; [exact Es|].
  apply print_same; auto. intros is_ C. exact (proj1 (proj2 (G is_ C) T m)).
Qed.

Lemma relabel_l {T} (show : T -> string) (m : mem T) ss x l : default_layout (l_c x) -> readable m (l_c x) ->
  exists v, relabel ss x l = Ok v /\ label_of v = snd l /\
    show_labelled show m v = print show (Some (snd l)) m (l_c x).
Proof.
  intros D R. destruct (view_text show (Some (snd l)) m ss (l_c x) D R) as (v & E & _ & P).
  exists (L (Some l) v). unfold relabel. cbn [metadata_from merge_label bind]. rewrite E.
  split; [reflexivity|]. split; [destruct l; reflexivity|exact P].
Qed.

Lemma view_deduced_l {T} (show : T -> string) (m : mem T) ss x : default_layout (l_c x) -> readable m (l_c x) ->
  exists v, view_of_labelled ss x = Ok v /\ label_of v = ""%string /\
    show_labelled show m v = print show None m (l_c x).
Proof.
  intros D R. destruct (view_text show None m ss (l_c x) D R) as (v & E & _ & P).
  exists (L None v). unfold view_of_labelled. cbn [metadata_from bind]. rewrite E.
  split; [reflexivity|]. split; [reflexivity|exact P].
Qed.

Lemma contiguous_readable {T} (m : mem T) c : default_layout c -> readable m c ->
  forall k, 0 <= k < prod (dims c) -> exists v, peek m (padd (c_data c) k) = Some v.
Proof.
  intros D R k Hk. destruct (default_index_surj_l c k D Hk) as (is_ & B & <- & _).
  destruct (R is_ B) as (v & P). exists v. rewrite <- P. f_equal.
  destruct (typed_coord c is_ D B) as (cs & [W B'] & <-).
  pose proof (elem_address c cs (default_addressable c _ D) W B') as A.
  destruct (default_index_rank_l c cs D W B) as (_ & _ & _ & _ & A'). congruence.
Qed.

Lemma table_deduced_l {T} (show : T -> string) (m : mem T) ss x : default_layout (l_c x) -> readable m (l_c x) ->
  exists m' t, table_of_labelled m ss x = Ok (m', t) /\ label_of t = ""%string /\
    show_labelled show m' t = print show None m (l_c x).
Proof.
  intros D R.
  destruct (table_of_contiguous_l m ss (l_c x) (proj1 D) (proj1 (proj2 D)) (contiguous_readable m _ D R))
    as (m' & t & E & Dt & Es & G & _).
  exists m', (L None t). unfold table_of_labelled. cbn [metadata_from bind]. rewrite E.
  split; [reflexivity|]. split; [reflexivity|].
  apply (print_same show None m m' (l_c x) t); auto. intros is_ C. rewrite (G is_ C).
  rewrite get_load by (try apply default_addressable; assumption). f_equal.
  destruct C as [W B]. pose proof (elem_address (l_c x) is_ (default_addressable _ _ D) W B) as A.
  destruct (default_index_rank_l (l_c x) is_ D W B) as (_ & _ & _ & _ & A'). congruence.
Qed.

Lemma no_label_l {T} (m : mem T) x :
  (forall ss m' t, table_of_labelled m ss x = Ok (m', t) -> l_label t = None) /\
  (forall ss v, view_of_labelled ss x = Ok v -> l_label v = None) /\
  (forall ss sh v, reshape_labelled ss x sh = Ok v -> l_label v = None) /\
  (forall st v, reverse_labelled st x = Ok v -> l_label v = None) /\
  (forall dbg ss st sls v, slice_labelled dbg ss st x sls = Ok v -> l_label v = None).
Proof.
  unfold table_of_labelled, view_of_labelled, reshape_labelled, reverse_labelled, slice_labelled. cbn [metadata_from bind].
  split; [|split; [|split; [|split]]]; intros *; intros E; apply bind_inv in E; destruct E as (y & _ & E);
    try destruct y; injection E; intros; subst; reflexivity.
Qed.

(** ** Copies *)
Lemma labelled_copy_l {T} (m : mem T) x y : l_label x <> None ->
  copy_labelled m x = UB /\ assign_labelled m x y = UB /\ assign_view m x y = UB.
Proof.
  intros H. unfold copy_labelled, assign_labelled, assign_view, label_type_of, settings_label.
  destruct (l_label x); [|contradiction]. repeat split; reflexivity.
Qed.

Lemma unlabelled_copy_l {T} (show : T -> string) (m : mem T) x : l_label x = None -> default_layout (l_c x) ->
  readable m (l_c x) ->
  exists m' t, copy_labelled m x = Ok (m', t) /\ label_of t = ""%string /\
    show_labelled show m' t = show_labelled show m x.
Proof.
  intros N D R. destruct (copy_table_deep_l m (l_c x) D R) as (m' & t & E & Dt & Es & G & _).
  exists m', (L None t). unfold copy_labelled, label_type_of. rewrite N. cbn [option_map metadata_from bind]. rewrite E.
  split; [reflexivity|]. split; [reflexivity|].
  unfold show_labelled. rewrite N. cbn [l_label l_c option_map].
  apply (print_same show None m m' (l_c x) t); auto. intros is_ C. destruct (G is_ C) as (v & -> & ->). reflexivity.
Qed.

Lemma unlabelled_assign_l {T} (show : T -> string) (m : mem T) x y : l_label x = None ->
  default_layout (l_c x) -> default_layout (l_c y) -> same_type (l_c x) (l_c y) -> owns m (l_c x) -> readable m (l_c y) ->
  exists m' t, assign_labelled m x y = Ok (m', t) /\ label_of t = ""%string /\
    show_labelled show m' t = print show None m (l_c y).
Proof.
  intros N Dx Dy St Ow R. destruct (assign_table_l m (l_c x) (l_c y) Dx Dy St Ow R) as (m' & d & E & Dd & Es & G & _).
  exists m', (L None d). unfold assign_labelled, label_type_of. rewrite N. cbn [option_map metadata_from bind].
  unfold assign_table in E. apply bind_inv in E. destruct E as ([m1 loc] & E1 & E2). rewrite E1. cbn [bind].
  unfold swap_labelled. cbn [l_label l_c]. destruct (swap_containers (l_c x) loc) as [d' o]. cbn [l_c].
  apply bind_inv in E2. destruct E2 as (m2 & E2 & E3). rewrite E2. cbn [bind]. injection E3 as <- <-.
  split; [reflexivity|]. split; [reflexivity|].
  apply (print_same show None m m2 (l_c y) d'); auto.
Qed.

Lemma view_assign_l {T} (show : T -> string) (m : mem T) x y : l_label x = None ->
  default_layout (l_c x) -> default_layout (l_c y) -> same_type (l_c x) (l_c y) ->
  exists v, assign_view m x y = Ok v /\ label_of v = ""%string /\ l_c v = l_c y /\
    show_labelled show m v = print show None m (l_c y).
Proof.
  intros N Dx Dy (Ek & El & Es).
  assert (H : exists v, assign_view m x y = Ok v /\ l_label v = None /\ l_c v = l_c y).
  { unfold assign_view, label_type_of. rewrite N. cbn [option_map metadata_from bind]. unfold settings, rebuild_accessor.
    pose proof (default_kind_inv _ Dx) as Kx. pose proof (default_kind_inv _ Dy) as Ky. rewrite <- Ek in Ky.
    unfold swap_labelled, swap_containers, swap_accessors. destruct (l_c y) as [ky sy ty py]. cbn [c_kind c_shape c_stride c_data] in *.
    destruct (c_kind (l_c x)) eqn:E; try contradiction.
    - destruct Ky as [Ky _]. rewrite Ky. cbn [bind l_c l_label c_kind c_shape c_stride c_data fst]. try rewrite E. cbn [fst]. eexists.
      split; [reflexivity|]. split; [reflexivity|]. cbn. congruence.
    - destruct (Es eq_refl) as [E1 E2]. cbn [bind l_c l_label c_kind c_shape c_stride c_data fst]. try rewrite E. cbn [fst]. eexists.
      split; [reflexivity|]. split; [reflexivity|]. cbn. congruence.
    - destruct Kx as [Kx _], Ky as [Ky _]. cbn [bind l_c l_label c_kind c_shape c_stride c_data fst]. try rewrite E. cbn [fst]. eexists.
      split; [reflexivity|]. split; [reflexivity|]. cbn. congruence.
    - destruct Kx as [Kx _], Ky as [Ky _]. cbn [bind l_c l_label c_kind c_shape c_stride c_data fst]. try rewrite E. cbn [fst]. eexists.
      split; [reflexivity|]. split; [reflexivity|]. cbn. congruence. }
  destruct H as (v & E & Lb & Ec). exists v. split; [exact E|]. split; [unfold label_of; rewrite Lb; reflexivity|].
  split; [exact Ec|]. unfold show_labelled. rewrite Lb, Ec. reflexivity.
Qed.

(** ** Exchange *)
Lemma make_accessor_kind ss st sh given k s : make_accessor ss st sh given = Ok (k, s) -> k = K1 \/ k = K2 -> s = [].
Proof.
  unfold make_accessor. intros E H.
  destruct given as [g|]; destruct ss; [| | |].
  - destruct st; [|apply bind_inv in E; destruct E as (t & _ & E)]; injection E as <- <-; destruct H; discriminate.
  - apply bind_inv in E; destruct E as (t & _ & E).
    destruct sh as [|a [|b [|c r]]]; injection E as <- <-; destruct H; discriminate.
  - apply bind_inv in E. destruct E as (t & _ & E). injection E as <- <-. destruct H; discriminate.
  - destruct sh as [|a [|b [|c r]]]; try (injection E as <- <-; reflexivity);
      apply bind_inv in E; destruct E as (t & _ & E); injection E as <- <-; destruct H; discriminate.
Qed.

Lemma swap_is_swap a b : same_type a b ->
  (exists ss st g, make_accessor ss st (c_shape a) g = Ok (c_kind a, c_stride a)) ->
  (exists ss st g, make_accessor ss st (c_shape b) g = Ok (c_kind b, c_stride b)) ->
  swap_containers a b = (b, a).
Proof.
  intros (Ek & _ & St) (s1 & t1 & g1 & A) (s2 & t2 & g2 & B).
  pose proof (make_accessor_kind _ _ _ _ _ _ A) as HA. pose proof (make_accessor_kind _ _ _ _ _ _ B) as HB. clear A B.
  unfold swap_containers, swap_accessors. destruct a as [ka sa ta da], b as [kb sb tb db].
  cbn [c_kind c_shape c_stride c_data] in *. subst kb.
  destruct ka; try reflexivity;
    try (destruct (St eq_refl) as [-> ->]; reflexivity);
    try (rewrite HA, HB by auto; reflexivity).
Qed.

Lemma swap_labelled_l {T} (show : T -> string) (m : mem T) x y : same_type (l_c x) (l_c y) ->
  (exists ss st g, make_accessor ss st (c_shape (l_c x)) g = Ok (c_kind (l_c x), c_stride (l_c x))) ->
  (exists ss st g, make_accessor ss st (c_shape (l_c y)) g = Ok (c_kind (l_c y), c_stride (l_c y))) ->
  let (x', y') := swap_labelled x y in
  label_of x' = label_of y /\ label_of y' = label_of x /\
  show_labelled show m x' = show_labelled show m y /\ show_labelled show m y' = show_labelled show m x.
Proof.
  intros St A B. unfold swap_labelled. rewrite (swap_is_swap _ _ St A B). repeat split; reflexivity.
Qed.

Lemma swap_labelled_stack_l {T} (show : T -> string) (m : mem T) x y : default_layout (l_c x) -> default_layout (l_c y) ->
  same_type (l_c x) (l_c y) -> c_kind (l_c x) = KStatic -> readable m (l_c x) -> readable m (l_c y) ->
  ~ same_block (c_data (l_c x)) (c_data (l_c y)) ->
  exists m' x' y', swap_labelled_stack m x y = Ok (m', x', y') /\
    label_of x' = label_of y /\ label_of y' = label_of x /\
    show_labelled show m' x' = show_labelled show m y /\ show_labelled show m' y' = show_labelled show m x.
Proof.
  intros Dx Dy St K Rx Ry Nb.
  destruct (swap_stack_l m (l_c x) (l_c y) Dx Dy St K Rx Ry Nb) as (m' & E & G & _).
  assert (Es : c_shape (l_c x) = c_shape (l_c y)) by (apply (proj2 (proj2 St)); exact K).
  exists m', (L (l_label y) (l_c x)), (L (l_label x) (l_c y)). unfold swap_labelled_stack. rewrite E.
  split; [reflexivity|]. split; [reflexivity|]. split; [reflexivity|].
  assert (C : forall is_, coord_of (l_c x) is_ <-> coord_of (l_c y) is_)
    by (intros is_; unfold coord_of, dims; rewrite Es; reflexivity).
  unfold show_labelled. cbn [l_label l_c]. split.
  - apply (print_same show _ m m' (l_c y) (l_c x)); auto. intros is_ H. apply G, C, H.
  - apply (print_same show _ m m' (l_c x) (l_c y)); auto. intros is_ H. apply G, H.
Qed.

Lemma move_labelled_l {T} (show : T -> string) (m : mem T) moved x :
  let (t, old) := move_labelled moved x in
  label_of t = label_of x /\ show_labelled show m t = show_labelled show m x /\
  match l_label x with
  | Some (Owned, s) => label_of old = moved s
  | _ => label_of old = label_of x
  end.
Proof.
  unfold move_labelled, move_table, label_of, show_labelled. cbn [l_label l_c].
  destruct x as [[[[]]|] c]; repeat split; try reflexivity; destruct c; reflexivity.
Qed.
