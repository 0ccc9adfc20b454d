From Coq Require Import ZArith Ascii String Decimal DecimalString List Bool Lia.
From Verif Require Import Outcome CInt CIntFacts Spec SpecFacts ShapeSpec Shape ShapeFacts Prefilled PrefilledSpec PrefilledFacts
  ForEach ForEachSpec ForEachFacts Memory MemFacts Container ContainerSpec ContainerFacts ContainerFacts2 Algo AlgoSpec AlgoFacts AlgoFacts4
  NamedSize Names NamesSpec NamesFacts Output OutputSpec OutputFacts OutputFacts2 SliceText Stream StreamSpec StreamFacts.
Import ListNotations.
Open Scope Z_scope.

(** ** Insertions of texts and wide integers: what is written, and the format after *)
Definition wide_item (p : insertion) : Prop := match p with PText _ => True | PInt t _ => byte t = false | PPos _ => False end.
Definition item_text (f : fmt) (p : insertion) : string :=
  match p with PText x => x | PInt t z => num_text f t z | PPos _ => "" end.

Lemma inserts_used s f ps : Forall wide_item ps -> inserts (s, used f) ps = ((s ++ cat (map (item_text f) ps))%string, used f).
Proof.
  intros H. revert s. induction H as [|p ps P H IH]; intros s; [cbn; rewrite sapp_nil; reflexivity|].
  rewrite inserts_cons. unfold cat. cbn [map fold_right]. fold (cat (map (item_text f) ps)). rewrite <- sapp_assoc.
  destruct p as [x|t z|b]; [rewrite insert_text_used|rewrite insert_int_used by exact P|contradiction]; apply IH.
Qed.

Lemma inserts_first s f x ps : Forall wide_item ps ->
  inserts (s, f) (PText x :: ps) = ((s ++ widened f x ++ cat (map (item_text f) ps))%string, used f).
Proof. intros H. rewrite inserts_cons, insert_text, inserts_used by exact H. rewrite sapp_assoc. reflexivity. Qed.

(** ** Shapes and strides *)
Definition ext_text (f : fmt) (d : desc) (v : cint) : string :=
  (num_text f (promote (cty v)) (cval v) ++ (if is_dynamic d then "" else "_c"))%string.
Fixpoint exts_text (f : fmt) (ds : list desc) (vs : list cint) : string :=
  match ds, vs with
  | d :: ds, v :: vs => (" " ++ ext_text f d v ++ exts_text f ds vs)%string
  | _, _ => ""%string
  end.

Lemma extents_items ds : forall vs, Forall wide_item (extents_pieces ds vs).
Proof.
  induction ds as [|d ds IH]; intros [|v vs]; try constructor; cbn [extents_pieces extent_pieces app]; try exact I.
  constructor; [apply byte_promote|]. apply Forall_app. split; [|apply IH]. destruct (is_dynamic d); repeat constructor.
Qed.

Lemma extents_cat f ds : forall vs, cat (map (item_text f) (extents_pieces ds vs)) = exts_text f ds vs.
Proof.
  induction ds as [|d ds IH]; intros [|v vs]; try reflexivity. cbn [extents_pieces exts_text]. rewrite map_app, cat_app, IH.
  unfold extent_pieces, ext_text, cat. destruct (is_dynamic d); cbn [map fold_right item_text append]; rewrite ?sapp_nil, ?sapp_assoc; reflexivity.
Qed.

Lemma shape_inserted p s f vs : to_values p = Ok vs -> exists ps, shape_pieces p = Ok ps /\
  inserts (s, f) ps = ((s ++ widened f "[" ++ exts_text f (pdesc p) vs ++ " ]")%string, used f).
Proof.
  intros V. unfold shape_pieces. rewrite V, bind_ok. eexists. split; [reflexivity|].
  rewrite inserts_first.
  - rewrite map_app, cat_app, extents_cat. cbn [map item_text cat fold_right]. rewrite sapp_nil. reflexivity.
  - apply Forall_app. split; [apply extents_items|]. repeat constructor.
Qed.

Lemma ext_free f d v c : In c [" "; "]"]%char -> free c (ext_text f d v).
Proof.
  intros H. unfold ext_text. apply free_app. split.
  - apply num_text_free. destruct H as [<-|[<-|[]]]; cbv; intros H; repeat (destruct H as [H|H]; [discriminate|]); contradiction.
  - destruct (is_dynamic d); [exact I|]. destruct H as [<-|[<-|[]]]; cbn; repeat split; discriminate.
Qed.

Lemma ext_iff f d v d' v' : wfc v -> wfc v' -> (f_base f <> BDec -> comparable v v') ->
  (ext_text f d v = ext_text f d' v' <-> is_dynamic d = is_dynamic d' /\ same_number f v v').
Proof.
  intros W W' C. unfold ext_text.
  assert (U : forall t z, free "_" (num_text f t z)).
  { intros; apply num_text_free. cbv. intros H; repeat (destruct H as [H|H]; [discriminate|]); contradiction. }
  split.
  - intros E. destruct (is_dynamic d), (is_dynamic d'); rewrite ?sapp_nil in E.
    + split; [reflexivity|]. apply number_iff; assumption.
    + exfalso. pose proof (U (promote (cty v)) (cval v)) as F. rewrite E in F. apply free_app in F as [_ [F _]]. contradiction.
    + exfalso. pose proof (U (promote (cty v')) (cval v')) as F. rewrite <- E in F. apply free_app in F as [_ [F _]]. contradiction.
    + split; [reflexivity|]. destruct (split_at "_" _ _ _ _ (U _ _) (U _ _) E) as [G _]. apply number_iff; assumption.
  - intros [-> N]. apply number_iff in N; try assumption. rewrite N. reflexivity.
Qed.

Lemma exts_head f ds vs : exists r, (exts_text f ds vs ++ " ]" = String " " r)%string.
Proof. destruct ds, vs; cbn; eauto. Qed.

Lemma exts_inj f : forall ds vs ds' vs', length ds = length vs -> length ds' = length vs' -> wfs vs -> wfs vs' ->
  (f_base f <> BDec -> length vs = length vs' -> Forall2 comparable vs vs') ->
  (exts_text f ds vs ++ " ]" = exts_text f ds' vs' ++ " ]")%string ->
  map is_dynamic ds = map is_dynamic ds' /\ Forall2 (same_number f) vs vs'.
Proof.
  assert (K : forall d v r, (String "]" "" = ext_text f d v ++ String " " r)%string -> False).
  { intros d v r E. pose proof (ext_free f d v "]" ltac:(cbn; tauto)) as F. destruct (ext_text f d v) as [|x s]; [discriminate|].
    injection E as <- _. destruct F as [F _]. contradiction. }
  assert (LE : forall ds vs ds' vs', length ds = length vs -> length ds' = length vs' ->
    (exts_text f ds vs ++ " ]" = exts_text f ds' vs' ++ " ]")%string -> length vs = length vs').
  { induction ds as [|d ds IH]; intros [|v vs] [|d' ds'] [|v' vs'] L L' E; try discriminate; [reflexivity| | |];
      cbn [exts_text append] in E; injection E as E; rewrite !sapp_assoc in E.
    - exfalso. destruct (exts_head f ds' vs') as [r R]. rewrite R in E. exact (K _ _ _ E).
    - exfalso. destruct (exts_head f ds vs) as [r R]. rewrite R in E. symmetry in E. exact (K _ _ _ E).
    - destruct (exts_head f ds vs) as [r R]. destruct (exts_head f ds' vs') as [r' R']. rewrite R, R' in E.
      destruct (split_at " " _ _ _ _ (ext_free f d v " " ltac:(cbn; tauto)) (ext_free f d' v' " " ltac:(cbn; tauto)) E) as [G1 G2].
      cbn [length]. f_equal. apply (IH vs ds' vs'); [simpl in L; congruence|simpl in L'; congruence|]. rewrite R, R'. congruence. }
  intros ds vs ds' vs' L L' W W' C E. pose proof (LE _ _ _ _ L L' E) as Lv.
  assert (C2 : f_base f <> BDec -> Forall2 comparable vs vs') by (intros; apply C; assumption). clear C.
  revert vs ds' vs' L L' W W' C2 E Lv. induction ds as [|d ds IH]; intros [|v vs] [|d' ds'] [|v' vs'] L L' W W' C E Lv; try discriminate.
  - split; constructor.
  - cbn [exts_text append] in E. injection E as E. rewrite !sapp_assoc in E.
    destruct (exts_head f ds vs) as [r R]. destruct (exts_head f ds' vs') as [r' R'].
    pose proof E as E0. rewrite R, R' in E.
    destruct (split_at " " _ _ _ _ (ext_free f d v " " ltac:(cbn; tauto)) (ext_free f d' v' " " ltac:(cbn; tauto)) E) as [G1 G2].
    inversion W as [|? ? Wv Wr]; subst. inversion W' as [|? ? Wv' Wr']; subst.
    apply ext_iff in G1; [|exact Wv|exact Wv'|intros N; specialize (C N); inversion C; assumption]. destruct G1 as [D N].
    destruct (IH vs ds' vs') as [A B]; [simpl in L; congruence|simpl in L'; congruence|exact Wr|exact Wr'|
      intros X; specialize (C X); inversion C; assumption| |simpl in Lv; congruence|].
    + rewrite R, R'. congruence.
    + cbn [map]. rewrite D, A. split; [reflexivity|constructor; assumption].
Qed.

Lemma exts_eq f : forall ds vs ds' vs', length ds = length vs -> wfs vs -> wfs vs' ->
  (f_base f <> BDec -> Forall2 comparable vs vs') ->
  map is_dynamic ds = map is_dynamic ds' -> Forall2 (same_number f) vs vs' -> exts_text f ds vs = exts_text f ds' vs'.
Proof.
  intros ds vs ds' vs' L W W' C D N. revert ds ds' L D W W' C. induction N as [|v v' vs vs' Nv N IH]; intros ds ds' L D W W' C.
  - destruct ds, ds'; try discriminate; reflexivity.
  - destruct ds as [|d ds], ds' as [|d' ds']; try discriminate. cbn [map] in D. injection D as D1 D2.
    inversion W as [|? ? Wv Wr]; subst. inversion W' as [|? ? Wv' Wr']; subst. cbn [exts_text].
    rewrite (proj2 (ext_iff f d v d' v' Wv Wv' ltac:(intros X; specialize (C X); inversion C; assumption)) (conj D1 Nv)).
    rewrite (IH ds ds'); [reflexivity|simpl in L; congruence|exact D2|exact Wr|exact Wr'|intros X; specialize (C X); inversion C; assumption].
Qed.

Lemma same_numbers f vs ws : Forall2 (same_number f) vs ws <->
  map cval vs = map cval ws /\ (f_base f = BDec -> f_pos f = true -> signs vs = signs ws).
Proof.
  split.
  - induction 1 as [|v w vs ws [E1 E2] _ [IH1 IH2]]; [split; auto|]. unfold signs in *. cbn [map]. split; [congruence|].
    intros A B. f_equal; auto.
  - revert ws. induction vs as [|v vs IH]; intros [|w ws] [A B]; try discriminate; constructor.
    + cbn [map] in A. injection A as A _. split; [exact A|]. intros X Y. specialize (B X Y). unfold signs in B. cbn [map] in B. congruence.
    + apply IH. cbn [map] in A. split; [congruence|]. intros X Y. specialize (B X Y). unfold signs in *. cbn [map] in B. congruence.
Qed.

Lemma shape_tells_l f s p q vs ws ps qs : wfp p -> wfp q -> to_values p = Ok vs -> to_values q = Ok ws -> wfs vs -> wfs ws ->
  (f_base f <> BDec -> length vs = length ws -> Forall2 comparable vs ws) ->
  shape_pieces p = Ok ps -> shape_pieces q = Ok qs ->
  (inserts (s, f) ps = inserts (s, f) qs <->
   map is_dynamic (pdesc p) = map is_dynamic (pdesc q) /\ map cval vs = map cval ws /\
   (f_base f = BDec -> f_pos f = true -> signs vs = signs ws)).
Proof.
  intros Wp Wq Vp Vq Fp Fq C Pp Pq. pose proof (to_values_ok p Wp) as Vp'. pose proof (to_values_ok q Wq) as Vq'.
  pose proof (values_length p Wp) as Lp. pose proof (values_length q Wq) as Lq.
  replace (PrefilledFacts.values p) with vs in * by congruence. replace (PrefilledFacts.values q) with ws in * by congruence.
  destruct (shape_inserted p s f _ Vp) as (ps' & Pp' & Ip). destruct (shape_inserted q s f _ Vq) as (qs' & Pq' & Iq).
  replace ps' with ps in * by congruence. replace qs' with qs in * by congruence.
  rewrite Ip, Iq. split.
  - intros E. injection E as E. apply sapp_inj_l, sapp_inj_l in E.
    apply exts_inj in E; try assumption; try congruence. destruct E as [D N]. apply same_numbers in N. tauto.
  - intros (D & N). apply same_numbers in N. rewrite (exts_eq f _ _ (pdesc q) ws); try assumption; try reflexivity; [congruence|].
    intros X. apply C; [exact X|]. clear -N. induction N; cbn [length]; congruence.
Qed.

Lemma first_l f s x ps : Forall wide_item ps -> exists rest, forall g, g = f \/ g = used f ->
  inserts (s, g) (PText x :: ps) = ((s ++ widened g x ++ rest)%string, used f).
Proof.
  intros H. eexists. intros g [->| ->]; rewrite inserts_first by exact H; reflexivity.
Qed.

Lemma both_l f s x ps : Forall wide_item ps -> exists rest,
  inserts (s, used f) (PText x :: ps) = ((s ++ x ++ rest)%string, used f) /\
  inserts (s, f) (PText x :: ps) = ((s ++ widened f x ++ rest)%string, used f).
Proof.
  intros H. destruct (first_l f s x ps H) as [rest R]. exists rest. split.
  - rewrite (R (used f)) by auto. rewrite widened_used. reflexivity.
  - apply R. auto.
Qed.

Lemma shape_formats_l f s p ps : shape_pieces p = Ok ps -> exists rest,
  inserts (s, used f) ps = ((s ++ "[" ++ rest)%string, used f) /\
  inserts (s, f) ps = ((s ++ widened f "[" ++ rest)%string, used f).
Proof.
  unfold shape_pieces. intros H. apply bind_inv in H as (vs & V & H). injection H as <-.
  apply both_l. apply Forall_app. split; [apply extents_items|]. repeat constructor.
Qed.

Lemma shape_plain_l s p x : print_prefilled p = Ok x -> exists ps, shape_pieces p = Ok ps /\
  inserts (s, plain_fmt) ps = ((s ++ x)%string, plain_fmt).
Proof.
  unfold print_prefilled. intros H. apply bind_inv in H as (vs & V & H). injection H as <-.
  destruct (shape_inserted p s plain_fmt vs V) as (ps & P & E). exists ps. split; [exact P|]. rewrite E.
  change plain_fmt with (used plain_fmt) at 1. rewrite widened_used. change (used plain_fmt) with plain_fmt. do 2 f_equal. cbn [append]. do 2 f_equal.
  clear. generalize (pdesc p). intros ds. revert vs. induction ds as [|d ds IH]; intros [|v vs]; try reflexivity.
  cbn [exts_text show_extents]. rewrite IH. unfold ext_text, show_extent. do 2 f_equal.
  unfold num_text, int_parts. cbn [f_base plain_fmt fst snd f_pos andb]. rewrite <- dec_abs. reflexivity.
Qed.

(** ** Positions *)
Lemma index_items l : Forall wide_item (index_pieces l).
Proof.
  induction l as [|i [|j l] IH]; [constructor| |].
  - repeat constructor.
  - change (index_pieces (i :: j :: l)) with (PInt I32 i :: PText ", " :: index_pieces (j :: l)). constructor; [reflexivity|].
    constructor; [exact I|exact IH].
Qed.

Fixpoint idx_text (f : fmt) (l : list Z) : string :=
  match l with
  | [] => ""%string
  | [i] => num_text f I32 i
  | i :: l => (num_text f I32 i ++ ", " ++ idx_text f l)%string
  end.

Lemma index_cat f l : cat (map (item_text f) (index_pieces l)) = idx_text f l.
Proof.
  induction l as [|i [|j l] IH]; [reflexivity| |].
  - cbn. apply sapp_nil.
  - change (index_pieces (i :: j :: l)) with (PInt I32 i :: PText ", " :: index_pieces (j :: l)).
    change (idx_text f (i :: j :: l)) with (num_text f I32 i ++ ", " ++ idx_text f (j :: l))%string.
    rewrite <- IH. reflexivity.
Qed.

Lemma position_items l : Forall wide_item (tl (position_pieces l)).
Proof. unfold position_pieces. cbn [tl]. repeat constructor. apply Forall_app. split; [apply index_items|repeat constructor]. Qed.

Lemma position_formats_l f s l : exists rest,
  inserts (s, used f) (position_pieces l) = ((s ++ "position<" ++ rest)%string, used f) /\
  inserts (s, f) (position_pieces l) = ((s ++ widened f "position<" ++ rest)%string, used f).
Proof. apply both_l. exact (position_items l). Qed.

Lemma position_inserted f s l : inserts (s, f) (position_pieces l) =
  ((s ++ widened f "position<" ++ num_text f U64 (Z.of_nat (length l)) ++ ">(" ++ idx_text f l ++ ")")%string, used f).
Proof.
  unfold position_pieces. rewrite inserts_first by exact (position_items l). do 2 f_equal. f_equal.
  unfold cat. cbn [map fold_right]. rewrite map_app. change (fold_right append ""%string) with cat. rewrite cat_app, index_cat.
  cbn [map item_text cat fold_right]. rewrite sapp_nil. reflexivity.
Qed.

Lemma num_same f t z z' : in_ty t z -> in_ty t z' -> num_text f t z = num_text f t z' -> z = z'.
Proof.
  intros I I' E.
  assert (Dc : {f_base f = BDec} + {f_base f <> BDec}) by (destruct (f_base f); [left; reflexivity|right; discriminate|right; discriminate]).
  destruct Dc as [B|B].
  - apply dec_text_inj in E; [apply E|exact B].
  - apply based_text_inj in E; try apply modulus_pos; [|exact B]. apply (based_eq t t z z' I I'); [left; reflexivity|exact E].
Qed.

Ltac not_numeral := cbv; intros NN; repeat (destruct NN as [NN|NN]; [discriminate|]); contradiction.

Lemma idx_inj f : forall l l', Forall (in_ty I32) l -> Forall (in_ty I32) l' -> length l = length l' ->
  (idx_text f l ++ ")" = idx_text f l' ++ ")")%string -> l = l'.
Proof.
  assert (U : forall z, free "," (num_text f I32 z)) by (intros; apply num_text_free; not_numeral).
  assert (V : forall z, free ")" (num_text f I32 z)) by (intros; apply num_text_free; not_numeral).
  induction l as [|i l IH]; intros [|i' l'] F F' L E; try discriminate; [reflexivity|].
  inversion F as [|? ? Fi Fl]; subst. inversion F' as [|? ? Fi' Fl']; subst.
  destruct l as [|j l], l' as [|j' l']; try discriminate.
  - cbn [idx_text] in E. destruct (split_at ")" _ _ _ _ (V i) (V i') E) as [G _]. apply num_same in G; congruence.
  - change (idx_text f (i :: j :: l)) with (num_text f I32 i ++ ", " ++ idx_text f (j :: l))%string in E.
    change (idx_text f (i' :: j' :: l')) with (num_text f I32 i' ++ ", " ++ idx_text f (j' :: l'))%string in E.
    rewrite !sapp_assoc in E. destruct (split_at "," _ _ _ _ (U i) (U i') E) as [G1 G2]. apply num_same in G1; [|assumption|assumption].
    injection G2 as G2. subst i'. f_equal. apply IH; [assumption|assumption|simpl in *; congruence|exact G2].
Qed.

Lemma position_tells_l f s a b : Forall (in_ty I32) a -> Forall (in_ty I32) b ->
  in_ty U64 (Z.of_nat (length a)) -> in_ty U64 (Z.of_nat (length b)) ->
  inserts (s, f) (position_pieces a) = inserts (s, f) (position_pieces b) -> a = b.
Proof.
  intros Fa Fb La Lb. rewrite !position_inserted. intros E. injection E as E. apply sapp_inj_l, sapp_inj_l in E. cbn [append] in E.
  destruct (split_at ">" _ _ _ _ (num_text_free f U64 _ ">" ltac:(not_numeral)) (num_text_free f U64 _ ">" ltac:(not_numeral)) E) as [G1 G2].
  apply num_same in G1; [|assumption|assumption]. injection G2 as G2. apply (idx_inj f); [assumption|assumption|lia|exact G2].
Qed.

Lemma position_plain_l s l : inserts (s, plain_fmt) (position_pieces l) = ((s ++ print_position l)%string, plain_fmt).
Proof.
  rewrite position_inserted. change plain_fmt with (used plain_fmt) at 1. rewrite widened_used. unfold print_position.
  assert (N : forall t z, num_text plain_fmt t z = dec z).
  { intros. unfold num_text, int_parts. cbn [f_base plain_fmt fst snd f_pos andb]. rewrite <- dec_abs. reflexivity. }
  rewrite N. change (used plain_fmt) with plain_fmt. do 6 f_equal.
  induction l as [|i [|j l] IH]; [reflexivity|apply N|].
  change (idx_text plain_fmt (i :: j :: l)) with (num_text plain_fmt I32 i ++ ", " ++ idx_text plain_fmt (j :: l))%string.
  rewrite IH, N. reflexivity.
Qed.
