From Coq Require Import ZArith Ascii String Decimal DecimalString DecimalPos DecimalZ DecimalFacts List Bool Lia.
From Verif Require Import Outcome CInt CIntFacts Spec SpecFacts ShapeSpec Shape Prefilled PrefilledSpec PrefilledFacts Memory Container
  ContainerSpec AlgoSpec Output OutputSpec OutputFacts.
Import ListNotations.
Open Scope Z_scope.

Lemma free_app c a b : free c (a ++ b)%string <-> free c a /\ free c b.
Proof. induction a as [|x a IH]; simpl; [tauto|]. rewrite IH. tauto. Qed.

Lemma split_at c a b x y : free c a -> free c b -> (a ++ String c x = b ++ String c y)%string -> a = b /\ x = y.
Proof.
  revert b. induction a as [|h a IH]; intros [|k b] Fa Fb E; simpl in *.
  - injection E as ->. auto.
  - injection E as -> _. destruct Fb as [N _]. contradiction.
  - injection E as -> _. destruct Fa as [N _]. contradiction.
  - injection E as -> E. destruct (IH b (proj2 Fa) (proj2 Fb) E) as [-> ->]. auto.
Qed.

Definition digits : list ascii := ["0"; "1"; "2"; "3"; "4"; "5"; "6"; "7"; "8"; "9"; "-"]%char.

Lemma free_uint c d : ~ In c digits -> free c (NilEmpty.string_of_uint d).
Proof.
  intros H. induction d; cbn; try exact I; (split; [intros <-; apply H; cbn; tauto|assumption]).
Qed.

Lemma free_dec c z : ~ In c digits -> free c (dec z).
Proof.
  intros H. unfold dec, NilZero.string_of_int, NilZero.string_of_uint. destruct (Z.to_int z) as [d|d].
  - destruct d; try apply (free_uint c _ H). cbn. split; [|exact I]. intros <-. apply H. cbn. tauto.
  - cbn. split; [intros <-; apply H; cbn; tauto|]. destruct d; try apply (free_uint c _ H).
    cbn. split; [|exact I]. intros <-. apply H. cbn. tauto.
Qed.

Lemma dec_inj a b : dec a = dec b -> a = b.
Proof.
  intros E. unfold dec in E.
  assert (N : forall z, NilZero.int_of_string (NilZero.string_of_int (Z.to_int z)) = Some (Z.to_int z)).
  { intros z. apply NilZero.isi; destruct z as [|p|p]; try discriminate; cbn; intros H; injection H as H;
      exact (Unsigned.to_uint_nonnil p H). }
  pose proof (N a) as Na. rewrite E, (N b) in Na. injection Na as Na. symmetry. apply to_int_inj. exact Na.
Qed.

Lemma dec_not_empty a : dec a <> ""%string.
Proof.
  unfold dec. destruct a as [|p|p]; try discriminate. unfold NilZero.string_of_int, NilZero.string_of_uint. cbn [Z.to_int].
  destruct (Pos.to_uint p); discriminate.
Qed.

Ltac not_digit := cbn; intros H; repeat (destruct H as [H|H]; [discriminate|]); contradiction.

(** ** Extents *)
Lemma extent_free d v : free " " (show_extent d v).
Proof.
  unfold show_extent. apply free_app. split; [apply free_dec; not_digit|].
  destruct (is_dynamic d); cbn; [exact I|]. repeat split; discriminate.
Qed.

Lemma extent_no_bracket d v : free "]" (show_extent d v).
Proof.
  unfold show_extent. apply free_app. split; [apply free_dec; not_digit|].
  destruct (is_dynamic d); cbn; [exact I|]. repeat split; discriminate.
Qed.

Lemma extent_inj d v d' v' : show_extent d v = show_extent d' v' -> is_dynamic d = is_dynamic d' /\ cval v = cval v'.
Proof.
  unfold show_extent. intros E.
  assert (U : forall z, free "_" (dec z)) by (intros; apply free_dec; not_digit).
  destruct (is_dynamic d), (is_dynamic d'); rewrite ?sapp_nil in E.
  - split; [reflexivity|]. apply dec_inj. exact E.
  - exfalso. pose proof (U (cval v)) as F. rewrite E in F. apply free_app in F as [_ [F _]]. contradiction.
  - exfalso. pose proof (U (cval v')) as F. rewrite <- E in F. apply free_app in F as [_ [F _]]. contradiction.
  - split; [reflexivity|]. destruct (split_at "_" _ _ _ _ (U _) (U _) E) as [G _]. apply dec_inj. exact G.
Qed.

Lemma extents_head ds vs : exists r, (show_extents ds vs ++ " ]" = String " " r)%string.
Proof. destruct ds, vs; cbn; eauto. Qed.

Lemma extents_inj : forall ds vs ds' vs', length ds = length vs -> length ds' = length vs' ->
  (show_extents ds vs ++ " ]" = show_extents ds' vs' ++ " ]")%string ->
  map is_dynamic ds = map is_dynamic ds' /\ map cval vs = map cval vs'.
Proof.
  assert (K : forall d v r, (String "]" "" = show_extent d v ++ String " " r)%string -> False).
  { intros d v r E. pose proof (extent_no_bracket d v) as F. destruct (show_extent d v) as [|x s]; [discriminate|].
    injection E as <- _. destruct F as [F _]. contradiction. }
  induction ds as [|d ds IH]; intros [|v vs] [|d' ds'] [|v' vs'] L L' E; try discriminate.
  - auto.
  - exfalso. cbn [show_extents append] in E. injection E as E. rewrite !sapp_assoc in E.
    destruct (extents_head ds' vs') as [r R]. rewrite R in E. exact (K _ _ _ E).
  - exfalso. cbn [show_extents append] in E. injection E as E. rewrite !sapp_assoc in E.
    destruct (extents_head ds vs) as [r R]. rewrite R in E. symmetry in E. exact (K _ _ _ E).
  - cbn [show_extents append] in E. injection E as E. rewrite !sapp_assoc in E.
    destruct (extents_head ds vs) as [r R]. destruct (extents_head ds' vs') as [r' R'].
    pose proof E as E0. rewrite R, R' in E.
    destruct (split_at " " _ _ _ _ (extent_free d v) (extent_free d' v') E) as [G1 G2].
    cbn [map]. destruct (extent_inj _ _ _ _ G1) as [-> ->].
    destruct (IH vs ds' vs') as [-> ->]; [simpl in L; congruence|simpl in L'; congruence| |auto].
    rewrite R, R'. congruence.
Qed.

Lemma prefilled_text_l p q : wfp p -> wfp q ->
  exists vs ws s, to_values p = Ok vs /\ to_values q = Ok ws /\ print_prefilled p = Ok s /\
    (print_prefilled q = Ok s <-> map is_dynamic (pdesc p) = map is_dynamic (pdesc q) /\ map cval vs = map cval ws).
Proof.
  intros Wp Wq. exists (PrefilledFacts.values p), (PrefilledFacts.values q). eexists. unfold print_prefilled. rewrite !to_values_ok, !bind_ok by assumption.
  split; [reflexivity|]. split; [reflexivity|]. split; [reflexivity|].
  pose proof (values_length p Wp) as Lp. pose proof (values_length q Wq) as Lq. split.
  - intros E. injection E as E. apply extents_inj in E; [|congruence|congruence]. destruct E; auto.
  - intros [A B]. do 2 f_equal. assert (X : show_extents (pdesc q) (PrefilledFacts.values q) = show_extents (pdesc p) (PrefilledFacts.values p)).
    { revert A B Lp Lq. generalize (pdesc p), (pdesc q), (PrefilledFacts.values p), (PrefilledFacts.values q). clear.
      intros l l'. revert l'. induction l as [|d l IH]; intros [|d' l'] [|v vs] [|w ws] A B Lp Lq; try discriminate; [reflexivity|].
      cbn [map] in A, B. injection A as A1 A2. injection B as B1 B2. cbn [show_extents]. unfold show_extent. rewrite A1, B1.
      rewrite (IH l' vs ws) by (simpl in *; congruence). reflexivity. }
    rewrite X. reflexivity.
Qed.

(** ** Positions *)
Lemma indexes_inj : forall l l', length l = length l' ->
  (show_indexes l ++ ")" = show_indexes l' ++ ")")%string -> l = l'.
Proof.
  assert (U : forall z, free "," (dec z)) by (intros; apply free_dec; not_digit).
  assert (V : forall z, free ")" (dec z)) by (intros; apply free_dec; not_digit).
  induction l as [|i l IH]; intros [|i' l'] L E; try discriminate; [reflexivity|].
  destruct l as [|j l], l' as [|j' l']; try discriminate.
  - cbn [show_indexes] in E. destruct (split_at ")" _ _ _ _ (V i) (V i') E) as [G _]. apply dec_inj in G. congruence.
  - change (show_indexes (i :: j :: l)) with (dec i ++ ", " ++ show_indexes (j :: l))%string in E.
    change (show_indexes (i' :: j' :: l')) with (dec i' ++ ", " ++ show_indexes (j' :: l'))%string in E.
    rewrite !sapp_assoc in E. destruct (split_at "," _ _ _ _ (U i) (U i') E) as [G1 G2]. apply dec_inj in G1.
    injection G2 as G2. subst i'. f_equal. apply IH; [simpl in *; congruence|exact G2].
Qed.

Lemma sapp_inj_l a x y : (a ++ x = a ++ y)%string -> x = y.
Proof. induction a as [|c a IH]; simpl; intros E; [exact E|]. injection E as E. auto. Qed.

Lemma position_text_l a b : print_position a = print_position b -> a = b.
Proof.
  unfold print_position. intros E. apply sapp_inj_l in E. cbn [append] in E.
  destruct (split_at ">" _ _ _ _ (free_dec ">" _ ltac:(not_digit)) (free_dec ">" _ ltac:(not_digit)) E) as [G1 G2].
  apply dec_inj in G1. injection G2 as G2. apply indexes_inj; [lia|exact G2].
Qed.

Lemma indexes_concat l : show_indexes l = String.concat ", " (map dec l).
Proof. induction l as [|i [|j l] IH]; [reflexivity|reflexivity|]. cbn [show_indexes map String.concat] in *. rewrite IH. reflexivity. Qed.
Lemma position_letter_l l :
  print_position l = ("position<" ++ dec (Z.of_nat (length l)) ++ ">(" ++ String.concat ", " (map dec l) ++ ")")%string.
Proof. unfold print_position. rewrite indexes_concat. reflexivity. Qed.

(** ** Elements can be read back *)
Lemma line_decode (f g : Z -> string) (l : list Z) : (forall i, In i l -> free " " (f i) /\ free " " (g i)) -> forall x y,
  (cat (map (fun i => f i ++ " ") l) ++ x = cat (map (fun i => g i ++ " ") l) ++ y)%string ->
  (forall i, In i l -> f i = g i) /\ x = y.
Proof.
  induction l as [|i l IH]; intros H x y E; [split; [contradiction|exact E]|].
  unfold cat in E. cbn [map fold_right] in E. rewrite !sapp_assoc in E. cbn [append] in E.
  destruct (H i (or_introl eq_refl)) as [A B].
  destruct (split_at " " _ _ _ _ A B E) as [G1 G2].
  destruct (IH (fun j J => H j (or_intror J)) x y G2) as [G3 G4]. split; [|exact G4].
  intros j [<-|J]; auto.
Qed.

Lemma parts_decode (t u : Z -> string) (P : Z -> Prop) (l : list Z) :
  (forall i x y, In i l -> (t i ++ x = u i ++ y)%string -> P i /\ x = y) -> forall sep x y,
  (String.concat sep (map t l) ++ x = String.concat sep (map u l) ++ y)%string -> (forall i, In i l -> P i) /\ x = y.
Proof.
  intros H sep. induction l as [|i l IH]; intros x y E; [split; [contradiction|exact E]|].
  destruct l as [|j l].
  - cbn [map String.concat] in E. destruct (H i x y (or_introl eq_refl) E) as [G1 G2]. split; [|exact G2].
    intros k [<-|[]]. exact G1.
  - change (String.concat sep (map t (i :: j :: l))) with (t i ++ sep ++ String.concat sep (map t (j :: l)))%string in E.
    change (String.concat sep (map u (i :: j :: l))) with (u i ++ sep ++ String.concat sep (map u (j :: l)))%string in E.
    rewrite !sapp_assoc in E. destruct (H i _ _ (or_introl eq_refl) E) as [G1 G2]. apply sapp_inj_l in G2.
    destruct (IH (fun k x y K => H k x y (or_intror K)) x y G2) as [G3 G4]. split; [|exact G4].
    intros k [<-|K]; auto.
Qed.

Lemma text_decode sp ns : ns <> [] -> forall f g, (forall is_, in_box ns is_ -> free " " (f is_) /\ free " " (g is_)) ->
  forall x y, (text sp ns f ++ x = text sp ns g ++ y)%string -> (forall is_, in_box ns is_ -> f is_ = g is_) /\ x = y.
Proof.
  induction ns as [|n ns IH]; intros Ne f g H x y E; [contradiction|].
  destruct ns as [|m ns].
  - cbn [text] in E. unfold line in E. rewrite !concat_cat, !map_map, !sapp_assoc in E. apply sapp_inj_l in E.
    cbn [append] in E. injection E as E. rewrite ?sapp_assoc in E.
    apply (line_decode (fun i => f [i]) (fun i => g [i])) in E.
    + destruct E as [G1 G2]. injection G2 as G2. split; [|exact G2].
      intros is_ B. inversion B as [|? ? i r Hi Br]; subst. inversion Br; subst. apply G1. apply zrange_In. lia.
    + intros i I. apply zrange_In in I. apply H. constructor; [lia|constructor].
  - assert (K : exists sep, forall f, text sp (n :: m :: ns) f =
      String.concat sep (map (fun i => text sp (m :: ns) (fun is_ => f (i :: is_))) (zrange 0 (Z.to_nat n)))).
    { destruct ns as [|l [|k ns]]; eexists; intros; reflexivity. }
    destruct K as [sep K]. rewrite !K in E.
    destruct (parts_decode (fun i => text sp (m :: ns) (fun is_ => f (i :: is_))) (fun i => text sp (m :: ns) (fun is_ => g (i :: is_)))
      (fun i => forall is_, in_box (m :: ns) is_ -> f (i :: is_) = g (i :: is_)) (zrange 0 (Z.to_nat n))) with (sep := sep) (x := x) (y := y) as [G1 G2].
    + intros i x' y' I E'. apply zrange_In in I. apply (IH ltac:(discriminate) (fun is_ => f (i :: is_)) (fun is_ => g (i :: is_))).
      * intros is_ B. apply H. constructor; [lia|exact B].
      * exact E'.
    + exact E.
    + split; [|exact G2]. intros is_ B. inversion B as [|? ? i r Hi Br]; subst. apply G1; [apply zrange_In; lia|exact Br].
Qed.

Lemma print_faithful_l {T} (show : T -> string) label (m m' : mem T) c c' f g s :
  (forall v, free " " (show v)) -> (forall v w, show v = show w -> v = w) ->
  can_read m c c -> can_read m' c' c' -> dims c = dims c' -> legal (c_shape c) -> legal (c_shape c') ->
  c_shape c <> [] -> c_shape c' <> [] -> prod (dims c) <> 0 ->
  (forall is_, in_box (dims c) is_ -> value m c is_ (f is_)) -> (forall is_, in_box (dims c') is_ -> value m' c' is_ (g is_)) ->
  print show label m c = Ok s -> print show label m' c' = Ok s ->
  forall is_, in_box (dims c) is_ -> f is_ = g is_.
Proof.
  intros Fr In_ R R' D Lg Lg' Ne Ne' Nz V V' E E'.
  rewrite (print_l show label m c f) in E by assumption.
  rewrite (print_l show label m' c' g) in E' by (try assumption; rewrite <- D; assumption).
  injection E as <-. injection E' as E'. apply sapp_inj_l in E'. rewrite <- D in E'.
  rewrite <- (sapp_nil (text _ _ (fun is_ => show (g is_)))), <- (sapp_nil (text _ _ (fun is_ => show (f is_)))) in E'.
  apply text_decode in E'.
  - intros is_ B. apply In_. symmetry. apply E'. exact B.
  - unfold dims. destruct (c_shape c); [contradiction|discriminate].
  - intros; split; apply Fr.
Qed.
