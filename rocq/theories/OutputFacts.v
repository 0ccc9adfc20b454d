From Coq Require Import ZArith Ascii String List Bool Lia.
From Verif Require Import Outcome CInt CIntFacts Spec SpecFacts ShapeSpec Shape ShapeFacts ShapeFacts2 ForEach ForEachSpec
  ForEachFacts Memory MemFacts Container ContainerSpec ContainerFacts ContainerFacts2 Algo AlgoSpec AlgoFacts AlgoFacts4
  SlicerFacts Output OutputSpec.
Import ListNotations.
Open Scope Z_scope.

Lemma sapp_assoc a b c : ((a ++ b) ++ c = a ++ b ++ c)%string.
Proof. induction a as [|x a IH]; simpl; [reflexivity|]. rewrite IH. reflexivity. Qed.
Lemma sapp_nil a : (a ++ "" = a)%string.
Proof. induction a as [|x a IH]; simpl; [reflexivity|]. rewrite IH. reflexivity. Qed.

Definition cat (l : list string) : string := fold_right append ""%string l.

Lemma concat_cat l : String.concat "" l = cat l.
Proof.
  induction l as [|x l IH]; [reflexivity|]. unfold cat in *. cbn [fold_right]. rewrite <- IH.
  destruct l; cbn [String.concat]; [symmetry; apply sapp_nil|reflexivity].
Qed.

Lemma cat_app a b : cat (a ++ b) = (cat a ++ cat b)%string.
Proof. induction a as [|x a IH]; [reflexivity|]. unfold cat in *. cbn [app fold_right]. rewrite IH, sapp_assoc. reflexivity. Qed.

Lemma cat_flat {A} (f : A -> list string) l : cat (flat_map f l) = cat (map (fun x => cat (f x)) l).
Proof.
  induction l as [|x l IH]; [reflexivity|]. cbn [flat_map map]. rewrite cat_app, IH. reflexivity.
Qed.

(** The text written for one element. *)
Definition piece (spaces : string) (ns : list Z) (idx : list Z) (e : string) : string :=
  let order := length ns in
  let brk := if (3 <=? order)%nat
             then match skipn (order - 2) idx, nth_error idx (order - 3) with
                  | [a; b], Some k => (a =? 0) && (b =? 0) && (0 <? k)
                  | _, _ => false
                  end
             else false in
  ((if brk then nl else "") ++ (if Z.eqb (last idx 0%Z) 0 then spaces ++ "[ " else "") ++ e ++ " " ++
   (if Z.eqb (last idx 0%Z) (last ns 0%Z - 1) then "]" ++ nl else ""))%string.

Lemma last_cons (i : Z) is_ d : is_ <> [] -> last (i :: is_) d = last is_ d.
Proof. destruct is_; [contradiction|reflexivity]. Qed.

Lemma piece_line sp n (f : Z -> string) k : forall s, 0 <= s -> (1 <= k)%nat -> s + Z.of_nat k = n ->
  cat (map (fun i => piece sp [n] [i] (f i)) (zrange s k)) =
  ((if Z.eqb s 0 then sp ++ "[ " else "") ++ cat (map (fun i => f i ++ " ") (zrange s k)) ++ "]" ++ nl)%string.
Proof.
  induction k as [|k IH]; intros s H0 H1 H; [lia|]. cbn [zrange map]. unfold cat at 1 2. cbn [fold_right].
  fold (cat (map (fun i => piece sp [n] [i] (f i)) (zrange (s + 1) k))). fold (cat (map (fun i => f i ++ " ")%string (zrange (s + 1) k))).
  unfold piece at 1. cbn [length Nat.leb last]. destruct k as [|k].
  - cbn [zrange map cat fold_right]. replace (s =? n - 1) with true by (symmetry; apply Z.eqb_eq; lia).
    rewrite !sapp_assoc. cbn [append]. reflexivity.
  - rewrite IH by lia. replace (s =? n - 1) with false by (symmetry; apply Z.eqb_neq; lia).
    replace (s + 1 =? 0) with false by (symmetry; apply Z.eqb_neq; lia).
    rewrite !sapp_assoc. cbn [append]. reflexivity.
Qed.

Lemma piece_skip sp n ns i is_ e : length is_ = length ns -> (length ns = 1%nat \/ (3 <= length ns)%nat) ->
  piece sp (n :: ns) (i :: is_) e = piece sp ns is_ e.
Proof.
  intros L H. assert (Ne : is_ <> []) by (destruct is_, ns; simpl in *; try discriminate; lia).
  assert (Nn : ns <> []) by (destruct is_, ns; simpl in *; try discriminate; lia).
  unfold piece. rewrite !last_cons by assumption. f_equal. cbn [length].
  destruct H as [H|H]; [rewrite H; reflexivity|].
  destruct (Nat.leb_spec 3 (S (length ns))); [|lia]. destruct (Nat.leb_spec 3 (length ns)); [|lia].
  replace (S (length ns) - 2)%nat with (S (length ns - 2)) by lia.
  replace (S (length ns) - 3)%nat with (S (length ns - 3)) by lia. reflexivity.
Qed.

Lemma piece_panel sp n m l i is_ e : length is_ = 2%nat ->
  piece sp [n; m; l] (i :: is_) e = ((if (if list_eq_dec Z.eq_dec is_ [0; 0] then true else false) && Z.ltb 0 i then nl else "") ++ piece sp [m; l] is_ e)%string.
Proof.
  intros L. destruct is_ as [|a [|b [|]]]; try discriminate. unfold piece. cbn [length Nat.leb Nat.sub skipn nth_error last].
  assert (E : (a =? 0) && (b =? 0) = (if list_eq_dec Z.eq_dec [a; b] [0; 0] then true else false)).
  { destruct (list_eq_dec Z.eq_dec [a; b] [0; 0]) as [H|H].
    - injection H as -> ->. reflexivity.
    - destruct (Z.eqb_spec a 0); [|reflexivity]. destruct (Z.eqb_spec b 0); [|reflexivity]. subst. contradiction. }
  rewrite E. reflexivity.
Qed.

Lemma box_head ns : Forall (fun n => 1 <= n) ns -> exists r, box ns = map (fun _ => 0) ns :: r.
Proof.
  induction 1 as [|n ns H F [r IH]]; [exists []; reflexivity|]. cbn [box map].
  destruct (Z.to_nat n) as [|k] eqn:E; [lia|]. cbn [zrange flat_map]. rewrite IH. cbn [map app]. eexists. reflexivity.
Qed.

Lemma box_lengths ns is_ : In is_ (box ns) -> length is_ = length ns.
Proof. intros I. apply box_In in I. apply in_box_length. exact I. Qed.

Lemma cat_ext {A} (f g : A -> string) l : (forall x, In x l -> f x = g x) -> cat (map f l) = cat (map g l).
Proof. intros H. f_equal. apply map_ext_in. exact H. Qed.

Lemma cat_sep (f : Z -> string) k : forall s, 0 < s ->
  cat (map (fun i => (if Z.ltb 0 i then nl else "") ++ f i)%string (zrange s k)) = cat (map (fun i => nl ++ f i)%string (zrange s k)).
Proof.
  intros s H. apply cat_ext. intros x I. apply zrange_In in I. destruct (Z.ltb_spec 0 x); [reflexivity|lia].
Qed.

Lemma concat_sep {A} (f : A -> string) l : forall x, String.concat nl (map f (x :: l)) = (f x ++ cat (map (fun y => nl ++ f y)%string l))%string.
Proof.
  induction l as [|y l IH]; intros x; [cbn [map String.concat cat fold_right]; symmetry; apply sapp_nil|].
  change (String.concat nl (map f (x :: y :: l))) with (f x ++ nl ++ String.concat nl (map f (y :: l)))%string.
  rewrite IH. unfold cat. cbn [map fold_right]. rewrite !sapp_assoc. reflexivity.
Qed.

Lemma map_flat {A B C} (g : B -> C) (f : A -> list B) l : map g (flat_map f l) = flat_map (fun x => map g (f x)) l.
Proof. induction l as [|x l IH]; [reflexivity|]. cbn [flat_map]. rewrite map_app, IH. reflexivity. Qed.

Lemma pieces_text sp ns : Forall (fun n => 1 <= n) ns -> ns <> [] -> forall f,
  cat (map (fun is_ => piece sp ns is_ (f is_)) (box ns)) = text sp ns f.
Proof.
  induction 1 as [|n ns Hn F IH]; intros Ne f; [contradiction|]. cbn [box].
  rewrite map_flat, cat_flat.
  destruct ns as [|m ns].
  - cbn [box map text]. unfold line. rewrite concat_cat, map_map.
    rewrite (cat_ext _ (fun i => piece sp [n] [i] (f [i]))) by (intros; cbn [cat fold_right]; apply sapp_nil).
    rewrite (piece_line sp n (fun i => f [i])) by lia. change (Z.eqb 0 0) with true. cbn iota. rewrite sapp_assoc. reflexivity.
  - assert (S : forall i, map (fun is_ => piece sp (n :: m :: ns) is_ (f is_)) (map (cons i) (box (m :: ns))) =
      map (fun is_ => piece sp (n :: m :: ns) (i :: is_) (f (i :: is_))) (box (m :: ns))) by (intros; apply map_map).
    assert (K : (length (m :: ns) = 2%nat \/ (length (m :: ns) = 1%nat \/ (3 <= length (m :: ns))%nat))) by (cbn [length]; lia).
    destruct K as [K|K].
    + destruct ns as [|l [|]]; try discriminate.
      change (text sp [n; m; l] f) with (String.concat nl (map (fun i => text sp [m; l] (fun is_ => f (i :: is_))) (zrange 0 (Z.to_nat n)))).
      assert (P : forall i, cat (map (fun is_ => piece sp [n; m; l] is_ (f is_)) (map (cons i) (box [m; l]))) =
        ((if Z.ltb 0 i then nl else "") ++ text sp [m; l] (fun is_ => f (i :: is_)))%string).
      { intros i. rewrite S. rewrite <- IH by discriminate. destruct (box_head [m; l] F) as [r B].
        assert (ND : NoDup (box [m; l])) by (apply box_NoDup; eapply Forall_impl; [|exact F]; cbn beta; intros; lia). rewrite B in *. cbn [map] in *. inversion ND as [|x y Ni ND']; subst.
        unfold cat. cbn [fold_right]. fold (cat (map (fun is_ => piece sp [n; m; l] (i :: is_) (f (i :: is_))) r)).
        fold (cat (map (fun is_ => piece sp [m; l] is_ (f (i :: is_))) r)).
        rewrite piece_panel by reflexivity. destruct (list_eq_dec Z.eq_dec [0; 0] [0; 0]) as [_|N]; [|contradiction].
        cbn [andb]. rewrite sapp_assoc. do 2 f_equal. apply cat_ext. intros x I.
        rewrite piece_panel.
        - destruct (list_eq_dec Z.eq_dec x [0; 0]) as [->|_]; [contradiction|reflexivity].
        - apply (box_lengths [m; l]). rewrite B. right. exact I. }
      rewrite (cat_ext _ _ _ (fun i _ => P i)). destruct (Z.to_nat n) as [|k] eqn:E; [lia|]. cbn [zrange].
      rewrite concat_sep. cbn [map]. unfold cat at 1. cbn [fold_right]. change (0 <? 0) with false. cbn iota.
      cbn [append]. f_equal. apply (cat_sep (fun i => text sp [m; l] (fun is_ => f (i :: is_)))). lia.
    + assert (T : text sp (n :: m :: ns) f = String.concat "" (map (fun i => text sp (m :: ns) (fun is_ => f (i :: is_))) (zrange 0 (Z.to_nat n)))).
      { destruct ns as [|l [|k ns]]; [reflexivity|cbn [length] in K; lia|reflexivity]. }
      rewrite T, concat_cat. apply cat_ext. intros i _. rewrite S, <- IH by discriminate. apply cat_ext.
      intros x I. apply piece_skip; [apply box_lengths; exact I|exact K].
Qed.

(** ** The model writes the pieces *)
Lemma ceqb_nonneg a b : wfc a -> wfc b -> 0 <= cval a -> 0 <= cval b -> ceqb a b = (cval a =? cval b).
Proof. intros. apply ceqb_exact; try assumption. right. split; assumption. Qed.

Lemma last_vals l : last (vals l) 0 = cval (last l (int 0)).
Proof. induction l as [|x l IH]; [reflexivity|]. destruct l; [reflexivity|]. exact IH. Qed.

Lemma last_In {A} (l : list A) d : l <> [] -> In (last l d) l.
Proof. induction l as [|x l IH]; intros H; [contradiction|]. destruct l; [left; reflexivity|]. right. apply IH. discriminate. Qed.

Lemma in_box_last ns is_ : in_box ns is_ -> ns <> [] -> 0 <= last is_ 0 < last ns 0.
Proof.
  induction 1 as [|n ns i is_ Hi B IH]; intros Ne; [contradiction|].
  destruct ns as [|m ns]; [inversion B; subst; exact Hi|]. assert (is_ <> []) by (inversion B; discriminate).
  rewrite !last_cons by (assumption || discriminate). apply IH. discriminate.
Qed.

Lemma print_elem_piece {T} (show : T -> string) sp shp p idx os (m : mem T) v :
  wfs shp -> shp <> [] -> wfs idx -> in_box (vals shp) (vals idx) -> load m p = Ok v ->
  print_elem show sp shp p idx (os, m) = Ok ((os ++ piece sp (vals shp) (vals idx) (show v))%string, m).
Proof.
  intros Ws Ns Wi B Ld. unfold print_elem. rewrite Ld, bind_ok.
  pose proof (in_box_length _ _ B) as L. rewrite !vals_length in L.
  assert (Ni : idx <> []) by (destruct idx, shp; simpl in *; try discriminate; contradiction).
  assert (W1 : wfc (last shp (int 0))) by (apply (proj1 (Forall_forall _ _) Ws), last_In; exact Ns).
  assert (W2 : wfc (last idx (int 0))) by (apply (proj1 (Forall_forall _ _) Wi), last_In; exact Ni).
  assert (Bl : 0 <= cval (last idx (int 0)) < cval (last shp (int 0))).
  { rewrite <- !last_vals. apply in_box_last; [exact B|]. destruct shp; [contradiction|discriminate]. }
  assert (Su : in_ty (common (cty (last shp (int 0))) I32) (cval (last shp (int 0)) - 1)).
  { apply in_ty_common_l; [|right; lia]. eapply in_ty_shrink; [exact W1|]. lia. }
  unfold csub. rewrite arith_exact; [|exact W1|unfold wfc, in_ty; simpl; lia|right; simpl; lia|exact Su].
  rewrite bind_ok. rewrite (ceqb_zero (last idx (int 0))) by exact W2.
  rewrite (ceqb_nonneg (last idx (int 0))) by (try exact W2; try exact Su; simpl; lia).
  cbn [cval int]. unfold piece. rewrite !last_vals, vals_length.
  assert (Bk : (if (3 <=? length shp)%nat
             then match skipn (length shp - 2) idx, nth_error idx (length shp - 3) with
                  | [a; b], Some k => (ceqb a (int 0) && ceqb b (int 0)) && clt (int 0) k
                  | _, _ => false
                  end else false) =
            (if (3 <=? length shp)%nat
             then match skipn (length shp - 2) (vals idx), nth_error (vals idx) (length shp - 3) with
                  | [a; b], Some k => (a =? 0) && (b =? 0) && (0 <? k)
                  | _, _ => false
                  end else false)).
  { destruct (3 <=? length shp)%nat; [|reflexivity]. unfold vals. rewrite nth_error_map, skipn_map.
    assert (Wk : Forall wfc (skipn (length shp - 2) idx)).
    { apply Forall_forall. intros x I. apply (proj1 (Forall_forall _ _) Wi).
      rewrite <- (firstn_skipn (length shp - 2) idx). apply in_or_app. right. exact I. }
    destruct (skipn (length shp - 2) idx) as [|a [|b [|]]]; try reflexivity. cbn [map].
    destruct (nth_error idx (length shp - 3)) as [k|] eqn:E; [|reflexivity]. cbn [option_map].
    inversion Wk as [|? ? Wa Wk']; subst. inversion Wk' as [|? ? Wb _]; subst.
    assert (Wk0 : wfc k) by (apply (proj1 (Forall_forall _ _) Wi); eapply nth_error_In; exact E).
    rewrite !ceqb_zero, clt_pos by assumption. reflexivity. }
  rewrite Bk.
  match goal with |- context [if ?x then (os ++ nl)%string else os] => destruct x end;
  destruct (cval (last idx (int 0)) =? 0); destruct (cval (last idx (int 0)) =? cval (last shp (int 0)) - 1);
  rewrite ?sapp_assoc; cbn [append]; rewrite ?sapp_assoc; reflexivity.
Qed.

Lemma c_empty_legal c : wf_container c -> legal (c_shape c) -> c_shape c <> [] -> c_empty c = Ok (prod (dims c) =? 0).
Proof.
  intros (_ & _ & _ & K) Lg Ne.
  assert (Nm : numel (c_shape c) = Ok (int (prod (dims c)))) by (apply numel_ok; assumption).
  assert (Ps : 0 <= prod (dims c) <= max31).
  { destruct Lg as (_ & Nn & P). fold (dims c) in *. pose proof (prod_nonneg _ Nn). pose proof (prod_le_posprod _ Nn). unfold max31. lia. }
  assert (Ez : ceqb (int (prod (dims c))) (int 0) = (prod (dims c) =? 0)).
  { rewrite ceqb_exact; [reflexivity| | |]; try (apply wfc_small_int; unfold max31 in *; lia). apply compat_signed; reflexivity. }
  assert (E1 : length (c_shape c) = 1%nat -> forall n r, c_shape c = n :: r -> ceqb n (int 0) = (prod (dims c) =? 0)).
  { intros L n r E. unfold dims. rewrite E in *. destruct r; [|discriminate].
    destruct Lg as (W & Nn & _). inversion W; subst. rewrite ceqb_zero by assumption.
    cbn [vals map]. unfold prod. cbn [fold_right]. rewrite Z.mul_1_r. reflexivity. }
  unfold c_empty, c_size. destruct (c_kind c); destruct (c_shape c) as [|n s] eqn:E; try contradiction;
    try (rewrite Nm, bind_ok, Ez; reflexivity);
    rewrite bind_ok; rewrite (E1 K n s) by reflexivity; reflexivity.
Qed.

Lemma print_empty_l {T} (show : T -> string) label (m : mem T) c : wf_container c -> legal (c_shape c) ->
  c_shape c <> [] -> prod (dims c) = 0 ->
  print show label m c = Ok (heading label ++ indent label ++ "[ ]")%string.
Proof.
  intros W Lg Ne Z0. unfold print. rewrite c_empty_legal by assumption. rewrite Z0, bind_ok. change (0 =? 0) with true.
  destruct label; reflexivity.
Qed.

Lemma print_l {T} (show : T -> string) label (m : mem T) c (f : list Z -> T) : can_read m c c ->
  legal (c_shape c) -> c_shape c <> [] -> prod (dims c) <> 0 ->
  (forall is_, in_box (dims c) is_ -> value m c is_ (f is_)) ->
  print show label m c = Ok (heading label ++ text (indent label) (dims c) (fun is_ => show (f is_)))%string.
Proof.
  intros R Lg Ne Nz V. unfold print. rewrite c_empty_legal by (assumption || apply R). rewrite bind_ok.
  destruct (Z.eqb_spec (prod (dims c)) 0) as [|_]; [contradiction|]. fold (heading label). fold (indent label).
  rewrite for_each_index_l; [|apply can_read_live; exact R|].
  2:{ intros p is_ s m0 s' m' E. unfold print_elem in E. apply bind_inv in E as (e & _ & E).
      apply bind_inv in E as (n & _ & E). injection E as _ <-. intros q. reflexivity. }
  assert (W : wfs (c_shape c)) by apply Lg.
  assert (G : forall l os, (forall t, In t l -> In t (tbox (c_shape c))) ->
    run (fun is_ => print_elem show (indent label) (c_shape c) (elem c (vals is_)) is_) l (os, m) =
    Ok ((os ++ cat (map (fun t => piece (indent label) (dims c) (vals t) (show (f (vals t)))) l))%string, m)).
  { induction l as [|t l IH]; intros os H; [cbn; rewrite sapp_nil; reflexivity|]. cbn [run].
    destruct (in_split _ _ (H t (or_introl eq_refl))) as (pre & post & E).
    destruct (tbox_at _ _ _ _ W E) as (Wt & Bt & _).
    rewrite (print_elem_piece show _ _ _ _ _ _ (f (vals t))); try assumption.
    - rewrite bind_ok, IH by (intros; apply H; right; assumption). unfold cat. cbn [map fold_right].
      rewrite sapp_assoc. reflexivity.
    - specialize (V _ Bt). unfold value, peek in V. unfold load.
      destruct (cell m (elem c (vals t))) as [[x|]|]; congruence. }
  rewrite G by auto. rewrite bind_ok. cbn [fst]. do 2 f_equal.
  rewrite <- (map_map vals (fun z => piece (indent label) (dims c) z (show (f z)))), tbox_vals. fold (dims c).
  assert (P : Forall (fun n => 1 <= n) (dims c)).
  { apply prod_pos_all; [apply Lg|]. pose proof (prod_nonneg (dims c) (proj1 (proj2 Lg))). lia. }
  apply (pieces_text (indent label) (dims c) P).
  unfold dims. destruct (c_shape c); [contradiction|discriminate].
Qed.
