From Coq Require Import ZArith Ascii String Decimal DecimalString List Bool Lia.
From Verif Require Import Outcome CInt CIntFacts Spec SpecFacts ShapeSpec Shape ShapeFacts Prefilled PrefilledSpec PrefilledFacts
  ForEach ForEachSpec ForEachFacts Memory MemFacts Container ContainerSpec ContainerFacts ContainerFacts2 Algo AlgoSpec AlgoFacts AlgoFacts4
  SlicerFacts NamedSize NamedSizeSpec NamedStrideSpec Names NamesSpec NamesFacts Output OutputSpec OutputFacts OutputFacts2 SliceText Stream StreamSpec StreamFacts StreamFacts2.
Import ListNotations.
Open Scope Z_scope.

(** ** Axes *)
Definition id_text (f : fmt) (i : axis_id) : string :=
  match i with
  | AIdx k => if k <? 0 then ("implicit<" ++ num_text f I32 (- k - 1) ++ ">")%string else ("along<" ++ num_text f I32 k ++ ">")%string
  | AName s => s
  end.
Definition content_text (f : fmt) (tyname : ity -> string) (c : content) : string :=
  match c with
  | CJoker => "_"
  | CType t => tyname t
  | CStatic v => num_text f (promote (cty v)) (cval v)
  end.

Lemma axis_first_pieces tyname a : exists ps, axis_pieces tyname a = PText (axis_first (aid a)) :: ps /\ Forall wide_item ps.
Proof.
  unfold axis_pieces, id_pieces, axis_first.
  assert (C : Forall wide_item (content_pieces tyname (acont a) ++ [PText "]"])).
  { apply Forall_app. split; [|repeat constructor]. destruct (acont a); repeat constructor. apply byte_promote. }
  destruct (aid a) as [k|n]; [destruct (k <? 0)|]; cbn [app]; eexists; (split; [reflexivity|]); repeat constructor; exact C.
Qed.

Lemma axis_formats_l tyname f s a : exists rest,
  inserts (s, used f) (axis_pieces tyname a) = ((s ++ axis_first (aid a) ++ rest)%string, used f) /\
  inserts (s, f) (axis_pieces tyname a) = ((s ++ widened f (axis_first (aid a)) ++ rest)%string, used f).
Proof. destruct (axis_first_pieces tyname a) as (ps & -> & W). apply both_l. exact W. Qed.

Lemma axis_inserted tyname f s a : inserts (s, used f) (axis_pieces tyname a) =
  ((s ++ id_text f (aid a) ++ "[" ++ content_text f tyname (acont a) ++ "]")%string, used f).
Proof.
  rewrite inserts_used.
  2:{ destruct (axis_first_pieces tyname a) as (ps & -> & W). constructor; [exact I|exact W]. }
  do 2 f_equal. unfold axis_pieces. rewrite map_app, cat_app. f_equal.
  - unfold id_pieces, id_text. destruct (aid a) as [k|n]; [destruct (k <? 0)|]; cbn [map item_text cat fold_right];
      rewrite ?sapp_nil; reflexivity.
  - unfold cat. cbn [map fold_right item_text append]. f_equal. rewrite map_app. change (fold_right append ""%string) with cat.
    rewrite cat_app. cbn [map item_text cat fold_right]. rewrite sapp_nil. f_equal.
    destruct (acont a); cbn [content_pieces map item_text cat fold_right content_text]; apply sapp_nil.
Qed.

Lemma sapp_inj_r a b x : (a ++ String x "" = b ++ String x "")%string -> a = b.
Proof.
  revert b. induction a as [|c a IH]; intros [|d b]; cbn [append]; intros E.
  - reflexivity.
  - injection E as _ E. destruct b; discriminate E.
  - injection E as _ E. destruct a; discriminate E.
  - injection E as -> E. f_equal. auto.
Qed.

Lemma free_In c s : free c s -> ~ In c (list_ascii_of_string s).
Proof. induction s as [|x s IH]; cbn; [tauto|]. intros [N F] [E|E]; [congruence|]. exact (IH F E). Qed.

Lemma id_free_l f i : plain_name i -> free "[" (id_text f i).
Proof.
  destruct i as [k|n]; cbn [plain_name id_text]; [|tauto]. intros _.
  assert (U : forall z, free "[" (num_text f I32 z)) by (intros; apply num_text_free; not_numeral).
  destruct (k <? 0); apply free_app; (split; [cbn; repeat split; discriminate|]); apply free_app; (split; [apply U|]); cbn; repeat split; discriminate.
Qed.

Lemma id_inj f i j : plain_name i -> plain_name j -> id_text f i = id_text f j -> i = j.
Proof.
  assert (A : forall k n, free "<" n -> id_text f (AIdx k) = n -> False).
  { intros k n F <-. cbn [id_text] in F. destruct (k <? 0); apply free_app in F as [F _]; cbn in F; tauto. }
  assert (G : forall z, free ">" (num_text f I32 z)) by (intros; apply num_text_free; not_numeral).
  destruct i as [k|n], j as [k'|n']; intros P P' E.
  - cbn [plain_name id_text] in *. unfold in_ty in *. cbn [tmin tmax] in *.
    destruct (Z.ltb_spec k 0), (Z.ltb_spec k' 0); try discriminate E; cbn [append] in E; injection E as E;
      apply sapp_inj_r in E; apply num_same in E; unfold in_ty; cbn [tmin tmax]; try lia; f_equal; lia.
  - exfalso. exact (A k n' (proj2 P') E).
  - exfalso. exact (A k' n (proj2 P) (eq_sym E)).
  - cbn [id_text] in E. congruence.
Qed.

Lemma num_not_type f tyname t t' z : type_names tyname -> num_text f t z <> tyname t'.
Proof.
  intros [_ T] E. destruct (T t') as (c & I & N). rewrite <- E in I. revert I. apply free_In, num_text_free.
  intros X. apply N. right. exact X.
Qed.
Lemma joker_not_type tyname t : type_names tyname -> "_"%string <> tyname t.
Proof. intros [_ T] E. destruct (T t) as (c & I & N). rewrite <- E in I. destruct I as [<-|[]]. apply N. left. reflexivity. Qed.
Lemma num_not_joker f t z : num_text f t z <> "_"%string.
Proof.
  intros E. assert (F : free "_" (num_text f t z)) by (apply num_text_free; not_numeral). rewrite E in F. destruct F. contradiction.
Qed.

Lemma axis_tells_l tyname f s a b : type_names tyname -> plain_name (aid a) -> plain_name (aid b) ->
  Forall sane_desc [a; b] -> f_pos f = false ->
  (inserts (s, used f) (axis_pieces tyname a) = inserts (s, used f) (axis_pieces tyname b) <-> axis_eq a b = true).
Proof.
  intros T Na Nb Sd Ps. rewrite (axis_eq_iff_l a b Sd), !axis_inserted. inversion Sd as [|? ? Sa Sd']; subst. inversion Sd' as [|? ? Sb _]; subst.
  unfold sane_desc in Sa, Sb. split.
  - intros E. injection E as E. apply sapp_inj_l in E. cbn [append] in E.
    destruct (split_at "[" _ _ _ _ (id_free_l f _ Na) (id_free_l f _ Nb) E) as [G1 G2]. apply id_inj in G1; [|assumption|assumption].
    split; [exact G1|]. apply sapp_inj_r in G2.
    destruct (acont a) as [|t|v], (acont b) as [|u|w]; cbn [content_text] in G2; try reflexivity.
    + exfalso. exact (joker_not_type _ _ T G2).
    + exfalso. exact (num_not_joker _ _ _ (eq_sym G2)).
    + exfalso. exact (joker_not_type _ _ T (eq_sym G2)).
    + f_equal. apply T. exact G2.
    + exfalso. exact (num_not_type _ _ _ _ _ T (eq_sym G2)).
    + exfalso. exact (num_not_joker _ _ _ G2).
    + exfalso. exact (num_not_type _ _ _ _ _ T G2).
    + apply number_iff in G2; [apply G2|apply Sa|apply Sb|]. intros _. right. split; [apply Sa|apply Sb].
  - intros [E C]. rewrite E. do 4 f_equal. destruct (acont a) as [|t|v], (acont b) as [|u|w]; try discriminate C; try reflexivity.
    + injection C as ->. reflexivity.
    + cbn [content_text]. f_equal. apply number_iff; [apply Sa|apply Sb|intros _; right; split; [apply Sa|apply Sb]|].
      split; [exact C|]. intros _ X. congruence.
Qed.

(** ** Ratios, ends and slicers *)
Lemma after s f p : snd (insert (s, f) p) = match p with PPos b => with_pos f b | _ => used f end.
Proof. destruct p as [x|t z|b]; try reflexivity. cbn [insert]. destruct (int_parts f t z). destruct t; reflexivity. Qed.

Lemma after_all s f ps : snd (inserts (s, f) ps) =
  fold_left (fun f p => match p with PPos b => with_pos f b | _ => used f end) ps f.
Proof.
  revert s f. induction ps as [|p ps IH]; intros s f; [reflexivity|]. rewrite inserts_cons. cbn [fold_left].
  destruct (insert (s, f) p) as [s' f'] eqn:E. rewrite IH. f_equal. rewrite <- (after s f p), E. reflexivity.
Qed.

Definition fmt_after (ps : list insertion) (f : fmt) : fmt :=
  fold_left (fun f p => match p with PPos b => with_pos f b | _ => used f end) ps f.
Lemma fmt_after_app ps qs f : fmt_after (ps ++ qs) f = fmt_after qs (fmt_after ps f).
Proof. apply fold_left_app. Qed.
Lemma fmt_after_num a f : fmt_after (num_pieces a) f = used f.
Proof. unfold num_pieces. destruct (is_fixed a); reflexivity. Qed.

Lemma ratio_formats_l f s n d : snd (inserts (s, f) (ratio_pieces n d)) = used f.
Proof.
  rewrite after_all. change (fmt_after (ratio_pieces n d) f = used f). unfold ratio_pieces.
  rewrite fmt_after_app, fmt_after_num. change (fmt_after (num_pieces d) (used (used f)) = used f). rewrite fmt_after_num. reflexivity.
Qed.

Definition keeps (t : tend) : bool := ceqb (nint (t_off t)) (int 0).
Lemma fmt_after_end t f : fmt_after (end_pieces t) f = with_pos (used f) (f_pos f && keeps t).
Proof.
  unfold end_pieces, keeps. rewrite !fmt_after_app.
  assert (A : fmt_after (if ceqb (nint (t_fac t)) (int 1) then [PText "end"] else num_pieces (t_fac t) ++ [PText " * end"]) f = used f).
  { destruct (ceqb (nint (t_fac t)) (int 1)); [reflexivity|]. rewrite fmt_after_app, fmt_after_num. reflexivity. }
  rewrite A.
  assert (B : fmt_after (if ceqb (nint (t_div t)) (int 1) then [] else PText "/" :: num_pieces (t_div t)) (used f) = used f).
  { destruct (ceqb (nint (t_div t)) (int 1)); [reflexivity|]. change (fmt_after (num_pieces (t_div t)) (used (used f)) = used f). rewrite fmt_after_num. reflexivity. }
  rewrite B. destruct (ceqb (nint (t_off t)) (int 0)).
  - rewrite andb_true_r. destruct f. reflexivity.
  - rewrite andb_false_r. change (fmt_after (num_pieces (t_off t) ++ [PPos false]) (with_pos (used f) true) = with_pos (used f) false).
    rewrite fmt_after_app, fmt_after_num. reflexivity.
Qed.

Lemma keeps_zero t : wfc (nint (t_off t)) -> keeps t = (cval (nint (t_off t)) =? 0).
Proof. intros W. unfold keeps. apply ceqb_zero. exact W. Qed.

Lemma end_formats_l f s t : wfc (nint (t_off t)) ->
  snd (inserts (s, f) (end_pieces t)) = if cval (nint (t_off t)) =? 0 then used f else with_pos (used f) false.
Proof.
  intros W. rewrite after_all. change (fmt_after (end_pieces t) f = (if cval (nint (t_off t)) =? 0 then used f else with_pos (used f) false)).
  rewrite fmt_after_end, keeps_zero by exact W. destruct (_ =? 0); [rewrite andb_true_r|rewrite andb_false_r; reflexivity].
  destruct f; reflexivity.
Qed.

Definition keeps_bound (b : vbound) : bool := match b with VInt _ => true | VEnd t => keeps t end.
Lemma with_pos_same f : with_pos f (f_pos f) = f. Proof. destruct f; reflexivity. Qed.
Lemma fmt_after_bound b f : fmt_after (bound_pieces b) f = with_pos (used f) (f_pos f && keeps_bound b).
Proof.
  destruct b as [a|t]; cbn [bound_pieces keeps_bound]; [|apply fmt_after_end].
  rewrite fmt_after_num, andb_true_r. symmetry. exact (with_pos_same (used f)).
Qed.

Lemma start_after s ps f : start_pieces s = Ok ps -> exists k, fmt_after ps f = with_pos (used f) (f_pos f && k) /\
  (forall a, ts_begin s = Some (TInt a) -> k = true) /\ (ts_begin s = None -> ts_len s = None -> k = true) /\
  (ts_begin s = None -> ts_stop s = None -> k = true) /\
  (forall a b, ts_begin s = None -> ts_stop s = Some (TInt a) -> ts_len s = Some (TInt b) -> k = true) /\
  (forall e t, ts_begin s = Some (TEnd e) -> tbuild e = Ok t -> k = keeps t).
Proof.
  unfold start_pieces. destruct (ts_begin s) as [b|] eqn:Eb.
  - intros H. apply bind_inv in H as (v & V & H). injection H as <-. exists (keeps_bound v). split; [apply fmt_after_bound|].
    repeat split; try discriminate.
    + intros a [= ->]. cbn in V. injection V as <-. reflexivity.
    + intros e t [= ->] B. cbn [bvalue] in V. rewrite B, bind_ok in V. injection V as <-. reflexivity.
  - destruct (ts_len s) as [l|] eqn:El; [destruct (ts_stop s) as [e|] eqn:Ee|].
    + intros H. apply bind_inv in H as (v & V & H). apply bind_inv in H as (w & Wv & H). apply bind_inv in H as (x & X & H).
      apply bind_inv in H as (y & Y & H). injection H as <-. exists (keeps_bound y). split; [apply fmt_after_bound|].
      repeat split; try discriminate. intros a b _ [= ->] [= ->]. cbn in V, Wv. injection V as <-. injection Wv as <-.
      cbn [vmul] in X. apply bind_inv in X as (x' & _ & X). injection X as <-. cbn [vsub] in Y. apply bind_inv in Y as (y' & _ & Y).
      injection Y as <-. reflexivity.
    + intros [= <-]. exists true. rewrite andb_true_r. split; [symmetry; exact (with_pos_same (used f))|]. repeat split; try discriminate; reflexivity.
    + intros [= <-]. exists true. rewrite andb_true_r. split; [symmetry; exact (with_pos_same (used f))|]. repeat split; try discriminate; reflexivity.
Qed.

Lemma stop_after s ps f : stop_pieces s = Ok ps -> exists k, fmt_after ps f = with_pos (used f) (f_pos f && k) /\
  ((forall e, ts_begin s <> Some (TEnd e)) -> (forall e, ts_stop s <> Some (TEnd e)) -> (forall e, ts_len s <> Some (TEnd e)) -> k = true) /\
  (forall e t, ts_stop s = Some (TEnd e) -> tbuild e = Ok t -> k = keeps t).
Proof.
  assert (VM : forall w k x, vmul w k = Ok x -> (exists a, w = VInt a) -> exists a, x = VInt a).
  { intros w k x H [a ->]. cbn [vmul] in H. apply bind_inv in H as (z & _ & H). injection H as <-. eauto. }
  assert (VA : forall v w x, vadd v w = Ok x -> (exists a, v = VInt a) -> (exists a, w = VInt a) -> exists a, x = VInt a).
  { intros v w x H [a ->] [b ->]. cbn [vadd] in H. apply bind_inv in H as (z & _ & H). injection H as <-. eauto. }
  assert (BV : forall b v, bvalue b = Ok v -> (forall e, b <> TEnd e) -> exists a, v = VInt a).
  { intros [a|e] v H N; [|exfalso; exact (N e eq_refl)]. cbn in H. injection H as <-. eauto. }
  unfold stop_pieces. destruct (ts_stop s) as [e|] eqn:Ee; [|destruct (ts_len s) as [l|] eqn:El; [destruct (ts_begin s) as [b|] eqn:Eb|]].
  - intros H. apply bind_inv in H as (v & V & H). injection H as <-. exists (keeps_bound v). split; [apply fmt_after_bound|]. split.
    + intros _ N _. destruct (BV _ _ V) as [a ->]; [intros x ->; exact (N x eq_refl)|reflexivity].
    + intros e' t [= ->] B. cbn [bvalue] in V. rewrite B, bind_ok in V. injection V as <-. reflexivity.
  - intros H. apply bind_inv in H as (v & V & H). apply bind_inv in H as (w & Wv & H). apply bind_inv in H as (x & X & H).
    apply bind_inv in H as (y & Y & H). injection H as <-. exists (keeps_bound y). split; [apply fmt_after_bound|]. split; [|discriminate].
    intros N1 _ N3. apply BV in V; [|intros q ->; exact (N1 q eq_refl)]. apply BV in Wv; [|intros q ->; exact (N3 q eq_refl)].
    apply VM in X; [|exact Wv]. apply VA in Y; [|exact V|exact X]. destruct Y as [a ->]. reflexivity.
  - intros H. apply bind_inv in H as (w & Wv & H). apply bind_inv in H as (x & X & H). injection H as <-. exists (keeps_bound x).
    split; [apply fmt_after_bound|]. split; [|discriminate]. intros _ _ N3. apply BV in Wv; [|intros q ->; exact (N3 q eq_refl)].
    apply VM in X; [|exact Wv]. destruct X as [a ->]. reflexivity.
  - intros [= <-]. exists true. rewrite andb_true_r. split; [symmetry; exact (with_pos_same (used f))|]. split; [reflexivity|discriminate].
Qed.

Lemma slicer_after s ps f : slicer_pieces s = Ok ps -> exists k j a b,
  fmt_after ps f = with_pos (used f) (f_pos f && k && j) /\ start_pieces s = Ok a /\ stop_pieces s = Ok b /\
  fmt_after a f = with_pos (used f) (f_pos f && k) /\
  ((forall e, ts_begin s <> Some (TEnd e)) -> (forall e, ts_stop s <> Some (TEnd e)) -> (forall e, ts_len s <> Some (TEnd e)) -> k && j = true) /\
  (forall e t, ts_begin s = Some (TEnd e) -> tbuild e = Ok t -> k = keeps t) /\
  (forall e t, ts_stop s = Some (TEnd e) -> tbuild e = Ok t -> j = keeps t).
Proof.
  unfold slicer_pieces. intros H. apply bind_inv in H as (a & A & H). apply bind_inv in H as (b & B & H). injection H as <-.
  destruct (start_after s a f A) as (k & Ka & K1 & K2 & K3 & K4 & K5).
  destruct (stop_after s b (with_pos (used f) (f_pos f && k)) B) as (j & Jb & J1 & J2).
  exists k, j, a, b. split; [|split; [exact A|split; [exact B|split; [exact Ka|split]]]].
  - rewrite fmt_after_app, Ka. rewrite app_comm_cons, fmt_after_app.
    assert (M : fmt_after (PText ":" :: match ts_step s with Some k0 => num_pieces k0 ++ [PText ":"] | None => [] end)
      (with_pos (used f) (f_pos f && k)) = with_pos (used f) (f_pos f && k)).
    { change (fmt_after (match ts_step s with Some k0 => num_pieces k0 ++ [PText ":"] | None => [] end)
        (used (with_pos (used f) (f_pos f && k))) = with_pos (used f) (f_pos f && k)).
      destruct (ts_step s); [rewrite fmt_after_app, fmt_after_num|]; reflexivity. }
    rewrite M, Jb. reflexivity.
  - intros N1 N2 N3. apply andb_true_iff. split; [|apply J1; assumption].
    destruct (ts_begin s) as [[x|e]|] eqn:Eb; [exact (K1 x eq_refl)|exfalso; exact (N1 e eq_refl)|].
    destruct (ts_len s) as [[y|e]|] eqn:El; [|exfalso; exact (N3 e eq_refl)|exact (K2 eq_refl eq_refl)].
    destruct (ts_stop s) as [[z|e]|] eqn:Es; [exact (K4 z y eq_refl eq_refl eq_refl)|exfalso; exact (N2 e eq_refl)|exact (K3 eq_refl eq_refl)].
  - split; [exact K5|exact J2].
Qed.

Lemma slicer_formats_l f o s ps : slicer_pieces s = Ok ps ->
  let g := snd (inserts (o, f) ps) in
  (g = used f \/ g = with_pos (used f) false) /\
  (forall e t, ts_begin s = Some (TEnd e) \/ ts_stop s = Some (TEnd e) -> tbuild e = Ok t -> wfc (nint (t_off t)) ->
     cval (nint (t_off t)) <> 0 -> g = with_pos (used f) false) /\
  ((forall e, ts_begin s <> Some (TEnd e)) -> (forall e, ts_stop s <> Some (TEnd e)) -> (forall e, ts_len s <> Some (TEnd e)) -> g = used f).
Proof.
  intros H g. destruct (slicer_after s ps f H) as (k & j & a & b & G & _ & _ & _ & K1 & K2 & K3).
  assert (Eg : g = with_pos (used f) (f_pos f && k && j)) by (unfold g; rewrite after_all; exact G). rewrite Eg. clear Eg g.
  repeat split.
  - destruct k, j; rewrite ?andb_true_r, ?andb_false_r; cbn [andb]; auto; left; exact (with_pos_same (used f)).
  - intros e t [E|E] B W N.
    + rewrite (K2 e t E B), keeps_zero by exact W. destruct (Z.eqb_spec (cval (nint (t_off t))) 0); [contradiction|]. rewrite andb_false_r. reflexivity.
    + rewrite (K3 e t E B), keeps_zero by exact W. destruct (Z.eqb_spec (cval (nint (t_off t))) 0); [contradiction|]. rewrite andb_false_r. reflexivity.
  - intros N1 N2 N3. rewrite <- andb_assoc, (K1 N1 N2 N3), andb_true_r. exact (with_pos_same (used f)).
Qed.

(** The default format. *)
Definition sgn_fmt (b : bool) : fmt := with_pos plain_fmt b.
Lemma num_plain s b a : inserts (s, sgn_fmt b) (num_pieces a) = ((s ++ show_num b a)%string, sgn_fmt b).
Proof.
  assert (N : forall t z, num_text (sgn_fmt b) t z = ((if (b && is_signed t && (0 <=? z)%Z)%bool then "+" else "") ++ dec z)%string).
  { intros t z. unfold num_text, int_parts, sgn_fmt. cbn [f_base with_pos plain_fmt fst snd f_pos]. rewrite (dec_abs z).
    destruct (Z.ltb_spec z 0), (Z.leb_spec 0 z); try lia; rewrite ?andb_false_r, ?andb_true_r; destruct (b && is_signed t); reflexivity. }
  unfold num_pieces, show_num. destruct (is_fixed a).
  - change (sgn_fmt b) with (used (sgn_fmt b)) at 1. rewrite inserts_used by (repeat constructor; apply byte_promote).
    cbn [map item_text cat fold_right]. rewrite N. destruct (promote (cty (nint a))) eqn:E; try reflexivity;
      destruct (cty (nint a)); discriminate E.
  - rewrite sapp_nil. destruct (byte (cty (nint a))) eqn:B.
    + destruct (cty (nint a)) eqn:E; try discriminate B; unfold inserts; cbn [fold_left insert]; rewrite pad_zero by reflexivity; reflexivity.
    + change (sgn_fmt b) with (used (sgn_fmt b)) at 1. rewrite inserts_used by (repeat constructor; exact B).
      cbn [map item_text cat fold_right]. rewrite N, sapp_nil. destruct (cty (nint a)); try discriminate B; reflexivity.
Qed.

Lemma text_plain s x : insert (s, plain_fmt) (PText x) = ((s ++ x)%string, plain_fmt).
Proof. exact (insert_text_used s plain_fmt x). Qed.
Lemma num_plain0 s a : inserts (s, plain_fmt) (num_pieces a) = ((s ++ show_num false a)%string, plain_fmt).
Proof. exact (num_plain s false a). Qed.

Lemma ratio_plain_l s n d : inserts (s, plain_fmt) (ratio_pieces n d) = ((s ++ print_ratio n d)%string, plain_fmt).
Proof.
  unfold ratio_pieces, print_ratio. rewrite inserts_app, num_plain0, inserts_cons, text_plain, num_plain0, !sapp_assoc. reflexivity.
Qed.

Lemma end_plain_l s t : inserts (s, plain_fmt) (end_pieces t) = ((s ++ print_end t)%string, plain_fmt).
Proof.
  unfold end_pieces, print_end. rewrite !inserts_app.
  assert (A : inserts (s, plain_fmt) (if ceqb (nint (t_fac t)) (int 1) then [PText "end"] else num_pieces (t_fac t) ++ [PText " * end"]) =
    ((s ++ (if ceqb (nint (t_fac t)) (int 1) then "end" else show_num false (t_fac t) ++ " * end"))%string, plain_fmt)).
  { destruct (ceqb _ _); [apply text_plain|]. rewrite inserts_app, num_plain0, inserts_cons, text_plain, sapp_assoc. reflexivity. }
  rewrite A. set (x := (if ceqb (nint (t_fac t)) (int 1) then _ else _)%string). rewrite <- (sapp_assoc s x).
  assert (B : forall y, inserts (y, plain_fmt) (if ceqb (nint (t_div t)) (int 1) then [] else PText "/" :: num_pieces (t_div t)) =
    ((y ++ (if ceqb (nint (t_div t)) (int 1) then "" else "/" ++ show_num false (t_div t)))%string, plain_fmt)).
  { intros y. destruct (ceqb (nint (t_div t)) (int 1)); [rewrite sapp_nil; reflexivity|]. rewrite inserts_cons, text_plain, num_plain0, sapp_assoc. reflexivity. }
  rewrite B, <- (sapp_assoc (s ++ x)).
  destruct (ceqb (nint (t_off t)) (int 0)); [rewrite sapp_nil; reflexivity|].
  rewrite inserts_cons. change (insert (?y, plain_fmt) (PPos true)) with (y, sgn_fmt true). rewrite inserts_app, num_plain. reflexivity.
Qed.

Lemma bound_plain s b : inserts (s, plain_fmt) (bound_pieces b) = ((s ++ show_bound b)%string, plain_fmt).
Proof. destruct b; [apply num_plain0|apply end_plain_l]. Qed.

Lemma start_plain s x : show_start s = Ok x -> exists ps, start_pieces s = Ok ps /\
  forall o, inserts (o, plain_fmt) ps = ((o ++ x)%string, plain_fmt).
Proof.
  unfold show_start, start_pieces. intros H.
  destruct (ts_begin s); [|destruct (ts_len s); [destruct (ts_stop s)|]];
    repeat match type of H with (_ <- _ ;; _) = Ok _ => let v := fresh in let V := fresh in apply bind_inv in H as (v & V & H); rewrite V, bind_ok end;
    injection H as <-; eexists; (split; [reflexivity|]); intros o; first [apply bound_plain|apply text_plain].
Qed.

Lemma stop_plain s x : show_stop s = Ok x -> exists ps, stop_pieces s = Ok ps /\
  forall o, inserts (o, plain_fmt) ps = ((o ++ x)%string, plain_fmt).
Proof.
  unfold show_stop, stop_pieces. intros H.
  destruct (ts_stop s); [|destruct (ts_len s); [destruct (ts_begin s)|]];
    repeat match type of H with (_ <- _ ;; _) = Ok _ => let v := fresh in let V := fresh in apply bind_inv in H as (v & V & H); rewrite V, bind_ok end;
    injection H as <-; eexists; (split; [reflexivity|]); intros o; first [apply bound_plain|apply text_plain].
Qed.

Lemma slicer_plain_l o s x : print_slicer s = Ok x -> exists ps, slicer_pieces s = Ok ps /\
  inserts (o, plain_fmt) ps = ((o ++ x)%string, plain_fmt).
Proof.
  unfold print_slicer, slicer_pieces. intros H. apply bind_inv in H as (a & A & H). apply bind_inv in H as (b & B & H). injection H as <-.
  destruct (start_plain s a A) as (pa & -> & Ia). destruct (stop_plain s b B) as (pb & -> & Ib). rewrite !bind_ok. eexists. split; [reflexivity|].
  rewrite inserts_app, Ia, inserts_cons, text_plain. destruct (ts_step s) as [k|].
  - rewrite !inserts_app, num_plain0. rewrite (inserts_cons _ _ []), text_plain. change (inserts ?z []) with z. rewrite Ib, !sapp_assoc. reflexivity.
  - cbn [app]. rewrite Ib, !sapp_assoc. reflexivity.
Qed.

(** ** Containers *)
Lemma stream_elem_sim {T} (ins : fmt -> T -> string) f sp shp p idx s os (m : mem T) : f_width f = 0%nat ->
  stream_elem ins sp shp p idx (((s ++ os)%string, f), m) =
  (r <- print_elem (ins f) sp shp p idx (os, m) ;; Ok (((s ++ fst r)%string, f), snd r)).
Proof.
  intros W.
  assert (Tx : forall a x, insert (a, f) (PText x) = ((a ++ x)%string, f)).
  { intros a x. rewrite <- (used_zero f W) at 1. rewrite insert_text_used, used_zero by exact W. reflexivity. }
  unfold stream_elem, print_elem. destruct (load m p) as [e| | |]; try reflexivity. rewrite !bind_ok.
  destruct (csub (last shp (int 0)) (int 1)) as [n| | |]; try reflexivity. rewrite !bind_ok.
  match goal with |- context [if ?b then insert _ (PText nl) else _] => destruct b end;
  destruct (ceqb (last idx (int 0)) (int 0)); destruct (ceqb (last idx (int 0)) n); cbn [inserts fold_left fst snd];
  rewrite ?Tx; cbn [insert_elem]; change (with_width f 0) with (used f); rewrite (used_zero f W), ?Tx, !sapp_assoc; reflexivity.
Qed.

Lemma run_sim {T} (ins : fmt -> T -> string) f sp c s (m : mem T) : f_width f = 0%nat -> forall l os m,
  run (fun is_ => stream_elem ins sp (c_shape c) (elem c (vals is_)) is_) l (((s ++ os)%string, f), m) =
  (r <- run (fun is_ => print_elem (ins f) sp (c_shape c) (elem c (vals is_)) is_) l (os, m) ;; Ok (((s ++ fst r)%string, f), snd r)).
Proof.
  intros W. induction l as [|t l IH]; intros os m0; [reflexivity|]. cbn [run]. rewrite stream_elem_sim by exact W.
  destruct (print_elem _ _ _ _ _ _) as [[os' m']| | |]; try reflexivity. rewrite !bind_ok. cbn [fst snd]. apply IH.
Qed.

Lemma stream_same {T} (ins : fmt -> T -> string) sp shp (p : ptr) is_ s (m : mem T) s' m' :
  stream_elem ins sp shp p is_ (s, m) = Ok (s', m') -> same_cells m m'.
Proof.
  unfold stream_elem. intros E. apply bind_inv in E as (e & _ & E). apply bind_inv in E as (n & _ & E). injection E as _ <-. intros q. reflexivity.
Qed.
Lemma print_same {T} (show : T -> string) sp shp (p : ptr) is_ s (m : mem T) s' m' :
  print_elem show sp shp p is_ (s, m) = Ok (s', m') -> same_cells m m'.
Proof.
  unfold print_elem. intros E. apply bind_inv in E as (e & _ & E). apply bind_inv in E as (n & _ & E). injection E as _ <-. intros q. reflexivity.
Qed.

Lemma container_used {T} (ins : fmt -> T -> string) label (m : mem T) c s f : can_read m c c -> f_width f = 0%nat ->
  stream_container ins label m c (s, f) = (x <- print (ins f) label m c ;; Ok ((s ++ x)%string, f)).
Proof.
  intros R W. unfold stream_container, print.
  assert (Tx : forall a x, insert (a, f) (PText x) = ((a ++ x)%string, f)).
  { intros a x. rewrite <- (used_zero f W) at 1. rewrite insert_text_used, used_zero by exact W. reflexivity. }
  destruct (c_empty c) as [e| | |]; try reflexivity. rewrite !bind_ok.
  assert (O : match label with Some l => inserts (s, f) [PText l; PText (":" ++ nl)] | None => (s, f) end =
    ((s ++ match label with Some l => l ++ ":" ++ nl | None => "" end)%string, f)).
  { destruct label; [cbn [inserts fold_left]; rewrite !Tx, sapp_assoc|rewrite sapp_nil]; reflexivity. }
  rewrite O. destruct e.
  - cbn [inserts fold_left]. rewrite !Tx, !bind_ok, !sapp_assoc. reflexivity.
  - rewrite !for_each_index_l; try (apply can_read_live; exact R); try (intros; eapply print_same; eassumption); try (intros; eapply stream_same; eassumption).
    rewrite run_sim by assumption.
    destruct (run _ _ _) as [r| | |]; reflexivity.
Qed.

Lemma stream_first {T} (ins : fmt -> T -> string) shp p idx s f (m : mem T) :
  Forall (fun i => cval i = 0) idx -> wfs idx ->
  stream_elem ins "" shp p idx ((s, f), m) = stream_elem ins "" shp p idx (((s ++ widened f "")%string, used f), m).
Proof.
  intros Z0 W. unfold stream_elem.
  assert (L : ceqb (last idx (int 0)) (int 0) = true).
  { destruct idx as [|i idx]; [reflexivity|]. assert (In (last (i :: idx) (int 0)) (i :: idx)) by (apply last_In; discriminate).
    rewrite ceqb_zero by (eapply Forall_forall; [exact W|assumption]). apply Z.eqb_eq. eapply Forall_forall in Z0; [|exact H]. exact Z0. }
  assert (B : forall n, match skipn (length shp - 2) idx, nth_error idx n with
                  | [a; b], Some k => (ceqb a (int 0) && ceqb b (int 0)) && clt (int 0) k
                  | _, _ => false end = false).
  { intros n. destruct (skipn _ idx) as [|a [|b [|]]]; try reflexivity. destruct (nth_error idx n) as [k|] eqn:E; [|reflexivity].
    apply nth_error_In in E. rewrite clt_pos by (eapply Forall_forall; [exact W|exact E]). eapply Forall_forall in Z0; [|exact E].
    cbn beta in Z0. rewrite Z0. apply andb_false_r. }
  rewrite B. replace (if (3 <=? length shp)%nat then false else false) with false by (destruct (3 <=? length shp)%nat; reflexivity).
  rewrite L. rewrite !inserts_cons, (insert_text s f), (insert_text_used _ f ""), sapp_nil. reflexivity.
Qed.

Definition stream_body {T} (ins : fmt -> T -> string) (sp : string) (m : mem T) (c : container) (os : stream) : outcome stream :=
  e <- c_empty c ;;
  if e then Ok (inserts os [PText sp; PText "[ ]"])
  else sm <- for_each_index (stream_elem ins sp (c_shape c)) c (os, m) ;; Ok (fst sm).

Lemma body_used {T} (ins : fmt -> T -> string) sp (m : mem T) c f : can_read m c c -> f_width f = 0%nat ->
  exists r, forall s, stream_body ins sp m c (s, f) = (x <- r ;; Ok ((s ++ x)%string, f)).
Proof.
  intros R W. unfold stream_body.
  assert (Tx : forall a x, insert (a, f) (PText x) = ((a ++ x)%string, f)).
  { intros a x. rewrite <- (used_zero f W) at 1. rewrite insert_text_used, used_zero by exact W. reflexivity. }
  destruct (c_empty c) as [e| | |]; [|exists Abort; reflexivity|exists UB; reflexivity|exists NoFuel; reflexivity].
  destruct e.
  - exists (Ok (sp ++ "[ ]")%string). intros s. rewrite !bind_ok. cbn [inserts fold_left]. rewrite !Tx, sapp_assoc. reflexivity.
  - exists (r <- run (fun is_ => print_elem (ins f) sp (c_shape c) (elem c (vals is_)) is_) (tbox (c_shape c)) (""%string, m) ;; Ok (fst r)).
    intros s. rewrite bind_ok, for_each_index_l; [|apply can_read_live; exact R|intros; eapply stream_same; eassumption].
    rewrite <- (sapp_nil s) at 1. rewrite run_sim by assumption. destruct (run _ _ _) as [r| | |]; reflexivity.
Qed.

Lemma body_first {T} (ins : fmt -> T -> string) (m : mem T) c s f : can_read m c c -> legal (c_shape c) -> c_shape c <> [] ->
  stream_body ins "" m c (s, f) = stream_body ins "" m c ((s ++ widened f "")%string, used f).
Proof.
  intros R Lg Ne. unfold stream_body. rewrite c_empty_legal by (assumption || apply R). rewrite !bind_ok.
  destruct (Z.eqb_spec (prod (dims c)) 0) as [Z0|Nz].
  - rewrite !inserts_cons, (insert_text s f), (insert_text_used _ f ""), sapp_nil. reflexivity.
  - rewrite !for_each_index_l; try (apply can_read_live; exact R); try (intros; eapply stream_same; eassumption).
    assert (P : Forall (fun n => 1 <= n) (dims c)).
    { apply prod_pos_all; [apply Lg|]. pose proof (prod_nonneg (dims c) (proj1 (proj2 Lg))). lia. }
    destruct (box_head (dims c) P) as [r B]. unfold dims in B. rewrite <- tbox_vals in B.
    destruct (tbox (c_shape c)) as [|t l] eqn:E; [discriminate|]. cbn [map] in B. injection B as B _.
    destruct (tbox_at (c_shape c) [] t l (proj1 Lg) E) as (Wt & _ & _). cbn [run]. rewrite stream_first; [reflexivity| |exact Wt].
    apply Forall_forall. intros i I. assert (J : In (cval i) (vals t)) by (apply in_map; exact I). rewrite B in J.
    apply in_map_iff in J as (z & <- & _). reflexivity.
Qed.

Lemma container_l {T} (ins : fmt -> T -> string) label (m : mem T) c s f x : can_read m c c -> legal (c_shape c) -> c_shape c <> [] ->
  print (ins (used f)) label m c = Ok x ->
  exists rest, x = (first_text label ++ rest)%string /\
    stream_container ins label m c (s, f) = Ok ((s ++ widened f (first_text label) ++ rest)%string, used f).
Proof.
  intros R Lg Ne P.
  pose proof (container_used ins label m c "" (used f) R eq_refl) as U. rewrite P, bind_ok in U.
  destruct (body_used ins (match label with Some _ => "  "%string | None => ""%string end) m c (used f) R eq_refl) as [r B].
  destruct label as [l|]; cbn [first_text].
  - change (stream_body ins "  " m c (inserts (""%string, used f) [PText l; PText (":" ++ nl)]) = Ok (x, used f)) in U.
    rewrite !inserts_cons, !insert_text_used in U. change (inserts ?z []) with z in U. rewrite B in U.
    destruct r as [y| | |]; try discriminate U. rewrite bind_ok in U. injection U as U. cbn [append] in U.
    exists (":" ++ nl ++ y)%string. split; [rewrite <- U, !sapp_assoc; reflexivity|].
    change (stream_body ins "  " m c (inserts (s, f) [PText l; PText (":" ++ nl)]) = Ok ((s ++ widened f l ++ ":" ++ nl ++ y)%string, used f)).
    rewrite !inserts_cons, insert_text, insert_text_used. change (inserts ?z []) with z. rewrite B, bind_ok, !sapp_assoc. reflexivity.
  - change (stream_body ins "" m c (""%string, used f) = Ok (x, used f)) in U. rewrite B in U.
    destruct r as [y| | |]; try discriminate U. rewrite bind_ok in U. injection U as U. cbn [append] in U. subst y.
    exists x. split; [reflexivity|].
    change (stream_body ins "" m c (s, f) = Ok ((s ++ widened f "" ++ x)%string, used f)).
    rewrite body_first by assumption. rewrite B, bind_ok, sapp_assoc. reflexivity.
Qed.

(** ** Octal and hexadecimal *)
Lemma based_l f s t z : t <> I8 -> t <> U8 -> f_base f <> BDec -> f_showbase f = false -> exists ds,
  insert (s, used f) (PInt t z) = ((s ++ ds)%string, used f) /\
  read_digits (match f_base f with BOct => 8 | _ => 16 end) ds 0 = z mod 2 ^ CInt.width t.
Proof.
  intros N1 N2 B Sb. assert (Y : byte t = false) by (destruct t; try reflexivity; contradiction).
  rewrite insert_int_used by exact Y. eexists. split; [reflexivity|]. unfold num_text, int_parts. rewrite Sb. cbn [andb].
  assert (M : 2 ^ CInt.width t = modulus t) by (destruct t; reflexivity). rewrite M.
  pose proof (Z.mod_pos_bound z (modulus t) (modulus_pos t)).
  destruct (f_base f); [contradiction| |]; cbn [fst snd append]; apply in_base_read; lia.
Qed.

(** ** Filling of what comes first *)
Lemma inserts_on ps : forall f, exists rest g, forall s, inserts (s, f) ps = ((s ++ rest)%string, g).
Proof.
  induction ps as [|p ps IH]; intros f.
  - exists ""%string, f. intros s. rewrite sapp_nil. reflexivity.
  - assert (P : exists r g, forall s, insert (s, f) p = ((s ++ r)%string, g)).
    { destruct p as [x|t z|b].
      - eexists _, _. intros s. apply insert_text.
      - destruct t; cbn [insert]; try (eexists _, _; intros s; reflexivity);
          destruct (int_parts f _ z) as [a b]; eexists _, _; intros s; reflexivity.
      - exists ""%string, (with_pos f b). intros s. rewrite sapp_nil. reflexivity. }
    destruct P as (r & g & P). destruct (IH g) as (rest & h & E). exists (r ++ rest)%string, h. intros s.
    rewrite inserts_cons, P, E, sapp_assoc. reflexivity.
Qed.

Definition hex_digits := list_ascii_of_string "0123456789abcdefABCDEF".
Lemma free_all s : (forall c, ~ In c hex_digits -> free c s) -> Forall (fun c => In c hex_digits) (list_ascii_of_string s).
Proof.
  intros H. apply Forall_forall. intros c I. destruct (in_dec ascii_dec c hex_digits) as [Y|N]; [exact Y|].
  destruct (free_In _ _ (H c N) I).
Qed.

Lemma put_hex up b : 2 <= b <= 16 -> forall fuel n acc, (forall c, ~ In c hex_digits -> free c acc) ->
  forall c, ~ In c hex_digits -> free c (put_digits up b fuel n acc).
Proof.
  intros Hb. induction fuel as [|k IH]; intros n acc F; [exact F|]. cbn [put_digits].
  assert (F' : forall c, ~ In c hex_digits -> free c (String (digit_char up (n mod b)) acc)).
  { intros c N. split; [|apply F, N]. intros <-. apply N. pose proof (Z.mod_pos_bound n b ltac:(lia)) as M.
    assert (D : 0 <= n mod b < 16) by lia. generalize dependent (n mod b). intros d _ _ D.
    assert (X : d = 0 \/ d = 1 \/ d = 2 \/ d = 3 \/ d = 4 \/ d = 5 \/ d = 6 \/ d = 7 \/ d = 8 \/ d = 9 \/ d = 10 \/ d = 11 \/
      d = 12 \/ d = 13 \/ d = 14 \/ d = 15) by lia.
    destruct up; repeat (destruct X as [->|X]; [vm_compute; tauto|]); subst d; vm_compute; tauto. }
  destruct (n / b =? 0); [exact F'|]. apply IH, F'.
Qed.

Lemma parts_number f t z : number (fst (int_parts f t z)) (snd (int_parts f t z)).
Proof.
  unfold number, int_parts. destruct (f_base f); cbn [fst snd].
  - split; [destruct (z <? 0); [cbn; tauto|]; destruct (f_pos f && is_signed t); cbn; tauto|].
    split; [apply dec_not_empty|]. apply free_all. intros c N. apply dec_free_nonneg; [lia|]. intros I. apply N. cbv in I. cbv. tauto.
  - split; [cbn; tauto|]. split.
    + intros E. apply sapp_empty in E as [_ E]. exact (in_base_not_empty _ _ _ E).
    + apply free_all. intros c N. apply free_app. split; [|apply put_hex; [lia|intros; exact I|exact N]].
      destruct (f_showbase f && _); [|exact I]. split; [|exact I]. intros <-. apply N. cbv. tauto.
  - split; [destruct (f_showbase f && _); [destruct (f_upper f)|]; cbn; tauto|]. split; [apply in_base_not_empty|].
    apply free_all. intros c N. apply put_hex; [lia|intros; exact I|exact N].
Qed.

Lemma pad_number f a b : pad f a b = widened_number f a b.
Proof. unfold pad, widened_number. rewrite fills_filling. reflexivity. Qed.

(** A first insertion and the rest. *)
Lemma fill_first f s p ps : (forall b, p <> PPos b) -> (forall x, p = PText x -> In x ["begin"; "end"]%string \/ String.length x = 1%nat) ->
  exists x y rest g, filled f x y /\ inserts (s, used f) (p :: ps) = ((s ++ x ++ rest)%string, g) /\
    inserts (s, f) (p :: ps) = ((s ++ y ++ rest)%string, g).
Proof.
  intros NP NT. destruct (inserts_on ps (used f)) as (rest & g & R).
  assert (T : forall x, (In x ["begin"; "end"]%string \/ String.length x = 1%nat) ->
    insert (s, used f) p = insert (s, used f) (PText x) -> insert (s, f) p = insert (s, f) (PText x) ->
    exists x y rest g, filled f x y /\ inserts (s, used f) (p :: ps) = ((s ++ x ++ rest)%string, g) /\
      inserts (s, f) (p :: ps) = ((s ++ y ++ rest)%string, g)).
  { intros x X E1 E2. exists x, (widened f x), rest, g. split; [constructor; exact X|].
    rewrite !inserts_cons, E1, E2, insert_text_used, (insert_text s f x), !R, !sapp_assoc. split; reflexivity. }
  destruct p as [x|t z|b]; [apply (T x); [apply NT; reflexivity|reflexivity..]| |destruct (NP b eq_refl)].
  destruct (byte t) eqn:B.
  - apply (T (String (ascii_of_nat (Z.to_nat (z mod 256))) "")); [right; reflexivity|destruct t; try discriminate B; reflexivity..].
  - exists (num_text f t z), (widened_number f (fst (int_parts f t z)) (snd (int_parts f t z))), rest, g.
    split; [apply filled_number, parts_number|].
    rewrite !inserts_cons, insert_int_used, insert_int by exact B. rewrite pad_number, !R, !sapp_assoc. split; reflexivity.
Qed.

Lemma num_first f s a ps : exists x y rest g, filled f x y /\ inserts (s, used f) (num_pieces a ++ ps) = ((s ++ x ++ rest)%string, g) /\
    inserts (s, f) (num_pieces a ++ ps) = ((s ++ y ++ rest)%string, g).
Proof. unfold num_pieces. destruct (is_fixed a); cbn [app]; apply fill_first; discriminate. Qed.

Lemma end_first f s t ps : exists x y rest g, filled f x y /\ inserts (s, used f) (end_pieces t ++ ps) = ((s ++ x ++ rest)%string, g) /\
    inserts (s, f) (end_pieces t ++ ps) = ((s ++ y ++ rest)%string, g).
Proof.
  unfold end_pieces. destruct (ceqb (nint (t_fac t)) (int 1)).
  - cbn [app]. apply fill_first; [discriminate|]. intros x [= <-]. cbn. tauto.
  - rewrite <- !app_assoc. apply num_first.
Qed.

Lemma bound_first f s b ps : exists x y rest g, filled f x y /\ inserts (s, used f) (bound_pieces b ++ ps) = ((s ++ x ++ rest)%string, g) /\
    inserts (s, f) (bound_pieces b ++ ps) = ((s ++ y ++ rest)%string, g).
Proof. destruct b; [apply num_first|apply end_first]. Qed.

Lemma first_filled_l f s ps :
  (exists n d, ps = ratio_pieces n d) \/ (exists t, ps = end_pieces t) \/ (exists k, slicer_pieces k = Ok ps) ->
  exists x y rest g, filled f x y /\ inserts (s, used f) ps = ((s ++ x ++ rest)%string, g) /\ inserts (s, f) ps = ((s ++ y ++ rest)%string, g).
Proof.
  intros [(n & d & ->)|[(t & ->)|(k & H)]].
  - apply num_first.
  - rewrite <- (app_nil_r (end_pieces t)). apply end_first.
  - unfold slicer_pieces in H. apply bind_inv in H as (a & A & H). apply bind_inv in H as (b & _ & H). injection H as <-.
    assert (G : (exists v, a = bound_pieces v) \/ a = [PText "begin"]).
    { unfold start_pieces in A. destruct (ts_begin k).
      - apply bind_inv in A as (v & _ & A). injection A as <-. eauto.
      - destruct (ts_len k); [destruct (ts_stop k)|].
        + apply bind_inv in A as (v & _ & A). apply bind_inv in A as (w & _ & A). apply bind_inv in A as (x & _ & A).
          apply bind_inv in A as (y & _ & A). injection A as <-. eauto.
        + injection A as <-. auto.
        + injection A as <-. auto. }
    destruct G as [(v & ->)| ->]; [apply bound_first|]. cbn [app]. apply fill_first; [discriminate|]. intros x [= <-]. cbn. tauto.
Qed.
