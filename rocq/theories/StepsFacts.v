(** Facts about termination and the number of tests (C96). *)
From Coq Require Import ZArith List Bool Lia.
From Verif Require Import Outcome CInt CIntFacts Spec SpecFacts ShapeSpec Shape ShapeFacts Memory Container ContainerSpec ForEach ForEachSpec ForEachFacts Algo Search Calls
  Exn Steps StepsSpec.
Import ListNotations.
Open Scope Z_scope.

Lemma ends_ok {A} (a : A) : ends (Ok a). Proof. discriminate. Qed.
Lemma ends_ub {A} : ends (@UB A). Proof. discriminate. Qed.
Lemma ends_abort {A} : ends (@Abort A). Proof. discriminate. Qed.
Lemma ends_bind {A B} (x : outcome A) (f : A -> outcome B) : ends x -> (forall a, x = Ok a -> ends (f a)) -> ends (bind x f).
Proof. destruct x; cbn; intros H F; try discriminate; [apply F; reflexivity|contradiction]. Qed.
Lemma ends_mapM {A B} (f : A -> outcome B) l : (forall a, ends (f a)) -> ends (mapM f l).
Proof.
  intros H. induction l as [|a l IH]; cbn [mapM]; [apply ends_ok|]. apply ends_bind; [apply H|intros b _].
  apply ends_bind; [exact IH|intros; apply ends_ok].
Qed.
Lemma ends_arith f a b : ends (arith f a b).
Proof. unfold arith. destruct (is_signed _); [destruct (in_tyb _ _)|]; discriminate. Qed.
Lemma ends_cdiv a b : ends (cdiv a b).
Proof. unfold cdiv. destruct (_ =? 0); [discriminate|]. destruct (in_tyb _ _); discriminate. Qed.
Lemma ends_cmod a b : ends (cmod a b).
Proof. unfold cmod. destruct (_ =? 0); [discriminate|]. destruct (in_tyb _ _); discriminate. Qed.
Lemma ends_cneg a : ends (cneg a).
Proof. unfold cneg. destruct (is_signed _); [destruct (in_tyb _ _)|]; discriminate. Qed.
Lemma ends_cincr i : ends (cincr i).
Proof. apply ends_bind; [apply ends_arith|intros; apply ends_ok]. Qed.
Lemma ends_kfold_left {A B} (f : B -> A -> outcome B) l init : (forall b a, ends (f b a)) -> ends (kfold_left f l init).
Proof.
  intros H. induction l as [|a l IH]; cbn [kfold_left]; [apply ends_ok|]. apply ends_bind; [exact IH|intros; apply H].
Qed.
Lemma ends_kfold_right {A B} (f : B -> A -> outcome B) l init : (forall b a, ends (f b a)) -> ends (kfold_right f l init).
Proof.
  intros H. revert init. induction l as [|a l IH]; intros init; cbn [kfold_right]; [apply ends_ok|]. apply ends_bind; [apply H|intros; apply IH].
Qed.
Lemma ends_load {T} (m : mem T) p : ends (load m p).
Proof. unfold load. repeat match goal with |- ends (match ?x with _ => _ end) => destruct x end; discriminate. Qed.
Lemma ends_store {T} (m : mem T) p v : ends (store m p v).
Proof. unfold store. repeat match goal with |- ends (match ?x with _ => _ end) => destruct x end; discriminate. Qed.
Lemma ends_numel s : ends (numel s).
Proof. destruct s; [apply ends_ok|]. apply ends_bind; [apply ends_kfold_left; intros; apply ends_arith|intros; apply ends_ok]. Qed.
Lemma ends_compress n s : ends (compress n s).
Proof.
  unfold compress. destruct (_ && _); [|apply ends_ub]. destruct (_ =? _)%nat; [apply ends_ok|]. destruct (firstn _ _); [apply ends_ub|].
  apply ends_bind; [apply ends_kfold_right; intros; apply ends_arith|intros; apply ends_ok].
Qed.
Lemma ends_shape_eq a b : ends (shape_eq a b).
Proof.
  apply ends_bind; [apply ends_compress|]. intros. apply ends_bind; [apply ends_compress|]. intros. apply ends_ok.
Qed.
Lemma ends_kassert dbg c : ends c -> ends (kassert dbg c).
Proof. intros H. destruct dbg; [|apply ends_ok]. apply ends_bind; [exact H|]. intros [|] _; [apply ends_ok|apply ends_abort]. Qed.
Lemma ends_as_stride s : ends (as_stride s).
Proof.
  destruct s as [|a [|b s]]; [apply ends_ub|apply ends_ok|]. apply ends_kfold_left. intros l m.
  apply ends_bind; [destruct l; discriminate|]. intros. apply ends_bind; [apply ends_arith|]. intros. apply ends_ok.
Qed.
Lemma ends_linearize st : forall is_ acc, ends (linearize_from acc st is_).
Proof.
  induction st as [|s st IH]; intros [|i is_] acc; cbn [linearize_from]; try discriminate.
  apply ends_bind; [apply ends_arith|]. intros. apply ends_bind; [apply ends_arith|]. intros. apply IH.
Qed.
Lemma ends_coords_inner idx st : forall s, ends (coords_inner idx st s).
Proof.
  induction st as [|d st IH]; intros [|n s]; cbn [coords_inner]; try discriminate.
  apply ends_bind; [apply ends_cdiv|]. intros. apply ends_bind; [apply ends_cmod|]. intros. apply ends_bind; [apply IH|]. intros. apply ends_ok.
Qed.
Lemma ends_coordinates dbg idx s : ends (coordinates dbg idx s).
Proof.
  apply ends_bind; [apply ends_kassert, ends_bind; [apply ends_numel|intros; apply ends_ok]|]. intros.
  apply ends_bind; [apply ends_as_stride|]. intros st _. destruct st, s; try discriminate.
  apply ends_bind; [apply ends_cdiv|]. intros. apply ends_bind; [apply ends_coords_inner|]. intros. apply ends_ok.
Qed.
Lemma ends_index c is_ : ends (index c is_).
Proof.
  unfold index, linearize.
  repeat match goal with
  | |- ends (match ?x with _ => _ end) => destruct x
  | |- ends (bind _ _) => apply ends_bind; [|intros]
  | |- ends (arith _ _ _) => apply ends_arith
  | |- ends (cadd _ _) => apply ends_arith
  | |- ends (cmul _ _) => apply ends_arith
  | |- ends (linearize_from _ _ _) => apply ends_linearize
  | |- _ => discriminate
  end.
Qed.
Lemma ends_ref {T} (m : mem T) c is_ : ends (ref m c is_).
Proof.
  apply ends_bind; [apply ends_bind; [apply ends_index|intros; apply ends_ok]|]. intros p _. destruct (validb m p); discriminate.
Qed.
Lemma ends_get {T} (m : mem T) c is_ : ends (get m c is_).
Proof. apply ends_bind; [apply ends_ref|intros; apply ends_load]. Qed.
Lemma ends_make_accessor a b sh g : ends (make_accessor a b sh g).
Proof.
  unfold make_accessor.
  repeat match goal with
  | |- ends (match ?x with _ => _ end) => destruct x
  | |- ends (bind _ _) => apply ends_bind; [|intros]
  | |- ends (as_stride _) => apply ends_as_stride
  | |- _ => discriminate
  end.
Qed.
Lemma ends_reverse st c : ends (reverse st c).
Proof.
  unfold reverse, make_view, get_stride.
  repeat match goal with
  | |- ends (match ?x with _ => _ end) => destruct x
  | |- ends (bind _ _) => apply ends_bind; [|intros]
  | |- ends (mapM _ _) => apply ends_mapM; intros
  | |- ends (cneg _) => apply ends_cneg
  | |- ends (numel _) => apply ends_numel
  | |- ends (make_accessor _ _ _ _) => apply ends_make_accessor
  | |- _ => discriminate
  end.
Qed.
Lemma reverse_sizes st c rc : reverse st c = Ok rc -> c_shape rc = c_shape c.
Proof.
  unfold reverse, make_view. destruct (get_stride c); try discriminate. cbn [bind]. destruct (mapM cneg _); try discriminate. cbn [bind].
  destruct (numel _); try discriminate. cbn [bind]. destruct (make_accessor _ _ _ _) as [[k s]| | |]; try discriminate. cbn [bind].
  intros E. injection E as <-. reflexivity.
Qed.

(** ** Loops *)
Lemma clt_same m z : wfc m -> in_ty (cty m) z -> clt (CI (cty m) z) m = (z <? cval m).
Proof. intros W I. rewrite clt_exact; [reflexivity|exact I|exact W|]. unfold compat. cbn [cty cval].
  unfold wfc, in_ty in *. destruct (cty m); cbn in *; first [left; reflexivity|right; lia]. Qed.
Lemma next_in m z : wfc m -> 0 <= z < cval m -> in_ty (cty m) z /\ in_ty (cty m) (z + 1) /\ cincr (CI (cty m) z) = Ok (CI (cty m) (z + 1)).
Proof.
  intros W H. unfold wfc, in_ty in W. assert (tmin (cty m) <= 0) by (destruct (cty m); cbn; lia).
  split; [unfold in_ty; lia|]. split; [unfold in_ty; lia|]. apply cincr_exact; cbn [cval cty]; [unfold wfc, in_ty; cbn; lia|lia|lia].
Qed.
Lemma zero_in m : in_ty (cty m) 0. Proof. unfold in_ty. destruct (cty m); cbn; lia. Qed.

Lemma loop_ends {S} m (body : cint -> S -> outcome S) : wfc m -> (forall i s, ends (body i s)) ->
  forall fuel z s, 0 <= z -> in_ty (cty m) z -> cval m - z < Z.of_nat fuel -> 0 < Z.of_nat fuel -> ends (loop fuel m (CI (cty m) z) body s).
Proof.
  intros W H. induction fuel as [|fuel IH]; intros z s Hz Iz Hf Hp; [lia|]. cbn [loop]. rewrite clt_same by assumption.
  destruct (Z.ltb_spec z (cval m)) as [L|L]; [|apply ends_ok]. apply ends_bind; [apply H|]. intros s' _.
  destruct (next_in m z W (conj Hz L)) as (_ & I1 & ->). cbn [bind]. apply IH; [lia|exact I1|lia|lia].
Qed.
Lemma fuel_enough m : cval m - 0 < Z.of_nat (fuel_of m) /\ 0 < Z.of_nat (fuel_of m).
Proof. unfold fuel_of. lia. Qed.
Lemma for_each_ends {S} ds (f : list cint -> S -> outcome S) s : wfs ds -> (forall is_ s, ends (f is_ s)) -> ends (for_each ds f s).
Proof.
  intros W H. unfold for_each.
  enough (G : forall is_ s, ends (pile (fun acc m => fun is_ s => loop (fuel_of m) m (CI (cty m) 0) (fun i => acc (is_ ++ [i])) s) ds f is_ s)) by apply G.
  clear s. induction W as [|m ds Wm W IH]; intros is_ s; [apply H|].
  cbn [pile fold_right]. pose proof (fuel_enough m) as [F1 F2]. apply loop_ends; auto using zero_in; [|lia]. intros i s'. apply IH.
Qed.

Lemma loop_until_ends {S} m (body : cint -> bool * S -> outcome (bool * S)) : wfc m -> (forall i s, ends (body i s)) ->
  forall fuel z s, 0 <= z -> in_ty (cty m) z -> cval m - z < Z.of_nat fuel -> 0 < Z.of_nat fuel -> ends (loop_until fuel m (CI (cty m) z) body s).
Proof.
  intros W H. induction fuel as [|fuel IH]; intros z s Hz Iz Hf Hp; [lia|]. cbn [loop_until]. destruct (fst s); cbn [negb andb]; [apply ends_ok|].
  rewrite clt_same by assumption.
  destruct (Z.ltb_spec z (cval m)) as [L|L]; [|apply ends_ok]. apply ends_bind; [apply H|]. intros s' _.
  destruct (next_in m z W (conj Hz L)) as (_ & I1 & ->). cbn [bind]. apply IH; [lia|exact I1|lia|lia].
Qed.
Lemma for_until_ends {S} ds (f : list cint -> S -> outcome (bool * S)) s : wfs ds -> (forall is_ s, ends (f is_ s)) -> ends (for_until ds f s).
Proof.
  intros W H. unfold for_until.
  enough (G : forall is_ s, ends (pile (fun acc m => fun is_ s => loop_until (fuel_of m) m (CI (cty m) 0) (fun i => acc (is_ ++ [i])) s) ds
    (fun is_ fs => f is_ (snd fs)) is_ s)) by apply G.
  clear s. induction W as [|m ds Wm W IH]; intros is_ s; [apply H|].
  cbn [pile fold_right]. pose proof (fuel_enough m) as [F1 F2]. apply loop_until_ends; auto using zero_in; [|lia]. intros i s'. apply IH.
Qed.

Lemma loop_exn_ends {S} m (body : cint -> S -> outcome (bool * S)) : wfc m -> (forall i s, ends (body i s)) ->
  forall fuel z s, 0 <= z -> in_ty (cty m) z -> cval m - z < Z.of_nat fuel -> 0 < Z.of_nat fuel -> ends (loop_exn fuel m (CI (cty m) z) body s).
Proof.
  intros W H. induction fuel as [|fuel IH]; intros z s Hz Iz Hf Hp; [lia|]. cbn [loop_exn]. rewrite clt_same by assumption.
  destruct (Z.ltb_spec z (cval m)) as [L|L]; [|apply ends_ok]. apply ends_bind; [apply H|]. intros [b s'] _. cbn [fst snd].
  destruct b; [apply ends_ok|]. destruct (next_in m z W (conj Hz L)) as (_ & I1 & ->). cbn [bind]. apply IH; [lia|exact I1|lia|lia].
Qed.
Lemma for_each_exn_ends {S} ds (f : list cint -> S -> outcome (bool * S)) s : wfs ds -> (forall is_ s, ends (f is_ s)) -> ends (for_each_exn ds f s).
Proof.
  intros W H. unfold for_each_exn.
  enough (G : forall is_ s, ends (pile (fun acc m => fun is_ s => loop_exn (fuel_of m) m (CI (cty m) 0) (fun i => acc (is_ ++ [i])) s) ds f is_ s)) by apply G.
  clear s. induction W as [|m ds Wm W IH]; intros is_ s; [apply H|].
  cbn [pile fold_right]. pose proof (fuel_enough m) as [F1 F2]. apply loop_exn_ends; auto using zero_in; [|lia]. intros i s'. apply IH.
Qed.

Lemma map_ends {T S} (f : list ptr -> S * mem T -> outcome (S * mem T)) c0 cs sm : sizes_are_values c0 -> (forall ps s, ends (f ps s)) ->
  ends (map_containers f c0 cs sm).
Proof.
  intros W H. apply for_each_ends; [exact W|]. intros is_ s. apply ends_bind; [apply ends_mapM; intros; apply ends_ref|]. intros. apply H.
Qed.
Lemma map_index_ends {T S} (f : ptr -> list cint -> S * mem T -> outcome (S * mem T)) c sm : sizes_are_values c -> (forall p is_ s, ends (f p is_ s)) ->
  ends (map_index f c sm).
Proof. intros W H. apply for_each_ends; [exact W|]. intros is_ s. apply ends_bind; [apply ends_ref|]. intros. apply H. Qed.
Lemma map_exn_ends {T S} (f : list ptr -> S * mem T -> outcome (bool * (S * mem T))) c0 cs sm : sizes_are_values c0 -> (forall ps s, ends (f ps s)) ->
  ends (map_exn f c0 cs sm).
Proof.
  intros W H. apply for_each_exn_ends; [exact W|]. intros is_ s. apply ends_bind; [apply ends_mapM; intros; apply ends_ref|]. intros. apply H.
Qed.
Lemma map_index_exn_ends {T S} (f : ptr -> list cint -> S * mem T -> outcome (bool * (S * mem T))) c sm : sizes_are_values c ->
  (forall p is_ s, ends (f p is_ s)) -> ends (map_index_exn f c sm).
Proof. intros W H. apply for_each_exn_ends; [exact W|]. intros is_ s. apply ends_bind; [apply ends_ref|]. intros. apply H. Qed.

(** One step of a body. *)
Ltac ending := intros; cbv zeta; repeat match goal with
  | |- ends (let x := _ in _) => cbv zeta
  | |- ends (match ?x with _ => _ end) => destruct x
  | |- ends (bind _ _) => apply ends_bind; [|intros]
  | |- ends (mapM _ _) => apply ends_mapM; intros
  | |- ends (load _ _) => apply ends_load
  | |- ends (store _ _ _) => apply ends_store
  | |- ends (assign _ _ _) => unfold assign
  | |- ends (Calls.put _ _ _ _) => unfold Calls.put
  | |- ends (put_exn _ _ _ _) => unfold put_exn
  | |- ends (ref _ _ _) => apply ends_ref
  | |- ends (get _ _ _) => apply ends_get
  | |- ends (cadd _ _) => apply ends_arith
  | |- ends (csub _ _) => apply ends_arith
  | |- ends (cincr _) => apply ends_cincr
  | |- ends (cdiv _ _) => apply ends_cdiv
  | |- ends (coordinates _ _ _) => apply ends_coordinates
  | H : forall _, ends _ |- _ => apply H
  | H : forall _ _, ends _ |- _ => apply H
  | H : forall _ _ _, ends _ |- _ => apply H
  | |- _ => discriminate
  end.
Ltac mapping := intros; unfold run_map; repeat (apply ends_bind; [|ending]);
  first [apply map_ends|apply map_index_ends|apply map_exn_ends|apply map_index_exn_ends]; [assumption|ending].

(** ** The algorithms *)
Section Algorithms.
Context {T : Type}.
Lemma transform_ends (f : list T -> T) out c0 cs m : sizes_are_values out -> ends (transform f out c0 cs m). Proof. mapping. Qed.
Lemma copy_ends out in_ (m : mem T) : sizes_are_values out -> ends (copy out in_ m). Proof. mapping. Qed.
Lemma copy_if_ends (f : T -> bool) out in_ m : sizes_are_values out -> ends (copy_if f out in_ m). Proof. mapping. Qed.
Lemma fill_ends out (v : T) m : sizes_are_values out -> ends (fill out v m). Proof. mapping. Qed.
Lemma generate_ends (f : list cint -> T) out m : sizes_are_values out -> ends (generate f out m). Proof. mapping. Qed.
Lemma replace_if_ends out (f : T -> bool) v m : sizes_are_values out -> ends (replace_if out f v m). Proof. mapping. Qed.
Lemma reduce_ends {A} in_ (f : A -> T -> A) init m : sizes_are_values in_ -> ends (reduce in_ f init m). Proof. mapping. Qed.
Lemma transform_reduce_ends {A B} in1 in2 (init : A) (R : A -> B -> A) (f : T -> T -> B) m : sizes_are_values in1 ->
  ends (transform_reduce in1 in2 init R f m). Proof. mapping. Qed.
Lemma inner_product_ends {A B} dbg in1 in2 (init : A) (R : A -> B -> A) (f : T -> T -> B) m : sizes_are_values in1 ->
  ends (inner_product dbg in1 in2 init R f m).
Proof. intros W. apply ends_bind; [apply ends_kassert, ends_shape_eq|]. intros _ _. mapping. Qed.
Lemma exclusive_ends {B} in_ out (init : T) (f1 : T -> B -> T) f2 m : sizes_are_values in_ -> ends (transform_exclusive_scan in_ out init f1 f2 m).
Proof. mapping. Qed.
Lemma inclusive_ends {B} in_ out (init : T) (f1 : T -> B -> T) f2 m : sizes_are_values in_ -> ends (transform_inclusive_scan in_ out init f1 f2 m).
Proof. mapping. Qed.
Lemma iota_ends et out v m : sizes_are_values out -> ends (@iota et out v m). Proof. mapping. Qed.
Lemma iota_step_ends et out v w m : sizes_are_values out -> ends (@iota_step et out v w m). Proof. mapping. Qed.
Lemma find_if_ends c (f : T -> bool) m : sizes_are_values c -> ends (find_if c f m).
Proof. intros W. apply ends_bind; [apply for_until_ends; [exact W|ending]|ending]. Qed.
Lemma find_first_of_ends eqb c vs (m : mem T) : sizes_are_values c -> sizes_are_values vs -> ends (find_first_of eqb c vs m).
Proof.
  intros W V. apply ends_bind; [apply for_until_ends; [exact W|]|ending]. intros is_ s.
  apply ends_bind; [apply ends_ref|]. intros p _. apply ends_bind; [apply ends_load|]. intros e _.
  apply ends_bind; [apply reduce_ends; exact V|ending].
Qed.
Lemma find_last_if_ends st c (f : T -> bool) m : sizes_are_values c -> ends (find_last_if st c f m).
Proof.
  intros W. apply ends_bind; [apply ends_reverse|]. intros rc E. apply ends_bind.
  - apply find_if_ends. unfold sizes_are_values. rewrite (reverse_sizes _ _ _ E). exact W.
  - intros [[pos|] m'] _; ending.
Qed.
End Algorithms.

Section WithCalls.
Context {T Q : Type}.
Lemma transform_call_ends (f : list T -> Q -> outcome (T * Q)) out c0 cs q m : sizes_are_values out -> (forall vs q, ends (f vs q)) ->
  ends (transform_call f out c0 cs q m). Proof. mapping. Qed.
Lemma copy_if_call_ends (f : T -> Q -> outcome (bool * Q)) out in_ q m : sizes_are_values out -> (forall v q, ends (f v q)) ->
  ends (copy_if_call f out in_ q m). Proof. mapping. Qed.
Lemma generate_call_ends (f : list cint -> Q -> outcome (T * Q)) out q m : sizes_are_values out -> (forall v q, ends (f v q)) ->
  ends (generate_call f out q m). Proof. mapping. Qed.
Lemma replace_if_call_ends out (f : T -> Q -> outcome (bool * Q)) v q m : sizes_are_values out -> (forall v q, ends (f v q)) ->
  ends (replace_if_call out f v q m). Proof. mapping. Qed.
Lemma reduce_call_ends {A} in_ (f : A -> T -> Q -> outcome (A * Q)) init q m : sizes_are_values in_ -> (forall a v q, ends (f a v q)) ->
  ends (reduce_call in_ f init q m). Proof. mapping. Qed.
Lemma all_of_call_ends in_ (f : T -> Q -> outcome (bool * Q)) q m : sizes_are_values in_ -> (forall v q, ends (f v q)) ->
  ends (all_of_call in_ f q m). Proof. intros W H. apply reduce_call_ends; [exact W|]. ending. Qed.
Lemma any_of_call_ends in_ (f : T -> Q -> outcome (bool * Q)) q m : sizes_are_values in_ -> (forall v q, ends (f v q)) ->
  ends (any_of_call in_ f q m). Proof. intros W H. apply reduce_call_ends; [exact W|]. ending. Qed.
Lemma none_of_call_ends in_ (f : T -> Q -> outcome (bool * Q)) q m : sizes_are_values in_ -> (forall v q, ends (f v q)) ->
  ends (none_of_call in_ f q m). Proof. intros W H. apply ends_bind; [apply any_of_call_ends; assumption|ending]. Qed.
Lemma count_if_call_ends in_ (f : T -> Q -> outcome (bool * Q)) q m : sizes_are_values in_ -> (forall v q, ends (f v q)) ->
  ends (count_if_call in_ f q m). Proof. intros W H. apply reduce_call_ends; [exact W|]. ending. Qed.
Lemma transform_reduce_call_ends {A B} in1 in2 (init : A) (R : A -> B -> Q -> outcome (A * Q)) (F : T -> T -> Q -> outcome (B * Q)) q m :
  sizes_are_values in1 -> (forall a b q, ends (R a b q)) -> (forall a b q, ends (F a b q)) -> ends (transform_reduce_call in1 in2 init R F q m).
Proof. mapping. Qed.
Lemma inner_product_call_ends {A B} dbg in1 in2 (init : A) (R : A -> B -> Q -> outcome (A * Q)) (F : T -> T -> Q -> outcome (B * Q)) q m :
  sizes_are_values in1 -> (forall a b q, ends (R a b q)) -> (forall a b q, ends (F a b q)) -> ends (inner_product_call dbg in1 in2 init R F q m).
Proof.
  intros W H1 H2. apply ends_bind; [apply ends_kassert, ends_shape_eq|]. intros _ _. apply transform_reduce_call_ends; assumption.
Qed.
Lemma exclusive_call_ends {B} in_ out init (f1 : T -> B -> Q -> outcome (T * Q)) (f2 : T -> Q -> outcome (B * Q)) q m :
  sizes_are_values in_ -> (forall a b q, ends (f1 a b q)) -> (forall a q, ends (f2 a q)) -> ends (exclusive_scan_call in_ out init f1 f2 q m).
Proof. mapping. Qed.
Lemma inclusive_call_ends {B} in_ out init (f1 : T -> B -> Q -> outcome (T * Q)) (f2 : T -> Q -> outcome (B * Q)) q m :
  sizes_are_values in_ -> (forall a b q, ends (f1 a b q)) -> (forall a q, ends (f2 a q)) -> ends (inclusive_scan_call in_ out init f1 f2 q m).
Proof. mapping. Qed.
Lemma find_if_call_ends c (f : T -> Q -> outcome (bool * Q)) q m : sizes_are_values c -> (forall v q, ends (f v q)) -> ends (find_if_call c f q m).
Proof. intros W H. apply ends_bind; [apply for_until_ends; [exact W|ending]|ending]. Qed.
Lemma find_last_if_call_ends st c (f : T -> Q -> outcome (bool * Q)) q m : sizes_are_values c -> (forall v q, ends (f v q)) ->
  ends (find_last_if_call st c f q m).
Proof.
  intros W H. apply ends_bind; [apply ends_reverse|]. intros rc E. apply ends_bind.
  - apply find_if_call_ends; [|exact H]. unfold sizes_are_values. rewrite (reverse_sizes _ _ _ E). exact W.
  - intros [[pos|] m'] _; ending.
Qed.

(** Bisection. *)
Lemma numel_int s n : numel s = Ok n -> exists z, n = int z /\ in_ty I32 z.
Proof.
  destruct s as [|a s]; [intros E; injection E as <-; exists 0; split; [reflexivity|unfold in_ty; cbn; lia]|].
  unfold numel. destruct (kfold_left _ _ _) as [r| | |]; try discriminate. cbn [bind]. intros E. injection E as <-.
  exists (cast I32 (cval r)). split; [reflexivity|apply cast_range].
Qed.
Lemma half_of count : 0 < count -> in_ty I32 count -> cdiv (int count) (int 2) = Ok (int (count / 2)).
Proof.
  intros H I. unfold cdiv. cbn [cty int common cval]. change (common I32 I32) with I32. rewrite (cast_id I32 count) by exact I.
  rewrite (cast_id I32 2) by (unfold in_ty; cbn; lia). change (2 =? 0) with false. cbv iota. rewrite Z.quot_div_nonneg by lia.
  assert (0 <= count / 2 <= count) by (split; [apply Z.div_pos; lia|apply Z.div_le_upper_bound; lia]).
  unfold in_ty in I. cbn in I.
  replace (in_tyb I32 (count / 2)) with true; [reflexivity|]. symmetry. apply in_tyb_spec. unfold in_ty; cbn; lia.
Qed.
Lemma after_half count step : 0 < count -> in_ty I32 count -> step = count / 2 ->
  exists s1, cadd (int step) (int 1) = Ok s1 /\ csub (int count) s1 = Ok (int (count - step - 1)) /\ 0 <= count - step - 1 < count /\ 0 <= step < count.
Proof.
  intros H I ->. assert (0 <= count / 2 < count) by (split; [apply Z.div_pos; lia|apply Z.div_lt; lia]). unfold in_ty in I. cbn in I.
  exists (int (count / 2 + 1)).
  assert (A : forall x y z f, in_ty I32 x -> in_ty I32 y -> f x y = z -> in_ty I32 z -> arith f (int x) (int y) = Ok (int z)).
  { intros x y z f Ix Iy <- Iz. rewrite arith_exact; [reflexivity|exact Ix|exact Iy|left; reflexivity|exact Iz]. }
  repeat split; try lia; apply A; unfold in_ty; cbn; lia.
Qed.
Lemma bisect_call_ends dbg (cond : T -> Q -> outcome (bool * Q)) c m : (forall v q, ends (cond v q)) ->
  forall fuel count first it q, in_ty I32 count -> count <= Z.of_nat fuel -> ends (bisect_call dbg cond c m fuel (int count) first it q).
Proof.
  intros H. induction fuel as [|fuel IH]; intros count first it q I L; cbn [bisect_call];
    (rewrite clt_exact; [|unfold wfc, in_ty; cbn; lia|exact I|left; reflexivity]); cbn [cval int];
    destruct (Z.ltb_spec 0 count) as [P|P]; try apply ends_ok; [lia|].
  rewrite half_of by assumption. cbn [bind]. destruct (after_half count _ P I eq_refl) as (s1 & E1 & E2 & B1 & B2).
  assert (J : forall x, 0 <= x < count -> in_ty I32 x) by (intros x Hx; unfold in_ty in *; cbn in *; lia).
  apply ends_bind; [apply ends_arith|]. intros it' _. apply ends_bind; [apply ends_coordinates|]. intros pos _.
  apply ends_bind; [apply ends_get|]. intros e _. apply ends_bind; [apply H|]. intros [b q'] _. cbn [fst snd]. destruct b.
  - apply ends_bind; [apply ends_cincr|]. intros it2 _. rewrite E1. cbn [bind]. rewrite E2. cbn [bind]. apply IH; [apply J; lia|lia].
  - apply IH; [apply J; lia|lia].
Qed.
Lemma bound_ends dbg c n r : ends (bound_result dbg c n r).
Proof. unfold bound_result. destruct (clt _ _); [|apply ends_ok]. ending. Qed.
Lemma lower_call_ends dbg (func : T -> T -> Q -> outcome (bool * Q)) c x q m : (forall a b q, ends (func a b q)) ->
  ends (lower_bound_call dbg func c x q m).
Proof.
  intros H. apply ends_bind; [apply ends_numel|]. intros n E. destruct (numel_int _ _ E) as (z & -> & I). destruct (ceqb _ _); [apply ends_ok|].
  apply ends_bind; [apply bisect_call_ends; [intros; apply H|exact I|unfold bisect_fuel; cbn; lia]|]. intros r _.
  apply ends_bind; [apply bound_ends|]. ending.
Qed.
Lemma upper_call_ends dbg (func : T -> T -> Q -> outcome (bool * Q)) c x q m : (forall a b q, ends (func a b q)) ->
  ends (upper_bound_call dbg func c x q m).
Proof.
  intros H. apply ends_bind; [apply ends_numel|]. intros n E. destruct (numel_int _ _ E) as (z & -> & I).
  apply ends_bind; [apply bisect_call_ends; [ending|exact I|unfold bisect_fuel; cbn; lia]|]. intros r _.
  apply ends_bind; [apply bound_ends|]. ending.
Qed.
Lemma binary_call_ends dbg (func : T -> T -> Q -> outcome (bool * Q)) c x q m : (forall a b q, ends (func a b q)) ->
  ends (binary_search_call dbg func c x q m).
Proof.
  intros H. apply ends_bind; [apply lower_call_ends; exact H|]. intros [[pos|] q'] _; ending.
Qed.
End WithCalls.

Section WithExceptions.
Context {T Q : Type}.
Lemma transform_exn_ends (f : list T -> Q -> outcome (option T * Q)) out c0 cs q m : sizes_are_values out -> (forall vs q, ends (f vs q)) ->
  ends (transform_exn f out c0 cs q m). Proof. mapping. Qed.
Lemma copy_if_exn_ends (f : T -> Q -> outcome (option bool * Q)) out in_ q m : sizes_are_values out -> (forall v q, ends (f v q)) ->
  ends (copy_if_exn f out in_ q m). Proof. mapping. Qed.
Lemma generate_exn_ends (f : list cint -> Q -> outcome (option T * Q)) out q m : sizes_are_values out -> (forall v q, ends (f v q)) ->
  ends (generate_exn f out q m). Proof. mapping. Qed.
Lemma replace_if_exn_ends out (f : T -> Q -> outcome (option bool * Q)) v q m : sizes_are_values out -> (forall v q, ends (f v q)) ->
  ends (replace_if_exn out f v q m). Proof. mapping. Qed.
Lemma for_each_elems_exn_ends (f : T -> Q -> outcome ((T * bool) * Q)) c q m : sizes_are_values c -> (forall v q, ends (f v q)) ->
  ends (for_each_elems_exn f c q m). Proof. mapping. Qed.
Lemma reduce_exn_ends {A} in_ (f : A -> T -> Q -> outcome (option A * Q)) init q m : sizes_are_values in_ -> (forall a v q, ends (f a v q)) ->
  ends (reduce_exn in_ f init q m). Proof. mapping. Qed.
Lemma exclusive_exn_ends {B} in_ out init (f1 : T -> B -> Q -> outcome (option T * Q)) (f2 : T -> Q -> outcome (option B * Q)) q m :
  sizes_are_values in_ -> (forall a b q, ends (f1 a b q)) -> (forall a q, ends (f2 a q)) -> ends (exclusive_scan_exn in_ out init f1 f2 q m).
Proof. mapping. Qed.
Lemma inclusive_exn_ends {B} in_ out init (f1 : T -> B -> Q -> outcome (option T * Q)) (f2 : T -> Q -> outcome (option B * Q)) q m :
  sizes_are_values in_ -> (forall a b q, ends (f1 a b q)) -> (forall a q, ends (f2 a q)) -> ends (inclusive_scan_exn in_ out init f1 f2 q m).
Proof. mapping. Qed.
End WithExceptions.

(** ** The number of tests *)
Lemma tests_nonneg ns : 0 <= tests ns.
Proof. induction ns as [|n ns IH]; cbn [tests]; [lia|]. pose proof (Z.mul_nonneg_nonneg (Z.max 0 n) (tests ns)). lia. Qed.

Lemma loop_counted_is {S} m (body : cint -> S * Z -> outcome (S * Z)) (body' : cint -> S -> outcome S) t : wfc m ->
  (forall i s k, body i (s, k) = (s' <- body' i s ;; Ok (s', k + t))) ->
  forall fuel z s k, 0 <= z -> in_ty (cty m) z -> cval m - z < Z.of_nat fuel -> 0 < Z.of_nat fuel ->
  loop_counted fuel m (CI (cty m) z) body (s, k) =
    (s' <- loop fuel m (CI (cty m) z) body' s ;; Ok (s', k + (Z.max 0 (cval m - z) + 1) + Z.max 0 (cval m - z) * t)).
Proof.
  intros W H. induction fuel as [|fuel IH]; intros z s k Hz Iz Hf Hp; [lia|]. cbn [loop_counted loop fst snd]. rewrite clt_same by assumption.
  destruct (Z.ltb_spec z (cval m)) as [L|L].
  - rewrite H. destruct (body' _ s) as [s'| | |]; cbn [bind]; try reflexivity.
    destruct (next_in m z W (conj Hz L)) as (_ & I1 & ->). cbn [bind]. rewrite IH by (try assumption; lia).
    destruct (loop _ _ _ _ _); cbn [bind]; try reflexivity. do 2 f_equal.
    rewrite !Z.max_r by lia. lia.
  - cbn [bind]. do 2 f_equal. rewrite Z.max_l by lia. lia.
Qed.
Lemma for_each_counted_l {S} ds (f : list cint -> S -> outcome S) s : wfs ds ->
  for_each_counted ds f s = (s' <- for_each ds f s ;; Ok (s', tests (vals ds))).
Proof.
  intros W. unfold for_each_counted, for_each.
  enough (G : forall is_ s k,
    pile (fun acc m => fun is_ s => loop_counted (fuel_of m) m (CI (cty m) 0) (fun i => acc (is_ ++ [i])) s) ds
      (fun is_ s => s' <- f is_ (fst s) ;; Ok (s', snd s)) is_ (s, k) =
    (s' <- pile (fun acc m => fun is_ s => loop (fuel_of m) m (CI (cty m) 0) (fun i => acc (is_ ++ [i])) s) ds f is_ s ;;
     Ok (s', k + tests (vals ds)))) by apply (G []).
  clear s. induction W as [|m ds Wm W IH]; intros is_ s k.
  - cbn [pile fold_right vals map tests fst snd]. destruct (f is_ s); cbn [bind]; try reflexivity. do 2 f_equal. lia.
  - cbn [pile fold_right]. pose proof (fuel_enough m) as [F1 F2].
    rewrite (loop_counted_is m _ (fun i => fold_right (fun m acc => fun is_ s => loop (fuel_of m) m (CI (cty m) 0) (fun i => acc (is_ ++ [i])) s) f ds (is_ ++ [i]))
      (tests (vals ds))); auto using zero_in; [|intros i s' k'; apply IH|lia].
    destruct (loop _ _ _ _ _); cbn [bind]; try reflexivity. do 2 f_equal. cbn [vals map tests]. fold (vals ds). rewrite !Z.sub_0_r. lia.
Qed.

Lemma loop_until_counted_is {S} m (body : cint -> (bool * S) * Z -> outcome ((bool * S) * Z)) (body' : cint -> bool * S -> outcome (bool * S)) t :
  wfc m -> 0 <= t -> (forall i s k, match body' i s with
                          | Ok s' => exists k', body i (s, k) = Ok (s', k') /\ k <= k' <= k + t /\ (fst s' = false -> k' = k + t)
                          | x => body i (s, k) = (_ <- x ;; UB) end) ->
  forall fuel z s k, 0 <= z -> in_ty (cty m) z -> cval m - z < Z.of_nat fuel -> 0 < Z.of_nat fuel ->
  match loop_until fuel m (CI (cty m) z) body' s with
  | Ok s' => exists k', loop_until_counted fuel m (CI (cty m) z) body (s, k) = Ok (s', k') /\
      k <= k' <= k + (Z.max 0 (cval m - z) + 1) + Z.max 0 (cval m - z) * t /\
      (fst s' = false -> k' = k + (Z.max 0 (cval m - z) + 1) + Z.max 0 (cval m - z) * t)
  | x => loop_until_counted fuel m (CI (cty m) z) body (s, k) = (_ <- x ;; UB)
  end.
Proof.
  intros W Ht H. induction fuel as [|fuel IH]; intros z s k Hz Iz Hf Hp; [lia|]. cbn [loop_until_counted loop_until fst snd].
  assert (M : 0 <= Z.max 0 (cval m - z) * t) by (apply Z.mul_nonneg_nonneg; lia).
  destruct (fst s) eqn:Fs; cbn [negb andb]; [exists (k + 1); split; [reflexivity|split; [lia|congruence]]|]. rewrite clt_same by assumption.
  destruct (Z.ltb_spec z (cval m)) as [L|L]; [|exists (k + 1); split; [reflexivity|rewrite Z.max_l by lia; lia]].
  specialize (H (CI (cty m) z) s (k + 1)).
  destruct (body' _ s) as [s'| | |]; cbn [bind]; try (rewrite H; reflexivity).
  destruct H as (k1 & -> & B1 & X1). cbn [bind].
  destruct (next_in m z W (conj Hz L)) as (_ & I1 & ->). cbn [bind].
  specialize (IH (z + 1) s' k1 ltac:(lia) I1 ltac:(lia) ltac:(lia)).
  destruct (loop_until fuel m _ body' s') as [s2| | |] eqn:EL; try exact IH. destruct IH as (k2 & E & B2 & X2). exists k2. split; [exact E|].
  replace (Z.max 0 (cval m - z)) with (1 + Z.max 0 (cval m - (z + 1))) by lia.
  set (r := Z.max 0 (cval m - (z + 1))) in *. split; [lia|]. intros Fe. specialize (X2 Fe). enough (fst s' = false) as F' by (specialize (X1 F'); lia).
  destruct (fst s') eqn:F'; [|reflexivity]. destruct fuel as [|fuel]; [discriminate EL|]. cbn [loop_until] in EL. rewrite F' in EL. cbn in EL. congruence.
Qed.
Lemma for_until_counted_l {S} ds (f : list cint -> S -> outcome (bool * S)) s : wfs ds ->
  match for_until ds f s with
  | Ok s' => exists k, for_until_counted ds f s = Ok (s', k) /\ 0 <= k <= tests (vals ds) /\ (fst s' = false -> k = tests (vals ds))
  | x => for_until_counted ds f s = (_ <- x ;; UB)
  end.
Proof.
  intros W. unfold for_until_counted, for_until.
  enough (G : forall is_ s k,
    match pile (fun acc m => fun is_ s => loop_until (fuel_of m) m (CI (cty m) 0) (fun i => acc (is_ ++ [i])) s) ds
      (fun is_ fs => f is_ (snd fs)) is_ s with
    | Ok s' => exists k', pile (fun acc m => fun is_ s => loop_until_counted (fuel_of m) m (CI (cty m) 0) (fun i => acc (is_ ++ [i])) s) ds
        (fun is_ s => s' <- f is_ (snd (fst s)) ;; Ok (s', snd s)) is_ (s, k) = Ok (s', k') /\ k <= k' <= k + tests (vals ds) /\
        (fst s' = false -> k' = k + tests (vals ds))
    | x => pile (fun acc m => fun is_ s => loop_until_counted (fuel_of m) m (CI (cty m) 0) (fun i => acc (is_ ++ [i])) s) ds
        (fun is_ s => s' <- f is_ (snd (fst s)) ;; Ok (s', snd s)) is_ (s, k) = (_ <- x ;; UB)
    end) by apply (G [] (false, s) 0).
  clear s. induction W as [|m ds Wm W IH]; intros is_ s k.
  - cbn [pile fold_right vals map tests fst snd]. destruct (f is_ (snd s)); cbn [bind]; try reflexivity. exists k. split; [reflexivity|lia].
  - cbn [pile fold_right]. pose proof (fuel_enough m) as [F1 F2].
    pose proof (loop_until_counted_is m
      (fun i => fold_right (fun m acc => fun is_ s => loop_until_counted (fuel_of m) m (CI (cty m) 0) (fun i => acc (is_ ++ [i])) s)
        (fun is_ s => s' <- f is_ (snd (fst s)) ;; Ok (s', snd s)) ds (is_ ++ [i]))
      (fun i => fold_right (fun m acc => fun is_ s => loop_until (fuel_of m) m (CI (cty m) 0) (fun i => acc (is_ ++ [i])) s)
        (fun is_ fs => f is_ (snd fs)) ds (is_ ++ [i])) (tests (vals ds)) Wm (tests_nonneg _) (fun i s k => IH (is_ ++ [i]) s k)
      (fuel_of m) 0 s k ltac:(lia) (zero_in m) ltac:(lia) ltac:(lia)) as L.
    destruct (loop_until _ _ _ _ _); try exact L. destruct L as (k' & E & B & X). exists k'. split; [exact E|].
    cbn [vals map tests]. fold (vals ds). rewrite !Z.sub_0_r in B, X. split; [lia|]. intros Fe. specialize (X Fe). lia.
Qed.

Lemma tests_bounds_l ns : Forall (fun n => 1 <= n) ns -> ns <> [] -> prod ns <= tests ns <= 2 * Z.of_nat (length ns) * prod ns.
Proof.
  intros H. induction H as [|n ns Hn H IH]; intros N; [contradiction|]. cbn [tests length]. change (prod (n :: ns)) with (n * prod ns).
  rewrite Z.max_r by lia. assert (P : 1 <= prod ns).
  { clear -H. induction H as [|n ns Hn H IH]; [unfold prod; cbn; lia|]. change (prod (n :: ns)) with (n * prod ns).
    change 1 with (1 * 1). apply Z.mul_le_mono_nonneg; lia. }
  assert (Q : n <= n * prod ns) by (rewrite <- (Z.mul_1_r n) at 1; apply Z.mul_le_mono_nonneg_l; lia).
  destruct ns as [|n2 ns].
  - change (prod []) with 1 in *. cbn [tests length]. lia.
  - destruct (IH ltac:(discriminate)) as [L U]. set (t := tests (n2 :: ns)) in *. set (p := prod (n2 :: ns)) in *.
    pose proof (Z.mul_le_mono_nonneg_l _ _ n ltac:(lia) L) as L'. pose proof (Z.mul_le_mono_nonneg_l _ _ n ltac:(lia) U) as U'.
    rewrite Nat2Z.inj_succ. set (d := Z.of_nat (length (n2 :: ns))) in *. split; [lia|].
    replace (2 * Z.succ d * (n * p)) with (n * (2 * d * p) + 2 * (n * p)) by ring. lia.
Qed.

Lemma bisect_ends {T} dbg (cond : T -> bool) c m :
  forall fuel count first it, in_ty I32 count -> count <= Z.of_nat fuel -> ends (bisect dbg cond c m fuel (int count) first it).
Proof.
  induction fuel as [|fuel IH]; intros count first it I L; cbn [bisect];
    (rewrite clt_exact; [|unfold wfc, in_ty; cbn; lia|exact I|left; reflexivity]); cbn [cval int];
    destruct (Z.ltb_spec 0 count) as [P|P]; try apply ends_ok; [lia|].
  rewrite half_of by assumption. cbn [bind]. destruct (after_half count _ P I eq_refl) as (s1 & E1 & E2 & B1 & B2).
  assert (J : forall x, 0 <= x < count -> in_ty I32 x) by (intros x Hx; unfold in_ty in *; cbn in *; lia).
  apply ends_bind; [apply ends_arith|]. intros it' _. apply ends_bind; [apply ends_coordinates|]. intros pos _.
  apply ends_bind; [apply ends_get|]. intros e _. destruct (cond e).
  - apply ends_bind; [apply ends_cincr|]. intros it2 _. rewrite E1. cbn [bind]. rewrite E2. cbn [bind]. apply IH; [apply J; lia|lia].
  - apply IH; [apply J; lia|lia].
Qed.
(** Bisection: at most one turn more than the number of halvings. *)
Lemma bisect_counted_l {T} dbg (cond : T -> bool) c m : forall fuel count first it, in_ty I32 count -> count <= Z.of_nat fuel ->
  match bisect dbg cond c m fuel (int count) first it with
  | Ok r => exists k, bisect_counted dbg cond c m fuel (int count) first it = Ok (r, k) /\ 0 <= k /\
      (0 < count -> 2 ^ k <= 2 * count) /\ (count <= 0 -> k = 0)
  | x => bisect_counted dbg cond c m fuel (int count) first it = (_ <- x ;; UB)
  end.
Proof.
  induction fuel as [|fuel IH]; intros count first it I L; cbn [bisect bisect_counted];
    (rewrite clt_exact; [|unfold wfc, in_ty; cbn; lia|exact I|left; reflexivity]); cbn [cval int];
    destruct (Z.ltb_spec 0 count) as [P|P]; try (exists 0; repeat split; lia); [lia|].
  rewrite half_of by assumption. cbn [bind]. destruct (after_half count _ P I eq_refl) as (s1 & E1 & E2 & B1 & B2).
  assert (J : forall x, 0 <= x < count -> in_ty I32 x) by (intros x Hx; unfold in_ty in *; cbn in *; lia).
  destruct (cadd first _) as [it'| | |]; cbn [bind]; try reflexivity.
  destruct (coordinates _ _ _) as [pos| | |]; cbn [bind]; try reflexivity.
  destruct (get _ _ _) as [e| | |]; cbn [bind]; try reflexivity.
  assert (Hd : 2 * (count / 2) <= count < 2 * (count / 2) + 2).
  { pose proof (Z.div_mod count 2 ltac:(lia)). pose proof (Z.mod_pos_bound count 2 ltac:(lia)). lia. }
  assert (Fin : forall x, 0 <= x -> 2 * x <= count -> forall k, 0 <= k -> (0 < x -> 2 ^ k <= 2 * x) -> (x <= 0 -> k = 0) ->
    0 <= k + 1 /\ (0 < count -> 2 ^ (k + 1) <= 2 * count) /\ (count <= 0 -> k + 1 = 0)).
  { intros x Hx Hc k Hk H1 H2. split; [lia|]. split; [|lia]. intros _. rewrite Z.pow_add_r by lia. change (2 ^ 1) with 2.
    destruct (Z.eq_dec x 0) as [->|Nx]; [rewrite (H2 ltac:(lia)); change (2 ^ 0) with 1; lia|]. specialize (H1 ltac:(lia)). lia. }
  destruct (cond e).
  - destruct (cincr it') as [it2| | |]; cbn [bind]; try reflexivity. rewrite E1. cbn [bind]. rewrite E2. cbn [bind].
    specialize (IH (count - count / 2 - 1) it2 it2 ltac:(apply J; lia) ltac:(lia)).
    destruct (bisect _ _ _ _ _ _ _ _) as [r| | |]; cbn [bind]; try (rewrite IH; reflexivity).
    destruct IH as (k & -> & K0 & K1 & K2). cbn [bind fst snd]. exists (k + 1). split; [reflexivity|].
    apply (Fin (count - count / 2 - 1)); auto; lia.
  - specialize (IH (count / 2) first it' ltac:(apply J; lia) ltac:(lia)).
    destruct (bisect _ _ _ _ _ _ _ _) as [r| | |]; cbn [bind]; try (rewrite IH; reflexivity).
    destruct IH as (k & -> & K0 & K1 & K2). cbn [bind fst snd]. exists (k + 1). split; [reflexivity|].
    apply (Fin (count / 2)); auto; lia.
Qed.

(** ** The theorems *)
Lemma loops_end_l (S : Type) (ds : list cint) (s : S) : wfs ds ->
  (forall f, (forall is_ s, ends (f is_ s)) -> ends (for_each ds f s)) /\
  (forall f, (forall is_ s, ends (f is_ s)) -> ends (for_until ds f s)) /\
  (forall f, (forall is_ s, ends (f is_ s)) -> ends (for_each_exn ds f s)).
Proof. intros W. split; [|split]; intros; [apply for_each_ends|apply for_until_ends|apply for_each_exn_ends]; assumption. Qed.
Lemma writers_end_l (T Q : Type) (out in_ : container) (q : Q) (m : mem T) : sizes_are_values out ->
  (forall f c0 cs, (forall vs q, ends (f vs q)) -> ends (transform_call f out c0 cs q m)) /\
  ends (copy out in_ m) /\
  (forall f, (forall v q, ends (f v q)) -> ends (copy_if_call f out in_ q m)) /\
  (forall v, ends (fill out v m)) /\
  (forall f, (forall is_ q, ends (f is_ q)) -> ends (generate_call f out q m)) /\
  (forall f v, (forall v q, ends (f v q)) -> ends (replace_if_call out f v q m)).
Proof.
  intros W. split; [|split; [|split; [|split; [|split]]]]; intros.
  - apply transform_call_ends; assumption.
  - apply copy_ends; assumption.
  - apply copy_if_call_ends; assumption.
  - apply fill_ends; assumption.
  - apply generate_call_ends; assumption.
  - apply replace_if_call_ends; assumption.
Qed.
Lemma iotas_end_l (et : ity) (out : container) (v w : cint) (m : mem cint) : sizes_are_values out ->
  ends (@iota et out v m) /\ ends (@iota_step et out v w m).
Proof. split; [apply iota_ends|apply iota_step_ends]; assumption. Qed.
Lemma readers_end_l (T Q : Type) (in1 in2 : container) (dbg : bool) (q : Q) (m : mem T) : sizes_are_values in1 ->
  (forall (A : Type) f (init : A), (forall a v q, ends (f a v q)) -> ends (reduce_call in1 f init q m)) /\
  (forall f, (forall v q, ends (f v q)) -> ends (all_of_call in1 f q m) /\ ends (any_of_call in1 f q m) /\
                                          ends (none_of_call in1 f q m) /\ ends (count_if_call in1 f q m)) /\
  (forall (A B : Type) R F (init : A), (forall a b q, ends (R a b q)) -> (forall a (b : T) q, ends (F a b q : outcome (B * Q))) ->
    ends (transform_reduce_call in1 in2 init R F q m) /\ ends (inner_product_call dbg in1 in2 init R F q m)) /\
  (forall (B : Type) out f1 f2 (init : T), (forall a b q, ends (f1 a b q)) -> (forall a q, ends (f2 a q : outcome (B * Q))) ->
    ends (exclusive_scan_call in1 out init f1 f2 q m) /\ ends (inclusive_scan_call in1 out init f1 f2 q m)).
Proof.
  intros W. split; [|split; [|split]].
  - intros. apply reduce_call_ends; assumption.
  - intros. split; [|split; [|split]]; [apply all_of_call_ends|apply any_of_call_ends|apply none_of_call_ends|apply count_if_call_ends]; assumption.
  - intros. split; [apply transform_reduce_call_ends|apply inner_product_call_ends]; assumption.
  - intros. split; [apply exclusive_call_ends|apply inclusive_call_ends]; assumption.
Qed.
Lemma searches_end_l (T Q : Type) (c : container) (q : Q) (m : mem T) : sizes_are_values c ->
  (forall f, (forall v q, ends (f v q)) -> ends (find_if_call c f q m) /\ forall static, ends (find_last_if_call static c f q m)) /\
  (forall eqb vs, sizes_are_values vs -> ends (find_first_of eqb c vs m)).
Proof.
  intros W. split.
  - intros f H. split; [|intros st]; [apply find_if_call_ends|apply find_last_if_call_ends]; assumption.
  - intros. apply find_first_of_ends; assumption.
Qed.
Lemma bisections_end_l (T Q : Type) (dbg : bool) (func : T -> T -> Q -> outcome (bool * Q)) (c : container) (x : T) (q : Q) (m : mem T) :
  (forall a b q, ends (func a b q)) ->
  ends (lower_bound_call dbg func c x q m) /\ ends (upper_bound_call dbg func c x q m) /\ ends (binary_search_call dbg func c x q m).
Proof. split; [|split]; [apply lower_call_ends|apply upper_call_ends|apply binary_call_ends]; assumption. Qed.
Lemma throwing_end_l (T Q : Type) (c in_ : container) (q : Q) (m : mem T) : sizes_are_values c ->
  (forall f c0 cs, (forall vs q, ends (f vs q)) -> ends (transform_exn f c c0 cs q m)) /\
  (forall f, (forall v q, ends (f v q)) -> ends (copy_if_exn f c in_ q m)) /\
  (forall f, (forall is_ q, ends (f is_ q)) -> ends (generate_exn f c q m)) /\
  (forall f v, (forall v q, ends (f v q)) -> ends (replace_if_exn c f v q m)) /\
  (forall f, (forall v q, ends (f v q)) -> ends (for_each_elems_exn f c q m)) /\
  (forall (A : Type) f (init : A), (forall a v q, ends (f a v q)) -> ends (reduce_exn c f init q m)) /\
  (forall (B : Type) out f1 f2 (init : T), (forall a b q, ends (f1 a b q)) -> (forall a q, ends (f2 a q : outcome (option B * Q))) ->
    ends (exclusive_scan_exn c out init f1 f2 q m) /\ ends (inclusive_scan_exn c out init f1 f2 q m)).
Proof.
  intros W. split; [|split; [|split; [|split; [|split; [|split]]]]]; intros.
  - apply transform_exn_ends; assumption.
  - apply copy_if_exn_ends; assumption.
  - apply generate_exn_ends; assumption.
  - apply replace_if_exn_ends; assumption.
  - apply for_each_elems_exn_ends; assumption.
  - apply reduce_exn_ends; assumption.
  - split; [apply exclusive_exn_ends|apply inclusive_exn_ends]; assumption.
Qed.
Lemma for_each_tests_l (S : Type) (ds : list cint) (f : list cint -> S -> outcome S) (s : S) : wfs ds ->
  for_each_counted ds f s = match for_each ds f s with
                            | Ok s' => Ok (s', tests (vals ds))
                            | Abort => Abort | UB => UB | NoFuel => NoFuel
                            end.
Proof. intros W. rewrite for_each_counted_l by exact W. destruct (for_each ds f s); reflexivity. Qed.
Lemma for_until_tests_l (S : Type) (ds : list cint) (f : list cint -> S -> outcome (bool * S)) (s : S) : wfs ds ->
  match for_until ds f s with
  | Ok (found, s') => exists k, for_until_counted ds f s = Ok ((found, s'), k) /\ 0 <= k <= tests (vals ds) /\
                               (found = false -> k = tests (vals ds))
  | Abort => for_until_counted ds f s = Abort
  | UB => for_until_counted ds f s = UB
  | NoFuel => for_until_counted ds f s = NoFuel
  end.
Proof. intros W. pose proof (for_until_counted_l ds f s W) as H. destruct (for_until ds f s) as [[found s']| | |]; exact H. Qed.
Lemma bisection_turns_l (T : Type) (dbg : bool) (cond : T -> bool) (c : container) (m : mem T) (n : cint) :
  numel (c_shape c) = Ok n ->
  match bisect dbg cond c m (bisect_fuel n) n (int 0) (int 0) with
  | Ok r => exists k, bisect_counted dbg cond c m (bisect_fuel n) n (int 0) (int 0) = Ok (r, k) /\ 0 <= k /\
                      (0 < cval n -> k <= 1 + Z.log2 (cval n)) /\ (cval n <= 0 -> k = 0)
  | Abort => bisect_counted dbg cond c m (bisect_fuel n) n (int 0) (int 0) = Abort
  | UB => bisect_counted dbg cond c m (bisect_fuel n) n (int 0) (int 0) = UB
  | NoFuel => False
  end.
Proof.
  intros E. destruct (numel_int _ _ E) as (z & -> & I). cbn [cval int].
  pose proof (bisect_counted_l dbg cond c m (bisect_fuel (int z)) z (int 0) (int 0) I ltac:(unfold bisect_fuel; cbn; lia)) as H.
  destruct (bisect _ _ _ _ _ _ _ _) as [r| | |] eqn:B; try exact H.
  - destruct H as (k & Ek & K0 & K1 & K2). exists k. split; [exact Ek|]. split; [exact K0|]. split; [|exact K2]. intros P.
    specialize (K1 P). enough (2 ^ k < 2 ^ (2 + Z.log2 z)) by (apply Z.pow_lt_mono_r_iff in H; pose proof (Z.log2_nonneg z); lia).
    pose proof (Z.log2_spec z P) as [_ L2]. replace (2 + Z.log2 z) with (1 + Z.succ (Z.log2 z)) by lia.
    rewrite Z.pow_add_r by (pose proof (Z.log2_nonneg z); lia). change (2 ^ 1) with 2. lia.
  - exfalso. revert B. apply bisect_ends; [exact I|unfold bisect_fuel; cbn; lia].
Qed.
Lemma empty_costs_l (S : Type) (f : list cint -> S -> outcome S) (s : S) ds a r : wfs ds -> vals ds = a ++ 0 :: r ->
  Forall (fun n => 1 <= n) a -> nonnegs r -> for_each_counted ds f s = Ok (s, tests a + prod a).
Proof.
  intros W V H R. rewrite for_each_counted_l by exact W.
  rewrite for_each_zero_l; [| exact W| |rewrite V; apply in_elt].
  2: { rewrite V. apply Forall_app. split; [|constructor; [lia|exact R]]. eapply Forall_impl; [|exact H]. cbn. lia. }
  cbn [bind]. do 2 f_equal. rewrite V. clear V W R. induction H as [|n a Hn H IH]; [cbn [app tests]; unfold prod; cbn; lia|]. cbn [app tests].
  rewrite IH. change (prod (n :: a)) with (n * prod a). rewrite Z.max_r by lia. lia.
Qed.
Lemma empty_cost_l (S : Type) (f : list cint -> S -> outcome S) (s : S) :
  for_each_counted [int 2147483647; int 0] f s = Ok (s, 4294967295) /\
  for_each_counted [int 0; int 2147483647] f s = Ok (s, 1).
Proof.
  assert (W : wfc (int 2147483647) /\ wfc (int 0)) by (split; unfold wfc, in_ty; cbn; lia). destruct W as [W1 W2]. split.
  - rewrite (empty_costs_l S f s _ [2147483647] []); [reflexivity|constructor; [assumption|constructor; [assumption|constructor]]|reflexivity|constructor; [lia|constructor]|constructor].
  - rewrite (empty_costs_l S f s _ [] [2147483647]); [reflexivity|constructor; [assumption|constructor; [assumption|constructor]]|reflexivity|constructor|constructor; [lia|constructor]].
Qed.
