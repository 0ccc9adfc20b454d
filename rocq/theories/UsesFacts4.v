From Coq Require Import ZArith List Bool Lia.
From Verif Require Import Outcome CInt ForEach Shape Memory MemFacts Container ContainerSpec
  Algo Search Calls CallSpec CallFacts CallFacts4 UsesFacts Uses Uses2 UsesSpec UsesFacts3.
Import ListNotations.
Open Scope Z_scope.

Section Elsewhere2.
Context {T Q : Type} (W : ptr -> Prop) (St : Q -> mem T -> Prop) (K : kept_in W St).
Notation asks := (T -> Q -> outcome (bool * Q)).
Notation asks_m := (T -> mem T -> outcome (bool * mem T)).

Lemma ret_works {A} (a : A) : works_as W St (fun q => Ok (a, q)) (fun m => Ok (a, m)).
Proof. intros q m Hs. cbn [agrees fst snd]. split; [reflexivity|]. split; [exact Hs|apply twins_refl]. Qed.
Lemma map_works {A B} (g : A -> B) (f : Q -> outcome (A * Q)) (k : mem T -> outcome (A * mem T)) : works_as W St f k ->
  works_as W St (fun q => r <- f q ;; Ok (g (fst r), snd r)) (fun m => r <- k m ;; Ok (g (fst r), snd r)).
Proof.
  intros H q m Hs. eapply agrees_bind; [exact (H q m Hs)|]. intros [a qa] [b mb] (E & S1 & T1). cbn [fst snd agrees] in *.
  subst b. split; [reflexivity|]. split; assumption.
Qed.

Lemma all_of_elsewhere_l (f : asks) (k : asks_m) c q m m' : not_in W c -> (forall v, works_as W St (f v) (k v)) -> St q m' -> twins W m m' ->
  agrees (all_of_call c f q m) (all_of_use c k m')
    (fun r r' => fst r' = fst (fst r) /\ St (snd (fst r)) (snd r') /\ twins W (snd r) (snd r')).
Proof. intros N H Hs Tw. apply reduce_elsewhere_l; try assumption. intros [] v; [apply H|apply ret_works]. Qed.
Lemma any_of_elsewhere_l (f : asks) (k : asks_m) c q m m' : not_in W c -> (forall v, works_as W St (f v) (k v)) -> St q m' -> twins W m m' ->
  agrees (any_of_call c f q m) (any_of_use c k m')
    (fun r r' => fst r' = fst (fst r) /\ St (snd (fst r)) (snd r') /\ twins W (snd r) (snd r')).
Proof. intros N H Hs Tw. apply reduce_elsewhere_l; try assumption. intros [] v; [apply ret_works|apply H]. Qed.
Lemma none_of_elsewhere_l (f : asks) (k : asks_m) c q m m' : not_in W c -> (forall v, works_as W St (f v) (k v)) -> St q m' -> twins W m m' ->
  agrees (none_of_call c f q m) (none_of_use c k m')
    (fun r r' => fst r' = fst (fst r) /\ St (snd (fst r)) (snd r') /\ twins W (snd r) (snd r')).
Proof.
  intros N H Hs Tw. unfold none_of_call, none_of_use. eapply agrees_bind; [apply (any_of_elsewhere_l f k c q m m' N H Hs Tw)|].
  intros [[a qa] ma] [b mb] (E & S1 & T1). cbn [fst snd agrees] in *. subst b. split; [reflexivity|]. split; assumption.
Qed.
Lemma count_if_elsewhere_l (f : asks) (k : asks_m) c q m m' : not_in W c -> (forall v, works_as W St (f v) (k v)) -> St q m' -> twins W m m' ->
  agrees (count_if_call c f q m) (count_if_use c k m')
    (fun r r' => fst r' = fst (fst r) /\ St (snd (fst r)) (snd r') /\ twins W (snd r) (snd r')).
Proof. intros N H Hs Tw. apply reduce_elsewhere_l; try assumption. intros a v. apply (map_works (size_add a)). apply H. Qed.

Lemma transform_reduce_elsewhere_l {A B} (R : A -> B -> Q -> outcome (A * Q)) (F : T -> T -> Q -> outcome (B * Q))
    (R' : A -> B -> mem T -> outcome (A * mem T)) (F' : T -> T -> mem T -> outcome (B * mem T)) c1 c2 init q m m' :
  Forall (not_in W) [c1; c2] -> (forall a b, works_as W St (R a b) (R' a b)) -> (forall x y, works_as W St (F x y) (F' x y)) ->
  St q m' -> twins W m m' ->
  agrees (transform_reduce_call c1 c2 init R F q m) (transform_reduce_use c1 c2 init R' F' m')
    (fun r r' => fst r' = fst (fst r) /\ St (snd (fst r)) (snd r') /\ twins W (snd r) (snd r')).
Proof.
  intros N HR HF Hs Tw. unfold transform_reduce_call, transform_reduce_use.
  eapply agrees_imp; [apply (containers_elsewhere W St (fun x : A * Q => snd x) (fun (x : A * Q) (y : A) => y = fst x)); [exact N| |]|].
  - intros [|i [|j [|? ?]]] [[a1 q1] m1] [a2 m2] Np (Ea & H1 & T1); cbn [fst snd] in *; try exact I. subst a2.
    inversion Np as [|? ? Ni Np']; subst. inversion Np' as [|? ? Nj _]; subst.
    rewrite <- (load_twins W m1 m2 i T1 Ni). destruct (load m1 i) as [v| | |] eqn:Ev; cbn [bind agrees]; try exact I.
    rewrite <- (load_twins W m1 m2 j T1 Nj). destruct (load m1 j) as [w| | |] eqn:Ew; cbn [bind agrees]; try exact I.
    eapply agrees_bind; [apply (worked W St _ _ q1 m1 m2 (HF v w) H1 T1)|]. intros [d qd] [d' md] (Ed & Sd & Td).
    cbn [fst snd] in *. subst d'. apply agrees_map.
    eapply agrees_imp; [apply (worked W St _ _ qd m1 md (HR a1 d) Sd Td)|].
    intros [a qa] [b mb] _ (Eb & Sb & Tb). split; [exact Eb|]. split; [exact Sb|exact Tb].
  - split; [reflexivity|]. split; assumption.
  - intros a b _ (A1 & A2 & B1). split; [exact A1|]. split; assumption.
Qed.
Lemma inner_product_elsewhere_l {A B} dbg (R : A -> B -> Q -> outcome (A * Q)) (F : T -> T -> Q -> outcome (B * Q))
    (R' : A -> B -> mem T -> outcome (A * mem T)) (F' : T -> T -> mem T -> outcome (B * mem T)) c1 c2 init q m m' :
  Forall (not_in W) [c1; c2] -> (forall a b, works_as W St (R a b) (R' a b)) -> (forall x y, works_as W St (F x y) (F' x y)) ->
  St q m' -> twins W m m' ->
  agrees (inner_product_call dbg c1 c2 init R F q m) (inner_product_use dbg c1 c2 init R' F' m')
    (fun r r' => fst r' = fst (fst r) /\ St (snd (fst r)) (snd r') /\ twins W (snd r) (snd r')).
Proof.
  intros N HR HF Hs Tw. unfold inner_product_call, inner_product_use.
  destruct (kassert dbg (shape_eq (c_shape c1) (c_shape c2))); cbn [bind agrees]; try exact I.
  apply transform_reduce_elsewhere_l; assumption.
Qed.

Lemma store_twins m m' p v q : St q m' -> twins W m m' -> ~ W p ->
  agrees (store m p v) (store m' p v) (fun a b => St q b /\ twins W a b).
Proof using K.
  intros Hs Tw N. unfold store. rewrite <- (same_validb m m' p (proj1 Tw)).
  destruct (validb m p) eqn:V; cbn [agrees]; [|exact I]. split; [|apply upd_twins; assumption].
  apply (K q m'); [|exact Hs]. intros x Wx. apply cell_upd_other. intros ->. contradiction.
Qed.
Lemma exclusive_elsewhere_l {B} (f1 : T -> B -> Q -> outcome (T * Q)) (f2 : T -> Q -> outcome (B * Q))
    (k1 : T -> B -> mem T -> outcome (T * mem T)) (k2 : T -> mem T -> outcome (B * mem T)) in_ out init q m m' :
  Forall (not_in W) [in_; out] -> (forall a b, works_as W St (f1 a b) (k1 a b)) -> (forall x, works_as W St (f2 x) (k2 x)) ->
  St q m' -> twins W m m' ->
  agrees (exclusive_scan_call in_ out init f1 f2 q m) (exclusive_scan_use in_ out init k1 k2 m')
    (fun r r' => fst r' = fst (fst r) /\ St (snd (fst r)) (snd r') /\ twins W (snd r) (snd r')).
Proof using K.
  intros N HR HF Hs Tw. unfold exclusive_scan_call, exclusive_scan_use.
  eapply agrees_imp; [apply (containers_elsewhere W St (fun x : T * Q => snd x) (fun (x : T * Q) (y : T) => y = fst x)); [exact N| |]|].
  - intros [|i [|o [|? ?]]] [[a1 q1] m1] [a2 m2] Np (Ea & H1 & T1); cbn [fst snd] in *; try exact I. subst a2.
    inversion Np as [|? ? Ni Np']; subst. inversion Np' as [|? ? No _]; subst.
    eapply agrees_bind; [apply (store_twins m1 m2 o a1 q1 H1 T1 No)|]. intros ma mb (Sb & Tb).
    rewrite <- (load_twins W ma mb i Tb Ni). destruct (load ma i) as [v| | |] eqn:Ev; cbn [bind agrees]; try exact I.
    eapply agrees_bind; [apply (worked W St _ _ q1 ma mb (HF v) Sb Tb)|]. intros [d qd] [d' md] (Ed & Sd & Td).
    cbn [fst snd] in *. subst d'. apply agrees_map.
    eapply agrees_imp; [apply (worked W St _ _ qd ma md (HR a1 d) Sd Td)|].
    intros [a qa] [b mc] _ (Eb & Sc & Tc). split; [exact Eb|]. split; [exact Sc|exact Tc].
  - split; [reflexivity|]. split; assumption.
  - intros a b _ (A1 & A2 & B1). split; [exact A1|]. split; assumption.
Qed.
Lemma inclusive_elsewhere_l {B} (f1 : T -> B -> Q -> outcome (T * Q)) (f2 : T -> Q -> outcome (B * Q))
    (k1 : T -> B -> mem T -> outcome (T * mem T)) (k2 : T -> mem T -> outcome (B * mem T)) in_ out init q m m' :
  Forall (not_in W) [in_; out] -> (forall a b, works_as W St (f1 a b) (k1 a b)) -> (forall x, works_as W St (f2 x) (k2 x)) ->
  St q m' -> twins W m m' ->
  agrees (inclusive_scan_call in_ out init f1 f2 q m) (inclusive_scan_use in_ out init k1 k2 m')
    (fun r r' => fst r' = fst (fst r) /\ St (snd (fst r)) (snd r') /\ twins W (snd r) (snd r')).
Proof using K.
  intros N HR HF Hs Tw. unfold inclusive_scan_call, inclusive_scan_use.
  eapply agrees_imp; [apply (containers_elsewhere W St (fun x : T * Q => snd x) (fun (x : T * Q) (y : T) => y = fst x)); [exact N| |]|].
  - intros [|i [|o [|? ?]]] [[a1 q1] m1] [a2 m2] Np (Ea & H1 & T1); cbn [fst snd] in *; try exact I. subst a2.
    inversion Np as [|? ? Ni Np']; subst. inversion Np' as [|? ? No _]; subst.
    rewrite <- (load_twins W m1 m2 i T1 Ni). destruct (load m1 i) as [v| | |] eqn:Ev; cbn [bind agrees]; try exact I.
    eapply agrees_bind; [apply (worked W St _ _ q1 m1 m2 (HF v) H1 T1)|]. intros [d qd] [d' md] (Ed & Sd & Td).
    cbn [fst snd] in *. subst d'.
    eapply agrees_bind; [apply (worked W St _ _ qd m1 md (HR a1 d) Sd Td)|]. intros [a qa] [b mb] (Eb & Sb & Tb).
    cbn [fst snd] in *. subst b. unfold Calls.put.
    eapply agrees_bind; [apply (store_twins m1 mb o a qa Sb Tb No)|]. intros mc md' (Sc & Tc).
    cbn [agrees]. split; [reflexivity|]. split; assumption.
  - split; [reflexivity|]. split; assumption.
  - intros a b _ (A1 & A2 & B1). split; [exact A1|]. split; assumption.
Qed.

Lemma find_if_not_elsewhere_l (f : asks) (k : asks_m) c q m m' :
  not_in W c -> (forall v, works_as W St (f v) (k v)) -> St q m' -> twins W m m' ->
  agrees (find_if_not_call c f q m) (find_if_not_use c k m') (fun r r' => fst r' = fst r /\ St (snd r) (snd r') /\ twins W m (snd r')).
Proof. intros N H Hs Tw. apply find_if_elsewhere_l; try assumption. intros v. apply (map_works negb), H. Qed.

Lemma reverse_block st c rc : reverse st c = Ok rc -> not_in W c -> not_in W rc.
Proof.
  intros E N p Wp Sb. apply (N p Wp). unfold reverse in E.
  destruct (get_stride c) as [s| | |]; cbn [bind] in E; try discriminate.
  destruct (mapM cneg s) as [ns| | |]; cbn [bind] in E; try discriminate.
  destruct (numel (c_shape c)) as [n| | |]; cbn [bind] in E; try discriminate. unfold make_view in E.
  destruct (make_accessor st st (c_shape c) (Some ns)) as [[k s']| | |]; cbn [bind] in E; try discriminate.
  injection E as <-. cbn [c_data] in Sb. destruct p, (c_data c); cbn in *; try contradiction; assumption.
Qed.
Lemma find_last_if_elsewhere_l st (f : asks) (k : asks_m) c q m m' :
  not_in W c -> (forall v, works_as W St (f v) (k v)) -> St q m' -> twins W m m' ->
  agrees (find_last_if_call st c f q m) (find_last_if_use st c k m') (fun r r' => fst r' = fst r /\ St (snd r) (snd r') /\ twins W m (snd r')).
Proof.
  intros N H Hs Tw. unfold find_last_if_call, find_last_if_use.
  destruct (reverse st c) as [rc| | |] eqn:E; cbn [bind agrees]; try exact I.
  eapply agrees_bind; [apply (find_if_elsewhere_l W St f k rc q m m' (reverse_block st c rc E N) H Hs Tw)|].
  intros [r qr] [r' mr] (Er & Sr & Tr). cbn [fst snd] in *. subst r'. destruct r as [pos|]; [|cbn; auto].
  destruct (mapM _ (combine (c_shape c) pos)) as [ps| | |]; cbn [bind agrees]; try exact I. cbn. auto.
Qed.
Lemma find_last_if_not_elsewhere_l st (f : asks) (k : asks_m) c q m m' :
  not_in W c -> (forall v, works_as W St (f v) (k v)) -> St q m' -> twins W m m' ->
  agrees (find_last_if_not_call st c f q m) (find_last_if_not_use st c k m') (fun r r' => fst r' = fst r /\ St (snd r) (snd r') /\ twins W m (snd r')).
Proof. intros N H Hs Tw. apply find_last_if_elsewhere_l; try assumption. intros v. apply (map_works negb), H. Qed.

Lemma get_twins (m m' : mem T) c is_ : not_in W c -> twins W m m' -> get m c is_ = get m' c is_.
Proof.
  intros N Tw. unfold get. rewrite <- (ref_same m m' c is_ (proj1 Tw)).
  destruct (ref m c is_) as [p| | |] eqn:E; cbn [bind]; try reflexivity.
  apply (load_twins W); [exact Tw|exact (ref_not_in W m c is_ p N E)].
Qed.
Lemma bisect_elsewhere_l dbg (cond : asks) (k : asks_m) c m : not_in W c -> (forall v, works_as W St (cond v) (k v)) ->
  forall fuel count first it q m', St q m' -> twins W m m' ->
  agrees (bisect_call dbg cond c m fuel count first it q) (bisect_use dbg k c fuel count first it m')
    (fun r r' => fst r' = fst r /\ St (snd r) (snd r') /\ twins W m (snd r')).
Proof.
  intros N H. induction fuel as [|fuel IH]; intros count first it q m' Hs Tw; cbn [bisect_call bisect_use]; destruct (clt (int 0) count);
    cbn [agrees]; try exact I; try (split; [reflexivity|split; assumption]).
  destruct (cdiv count (int 2)) as [step| | |]; cbn [bind agrees]; try exact I.
  destruct (cadd first step) as [it'| | |]; cbn [bind agrees]; try exact I.
  destruct (coordinates dbg it' (c_shape c)) as [pos| | |]; cbn [bind agrees]; try exact I.
  rewrite <- (get_twins m m' c pos N Tw). destruct (get m c pos) as [e| | |]; cbn [bind agrees]; try exact I.
  eapply agrees_bind; [apply (worked W St _ _ q m m' (H e) Hs Tw)|]. intros [a qa] [b mb] (Eb & Sb & Tb). cbn [fst snd] in *. subst b.
  destruct a; [|apply IH; assumption].
  destruct (cincr it') as [it''| | |]; cbn [bind agrees]; try exact I.
  destruct (cadd step (int 1)) as [s1| | |]; cbn [bind agrees]; try exact I.
  destruct (csub count s1) as [count'| | |]; cbn [bind agrees]; try exact I. apply IH; assumption.
Qed.
Notation less_q := (T -> T -> Q -> outcome (bool * Q)).
Notation less_m := (T -> T -> mem T -> outcome (bool * mem T)).
Lemma lower_elsewhere_l dbg (f : less_q) (k : less_m) c x q m m' :
  not_in W c -> (forall v w, works_as W St (f v w) (k v w)) -> St q m' -> twins W m m' ->
  agrees (lower_bound_call dbg f c x q m) (lower_bound_use dbg k c x m') (fun r r' => fst r' = fst r /\ St (snd r) (snd r') /\ twins W m (snd r')).
Proof.
  intros N H Hs Tw. unfold lower_bound_call, lower_bound_use.
  destruct (c_numel c) as [n| | |]; cbn [bind agrees]; try exact I.
  destruct (ceqb n (int 0)); [cbn; auto|].
  eapply agrees_bind; [apply bisect_elsewhere_l; [exact N|intros v; apply H|exact Hs|exact Tw]|].
  intros [r qr] [r' mr] (Er & Sr & Tr). cbn [fst snd] in *. subst r'.
  destruct (bound_result dbg c n r); cbn [bind agrees]; try exact I. cbn. auto.
Qed.
Lemma upper_elsewhere_l dbg (f : less_q) (k : less_m) c x q m m' :
  not_in W c -> (forall v w, works_as W St (f v w) (k v w)) -> St q m' -> twins W m m' ->
  agrees (upper_bound_call dbg f c x q m) (upper_bound_use dbg k c x m') (fun r r' => fst r' = fst r /\ St (snd r) (snd r') /\ twins W m (snd r')).
Proof.
  intros N H Hs Tw. unfold upper_bound_call, upper_bound_use.
  destruct (c_numel c) as [n| | |]; cbn [bind agrees]; try exact I.
  eapply agrees_bind; [apply bisect_elsewhere_l; [exact N|intros v; apply (map_works negb), H|exact Hs|exact Tw]|].
  intros [r qr] [r' mr] (Er & Sr & Tr). cbn [fst snd] in *. subst r'.
  destruct (bound_result dbg c n r); cbn [bind agrees]; try exact I. cbn. auto.
Qed.
Lemma binary_elsewhere_l dbg (f : less_q) (k : less_m) c x q m m' :
  not_in W c -> (forall v w, works_as W St (f v w) (k v w)) -> St q m' -> twins W m m' ->
  agrees (binary_search_call dbg f c x q m) (binary_search_use dbg k c x m') (fun r r' => fst r' = fst r /\ St (snd r) (snd r') /\ twins W m (snd r')).
Proof.
  intros N H Hs Tw. unfold binary_search_call, binary_search_use.
  eapply agrees_bind; [apply (lower_elsewhere_l dbg f k c x q m m' N H Hs Tw)|].
  intros [r qr] [r' mr] (Er & Sr & Tr). cbn [fst snd] in *. subst r'. destruct r as [pos|]; [|cbn; auto].
  rewrite <- (get_twins m mr c pos N Tr). destruct (get m c pos) as [e| | |]; cbn [bind agrees]; try exact I.
  eapply agrees_bind; [apply (worked W St _ _ qr m mr (H x e) Sr Tr)|]. intros [a qa] [b mb] (Eb & Sb & Tb). cbn [fst snd agrees] in *. subst b. auto.
Qed.
End Elsewhere2.

(** A callable that only reads cells of [W] is one whose results are fixed beforehand. *)
Lemma reading_kept_l {T} W (m0 : mem T) : kept_in W (fun (_ : unit) m => forall p, W p -> cell m p = cell m0 p).
Proof. intros q m m' H E p Wp. rewrite (H p Wp). apply E, Wp. Qed.
Lemma reading_works_l {T A} W (m0 : mem T) (k : mem T -> outcome (A * mem T)) v m1 : reads W k -> k m0 = Ok (v, m1) ->
  works_as W (fun (_ : unit) m => forall p, W p -> cell m p = cell m0 p) (fun q => Ok (v, q)) k.
Proof.
  intros R E q m H. destruct (R m0 m v m1 H E) as [_ E']. rewrite E'. cbn [agrees fst snd]. split; [reflexivity|].
  split; [exact H|apply twins_refl].
Qed.
