From Coq Require Import ZArith List Bool Lia.
From Verif Require Import Outcome CInt ForEach Shape Memory MemFacts Container ContainerSpec
  Algo Calls CallSpec CallFacts CallFacts4 UsesFacts Uses UsesSpec.
Import ListNotations.
Open Scope Z_scope.

(** ** Twins *)
Lemma twins_refl {T} W (m : mem T) : twins W m m. Proof. split; [intros p; tauto|reflexivity]. Qed.
Lemma twins_trans {T} W (a b c : mem T) : twins W a b -> twins W b c -> twins W a c.
Proof.
  intros [S1 E1] [S2 E2]. split; [intros p; rewrite (S1 p); apply S2|]. intros p N. rewrite (E2 p N). apply E1, N.
Qed.
Lemma same_validb {T} (m m' : mem T) p : same_cells m m' -> validb m p = validb m' p.
Proof.
  intros H. specialize (H p). unfold valid in H. pose proof (validb_true m p) as A. pose proof (validb_true m' p) as B.
  destruct (validb m p), (validb m' p); try reflexivity.
  - symmetry. apply B. apply H. apply A. reflexivity.
  - apply A. apply H. apply B. reflexivity.
Qed.
Lemma ref_same {T} (m m' : mem T) c is_ : same_cells m m' -> ref m c is_ = ref m' c is_.
Proof. intros H. unfold ref. destruct (address c is_) as [p| | |]; cbn [bind]; try reflexivity. rewrite (same_validb m m' p H). reflexivity. Qed.
Lemma refs_same {T} (m m' : mem T) cs is_ : same_cells m m' -> mapM (fun c => ref m c is_) cs = mapM (fun c => ref m' c is_) cs.
Proof. intros H. induction cs as [|c cs IH]; [reflexivity|]. cbn [mapM]. rewrite (ref_same m m' c is_ H), IH. reflexivity. Qed.
Lemma ref_not_in {T} (W : ptr -> Prop) (m : mem T) c is_ p : not_in W c -> ref m c is_ = Ok p -> ~ W p.
Proof.
  intros N E Wp. unfold ref in E. destruct (address c is_) as [q| | |] eqn:A; cbn [bind] in E; try discriminate.
  destruct (validb m q) eqn:V; [|discriminate]. injection E as ->. apply (N p Wp).
  unfold address in A. destruct (index c is_) as [i| | |]; cbn [bind] in A; try discriminate. injection A as <-.
  destruct (c_data c); [discriminate V|reflexivity].
Qed.
Lemma refs_not_in {T} (W : ptr -> Prop) (m : mem T) cs is_ : forall ps, Forall (not_in W) cs ->
  mapM (fun c => ref m c is_) cs = Ok ps -> Forall (fun p => ~ W p) ps.
Proof.
  induction cs as [|c cs IH]; intros ps F E; cbn [mapM] in E; [injection E as <-; constructor|].
  inversion F as [|? ? Fc Fs]; subst. destruct (ref m c is_) as [p| | |] eqn:Ep; cbn [bind] in E; try discriminate.
  destruct (mapM (fun c => ref m c is_) cs) as [qs| | |] eqn:Eq; cbn [bind] in E; try discriminate. injection E as <-.
  constructor; [exact (ref_not_in W m c is_ p Fc Ep)|exact (IH qs Fs eq_refl)].
Qed.
Lemma load_twins {T} W (m m' : mem T) p : twins W m m' -> ~ W p -> load m p = load m' p.
Proof. intros [_ E] N. unfold load. rewrite (E p N). reflexivity. Qed.
Lemma loads_twins {T} W (m m' : mem T) ps : twins W m m' -> Forall (fun p => ~ W p) ps -> mapM (load m) ps = mapM (load m') ps.
Proof.
  intros H F. induction F as [|p ps N F IH]; [reflexivity|]. cbn [mapM]. rewrite (load_twins W m m' p H N), IH. reflexivity.
Qed.
Lemma upd_twins {T} W (m m' : mem T) p v : twins W m m' -> validb m p = true -> twins W (upd m p v) (upd m' p v).
Proof.
  intros [S E] V. pose proof V as V'. rewrite (same_validb m m' p S) in V'. split.
  - intros q. unfold valid. rewrite !valid_upd. apply S.
  - intros q N. destruct (ptr_eq_dec p q) as [<-|Ne].
    + rewrite !cell_upd_same; [reflexivity|apply validb_true; exact V|apply validb_true; exact V'].
    + rewrite !cell_upd_other by exact Ne. apply E, N.
Qed.

Section Elsewhere.
Context {T Q : Type} (W : ptr -> Prop) (St : Q -> mem T -> Prop) (K : kept_in W St).

(** A state beside a memory, and the memory that holds the state. *)
Definition holds_state {A B} (V : A -> Q) (rel : A -> B -> Prop) (s : A * mem T) (s' : B * mem T) : Prop :=
  rel (fst s) (fst s') /\ St (V (fst s)) (snd s') /\ twins W (snd s) (snd s').

Lemma stored {S} (q : Q) (s : S) m m' p v : St q m' -> twins W m m' -> ~ W p ->
  agrees (put p v s m) (assign p v (tt, m')) (fun a b => fst a = s /\ St q (snd b) /\ twins W (snd a) (snd b)).
Proof.
  intros Hs Tw N. unfold put, assign, store. cbn [snd]. rewrite <- (same_validb m m' p (proj1 Tw)).
  destruct (validb m p) eqn:V; cbn [bind agrees fst snd]; [|exact I]. split; [reflexivity|]. split; [|apply upd_twins; assumption].
  apply (K q m'); [|exact Hs]. intros x Wx. apply cell_upd_other. intros ->. contradiction.
Qed.

Lemma containers_elsewhere {A B} (V : A -> Q) (rel : A -> B -> Prop) f g c0 cs s s' :
  Forall (not_in W) (c0 :: cs) ->
  (forall ps s s', Forall (fun p => ~ W p) ps -> holds_state V rel s s' -> agrees (f ps s) (g ps s') (holds_state V rel)) ->
  holds_state V rel s s' -> agrees (map_containers f c0 cs s) (map_containers g c0 cs s') (holds_state V rel).
Proof.
  intros N H Hs. unfold map_containers. apply for_each_sim; [|exact Hs]. intros is_ a b Hab.
  pose proof Hab as (_ & _ & Sm & _). rewrite <- (refs_same (snd a) (snd b) (c0 :: cs) is_ Sm).
  destruct (mapM (fun c => ref (snd a) c is_) (c0 :: cs)) as [ps| | |] eqn:E; cbn [bind agrees]; try exact I.
  apply H; [|exact Hab]. exact (refs_not_in W (snd a) (c0 :: cs) is_ ps N E).
Qed.

Lemma worked {A} (f : Q -> outcome (A * Q)) (k : mem T -> outcome (A * mem T)) q m m' : works_as W St f k -> St q m' -> twins W m m' ->
  agrees (f q) (k m') (fun r r' => fst r' = fst r /\ St (snd r) (snd r') /\ twins W m (snd r')).
Proof.
  intros H Hs Tw. eapply agrees_imp; [exact (H q m' Hs)|]. intros r r' _ (E & S2 & T2). split; [exact E|].
  split; [exact S2|]. exact (twins_trans W m m' (snd r') Tw T2).
Qed.

Let R := holds_state (fun q : Q => q) (fun (_ : Q) (_ : unit) => True).

Lemma generate_elsewhere_l (f : list cint -> Q -> outcome (T * Q)) (k : list cint -> mem T -> outcome (T * mem T)) out q m m' :
  not_in W out -> (forall is_, works_as W St (f is_) (k is_)) -> St q m' -> twins W m m' ->
  agrees (generate_call f out q m) (generate_use k out m') (fun r m2 => St (fst r) m2 /\ twins W (snd r) m2).
Proof.
  intros N H Hs Tw. unfold generate_call, generate_use, run_map. apply agrees_map_r. unfold map_index.
  eapply agrees_imp; [apply (for_each_sim R)|].
  - intros is_ [q1 m1] [[] m2] (_ & H1 & T1). cbn [fst snd] in *.
    rewrite <- (ref_same m1 m2 out is_ (proj1 T1)).
    destruct (ref m1 out is_) as [p| | |] eqn:E; cbn [bind agrees]; try exact I.
    apply (agrees_bind _ _ _ _ _ _ (worked (f is_) (k is_) q1 m1 m2 (H is_) H1 T1)). intros [a qa] [b mb] (Eb & Sb & Tb).
    cbn [fst snd] in *. subst b. eapply agrees_imp; [apply (stored qa qa m1 mb p a Sb Tb (ref_not_in W m1 out is_ p N E))|].
    intros x y _ (Ex & Sx & Tx). split; [exact I|]. split; [rewrite Ex; exact Sx|exact Tx].
  - split; [exact I|]. split; assumption.
  - intros a b _ (_ & A & B). split; assumption.
Qed.

Lemma transform_elsewhere_l (f : list T -> Q -> outcome (T * Q)) (k : list T -> mem T -> outcome (T * mem T)) out c0 cs q m m' :
  Forall (not_in W) (out :: c0 :: cs) -> (forall vs, works_as W St (f vs) (k vs)) -> St q m' -> twins W m m' ->
  agrees (transform_call f out c0 cs q m) (transform_use k out c0 cs m') (fun r m2 => St (fst r) m2 /\ twins W (snd r) m2).
Proof.
  intros N H Hs Tw. unfold transform_call, transform_use, run_map. apply agrees_map_r.
  eapply agrees_imp; [apply (containers_elsewhere (fun q : Q => q) (fun (_ : Q) (_ : unit) => True)); [exact N| |]|].
  - intros [|o ins] [q1 m1] [[] m2] Np (_ & H1 & T1); cbn [fst snd] in *; [exact I|]. inversion Np as [|? ? No Ni]; subst.
    rewrite <- (loads_twins W m1 m2 ins T1 Ni). destruct (mapM (load m1) ins) as [vs| | |]; cbn [bind agrees]; try exact I.
    apply (agrees_bind _ _ _ _ _ _ (worked (f vs) (k vs) q1 m1 m2 (H vs) H1 T1)). intros [a qa] [b mb] (Eb & Sb & Tb).
    cbn [fst snd] in *. subst b. eapply agrees_imp; [apply (stored qa qa m1 mb o a Sb Tb No)|].
    intros x y _ (Ex & Sx & Tx). split; [exact I|]. split; [rewrite Ex; exact Sx|exact Tx].
  - split; [exact I|]. split; assumption.
  - intros a b _ (_ & A & B). split; assumption.
Qed.

Lemma copy_if_elsewhere_l (f : T -> Q -> outcome (bool * Q)) (k : T -> mem T -> outcome (bool * mem T)) out in_ q m m' :
  Forall (not_in W) [out; in_] -> (forall v, works_as W St (f v) (k v)) -> St q m' -> twins W m m' ->
  agrees (copy_if_call f out in_ q m) (copy_if_use k out in_ m') (fun r m2 => St (fst r) m2 /\ twins W (snd r) m2).
Proof.
  intros N H Hs Tw. unfold copy_if_call, copy_if_use, run_map. apply agrees_map_r.
  eapply agrees_imp; [apply (containers_elsewhere (fun q : Q => q) (fun (_ : Q) (_ : unit) => True)); [exact N| |]|].
  - intros [|o [|i [|? ?]]] [q1 m1] [[] m2] Np (_ & H1 & T1); cbn [fst snd] in *; try exact I.
    inversion Np as [|? ? No Ni']; subst. inversion Ni' as [|? ? Ni _]; subst.
    rewrite <- (load_twins W m1 m2 i T1 Ni). destruct (load m1 i) as [v| | |] eqn:Ev; cbn [bind agrees]; try exact I.
    apply (agrees_bind _ _ _ _ _ _ (worked (f v) (k v) q1 m1 m2 (H v) H1 T1)). intros [a qa] [b mb] (Eb & Sb & Tb).
    cbn [fst snd] in *. subst b. destruct a.
    + rewrite <- (load_twins W m1 mb i Tb Ni), Ev. cbn [bind].
      eapply agrees_imp; [apply (stored qa qa m1 mb o v Sb Tb No)|].
      intros x y _ (Ex & Sx & Tx). split; [exact I|]. split; [rewrite Ex; exact Sx|exact Tx].
    + cbn [agrees]. split; [exact I|]. split; assumption.
  - split; [exact I|]. split; assumption.
  - intros a b _ (_ & A & B). split; assumption.
Qed.

Lemma replace_if_elsewhere_l (f : T -> Q -> outcome (bool * Q)) (k : T -> mem T -> outcome (bool * mem T)) out x q m m' :
  not_in W out -> (forall v, works_as W St (f v) (k v)) -> St q m' -> twins W m m' ->
  agrees (replace_if_call out f x q m) (replace_if_use out k x m') (fun r m2 => St (fst r) m2 /\ twins W (snd r) m2).
Proof.
  intros N H Hs Tw. unfold replace_if_call, replace_if_use, run_map. apply agrees_map_r.
  eapply agrees_imp; [apply (containers_elsewhere (fun q : Q => q) (fun (_ : Q) (_ : unit) => True)); [constructor; [exact N|constructor]| |]|].
  - intros [|o [|? ?]] [q1 m1] [[] m2] Np (_ & H1 & T1); cbn [fst snd] in *; try exact I.
    inversion Np as [|? ? No _]; subst.
    rewrite <- (load_twins W m1 m2 o T1 No). destruct (load m1 o) as [v| | |] eqn:Ev; cbn [bind agrees]; try exact I.
    apply (agrees_bind _ _ _ _ _ _ (worked (f v) (k v) q1 m1 m2 (H v) H1 T1)). intros [a qa] [b mb] (Eb & Sb & Tb).
    cbn [fst snd] in *. subst b. destruct a.
    + eapply agrees_imp; [apply (stored qa qa m1 mb o x Sb Tb No)|].
      intros y z _ (Ex & Sx & Tx). split; [exact I|]. split; [rewrite Ex; exact Sx|exact Tx].
    + cbn [agrees]. split; [exact I|]. split; assumption.
  - split; [exact I|]. split; assumption.
  - intros a b _ (_ & A & B). split; assumption.
Qed.

Lemma reduce_elsewhere_l {A} (f : A -> T -> Q -> outcome (A * Q)) (k : A -> T -> mem T -> outcome (A * mem T)) c init q m m' :
  not_in W c -> (forall a v, works_as W St (f a v) (k a v)) -> St q m' -> twins W m m' ->
  agrees (reduce_call c f init q m) (reduce_use c k init m')
    (fun r r' => fst r' = fst (fst r) /\ St (snd (fst r)) (snd r') /\ twins W (snd r) (snd r')).
Proof.
  intros N H Hs Tw. unfold reduce_call, reduce_use.
  eapply agrees_imp; [apply (containers_elsewhere (fun x : A * Q => snd x) (fun (x : A * Q) (y : A) => y = fst x)); [constructor; [exact N|constructor]| |]|].
  - intros [|o [|? ?]] [[a1 q1] m1] [a2 m2] Np (Ea & H1 & T1); cbn [fst snd] in *; try exact I. subst a2.
    inversion Np as [|? ? No _]; subst.
    rewrite <- (load_twins W m1 m2 o T1 No). destruct (load m1 o) as [v| | |] eqn:Ev; cbn [bind agrees]; try exact I.
    apply agrees_map. eapply agrees_imp; [apply (worked (f a1 v) (k a1 v) q1 m1 m2 (H a1 v) H1 T1)|].
    intros [a qa] [b mb] _ (Eb & Sb & Tb). split; [exact Eb|]. split; [exact Sb|exact Tb].
  - split; [reflexivity|]. split; assumption.
  - intros a b _ (A1 & A2 & B). split; [exact A1|]. split; assumption.
Qed.

Lemma find_if_elsewhere_l (f : T -> Q -> outcome (bool * Q)) (k : T -> mem T -> outcome (bool * mem T)) c q m m' :
  not_in W c -> (forall v, works_as W St (f v) (k v)) -> St q m' -> twins W m m' ->
  agrees (find_if_call c f q m) (find_if_use c k m') (fun r r' => fst r' = fst r /\ St (snd r) (snd r') /\ twins W m (snd r')).
Proof.
  intros N H Hs Tw. unfold find_if_call, find_if_use.
  eapply agrees_bind; [apply (for_until_sim (fun (s : list cint * Q) (s' : list cint * mem T) =>
     fst s' = fst s /\ St (snd s) (snd s') /\ twins W m (snd s')))|].
  - intros is_ [ps q1] [ps' m2] (Ep & H1 & T1). cbn [fst snd] in *. subst ps'.
    rewrite <- (ref_same m m2 c is_ (proj1 T1)).
    destruct (ref m c is_) as [p| | |] eqn:E; cbn [bind agrees]; try exact I.
    pose proof (ref_not_in W m c is_ p N E) as Np.
    rewrite <- (load_twins W m m2 p T1 Np). destruct (load m p) as [v| | |]; cbn [bind agrees]; try exact I.
    apply (agrees_bind _ _ _ _ _ _ (worked (f v) (k v) q1 m m2 (H v) H1 T1)). intros [a qa] [b mb] (Eb & Sb & Tb).
    cbn [fst snd] in *. subst b. destruct a; cbn; auto.
  - cbn. auto.
  - intros [b [ps qa]] [b' [ps' mb]] (Eb & Ep & Sb & Tb). cbn [fst snd agrees] in *. subst. auto.
Qed.
End Elsewhere.
