From Coq Require Import ZArith List Bool Lia.
From Verif Require Import Outcome CInt CIntFacts Spec SpecFacts ShapeSpec Shape ShapeFacts ShapeFacts2
  ForEach ForEachSpec ForEachFacts Memory MemFacts Container ContainerSpec ContainerFacts ContainerFacts2 ContainerFacts3
  Algo AlgoSpec AlgoFacts AlgoFacts2 AlgoFacts3 AlgoFacts4 Slicer SlicerSpec SlicerFacts SlicerFacts2 SlicerFacts3 Alloc
  Program ProgramSpec.
Import ListNotations.
Open Scope Z_scope.

(** ** A container stands for an array *)
Definition rep (c : container) (a : array) : Prop :=
  dims c = a_dims a /\ c_shape c <> [] /\ legal (c_shape c) /\
  (forall tys, (a_back a = true -> Forall (fun t => is_signed t = true) tys) -> addressable c tys) /\
  (forall is_, in_box (dims c) is_ -> elem c is_ = a_at a is_) /\
  (forall sh p, a_dense a = Some (sh, p) -> a = dense sh p /\ default_layout c /\ c_shape c = sh /\ c_data c = p) /\
  (a_signed a = true -> signeds (c_shape c)) /\ (a_back a = true -> a_signed a = true).

Lemma forallb_signeds l : forallb signed l = true <-> signeds l.
Proof. unfold signeds. rewrite forallb_forall, Forall_forall. reflexivity. Qed.
Lemma signeds_tys l : signeds l <-> Forall (fun t => is_signed t = true) (map cty l).
Proof. unfold signeds. rewrite !Forall_forall. split.
  - intros H x I. apply in_map_iff in I as (c & <- & I). exact (H c I).
  - intros H c I. apply H, in_map, I.
Qed.

Lemma rep_dense c sh p : default_layout c -> c_shape c = sh -> c_data c = p -> rep c (dense sh p).
Proof.
  intros D Es Ed. destruct (D) as (Lg & Ne & _). do 3 (split; [solve [assumption|unfold dims; rewrite Es; reflexivity]|]).
  split; [intros; apply default_addressable; exact D|]. split.
  - intros is_ B. rewrite (default_elem c is_ D B), Ed. unfold dims. rewrite Es. reflexivity.
  - split; [intros sh' p' E; cbn in E; injection E as <- <-; auto|]. split; [|discriminate].
    intros H. rewrite Es. apply forallb_signeds. exact H.
Qed.

Definition rep_tab (c : container) (x : tab) : Prop :=
  default_layout c /\ c_shape c = t_shape x /\ c_data c = base x /\ (t_static x = true <-> c_kind c = KStatic).

Lemma rep_of_tab c x : rep_tab c x -> rep c (array_of x).
Proof. intros (D & Es & Ed & _). apply rep_dense; assumption. Qed.

(** ** Loops *)
Definition tame {T S} (body : list ptr -> S * mem T -> outcome (S * mem T)) : Prop :=
  forall ps s m s' m', body ps (s, m) = Ok (s', m') -> same_cells m m'.

Lemma same_trans {T} (a b c : mem T) : same_cells a b -> same_cells b c -> same_cells a c.
Proof. intros H G p. rewrite (H p). apply G. Qed.
Lemma same_upd {T} (m : mem T) p v : same_cells m (upd m p v).
Proof. intros q. symmetry. apply valid_upd. Qed.
Lemma same_store {T} (m m' : mem T) p v : store m p v = Ok m' -> same_cells m m'.
Proof. unfold store. destruct (validb m p); intros H; [injection H as <-; apply same_upd|discriminate]. Qed.

Lemma call_tame {T S} (e : elem_fun S T) ps : forall m s' m', call e ps m = Ok (s', m') -> same_cells m m'.
Proof.
  induction e as [s|i k IH|i v k IH]; intros m s' m' H; cbn [call] in H.
  - injection H as _ <-. apply same_refl.
  - destruct (nth_error ps i); [|discriminate]. apply bind_inv in H as (v & _ & H). exact (IH _ _ _ _ H).
  - destruct (nth_error ps i); [|discriminate]. apply bind_inv in H as (m1 & E & H).
    eapply same_trans; [exact (same_store _ _ _ _ E)|exact (IH _ _ _ H)].
Qed.

Lemma rep_live {T} (m : mem T) c0 a0 c a : rep c0 a0 -> rep c a -> reaches m a0 a -> live m c0 c.
Proof.
  intros (E0 & _ & _ & _ & _ & _ & Sg & _) (E & _ & _ & Ad & El & _) [R Bk]. split.
  { apply Ad. intros H. apply (signeds_tys (c_shape c0)), Sg, Bk, H. }
  split.
  - intros is_ B. rewrite E0 in B. rewrite E. apply R, B.
  - intros is_ B. rewrite E0 in B. destruct (R is_ B) as [B' V]. rewrite El by (rewrite E; exact B'). exact V.
Qed.
Lemma reps_live {T} (m : mem T) c0 a0 cs as_ : rep c0 a0 -> Forall2 rep cs as_ ->
  Forall (reaches m a0) as_ -> Forall (live m c0) cs.
Proof.
  intros R0 H. induction H as [|c a cs as_ R _ IH]; intros F; inversion F; subst; constructor;
    [eapply rep_live; eassumption|apply IH; assumption].
Qed.
Lemma reps_elems {T} (m : mem T) d cs as_ is_ : Forall2 rep cs as_ -> Forall (reaches m d) as_ -> in_box (a_dims d) is_ ->
  map (fun c => elem c is_) cs = map (fun a => a_at a is_) as_.
Proof.
  intros H. induction H as [|c a cs as_ R _ IH]; intros F B; [reflexivity|]. inversion F as [|? ? Ra Fa]; subst. cbn [map].
  rewrite (IH Fa B). f_equal. destruct R as (E & _ & _ & _ & El & _). apply El. rewrite E. apply Ra, B.
Qed.

Lemma map_loop {T S} (body : list ptr -> S * mem T -> outcome (S * mem T)) c0 cs a0 as_ s m :
  rep c0 a0 -> Forall2 rep cs as_ -> Forall (reaches m a0) (a0 :: as_) -> tame body ->
  map_containers body c0 cs (s, m) =
  run (fun is_ sm => body (map (fun a => a_at a is_) (a0 :: as_)) sm) (box (a_dims a0)) (s, m).
Proof.
  intros R0 Rs F Tm. pose proof (reps_live m c0 a0 (c0 :: cs) (a0 :: as_) R0 (Forall2_cons _ _ R0 Rs) F) as L.
  inversion L as [|? ? L0 Ls]; subst. destruct (live_wf m c0 L0) as [W N].
  unfold map_containers. rewrite for_each_run by assumption.
  assert (Ed : a_dims a0 = vals (c_shape c0)) by (symmetry; apply R0). rewrite Ed, <- tbox_vals.
  assert (G : forall l, (forall x, In x l -> In x (tbox (c_shape c0))) -> forall sm, same_cells m (snd sm) ->
    run (fun is_ sm => ps <- mapM (fun c => ref (snd sm) c is_) (c0 :: cs) ;; body ps sm) l sm =
    run (fun is_ sm => body (map (fun a => a_at a is_) (a0 :: as_)) sm) (map vals l) sm).
  { induction l as [|x l IH]; intros I sm Sm; [reflexivity|]. cbn [run map].
    destruct (in_split x _ (I x (or_introl eq_refl))) as (pre & post & E).
    destruct (tbox_at _ _ _ _ W E) as (Wc & Bc & Ty & _).
    rewrite (mapM_refs m (snd sm) c0 (c0 :: cs) x); try assumption. rewrite bind_ok.
    rewrite (reps_elems m a0 (c0 :: cs) (a0 :: as_) (vals x)); [|constructor; assumption|exact F|rewrite Ed; exact Bc].
    cbn [map]. destruct sm as [s1 m1].
    destruct (body (a_at a0 (vals x) :: map (fun a => a_at a (vals x)) as_) (s1, m1)) as [[s2 m2]| | |] eqn:B; try reflexivity.
    rewrite !bind_ok. apply IH; [intros; apply I; right; assumption|].
    cbn [snd] in *. eapply same_trans; [exact Sm|exact (Tm _ _ _ _ _ B)]. }
  apply G; [auto|apply same_refl].
Qed.

Lemma map_loop_index {T S} (body : ptr -> list cint -> S * mem T -> outcome (S * mem T))
    (body' : ptr -> list Z -> S * mem T -> outcome (S * mem T)) c0 a0 s m :
  rep c0 a0 -> reaches m a0 a0 ->
  (forall p is_ sm, body p is_ sm = body' p (vals is_) sm) ->
  (forall p is_ s m s' m', body' p is_ (s, m) = Ok (s', m') -> same_cells m m') ->
  map_index body c0 (s, m) = run (fun is_ sm => body' (a_at a0 is_) is_ sm) (box (a_dims a0)) (s, m).
Proof.
  intros R0 F Eb Tm. pose proof (rep_live m c0 a0 c0 a0 R0 R0 F) as L0.
  destruct (live_wf m c0 L0) as [W N].
  unfold map_index. rewrite for_each_run by assumption.
  assert (Ed : a_dims a0 = vals (c_shape c0)) by (symmetry; apply R0). rewrite Ed, <- tbox_vals.
  assert (G : forall l, (forall x, In x l -> In x (tbox (c_shape c0))) -> forall sm, same_cells m (snd sm) ->
    run (fun is_ sm => p <- ref (snd sm) c0 is_ ;; body p is_ sm) l sm =
    run (fun is_ sm => body' (a_at a0 is_) is_ sm) (map vals l) sm).
  { induction l as [|x l IH]; intros I sm Sm; [reflexivity|]. cbn [run map].
    destruct (in_split x _ (I x (or_introl eq_refl))) as (pre & post & E).
    destruct (tbox_at _ _ _ _ W E) as (Wc & Bc & Ty & _).
    rewrite (ref_at m (snd sm) c0 c0 x); try assumption. rewrite bind_ok, Eb.
    destruct R0 as (_ & _ & _ & _ & El & _). rewrite (El (vals x) Bc).
    destruct sm as [s1 m1].
    destruct (body' (a_at a0 (vals x)) (vals x) (s1, m1)) as [[s2 m2]| | |] eqn:B; try reflexivity.
    rewrite !bind_ok. apply IH; [intros; apply I; right; assumption|].
    cbn [snd] in *. eapply same_trans; [exact Sm|exact (Tm _ _ _ _ _ _ B)]. }
  apply G; [auto|apply same_refl].
Qed.

(** Two loops that do the same thing to two presentations of the state. *)
Lemma run_hom {A S S'} (F : A -> S -> outcome S) (G : A -> S' -> outcome S') (g : S' -> S) l :
  (forall x s, In x l -> F x (g s) = (s' <- G x s ;; Ok (g s'))) ->
  forall s, run F l (g s) = (s' <- run G l s ;; Ok (g s')).
Proof.
  induction l as [|x l IH]; intros H s; [reflexivity|]. cbn [run]. rewrite H by (left; reflexivity).
  destruct (G x s) as [s1| | |]; try reflexivity. cbn [bind]. apply IH. intros; apply H; right; assumption.
Qed.

Lemma run_same {A S T} (F : A -> S * mem T -> outcome (S * mem T)) l :
  (forall x s m s' m', F x (s, m) = Ok (s', m') -> same_cells m m') ->
  forall s m s' m', run F l (s, m) = Ok (s', m') -> same_cells m m'.
Proof.
  intros H. induction l as [|x l IH]; intros s m s' m' E; cbn [run] in E.
  - injection E as _ <-. apply same_refl.
  - apply bind_inv in E as ([s1 m1] & E1 & E2). eapply same_trans; [exact (H _ _ _ _ _ E1)|exact (IH _ _ _ _ E2)].
Qed.
Lemma run_same_mem {A T} (F : A -> mem T -> outcome (mem T)) l :
  (forall x m m', F x m = Ok m' -> same_cells m m') -> forall m m', run F l m = Ok m' -> same_cells m m'.
Proof.
  intros H. induction l as [|x l IH]; intros m m' E; cbn [run] in E.
  - injection E as <-. apply same_refl.
  - apply bind_inv in E as (m1 & E1 & E2). eapply same_trans; [exact (H _ _ _ E1)|exact (IH _ _ E2)].
Qed.

(** ** The algorithms *)
Lemma assign_same {T} p v (s : unit) (m : mem T) s' m' : assign p v (s, m) = Ok (s', m') -> same_cells m m'.
Proof.
  unfold assign. cbn [snd]. intros H. apply bind_inv in H as (m1 & E & H). injection H as _ <-.
  exact (same_store _ _ _ _ E).
Qed.

Ltac tame_tac :=
  intros tps ts tm ts' tm' TH; repeat match goal with
  | H : match ?l with _ => _ end = Ok _ |- _ => destruct l; try discriminate
  | H : bind _ _ = Ok _ |- _ => apply bind_inv in H as (? & ? & H)
  | H : Ok _ = Ok _ |- _ => injection H as <- <-
  | H : assign _ _ _ = Ok _ |- _ => solve [exact (assign_same _ _ _ _ _ _ H)]
  | H : store _ _ _ = Ok ?m |- same_cells _ ?m => solve [exact (same_store _ _ _ _ H)]
  end; cbn [snd] in *; try solve [apply same_refl].

Lemma mapM_map {A B C} (g : A -> B) (f : B -> outcome C) l : mapM f (map g l) = mapM (fun x => f (g x)) l.
Proof. induction l as [|x l IH]; [reflexivity|]. cbn [map mapM]. rewrite IH. reflexivity. Qed.

Lemma transform_prog {T} (f : list T -> T) o c cs oa a as_ m m' : rep o oa -> rep c a -> Forall2 rep cs as_ ->
  Forall (reaches m oa) (oa :: a :: as_) -> transform_do f oa (a :: as_) m = Ok m' ->
  transform f o c cs m = Ok m'.
Proof.
  intros Ro Rc Rs F E. unfold transform. rewrite (map_loop _ o (c :: cs) oa (a :: as_)); try assumption;
    [|constructor; assumption|tame_tac].
  unfold run_map. rewrite (run_hom _ (fun is_ m => vs <- mapM (fun a => load m (a_at a is_)) (a :: as_) ;;
     store m (a_at oa is_) (f vs)) (fun m => (tt, m))).
  - unfold transform_do in E. rewrite E. reflexivity.
  - intros is_ s _. change (map (fun a => a_at a is_) (oa :: a :: as_)) with (a_at oa is_ :: map (fun a => a_at a is_) (a :: as_)).
    cbn iota. cbn [snd]. rewrite mapM_map. rewrite bind_assoc.
    destruct (mapM (fun a => load s (a_at a is_)) (a :: as_)); try reflexivity.
Qed.

Lemma copy_if_prog {T} (f : T -> bool) o c oa a m m' : rep o oa -> rep c a ->
  Forall (reaches m oa) [oa; a] -> copy_if_do f oa a m = Ok m' -> copy_if f o c m = Ok m'.
Proof.
  intros Ro Rc F E. unfold copy_if. rewrite (map_loop _ o [c] oa [a]); try assumption;
    [|constructor; [assumption|constructor]|tame_tac].
  unfold run_map. cbn [map]. rewrite (run_hom _ (fun is_ m => v <- load m (a_at a is_) ;; if f v then store m (a_at oa is_) v else Ok m)
     (fun m => (tt, m))).
  - unfold copy_if_do in E. rewrite E. reflexivity.
  - intros is_ s _. cbn [snd]. destruct (load s (a_at a is_)) as [v| | |]; try reflexivity. cbn [bind].
    destruct (f v); reflexivity.
Qed.
Lemma copy_prog {T} o c oa a (m m' : mem T) : rep o oa -> rep c a ->
  Forall (reaches m oa) [oa; a] -> copy_if_do (fun _ => true) oa a m = Ok m' -> copy o c m = Ok m'.
Proof. intros Ro Rc F E. exact (copy_if_prog (fun _ => true) o c oa a m m' Ro Rc F E). Qed.

Lemma fill_prog {T} v o oa (m m' : mem T) : rep o oa -> reaches m oa oa ->
  generate_do (fun _ => v) oa m = Ok m' -> fill o v m = Ok m'.
Proof.
  intros Ro F E. unfold fill. rewrite (map_loop _ o [] oa []); try assumption;
    [|constructor|constructor; [assumption|constructor]|tame_tac].
  unfold run_map. cbn [map]. rewrite (run_hom _ (fun is_ m => store m (a_at oa is_) v) (fun m => (tt, m))).
  - unfold generate_do in E. rewrite E. reflexivity.
  - intros is_ s _. reflexivity.
Qed.

Lemma generate_prog {T} f o oa (m m' : mem T) : rep o oa -> reaches m oa oa ->
  generate_do f oa m = Ok m' -> generate (fun is_ => f (map cval is_)) o m = Ok m'.
Proof.
  intros Ro F E. unfold generate.
  rewrite (map_loop_index _ (fun p is_ sm => assign p (f is_) sm) o oa); try assumption; [|reflexivity|].
  - unfold run_map. rewrite (run_hom _ (fun is_ m => store m (a_at oa is_) (f is_)) (fun m => (tt, m))).
    + unfold generate_do in E. rewrite E. reflexivity.
    + intros is_ s _. reflexivity.
  - intros p is_ s1 m1 s2 m2 H. exact (assign_same _ _ _ _ _ _ H).
Qed.

(** Writing back the value that is there changes nothing. *)
Lemma set_nth_id {A} (l : list A) n x : nth_error l n = Some x -> set_nth l n x = l.
Proof.
  revert n. induction l as [|y l IH]; intros [|n] H; cbn in *; try discriminate; [congruence|]. rewrite IH; auto.
Qed.
Lemma store_back {T} (m : mem T) p v : load m p = Ok v -> store m p v = Ok m.
Proof.
  intros H. apply load_inv in H. assert (V : cell m p <> None) by (eapply peek_valid; exact H).
  rewrite store_valid by exact V. f_equal. unfold peek in H. destruct p as [|b o]; [reflexivity|].
  cbn [cell upd] in *. destruct (nth_error m b) as [[cs|]|] eqn:E; try reflexivity.
  destruct (0 <=? o) eqn:Eo; [|reflexivity].
  rewrite (set_nth_id cs); [apply set_nth_id; exact E|].
  destruct (nth_error cs (Z.to_nat o)) as [[w|]|]; try discriminate. injection H as ->. reflexivity.
Qed.

Lemma replace_if_prog {T} o (f : T -> bool) v oa m m' : rep o oa -> reaches m oa oa ->
  transform_do (fun l => match l with [e] => if f e then v else e | _ => v end) oa [oa] m = Ok m' ->
  replace_if o f v m = Ok m'.
Proof.
  intros Ro F E. unfold replace_if. rewrite (map_loop _ o [] oa []); try assumption;
    [|constructor|constructor; [assumption|constructor]|tame_tac].
  unfold run_map. cbn [map].
  rewrite (run_hom _ (fun is_ m => vs <- mapM (fun a => load m (a_at a is_)) [oa] ;;
     store m (a_at oa is_) (match vs with [e] => if f e then v else e | _ => v end)) (fun m => (tt, m))).
  - unfold transform_do in E. rewrite E. reflexivity.
  - intros is_ s _. cbn [snd mapM]. destruct (load s (a_at oa is_)) as [e| | |] eqn:L; try reflexivity. cbn [bind].
    destruct (f e); [reflexivity|]. rewrite (store_back _ _ _ L). reflexivity.
Qed.

Lemma scan_in_prog {T} c o (init : T) f1 f2 a oa m s m' : rep c a -> rep o oa ->
  Forall (reaches m a) [a; oa] -> scan_in_do a oa init f1 f2 m = Ok (s, m') ->
  transform_inclusive_scan c o init f1 f2 m = Ok m'.
Proof.
  intros Rc Ro F E. unfold transform_inclusive_scan. rewrite (map_loop _ c [o] a [oa]); try assumption;
    [|constructor; [assumption|constructor]|tame_tac].
  cbn [map]. unfold scan_in_do in E. cbn [snd fst] in *. rewrite E. reflexivity.
Qed.
Lemma scan_ex_prog {T} c o (init : T) f1 f2 a oa m s m' : rep c a -> rep o oa ->
  Forall (reaches m a) [a; oa] -> scan_ex_do a oa init f1 f2 m = Ok (s, m') ->
  transform_exclusive_scan c o init f1 f2 m = Ok m'.
Proof.
  intros Rc Ro F E. unfold transform_exclusive_scan. rewrite (map_loop _ c [o] a [oa]); try assumption;
    [|constructor; [assumption|constructor]|tame_tac].
  cbn [map]. unfold scan_ex_do in E. cbn [snd fst] in *. rewrite E. reflexivity.
Qed.
Lemma each_prog {S T} (f : S -> elem_fun S T) c cs a as_ s m s' m' : rep c a -> Forall2 rep cs as_ ->
  Forall (reaches m a) (a :: as_) -> each_do f a as_ s m = Ok (s', m') ->
  for_each_containers (fun ps sm => call (f (fst sm)) ps (snd sm)) c cs (s, m) = Ok (s', m').
Proof.
  intros Rc Rs F E. change (map_containers (fun ps sm => call (f (fst sm)) ps (snd sm)) c cs (s, m) = Ok (s', m')).
  rewrite (map_loop _ c cs a as_); try assumption.
  intros ps s1 m1 s2 m2 H. exact (call_tame _ _ _ _ _ H).
Qed.

Lemma each_index_prog {S T} (f : S -> list Z -> elem_fun S T) c a s m s' m' : rep c a -> reaches m a a ->
  each_index_do f a s m = Ok (s', m') ->
  for_each_index (fun p is_ sm => call (f (fst sm) (map cval is_)) [p] (snd sm)) c (s, m) = Ok (s', m').
Proof.
  intros Rc F E. change (map_index (fun p is_ sm => call (f (fst sm) (map cval is_)) [p] (snd sm)) c (s, m) = Ok (s', m')).
  rewrite (map_loop_index _ (fun p is_ sm => call (f (fst sm) is_) [p] (snd sm)) c a); try assumption; [reflexivity|].
  intros p is_ s1 m1 s2 m2 H. exact (call_tame _ _ _ _ _ H).
Qed.

(** Observers. *)
Lemma contents_in {T} (m : mem T) a vs : contents m a vs -> forall is_, in_box (a_dims a) is_ ->
  exists v, peek m (a_at a is_) = Some v.
Proof.
  unfold contents. intros H is_ B. apply box_In in B. induction H as [|x v l vs Hx _ IH]; [contradiction|].
  destruct B as [->|B]; [eauto|apply IH, B].
Qed.
Lemma rep_values {T} (m : mem T) c a vs : rep c a -> contents m a vs -> can_read m c c /\ values m c c vs.
Proof.
  intros (E & _ & _ & Ad & El & _ & Sg & Bk) C. assert (Cv : can_read m c c).
  { split; [apply Ad; intros H; apply (signeds_tys (c_shape c)), Sg, Bk, H|]. split; [intros x; auto|]. intros is_ B. unfold value. rewrite (El is_ B).
    rewrite E in B. exact (contents_in m a vs C is_ B). }
  split; [exact Cv|]. unfold values. rewrite E. unfold contents in C.
  assert (G : forall l us, (forall x, In x l -> in_box (dims c) x) ->
     Forall2 (fun is_ v => peek m (a_at a is_) = Some v) l us -> Forall2 (fun is_ v => value m c is_ v) l us).
  { induction l as [|x l IH]; intros us I H; inversion H; subst; constructor.
    - unfold value. rewrite El by (apply I; left; reflexivity). assumption.
    - apply IH; [intros; apply I; right; assumption|assumption]. }
  apply G; [|exact C]. intros x Hx. rewrite E. apply box_In. exact Hx.
Qed.
