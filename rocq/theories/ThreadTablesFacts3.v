From Coq Require Import ZArith List Bool Lia.
From Verif Require Import Outcome CInt CIntFacts Spec SpecFacts ShapeSpec Shape ShapeFacts Memory MemFacts Container ContainerSpec
  ContainerFacts ContainerFacts2 ContainerFacts3 AlgoSpec Algo AlgoFacts AlgoFacts2 AlgoFacts3 AlgoFacts4 Program
  Threads ThreadsSpec ThreadsFacts ThreadsFacts2 ThreadsFacts3 ThreadTables ThreadTablesSpec ThreadTablesFacts.
Import ListNotations.
Open Scope Z_scope.

(** ** Alone, the threads do what the rest of the model says *)
Lemma talone_bind {T A B} (x : tact T A) (f : A -> tact T B) : forall m,
  talone (tbind x f) m = (am <- talone x m ;; talone (f (fst am)) (snd am)).
Proof.
  induction x as [o|p k IH|p k IH|p v k IH|n k IH|p k IH]; intros m; cbn [tbind talone].
  - destruct o; reflexivity.
  - destruct (validb m p); [apply IH|reflexivity].
  - destruct (load m p); cbn [bind]; auto.
  - destruct (store m p v); cbn [bind]; auto.
  - destruct (alloc m n) as [m' p]. apply IH.
  - destruct (release m p); cbn [bind]; auto.
Qed.
Lemma talone_lift {T A} (x : act T A) : forall m, talone (lift x) m = alone x m.
Proof.
  induction x as [o|p k IH|p k IH|p v k IH]; intros m; cbn [lift talone alone].
  - reflexivity.
  - destruct (validb m p); [apply IH|reflexivity].
  - destruct (load m p); cbn [bind]; auto.
  - destruct (store m p v); cbn [bind]; auto.
Qed.
Lemma al_copy_elements {T} n : forall src dst (m : mem T), alone (acopy_elements src dst n) m = units (copy_elements m src dst n).
Proof.
  induction n as [|n IH]; intros src dst m; cbn [acopy_elements alone copy_elements]; [reflexivity|].
  destruct (load m src); cbn [bind]; try reflexivity. destruct (store m dst a); cbn [bind]; try reflexivity. apply IH.
Qed.
Definition flip {A B} (o : outcome (A * B)) : outcome (B * A) := r <- o ;; Ok (snd r, fst r).
Lemma al_block {T} n source (m : mem T) : talone (t_block n source) m = flip (new_block m n source).
Proof.
  unfold t_block, new_block. rewrite talone_bind. destruct (n =? 0).
  - cbn [talone bind fst snd]. destruct source as [src|]; [|reflexivity].
    rewrite talone_bind, talone_lift, al_copy_elements. unfold units.
    destruct (copy_elements m src Null (Z.to_nat n)); reflexivity.
  - unfold alloc. cbn [talone]. unfold alloc. cbn [bind fst snd]. destruct source as [src|]; [|reflexivity].
    rewrite talone_bind, talone_lift, al_copy_elements. unfold units.
    destruct (copy_elements _ src _ (Z.to_nat n)); reflexivity.
Qed.
Lemma al_make {T} ss st sh given source (m : mem T) : talone (t_make ss st sh given source) m = flip (make_table m ss st sh given source).
Proof.
  unfold t_make, make_table. rewrite talone_bind. cbn [talone]. destruct (numel sh) as [n| | |]; cbn [bind fst snd]; try reflexivity.
  rewrite talone_bind, al_block. destruct (new_block m (cval n) source) as [[m1 d]| | |]; cbn [flip bind fst snd]; try reflexivity.
  rewrite talone_bind. cbn [talone]. destruct (make_accessor ss st sh given) as [[k s]| | |]; reflexivity.
Qed.
Lemma al_like {T} ty c (m : mem T) : talone (t_like ty c) m = flip (table_like m ty c).
Proof.
  unfold t_like, table_like, settings. rewrite talone_bind. cbn [talone].
  destruct (numel (c_shape c)) as [n| | |]; cbn [bind fst snd]; try reflexivity.
  rewrite talone_bind, al_block. destruct (new_block m (cval n) (Some (c_data c))) as [[m1 d]| | |]; cbn [flip bind fst snd]; try reflexivity.
  rewrite talone_bind. cbn [talone]. destruct (rebuild_accessor ty (c_shape c)) as [[[k s] r]| | |]; reflexivity.
Qed.
Lemma al_drop {T} c (m : mem T) : talone (t_drop c) m = units (release m (c_data c)).
Proof.
  unfold t_drop, units. destruct (c_data c) as [|b o]; [reflexivity|]. cbn [talone].
  destruct (release m (Ptr b o)); reflexivity.
Qed.
Lemma al_assign {T} dst src (m : mem T) : talone (t_assign dst src) m = flip (assign_table m dst src).
Proof.
  unfold t_assign, assign_table. rewrite talone_bind, al_like.
  destruct (table_like m dst src) as [[m1 t]| | |]; cbn [flip bind fst snd]; try reflexivity.
  rewrite talone_bind, al_drop. unfold units. destruct (swap_containers dst t) as [d o]. cbn [fst snd].
  destruct (release m1 (c_data o)); reflexivity.
Qed.

(** ** Composition *)
Lemma safe_imp {T A} Sh R W (Q Q' : A -> list nat -> mem T -> Prop) x B m : safe Sh R W Q x B m ->
  (forall a B m, Q a B m -> Q' a B m) -> safe Sh R W Q' x B m.
Proof. intros H I. induction H; try (econstructor; eauto; fail). Qed.
Lemma safe_then {T A A'} Sh R W (Q : A' -> list nat -> mem T -> Prop) (x : tact T A) (f : A -> tact T A') B m :
  safe Sh R W (fun a B' m' => safe Sh R W Q (f a) B' m') x B m -> safe Sh R W Q (tbind x f) B m.
Proof. intros H. induction H; cbn [tbind]; try assumption; try (econstructor; eauto; fail). Qed.

(** ** Calls *)
Lemma safe_call_l {T A} Sh R W (Q : A -> list nat -> mem T -> Prop) R' W' (x : act T A) B : touches R' W' x ->
  (forall p, R' p -> R p \/ W p \/ owned B p) -> (forall p, W' p -> W p \/ owned B p) ->
  forall m a m', alone x m = Ok (a, m') -> Q a B m' -> safe Sh R W Q (lift x) B m.
Proof.
  intros To Hr Hw. induction To as [o|p k H IH|p k Hp H IH|p v k Hp H IH]; intros m a m' E HQ; cbn [alone lift] in *.
  - destruct o; cbn [bind] in E; try discriminate. injection E as -> ->. constructor. exact HQ.
  - destruct (validb m p) eqn:V; [|discriminate]. constructor; [apply validb_true; exact V|eauto].
  - destruct (load m p) as [v| | |] eqn:L; cbn [bind] in E; try discriminate. apply load_inv in L.
    econstructor; [|exact L|eauto]. destruct Hp as [Hp|Hp]; [auto|]. right. auto.
  - destruct (store m p v) as [m1| | |] eqn:St; cbn [bind] in E; try discriminate. apply store_inv in St as [V ->].
    constructor; [auto|exact V|eauto].
Qed.

(** ** Making tables *)
Lemma make_fits ss sh : legal sh -> sh <> [] -> exists k st, make_accessor ss ss sh None = Ok (k, st) /\
  forall data, default_layout (Cn k sh st data).
Proof.
  intros Lg Ne. destruct (make_view_default_l ss sh Null Lg Ne) as (c & E & D & _). unfold make_view in E.
  destruct (make_accessor ss ss sh None) as [[k st]| | |] eqn:M; cbn [bind] in E; try discriminate. exists k, st. split; [reflexivity|].
  intros data. split; [exact Lg|]. split; [exact Ne|]. exists ss. exact M.
Qed.
Lemma empty_box ns is_ : prod ns = 0 -> in_box ns is_ -> False.
Proof. intros Z0 B. apply rank_range in B. lia. Qed.

Lemma new_null {T} Sh B (m : mem T) t : default_layout t -> prod (dims t) = 0 -> c_data t = Null -> new_table Sh B m t B m.
Proof.
  intros D Z0 N. unfold new_table, table_blocks, releasable, table_blocks. rewrite N. cbn [app].
  split; [exact D|]. split; [reflexivity|]. split; [intros b []|]. split; [intros b []|].
  split; [intros is_ Bx; destruct (empty_box _ _ Z0 Bx)|]. split; [|reflexivity].
  intros p (is_ & Bx & _). destruct (empty_box _ _ Z0 Bx).
Qed.
Lemma new_at {T} Sh B (m : mem T) b t m' : default_layout t -> 0 < prod (dims t) -> c_data t = Ptr b 0 -> ~ Sh b -> ~ In b B ->
  (forall k, 0 <= k < prod (dims t) -> valid m' (Ptr b k)) -> (forall p, ~ owned [b] p -> cell m' p = cell m p) ->
  new_table Sh B m t (b :: B) m'.
Proof.
  intros D Hp Ed NS NB V F.
  assert (El : forall is_, in_box (dims t) is_ -> elem t is_ = Ptr b (rank (dims t) is_)).
  { intros is_ Bx. rewrite default_elem by assumption. rewrite Ed. reflexivity. }
  unfold new_table, releasable, table_blocks. rewrite Ed. cbn [app].
  split; [exact D|]. split; [reflexivity|]. split; [intros c [<-|[]]; auto|].
  split; [intros c [<-|[]]; split; [left; reflexivity|]; split; [reflexivity|apply V; lia]|].
  split; [intros is_ Bx; rewrite El by exact Bx; apply V, rank_range; exact Bx|]. split; [|exact F].
  intros p (is_ & Bx & ->). rewrite El by exact Bx. left. reflexivity.
Qed.

Lemma safe_make_l {T} Sh R W (Q : container -> list nat -> mem T -> Prop) ss sh B m : legal sh -> sh <> [] ->
  (forall t B' m', c_shape t = sh -> new_table Sh B m t B' m' -> Q t B' m') ->
  safe Sh R W Q (t_make ss ss sh None None) B m.
Proof.
  intros Lg Ne HQ. unfold t_make. rewrite (numel_ok sh Lg Ne). cbn [tbind]. change (cval (int (prod (vals sh)))) with (prod (vals sh)).
  destruct (make_fits ss sh Lg Ne) as (k & st & M & D). pose proof (legal_prod _ Lg) as Hp. unfold t_block. rewrite M.
  destruct (Z.eqb_spec (prod (vals sh)) 0) as [Z0|NZ]; cbn [tbind fst snd].
  - constructor. apply HQ; [reflexivity|]. apply new_null; [apply D|exact Z0|reflexivity].
  - constructor; [lia|]. intros b NS NB. constructor. apply HQ; [reflexivity|]. unfold dims in *.
    apply new_at; [apply D|unfold dims; cbn [c_shape]; lia|reflexivity|exact NS|exact NB| |].
    + intros o Ho. unfold valid. rewrite cell_place_new. destruct (Z.leb_spec 0 o), (Z.ltb_spec o (prod (vals sh))); cbn [andb]; try discriminate;
        unfold dims in Ho; cbn [c_shape] in Ho; lia.
    + intros p Np. apply cell_place_other. exact Np.
Qed.

Lemma ft_copy_elements {T} n : forall src dst, touches (fun p => exists k, 0 <= k < Z.of_nat n /\ p = padd src k)
  (fun p => exists k, 0 <= k < Z.of_nat n /\ p = padd dst k) (@acopy_elements T src dst n).
Proof.
  induction n as [|n IH]; intros src dst; cbn [acopy_elements]; [constructor|]. constructor.
  - left. exists 0. rewrite padd_0. split; [lia|reflexivity].
  - intros v. constructor; [exists 0; rewrite padd_0; split; [lia|reflexivity]|].
    eapply touches_weaken; [| |apply IH].
    + intros p (k & Hk & ->). left. exists (1 + k). rewrite padd_padd. split; [lia|reflexivity].
    + intros p (k & Hk & ->). exists (1 + k). rewrite padd_padd. split; [lia|reflexivity].
Qed.

Lemma safe_copy_l {T} Sh R W (Q : container -> list nat -> mem T -> Prop) c B m : default_layout c -> readable m c ->
  (forall p, elements c c p -> R p \/ W p \/ owned B p) -> (forall p, R p \/ W p -> within Sh p) ->
  (forall t B' m', c_shape t = c_shape c -> c_kind t = c_kind c -> new_table Sh B m t B' m' ->
     (forall is_ v, in_box (dims c) is_ -> value m c is_ v -> value m' t is_ v) -> Q t B' m') ->
  safe Sh R W Q (t_copy c) B m.
Proof.
  intros D Rd Ac Hs HQ. pose proof D as (Lg & Ne & _).
  unfold t_copy, t_like. rewrite (numel_ok (c_shape c) Lg Ne). cbn [tbind].
  change (cval (int (prod (vals (c_shape c))))) with (prod (dims c)).
  destruct (rebuild_ok c c Lg Ne (default_retyped c D) (default_static c D)) as (k & sh & st & Er & P). rewrite Er.
  assert (Dt : forall data, default_layout (Cn k sh st data)).
  { intros data. destruct (P data) as (_ & Es & Ek & _). apply (default_of_kind c _ D Es Ek). exact Er. }
  assert (Esh : sh = c_shape c) by (destruct (P Null) as (_ & Es & _); exact Es).
  assert (Ekd : k = c_kind c) by (destruct (P Null) as (_ & _ & Ek & _); exact Ek).
  pose proof (legal_prod _ Lg) as Hp. fold (dims c) in Hp. unfold t_block.
  destruct (Z.eqb_spec (prod (dims c)) 0) as [Z0|NZ]; cbn [tbind].
  - rewrite Z0. cbn [Z.to_nat acopy_elements lift tbind fst snd ret]. constructor. apply HQ; [exact Esh|exact Ekd| |].
    + apply new_null; [apply Dt|unfold dims; cbn [c_shape]; rewrite Esh; exact Z0|reflexivity].
    + intros is_ v Bx. destruct (empty_box _ _ Z0 Bx).
  - constructor; [lia|]. intros b NS NB.
    pose proof (proj1 (default_contiguous m c D) Rd) as Cg.
    destruct (Cg 0 ltac:(lia)) as (v0 & Hv0). rewrite padd_0 in Hv0.
    destruct (c_data c) as [|sb so] eqn:Ed; [discriminate|].
    assert (Acc : forall o, 0 <= o < prod (dims c) -> R (Ptr sb (so + o)) \/ W (Ptr sb (so + o)) \/ owned B (Ptr sb (so + o))).
    { intros o Ho. destruct (default_index_surj_l c o D Ho) as (is_ & Bx & E & _). apply Ac. exists is_. split; [exact Bx|].
      rewrite default_elem by assumption. rewrite E, Ed. reflexivity. }
    assert (Nb : sb <> b).
    { intros ->. destruct (Acc 0 ltac:(lia)) as [H|[H|H]]; [apply NS, (Hs (Ptr b (so + 0))); auto..|exact (NB H)]. }
    destruct (copy_elements_ok (Z.to_nat (prod (dims c))) (place m b (prod (dims c))) sb so b 0) as (m' & E & V & F & Sv & _).
    + exact Nb.
    + intros o Ho. rewrite Z2Nat.id in Ho by lia. unfold peek. rewrite cell_place_other by (intros [G|[]]; congruence).
      destruct (Cg o Ho) as (v & Hv). exists v. rewrite Ed in Hv. exact Hv.
    + intros o Ho. rewrite Z2Nat.id in Ho by lia. rewrite cell_place_new. destruct (Z.leb_spec 0 (0 + o)), (Z.ltb_spec (0 + o) (prod (dims c))); cbn [andb]; try discriminate; lia.
    + rewrite Z2Nat.id in * by lia. apply safe_then, safe_then.
      eapply (safe_call_l Sh R W _ _ _ _ (b :: B) (ft_copy_elements _ _ _)).
      * intros p (o & Ho & ->). rewrite Z2Nat.id in Ho by lia. rewrite owned_cons. cbn [padd]. destruct (Acc o Ho) as [H|[H|H]]; auto.
      * intros p (o & Ho & ->). right. left. reflexivity.
      * rewrite al_copy_elements, E. reflexivity.
      * constructor. cbn [tbind fst snd]. constructor. subst sh.
        assert (Cn0 : forall p, ~ owned [b] p -> cell m' p = cell m p).
        { intros p Np. rewrite F; [apply cell_place_other; exact Np|]. intros o Ho ->. apply Np. left. reflexivity. }
        assert (Nt : new_table Sh B m (Cn k (c_shape c) st (Ptr b 0)) (b :: B) m').
        { apply new_at; [apply Dt|unfold dims; cbn [c_shape]; unfold dims in *; lia|reflexivity|exact NS|exact NB| |exact Cn0].
          intros o Ho. apply Sv. unfold dims in Ho. cbn [c_shape] in Ho. fold (dims c) in Ho. rewrite cell_place_new.
          destruct (Z.leb_spec 0 o), (Z.ltb_spec o (prod (dims c))); cbn [andb]; try discriminate; lia. }
        apply HQ; [reflexivity|exact Ekd|exact Nt|]. intros is_ v Bx Hv. unfold value in *.
        rewrite (default_elem _ _ (Dt (Ptr b 0)) Bx). cbn [c_data padd]. unfold dims at 1. cbn [c_shape]. fold (dims c).
        rewrite (V _ (rank_range _ _ Bx)). unfold peek. rewrite cell_place_other by (intros [G|[]]; congruence).
        rewrite (default_elem c is_ D Bx), Ed in Hv. exact Hv.
Qed.

Lemma safe_drop_l {T} Sh R W (Q : unit -> list nat -> mem T -> Prop) t B m : releasable m B t ->
  (forall B' m', (forall b, In b B' <-> In b B /\ ~ In b (table_blocks t)) ->
     (forall p, ~ owned (table_blocks t) p -> cell m' p = cell m p) -> Q tt B' m') ->
  safe Sh R W Q (t_drop t) B m.
Proof.
  intros Rl HQ. unfold t_drop, releasable, table_blocks in *. destruct (c_data t) as [|b o].
  - constructor. apply HQ; [cbn [In]; tauto|reflexivity].
  - destruct (Rl b (or_introl eq_refl)) as (Hb & E & V). injection E as ->. constructor; [exact Hb|exact V|]. constructor. apply HQ.
    + intros c. split; [intros H; apply in_remove in H as [H N]; split; [exact H|intros [G|[]]; auto]|].
      intros [H N]. apply in_in_remove; [|exact H]. intros G. apply N. left. auto.
    + intros p Np. apply cell_drop_other. exact Np.
Qed.
