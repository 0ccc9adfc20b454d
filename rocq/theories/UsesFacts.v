From Coq Require Import ZArith List Bool Lia.
From Verif Require Import Outcome CInt CIntFacts Spec SpecFacts ShapeSpec Shape ShapeFacts ShapeFacts2
  ForEach ForEachSpec ForEachFacts Memory MemFacts Container ContainerSpec ContainerFacts ContainerFacts2
  Algo AlgoSpec AlgoFacts AlgoFacts2 AlgoFacts4 CallSpec Uses UsesSpec.
From Verif Require OverlapFacts.
Import ListNotations.
Open Scope Z_scope.

(** ** Loops with an invariant *)
Lemma run_ind {A S} (step : A -> S -> outcome S) (Inv : list A -> S -> Prop) l s :
  Inv [] s ->
  (forall pre c post s, l = pre ++ c :: post -> Inv pre s -> exists s', step c s = Ok s' /\ Inv (pre ++ [c]) s') ->
  exists s', run step l s = Ok s' /\ Inv l s'.
Proof.
  intros H0 H. assert (G : forall post pre s, l = pre ++ post -> Inv pre s -> exists s', run step post s = Ok s' /\ Inv l s').
  { induction post as [|c post IH]; intros pre s1 E Hs; simpl.
    - rewrite app_nil_r in E. subst. eauto.
    - destruct (H pre c post s1 E Hs) as (s2 & E2 & H2). rewrite E2. cbn [bind]. apply (IH (pre ++ [c])); [|exact H2].
      rewrite E, <- app_assoc. reflexivity. }
  apply (G l [] s); [reflexivity|exact H0].
Qed.

Lemma map_containers_ind {T S} (body : list ptr -> S * mem T -> outcome (S * mem T)) c0 cs m0
    (Inv : list (list Z) -> S * mem T -> Prop) s :
  live m0 c0 c0 -> Forall (live m0 c0) cs -> (forall pre s, Inv pre s -> same_cells m0 (snd s)) -> Inv [] s ->
  (forall pre is_ post s, box (dims c0) = pre ++ is_ :: post -> Inv pre s ->
     exists s', body (map (fun c => elem c is_) (c0 :: cs)) s = Ok s' /\ Inv (pre ++ [is_]) s') ->
  exists s', map_containers body c0 cs s = Ok s' /\ Inv (box (dims c0)) s'.
Proof.
  intros L0 Ls Sm H0 Hb. destruct (live_wf m0 c0 L0) as [W N].
  unfold map_containers. rewrite for_each_run by assumption. unfold dims at 1. rewrite <- tbox_vals.
  apply (run_ind _ (fun l => Inv (map vals l))); [exact H0|]. intros pre c post s1 E Hs.
  destruct (tbox_at _ _ _ _ W E) as (Wc & Bc & Ty & Eb).
  rewrite (mapM_refs m0 (snd s1) c0 (c0 :: cs) c); try assumption; [|constructor; assumption|exact (Sm _ _ Hs)].
  rewrite bind_ok, map_app. eapply Hb; [exact Eb|exact Hs].
Qed.

Lemma map_index_ind {T S} (body : ptr -> list cint -> S * mem T -> outcome (S * mem T)) c0 m0
    (Inv : list (list Z) -> S * mem T -> Prop) s :
  live m0 c0 c0 -> (forall pre s, Inv pre s -> same_cells m0 (snd s)) -> Inv [] s ->
  (forall pre tis post s, box (dims c0) = pre ++ vals tis :: post -> Inv pre s -> wfs tis -> map cty tis = ctypes c0 ->
     exists s', body (elem c0 (vals tis)) tis s = Ok s' /\ Inv (pre ++ [vals tis]) s') ->
  exists s', map_index body c0 s = Ok s' /\ Inv (box (dims c0)) s'.
Proof.
  intros L0 Sm H0 Hb. destruct (live_wf m0 c0 L0) as [W N].
  unfold map_index. rewrite for_each_run by assumption. unfold dims at 1. rewrite <- tbox_vals.
  apply (run_ind _ (fun l => Inv (map vals l))); [exact H0|]. intros pre c post s1 E Hs.
  destruct (tbox_at _ _ _ _ W E) as (Wc & Bc & Ty & Eb).
  rewrite (ref_at m0 (snd s1) c0 c0 c); try assumption; [|exact (Sm _ _ Hs)].
  rewrite bind_ok, map_app. eapply Hb; eassumption.
Qed.

(** ** Reading *)
Lemma reads_less {T A} (R R' : ptr -> Prop) (k : mem T -> outcome (A * mem T)) :
  (forall p, R p -> R' p) -> reads R k -> reads R' k.
Proof. intros H K m m' v m1 E. apply K. intros p Hp. apply E, H, Hp. Qed.

Lemma outside_before c is_ p : outside c p -> outside_or_before c is_ p.
Proof. intros H js B E. exfalso. exact (H js B E). Qed.

Lemma same_upd {T} (m m1 : mem T) p v : same_cells m m1 -> same_cells m (upd m1 p v).
Proof. intros H q. rewrite (H q). unfold valid. rewrite valid_upd. tauto. Qed.

Lemma same_coord c is_ js : loop_coord c is_ -> loop_coord c js -> vals is_ = vals js -> is_ = js.
Proof. intros (_ & A & _) (_ & B & _) E. exact (ctypes_unique c is_ js A B E). Qed.

Lemma generate_recurrence_l {T} (f : list cint -> mem T -> outcome (T * mem T)) out m : can_write m out out ->
  (forall is_, loop_coord out is_ -> reads (outside_or_before out (vals is_)) (f is_)) ->
  (forall is_ m1, loop_coord out is_ -> same_cells m m1 -> (forall p, outside out p -> cell m1 p = cell m p) ->
     (forall js, in_box (dims out) js -> lex js (vals is_) -> exists v, value m1 out js v) ->
     exists v m2, f is_ m1 = Ok (v, m2)) ->
  exists m', generate_use f out m = Ok m' /\ frame out out m m' /\
    forall is_, loop_coord out is_ -> exists v, f is_ m' = Ok (v, m') /\ value m' out (vals is_) v.
Proof.
  intros CW Rd Ok1. pose proof CW as (_ & _ & D & V). pose proof (can_write_live _ _ _ CW) as L.
  destruct (live_wf m out L) as [_ Nn].
  pose (Inv := fun (pre : list (list Z)) (s : unit * mem T) =>
    (same_cells m (snd s) /\ (forall p, (forall js, In js pre -> p <> elem out js) -> cell (snd s) p = cell m p)) /\
    forall is_, loop_coord out is_ -> In (vals is_) pre -> exists v, f is_ (snd s) = Ok (v, snd s) /\ value (snd s) out (vals is_) v).
  destruct (map_index_ind (fun o is_ sm => r <- f is_ (snd sm) ;; assign o (fst r) (tt, snd r)) out m Inv (tt, m)) as ([[] m'] & E & (Sm & Fr) & H).
  - exact L.
  - intros pre s H. apply H.
  - split; [split; [apply same_refl|reflexivity]|]. intros is_ _ [].
  - intros pre tis post [[] m1] Eb ((Sm & Fr) & Hp) Wt Ty. cbn [snd] in *.
    destruct (box_split_notin _ _ _ _ Nn Eb) as (Nc & B & Pb).
    assert (Lc : loop_coord out tis) by (split; [exact Wt|split; [exact Ty|exact B]]).
    destruct (Ok1 tis m1 Lc Sm) as (v & m2 & Ev).
    { intros p Hp1. apply Fr. intros js Hj. apply Hp1. apply Pb. exact Hj. }
    { intros js Bj Lj. assert (Ij : In js pre) by (apply (OverlapFacts.lex_before _ _ _ _ js Eb); split; assumption).
      destruct L as ((Wo & _) & _). destruct (typed_coord out js Wo Bj) as (tj & Wj & <- & Tj).
      destruct (Hp tj) as (x & _ & Hx); [split; [exact Wj|split; [exact Tj|exact Bj]]|exact Ij|]. eauto. }
    destruct (Rd tis Lc m1 m1 v m2 (fun p _ => eq_refl) Ev) as [-> _].
    rewrite Ev, bind_ok. cbn [fst snd]. unfold assign. cbn [snd].
    assert (Vc : cell m1 (elem out (vals tis)) <> None) by (apply Sm, V, B).
    rewrite store_valid by exact Vc. rewrite bind_ok.
    eexists. split; [reflexivity|]. unfold Inv. cbn [snd].
    set (q := elem out (vals tis)) in *. split; [split|].
    + apply same_upd. exact Sm.
    + intros p Hp1. rewrite cell_upd_other; [|intros E; apply (Hp1 (vals tis)); [apply in_or_app; right; left; reflexivity|symmetry; exact E]].
      apply Fr. intros js Hj. apply Hp1. apply in_or_app. left. exact Hj.
    + intros is_ Li Ii. apply in_app_or in Ii. destruct Ii as [Ii|[Ii|[]]].
      * destruct (Hp is_ Li Ii) as (x & Ex & Hx). exists x.
        pose proof (proj1 (OverlapFacts.lex_before _ _ _ _ (vals is_) Eb) Ii) as [Bi Lx].
        split.
        { apply (Rd is_ Li m1 (upd m1 q v) x m1); [|exact Ex]. intros p Rp. apply cell_upd_other. intros <-.
          apply (OverlapFacts.lex_asym (vals is_) (vals tis) Lx). apply Rp; [exact B|reflexivity]. }
        unfold value. rewrite peek_upd_other; [exact Hx|]. intros E. apply D in E; [|exact B|exact Bi].
        apply Nc. rewrite E. exact Ii.
      * assert (is_ = tis) by (apply (same_coord out); [exact Li|exact Lc|symmetry; exact Ii]). subst is_.
        exists v. split.
        { apply (Rd tis Lc m1 (upd m1 q v) v m1); [|exact Ev]. intros p Rp. apply cell_upd_other. intros <-.
          apply (OverlapFacts.lex_irrefl (vals tis)). apply Rp; [exact B|reflexivity]. }
        unfold value. apply peek_upd_same. exact Vc.
  - exists m'. cbn [snd] in *. unfold generate_use, run_map. rewrite E, bind_ok. cbn [snd]. split; [reflexivity|].
    split; [split; [exact Sm|]|].
    + intros p Hp. apply Fr. intros js Hj. apply Hp. apply box_In. exact Hj.
    + intros is_ Li. apply H; [exact Li|]. apply box_In. apply Li.
Qed.

(** No other memory satisfies the recurrence. *)
Lemma recurrence_unique_l {T} (f : list cint -> mem T -> outcome (T * mem T)) out (m m1 m2 : mem T) : wf_container out ->
  (forall is_, loop_coord out is_ -> reads (outside_or_before out (vals is_)) (f is_)) ->
  frame out out m m1 -> frame out out m m2 ->
  (forall is_, loop_coord out is_ -> exists v, f is_ m1 = Ok (v, m1) /\ value m1 out (vals is_) v) ->
  (forall is_, loop_coord out is_ -> exists v, f is_ m2 = Ok (v, m2) /\ value m2 out (vals is_) v) ->
  forall p, cell m1 p = cell m2 p.
Proof.
  intros Wo Rd F1 F2 H1 H2.
  assert (P : forall p, (forall js, in_box (dims out) js -> cell m1 (elem out js) = cell m2 (elem out js)) -> cell m1 p = cell m2 p).
  { intros p H. destruct (in_dec ptr_eq_dec p (map (elem out) (box (dims out)))) as [Ip|Np].
    - apply in_map_iff in Ip. destruct Ip as (js & <- & Ij). apply H. apply box_In. exact Ij.
    - assert (O1 : forall js, in_box (dims out) js -> p <> elem out js).
      { intros js B ->. apply Np. apply in_map. apply box_In. exact B. }
      rewrite (proj2 F1 p O1), (proj2 F2 p O1). reflexivity. }
  intros p. apply P. clear p.
  assert (G : forall post pre, box (dims out) = pre ++ post -> (forall js, In js pre -> cell m1 (elem out js) = cell m2 (elem out js)) ->
    forall js, in_box (dims out) js -> cell m1 (elem out js) = cell m2 (elem out js)).
  { induction post as [|c post IH]; intros pre E Hp js B.
    - rewrite app_nil_r in E. apply Hp. rewrite <- E. apply box_In. exact B.
    - apply (IH (pre ++ [c])); [rewrite <- app_assoc; exact E| |exact B]. intros x Ix. apply in_app_or in Ix.
      destruct Ix as [Ix|[<-|[]]]; [apply Hp; exact Ix|].
      assert (Bc : in_box (dims out) c) by (apply box_In; rewrite E; apply in_elt).
      destruct (typed_coord out c Wo Bc) as (tc & Wc & <- & Tc).
      assert (Lc : loop_coord out tc) by (split; [exact Wc|split; [exact Tc|exact Bc]]).
      destruct (H1 tc Lc) as (v1 & E1 & V1). destruct (H2 tc Lc) as (v2 & E2 & V2).
      assert (Q : forall p, outside_or_before out (vals tc) p -> cell m2 p = cell m1 p).
      { intros p Rp. destruct (in_dec ptr_eq_dec p (map (elem out) (box (dims out)))) as [Ip|Np].
        - apply in_map_iff in Ip. destruct Ip as (y & <- & Iy). apply box_In in Iy. symmetry. apply Hp.
          apply (OverlapFacts.lex_before _ _ _ _ y E). split; [exact Iy|]. apply Rp; [exact Iy|reflexivity].
        - assert (O1 : forall js, in_box (dims out) js -> p <> elem out js).
          { intros y By ->. apply Np. apply in_map. apply box_In. exact By. }
          rewrite (proj2 F1 p O1), (proj2 F2 p O1). reflexivity. }
      destruct (Rd tc Lc m1 m2 v1 m1 Q E1) as [_ E3]. rewrite E2 in E3. injection E3 as ->.
      unfold value, peek in V1, V2.
      destruct (cell m1 (elem out (vals tc))) as [[x|]|]; try discriminate.
      destruct (cell m2 (elem out (vals tc))) as [[y|]|]; try discriminate. congruence. }
  apply (G (box (dims out)) []); [reflexivity|intros js []].
Qed.

Lemma generate_stencil_l {T} (f : list cint -> mem T -> outcome (T * mem T)) out m : can_write m out out ->
  (forall is_, loop_coord out is_ -> reads (outside out) (f is_)) ->
  (forall is_, loop_coord out is_ -> exists v m2, f is_ m = Ok (v, m2)) ->
  exists m', generate_use f out m = Ok m' /\ frame out out m m' /\
    forall is_ v m2, loop_coord out is_ -> f is_ m = Ok (v, m2) -> value m' out (vals is_) v.
Proof.
  intros CW Rd Okf. destruct (generate_recurrence_l f out m CW) as (m' & E & F & H).
  - intros is_ Li. apply (reads_less (outside out)); [intros p; apply outside_before|apply Rd, Li].
  - intros is_ m1 Li _ Fr _. destruct (Okf is_ Li) as (v & m2 & Ev). exists v, m1. apply (Rd is_ Li m m1 v m2 Fr Ev).
  - exists m'. split; [exact E|]. split; [exact F|]. intros is_ v m2 Li Ev. destruct (H is_ Li) as (x & Ex & Hx).
    destruct (Rd is_ Li m m' v m2 (proj2 F) Ev) as [_ E']. congruence.
Qed.

Lemma transform_stencil_l {T} (f : list T -> mem T -> outcome (T * mem T)) out c0 cs m : can_write m out out ->
  Forall (can_read m out) (c0 :: cs) -> Forall (fun i => no_cross_alias out i out) (c0 :: cs) ->
  (forall vs, reads (outside out) (f vs)) ->
  (forall is_ vs, in_box (dims out) is_ -> Forall2 (fun c v => value m c is_ v) (c0 :: cs) vs -> exists v m2, f vs m = Ok (v, m2)) ->
  exists m', transform_use f out c0 cs m = Ok m' /\ frame out out m m' /\
    forall is_ vs v m2, in_box (dims out) is_ -> Forall2 (fun c v => value m c is_ v) (c0 :: cs) vs ->
      f vs m = Ok (v, m2) -> value m' out is_ v.
Proof.
  intros CW CR NA Rd Okf. pose proof CW as (_ & _ & D & V). pose proof (can_write_live _ _ _ CW) as L.
  destruct (live_wf m out L) as [_ Nn].
  assert (Ls : Forall (live m out) (c0 :: cs)) by (eapply Forall_impl; [|exact CR]; intros c; apply can_read_live).
  pose (Inv := fun (pre : list (list Z)) (s : unit * mem T) =>
    (same_cells m (snd s) /\ (forall p, (forall js, In js pre -> p <> elem out js) -> cell (snd s) p = cell m p)) /\
    forall is_ vs v m2, In is_ pre -> Forall2 (fun c v => value m c is_ v) (c0 :: cs) vs -> f vs m = Ok (v, m2) -> value (snd s) out is_ v).
  match goal with |- exists m', transform_use f out c0 cs m = Ok m' /\ _ => unfold transform_use, run_map end.
  match goal with |- context [map_containers ?b out (c0 :: cs) (tt, m)] => destruct (map_containers_ind b out (c0 :: cs) m Inv (tt, m)) as ([[] m'] & E & (Sm & Fr) & H) end.
  - exact L.
  - exact Ls.
  - intros pre s H. apply H.
  - split; [split; [apply same_refl|reflexivity]|]. intros is_ vs v m2 [].
  - intros pre is_ post [[] m1] Eb ((Sm & Fr) & Hp). cbn [snd] in *.
    destruct (box_split_notin _ _ _ _ Nn Eb) as (Nc & B & Pb).
    destruct (mapM_load m out is_ (c0 :: cs) B CR) as (vs & El & Hv).
    assert (Hv1 : Forall2 (fun c v => value m1 c is_ v) (c0 :: cs) vs).
    { clear - Hv NA Fr B Pb. induction Hv as [|c v l vs Hc _ IH]; [constructor|]. inversion NA as [|? ? Na NA']; subst.
      constructor; [|apply IH; exact NA']. unfold value, peek in *. rewrite Fr; [exact Hc|]. intros js Hj.
      destruct (Pb js Hj) as [Bj Nj]. apply Na; [exact B|exact Bj|congruence]. }
    destruct (Okf is_ vs B Hv) as (v & m2 & Ev).
    assert (Ev1 : f vs m1 = Ok (v, m1)).
    { apply (Rd vs m m1 v m2); [|exact Ev]. intros p Hp1. apply Fr. intros js Hj. apply Hp1. apply Pb. exact Hj. }
    cbn [map]. change (elem c0 is_ :: map (fun c => elem c is_) cs) with (map (fun c => elem c is_) (c0 :: cs)).
    rewrite (mapM_load_unique m1 is_ (c0 :: cs) vs Hv1), bind_ok, Ev1, bind_ok. cbn [fst snd]. unfold assign. cbn [snd].
    assert (Vc : cell m1 (elem out is_) <> None) by (apply Sm, V, B).
    rewrite store_valid by exact Vc. rewrite bind_ok. eexists. split; [reflexivity|]. unfold Inv. cbn [snd]. split; [split|].
    + apply same_upd. exact Sm.
    + intros p Hp1. rewrite cell_upd_other; [|intros E; apply (Hp1 is_); [apply in_or_app; right; left; reflexivity|symmetry; exact E]].
      apply Fr. intros js Hj. apply Hp1. apply in_or_app. left. exact Hj.
    + intros js ws w m3 Ij Hw Ew. apply in_app_or in Ij. destruct Ij as [Ij|[<-|[]]].
      * destruct (Pb js Ij) as [Bj Nj]. unfold value. rewrite peek_upd_other; [exact (Hp js ws w m3 Ij Hw Ew)|].
        intros E. apply D in E; [congruence|exact B|exact Bj].
      * assert (ws = vs).
        { pose proof (mapM_load_unique m is_ (c0 :: cs) ws Hw) as E1. rewrite (mapM_load_unique m is_ (c0 :: cs) vs Hv) in E1. congruence. }
        subst ws. rewrite Ev in Ew. injection Ew as -> ->. unfold value. apply peek_upd_same. exact Vc.
  - exists m'. cbn [snd] in *. rewrite E, bind_ok. cbn [snd]. split; [reflexivity|].
    split; [split; [exact Sm|]|].
    + intros p Hp. apply Fr. intros js Hj. apply Hp. apply box_In. exact Hj.
    + intros is_ vs v m2 B. apply H. apply box_In. exact B.
Qed.
