(** Proofs about is_similar, the check behind concepts::container (C58). *)
From Coq Require Import ZArith String List Bool Lia.
From Verif Require Import Outcome CInt CIntFacts Prefilled PrefilledSpec PrefilledFacts PrefilledFacts2
  PrefilledFacts3.
Import ListNotations.
Open Scope Z_scope.

Lemma checker_similar e f acc : checker e f false acc = acc && checker e f false true.
Proof.
  unfold checker. destruct (acont e), (acont f); rewrite ?andb_true_r, ?andb_true_l, ?andb_false_r; reflexivity.
Qed.

Lemma similar_cons x a y b : is_similar (x :: a) (y :: b) = is_similar a b && checker x y false true.
Proof.
  unfold is_similar. cbn [length Nat.eqb combine fold_right fst snd].
  destruct (length a =? length b)%nat; [apply checker_similar|reflexivity].
Qed.

Lemma similar_iff_l a : forall b, Forall sane_desc a -> Forall sane_desc b ->
  (is_similar a b = true <-> length a = length b /\
   forall i x y c, nth_error a i = Some x -> nth_error b i = Some y -> acont x = CStatic c ->
     exists c', acont y = CStatic c' /\ cval c' = cval c).
Proof.
  induction a as [|x a IH]; intros [|y b] Sa Sb.
  - split; [|reflexivity]. intros _. split; [reflexivity|]. intros [|i]; discriminate.
  - split; [discriminate|]. intros [H _]. discriminate H.
  - split; [discriminate|]. intros [H _]. discriminate H.
  - inversion Sa as [|? ? Sx Sa']; subst. inversion Sb as [|? ? Sy Sb']; subst.
    rewrite similar_cons, andb_true_iff, (IH b Sa' Sb'). cbn [length]. split.
    + intros [[L H] C]. split; [lia|]. intros [|i] x' y' c Hx Hy Hc; cbn [nth_error] in *.
      * injection Hx as <-. injection Hy as <-. unfold checker in C. rewrite Hc in C.
        destruct (acont y) as [| |c'] eqn:Y; try discriminate. exists c'. split; [reflexivity|].
        unfold sane_desc in *. rewrite Hc in Sx. rewrite Y in Sy. cbn [andb] in C.
        rewrite sane_eqb in C by assumption. apply Z.eqb_eq in C. lia.
      * exact (H i x' y' c Hx Hy Hc).
    + intros [L H]. split.
      * split; [lia|]. intros i x' y' c. exact (H (S i) x' y' c).
      * unfold checker. destruct (acont x) as [| |c] eqn:X; try reflexivity.
        destruct (H O x y c eq_refl eq_refl X) as (c' & Y & E). rewrite Y. cbn [andb].
        unfold sane_desc in *. rewrite X in Sx. rewrite Y in Sy. rewrite sane_eqb by assumption.
        apply Z.eqb_eq. lia.
Qed.

Lemma similar_refl_l a : Forall sane_desc a -> is_similar a a = true.
Proof.
  intros S. apply similar_iff_l; [assumption..|]. split; [reflexivity|]. intros i x y c Hx Hy Hc.
  rewrite Hx in Hy. injection Hy as <-. eauto.
Qed.

Lemma similar_trans_l a b c : Forall sane_desc a -> Forall sane_desc b -> Forall sane_desc c ->
  is_similar a b = true -> is_similar b c = true -> is_similar a c = true.
Proof.
  intros Sa Sb Sc. rewrite !similar_iff_l by assumption. intros [L1 H1] [L2 H2]. split; [congruence|].
  intros i x z v Hx Hz Hv.
  destruct (nth_error b i) as [y|] eqn:Hy.
  2:{ apply nth_error_None in Hy. assert (i < length a)%nat by (apply nth_error_Some; congruence). lia. }
  destruct (H1 i x y v Hx Hy Hv) as (w & Hw & E1). destruct (H2 i y z w Hy Hz Hw) as (u & Hu & E2).
  exists u. split; [exact Hu|lia].
Qed.

Lemma similar_converts_l dbg ds src : wfp src -> Forall sane_desc ds -> Forall sane_desc (pdesc src) ->
  (forall vs, to_values src = Ok vs -> Forall sane vs) -> is_similar ds (pdesc src) = true ->
  exists p, pconvert dbg ds src = Ok p /\ wfp p /\
    forall i d v, nth_error ds i = Some d -> pget src i = Ok v ->
      exists w, pget p i = Ok w /\ (in_ty (axis_type d) (cval v) -> cval w = cval v).
Proof.
  intros Hw Sd Ss Sv Hs. apply similar_iff_l in Hs; [|assumption..]. destruct Hs as [L H].
  assert (Hst : forall i d c v, nth_error ds i = Some d -> acont d = CStatic c -> pget src i = Ok v -> cval v = cval c).
  { intros i d c v Hd Hc Hv.
    destruct (nth_error (pdesc src) i) as [y|] eqn:Hy.
    2:{ apply nth_error_None in Hy. assert (i < length ds)%nat by (apply nth_error_Some; congruence). lia. }
    destruct (H i d y c Hd Hy Hc) as (c' & Y & E).
    rewrite pget_ok in Hv by exact Hw. rewrite (nth_static src i y c' Hw Hy Y) in Hv. injection Hv as <-. exact E. }
  destruct (convert_same_order_l dbg ds src Hw (eq_sym L) Sd Sv) as [(_ & _ & i & d & c & v & Hd & Hc & Hv & N)|
    (p & E & D & W & _ & G)].
  - exfalso. apply N. exact (Hst i d c v Hd Hc Hv).
  - exists p. split; [exact E|]. split; [exact W|]. intros i d v Hd Hv. rewrite (G i d v Hd Hv).
    destruct (acont d) as [| |c] eqn:C; (eexists; split; [reflexivity|]).
    + intros R. apply cast_id, R.
    + intros R. apply cast_id, R.
    + intros _. symmetry. exact (Hst i d c v Hd C Hv).
Qed.
