(** Facts about the transitivity of shape equality, for property C09, continued. *)
From Coq Require Import ZArith List Bool Lia.
From Verif Require Import Outcome CInt CIntFacts Spec SpecFacts ShapeSpec Shape ShapeFacts ShapeFacts2.
Import ListNotations.
Open Scope Z_scope.

Lemma firstn_more {A} i : forall k (l : list A), firstn (k + i) l = firstn k l ++ firstn i (skipn k l).
Proof. induction k as [|k IH]; intros [|x l]; cbn; rewrite ?firstn_nil; try reflexivity. f_equal. apply IH. Qed.
Lemma skipn_more {A} i : forall k (l : list A), skipn (k + i) l = skipn i (skipn k l).
Proof. induction k as [|k IH]; intros [|x l]; cbn; rewrite ?skipn_nil; try reflexivity. apply IH. Qed.

Lemma merge_merge i k ns : merge_axes (S i) (merge_axes k ns) = merge_axes (k + i) ns.
Proof.
  unfold merge_axes. cbn [firstn skipn]. rewrite prod_cons, firstn_more, prod_app, skipn_more. reflexivity.
Qed.

(** To order [p] through order [q]. *)
Lemma merge_through p q ns : (1 <= p <= q)%nat -> (q <= length ns)%nat ->
  merge_axes (length ns - p + 1) ns = merge_axes (q - p + 1) (merge_axes (length ns - q + 1) ns).
Proof. intros H1 H2. replace (q - p + 1)%nat with (S (q - p)) by lia. rewrite merge_merge. f_equal. lia. Qed.

Lemma vals_len s : length (vals s) = length s.
Proof. apply map_length. Qed.

Lemma eq_order a b : legal a -> legal b -> a <> [] -> b <> [] ->
  (shape_eq a b = Ok true <-> merge_axes (length a - Nat.min (length a) (length b) + 1) (vals a)
                            = merge_axes (length b - Nat.min (length a) (length b) + 1) (vals b)) /\
  (shape_eq a b = Ok true \/ shape_eq a b = Ok false).
Proof.
  intros La Lb Na Nb. destruct (shape_eq_ok a b La Lb Na Nb) as (r & E & H). rewrite E. split.
  - rewrite <- H. split; [intros X; injection X; auto|intros ->; reflexivity].
  - destruct r; auto.
Qed.

Lemma eq_trans_l a b c : legal a -> legal b -> legal c -> a <> [] -> b <> [] -> c <> [] ->
  (Nat.min (length a) (length c) <= length b)%nat -> shape_eq a b = Ok true -> shape_eq b c = Ok true -> shape_eq a c = Ok true.
Proof.
  intros La Lb Lc Na Nb Nc H Eab Ebc.
  apply (proj1 (eq_order a b La Lb Na Nb)) in Eab. apply (proj1 (eq_order b c Lb Lc Nb Nc)) in Ebc.
  apply (proj1 (eq_order a c La Lc Na Nc)).
  assert (Pa : (1 <= length a)%nat) by (destruct a; [congruence|cbn; lia]).
  assert (Pb : (1 <= length b)%nat) by (destruct b; [congruence|cbn; lia]).
  assert (Pc : (1 <= length c)%nat) by (destruct c; [congruence|cbn; lia]).
  set (p := Nat.min (length a) (length c)) in *.
  set (q := Nat.min (length a) (length b)) in *. set (r := Nat.min (length b) (length c)) in *.
  pose proof (vals_len a) as Va. pose proof (vals_len b) as Vb. pose proof (vals_len c) as Vc.
  pose proof (merge_through p q (vals a) ltac:(lia) ltac:(lia)) as Ma.
  pose proof (merge_through p q (vals b) ltac:(lia) ltac:(lia)) as Mb.
  pose proof (merge_through p r (vals b) ltac:(lia) ltac:(lia)) as Mb'.
  pose proof (merge_through p r (vals c) ltac:(lia) ltac:(lia)) as Mc.
  rewrite Va in Ma. rewrite Vb in Mb, Mb'. rewrite Vc in Mc. congruence.
Qed.

(** A flat shape equals every shape with as many elements. *)
Lemma eq_flat_l a n : legal a -> a <> [] -> wfc n -> cval n = prod (vals a) -> shape_eq a [n] = Ok true /\ shape_eq [n] a = Ok true.
Proof.
  intros La Na Wn En.
  assert (Pa : (1 <= length a)%nat) by (destruct a; [congruence|cbn; lia]).
  pose proof (legal_prod a La) as Hp.
  assert (Ln : legal [n]).
  { split; [constructor; [exact Wn|constructor]|]. cbn [vals map]. split; [constructor; [lia|constructor]|].
    rewrite posprod_cons. change (posprod []) with 1. rewrite En, Z.mul_1_r. unfold max31 in Hp. lia. }
  assert (E : merge_axes (length a - 1 + 1) (vals a) = merge_axes 1 (vals [n])).
  { replace (length a - 1 + 1)%nat with (length (vals a)) by (rewrite vals_len; lia).
    unfold merge_axes. rewrite firstn_all, skipn_all. cbn. f_equal. rewrite En. change (prod [prod (vals a)]) with (prod (vals a) * 1). lia. }
  split.
  - apply (proj1 (eq_order a [n] La Ln Na ltac:(discriminate))).
    replace (Nat.min (length a) (length [n])) with 1%nat by (cbn [length]; lia). exact E.
  - apply (proj1 (eq_order [n] a Ln La ltac:(discriminate) Na)).
    replace (Nat.min (length [n]) (length a)) with 1%nat by (cbn [length]; lia). symmetry. exact E.
Qed.

Lemma eq_not_trans_l a c n : legal a -> legal c -> a <> [] -> length a = length c -> vals a <> vals c ->
  prod (vals a) = prod (vals c) -> wfc n -> cval n = prod (vals a) ->
  shape_eq a [n] = Ok true /\ shape_eq [n] c = Ok true /\ shape_eq a c = Ok false.
Proof.
  intros La Lc Na Hl Hv Hp Wn En. split; [apply eq_flat_l; assumption|]. split.
  - apply eq_flat_l; [assumption| |assumption|congruence]. intros ->. destruct a; [congruence|discriminate].
  - destruct (shape_eq_same_order a c La Lc Na Hl) as (r & E & H). rewrite E. f_equal. destruct r; [|reflexivity].
    exfalso. apply Hv, H. reflexivity.
Qed.
