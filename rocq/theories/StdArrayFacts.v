(** Facts about containers over nested std::array, for property C18, continued. *)
From Coq Require Import ZArith List Bool Lia Permutation.
From Verif Require Import Outcome CInt CIntFacts Spec SpecFacts ShapeSpec Shape ShapeFacts ShapeFacts2 Literals LiteralsSpec LiteralsFacts.
Import ListNotations.
Open Scope Z_scope.

Lemma posprod_perm a b : Permutation a b -> posprod a = posprod b.
Proof. induction 1; rewrite ?posprod_cons in *; lia. Qed.

Lemma std_array_reads_l a is_ : only_std a -> a <> Elem -> fine_extents a -> posprod (extents a) <= 2147483647 ->
  wfs is_ -> in_box (rev (extents a)) (vals is_) ->
  exists c, linear_index false (array_sizes a) is_ = Ok c /\ cval c = rank (rev (extents a)) (vals is_).
Proof.
  intros Ho Ne F P W B. destruct (std_sizes a Ho F) as [V Ws].
  assert (Lg : legal (array_sizes a)).
  { split; [exact Ws|]. rewrite V. split.
    - unfold nonnegs. apply Forall_rev. eapply Forall_impl; [|exact F]. simpl. intros; lia.
    - rewrite <- (posprod_perm _ _ (Permutation_rev (extents a))). exact P. }
  destruct (linear_index_rank_l false (array_sizes a) is_ Lg) as (c & E & Ec).
  - intros Hn. rewrite Hn in V. cbn in V. destruct a as [|t n|t n]; [contradiction| |contradiction].
    cbn in V. apply (f_equal (@length Z)) in V. rewrite app_length in V. cbn in V. lia.
  - split; [exact W|]. rewrite V. exact B.
  - discriminate.
  - exists c. split; [exact E|]. rewrite Ec, V. reflexivity.
Qed.

Lemma std_array_palindrome_l a is_ : only_std a -> a <> Elem -> fine_extents a -> posprod (extents a) <= 2147483647 ->
  rev (extents a) = extents a -> wfs is_ -> in_box (extents a) (vals is_) ->
  exists c, linear_index false (array_sizes a) is_ = Ok c /\ cval c = mem_offset a (vals is_).
Proof.
  intros Ho Ne F P R W B. destruct (std_array_reads_l a is_ Ho Ne F P W) as (c & E & Ec); [rewrite R; exact B|].
  exists c. split; [exact E|]. rewrite Ec, R, mem_offset_rank; [reflexivity|]. apply in_box_length in B. exact B.
Qed.

Lemma std_array_2d_l n m i j : 0 <= n -> 0 <= m -> ~ bad_width n -> ~ bad_width m ->
  posprod [n; m] <= 2147483647 -> wfc i -> wfc j ->
  let a := StdArray (StdArray Elem m) n in
  0 <= cval i < n -> 0 <= cval i < m -> 0 <= cval j < n -> 0 <= cval j < m ->
  exists c, linear_index false (array_sizes a) [i; j] = Ok c /\ cval c = cval i * n + cval j /\
    (cval c = mem_offset a [cval i; cval j] <-> cval i = 0 \/ n = m).
Proof.
  intros Hn Hm Bn Bm P Wi Wj a I1 I2 J1 J2.
  assert (N : n * m <= 2147483647).
  { rewrite !posprod_cons in P. change (posprod []) with 1 in P. rewrite !Z.max_r in P by lia. lia. }
  assert (F : fine_extents a).
  { repeat constructor; try assumption; nia. }
  destruct (std_array_reads_l a [i; j]) as (c & E & Ec); try assumption.
  - exact Logic.I.
  - discriminate.
  - constructor; [exact Wi|]. constructor; [exact Wj|constructor].
  - cbn. constructor; [exact I2|]. constructor; [exact J1|constructor].
  - exists c. split; [exact E|].
    assert (V : cval c = cval i * n + cval j) by (rewrite Ec; change ((0 * m + cval i) * n + cval j = cval i * n + cval j); lia).
    split; [exact V|]. rewrite V.
    change (cval i * n + cval j = cval i * (m * 1) + (cval j * 1 + 0) <-> cval i = 0 \/ n = m). split; intros; nia.
Qed.
