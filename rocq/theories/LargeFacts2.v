From Coq Require Import ZArith List Bool Lia.
From Verif Require Import Outcome CInt CIntFacts Spec SpecFacts ShapeSpec Shape ShapeFacts ShapeFacts2
  Memory MemFacts Container ContainerSpec ContainerFacts ContainerFacts2 ContainerFacts3 Algo AlgoSpec AlgoFacts4 LargeSpec LargeFacts.
Import ListNotations.
Open Scope Z_scope.
Lemma dot_zeros l k : dot l (repeat 0 k) = 0.
Proof. revert k. induction l as [|x l IH]; intros [|k]; try reflexivity. cbn [repeat dot]. rewrite IH. lia. Qed.
Lemma zeros_box ns : nonnegs ns -> 0 < prod ns -> in_box ns (repeat 0 (length ns)).
Proof.
  induction 1 as [|n ns Hn Hs IH]; intros P; cbn [length repeat]; [constructor|]. rewrite prod_cons in P.
  pose proof (prod_nonneg ns Hs). constructor; [nia|]. apply IH. nia.
Qed.
Lemma large_reverse_l st c rc b o : large_layout c -> c_data c = Ptr b o -> 2147483647 < prod (dims c) -> reverse st c = Ok rc ->
  exists n, numel (c_shape c) = Ok n /\ cval n <= 2147483647 /\
    elem rc (repeat 0 (length (dims c))) = padd (c_data c) (cval n - 1) /\
    elem c (mirror_coord (dims c) (repeat 0 (length (dims c)))) = padd (c_data c) (prod (dims c) - 1) /\
    elem rc (repeat 0 (length (dims c))) <> elem c (mirror_coord (dims c) (repeat 0 (length (dims c)))).
Proof.
  intros D Dt P E. pose proof D as (L & Ne & _). destruct (large_numel _ L Ne) as (n & En & Tn & Wn & _).
  assert (Hn : cval n <= 2147483647) by (unfold wfc, in_ty in Wn; rewrite Tn in Wn; cbn in Wn; lia).
  assert (B : in_box (dims c) (repeat 0 (length (dims c)))) by (apply zeros_box; [apply L|unfold dims in *; lia]).
  assert (E1 : elem rc (repeat 0 (length (dims c))) = padd (c_data c) (cval n - 1)).
  { unfold elem. rewrite dot_zeros. unfold reverse in E. destruct (get_stride c) as [s| | |]; cbn [bind] in E; try discriminate.
    destruct (mapM cneg s) as [ns| | |]; cbn [bind] in E; try discriminate. rewrite En in E. cbn [bind] in E. unfold make_view in E.
    destruct (make_accessor st st (c_shape c) (Some ns)) as [[k s']| | |]; cbn [bind] in E; try discriminate. injection E as <-.
    cbn [c_data]. rewrite Dt. cbn [padd]. f_equal. lia. }
  assert (E2 : elem c (mirror_coord (dims c) (repeat 0 (length (dims c)))) = padd (c_data c) (prod (dims c) - 1)).
  { rewrite large_elem by (try apply mirror_box; assumption). rewrite mirror_rank by exact B. f_equal.
    assert (R : rank (dims c) (repeat 0 (length (dims c))) = 0) by (rewrite rank_dot by (apply in_box_length; exact B); apply dot_zeros). lia. }
  exists n. split; [exact En|]. split; [exact Hn|]. split; [exact E1|]. split; [exact E2|]. rewrite E1, E2, Dt. cbn [padd]. intros X. injection X as X. lia.
Qed.
