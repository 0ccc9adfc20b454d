(** Facts about literals with separators and prefixes, for property C17, continued. *)
From Coq Require Import ZArith List Bool Lia.
From Verif Require Import Outcome CInt CIntFacts Spec SpecFacts ShapeSpec Literals LiteralsSpec LiteralsFacts.
Import ListNotations.
Open Scope Z_scope.

Lemma b10_range l : forall v, 0 <= v < 18446744073709551616 -> 0 <= b10_from v l < 18446744073709551616.
Proof.
  induction l as [|c l IH]; intros v Hv; cbn [b10_from]; [exact Hv|].
  apply IH. rewrite (cast_U64_mod (_ + _)). apply Z.mod_pos_bound. lia.
Qed.

Lemma b10_any cs : 0 <= decimal (map (fun c => c - 48) cs) < 18446744073709551616 ->
  b10 cs = decimal (map (fun c => c - 48) cs).
Proof.
  intros Hr. set (ds := map (fun c => c - 48) cs) in *.
  assert (E : cs = chars ds).
  { subst ds. unfold chars. rewrite map_map. rewrite <- (map_id cs) at 1. apply map_ext. intros c. lia. }
  pose proof (b10_mod ds 0) as H. unfold b10. rewrite E.
  rewrite (Z.mod_small (b10_from _ _)) in H by (apply b10_range; lia).
  rewrite H, Z.mul_0_l, Z.add_0_l. apply Z.mod_small, Hr.
Qed.

Lemma literal_any_l cs : let w := decimal (map (fun c => c - 48) cs) in
  0 <= w < 18446744073709551616 -> ~ bad_width w -> cval (literal_c cs) = w.
Proof.
  intros w Hw Hb. unfold literal_c. rewrite b10_any by exact Hw. apply clamp_exact_l; assumption.
Qed.

Lemma decimal_app xs ys : decimal (xs ++ ys) = decimal xs * 10 ^ Z.of_nat (length ys) + decimal ys.
Proof.
  induction xs as [|x xs IH]; cbn [app decimal]; [lia|]. rewrite IH, app_length, Nat2Z.inj_add, Z.pow_add_r by lia. ring.
Qed.

Lemma unchars ds : map (fun c => c - 48) (chars ds) = ds.
Proof. unfold chars. rewrite map_map. rewrite <- (map_id ds) at 2. apply map_ext. intros d. lia. Qed.

Lemma literal_separator_l xs ys : Forall digit xs -> Forall digit ys -> 1 <= decimal xs ->
  let w := (decimal xs * 10 - 9) * 10 ^ Z.of_nat (length ys) + decimal ys in
  w < 18446744073709551616 -> ~ bad_width w ->
  cval (literal_c (chars xs ++ 39 :: chars ys)) = w /\ (w = decimal (xs ++ ys) <-> decimal xs = 1) /\ decimal (xs ++ ys) <= w.
Proof.
  intros Hx Hy H1 w Hw Hb. pose proof (pow10_pos (length ys)) as Hp. pose proof (decimal_nonneg ys Hy) as Hn.
  assert (E : decimal (map (fun c => c - 48) (chars xs ++ 39 :: chars ys)) = w).
  { rewrite map_app. cbn [map]. rewrite !unchars. rewrite decimal_app. cbn [length decimal]. rewrite pow10_S. unfold w. ring. }
  split; [|split].
  - rewrite <- E. apply literal_any_l; rewrite E; [split; [unfold w; nia|exact Hw]|exact Hb].
  - rewrite decimal_app. unfold w. split; intros; nia.
  - rewrite decimal_app. unfold w. nia.
Qed.

Lemma literal_prefix_l c ys : 48 <= c -> Forall digit ys ->
  let w := (c - 48) * 10 ^ Z.of_nat (length ys) + decimal ys in
  w < 18446744073709551616 -> ~ bad_width w -> cval (literal_c (48 :: c :: chars ys)) = w.
Proof.
  intros Hc Hy w Hw Hb. pose proof (pow10_pos (length ys)) as Hp. pose proof (decimal_nonneg ys Hy) as Hn.
  assert (E : decimal (map (fun c => c - 48) (48 :: c :: chars ys)) = w).
  { cbn [map]. rewrite unchars. cbn [length decimal]. unfold w. change (48 - 48) with 0. ring. }
  rewrite <- E. apply literal_any_l; rewrite E; [split; [unfold w; nia|exact Hw]|exact Hb].
Qed.
