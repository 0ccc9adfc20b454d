From Coq Require Import ZArith Ascii String Decimal DecimalString List Bool Lia.
From Verif Require Import Outcome CInt CIntFacts Spec SpecFacts ShapeSpec Shape Prefilled PrefilledSpec PrefilledFacts
  Output OutputSpec OutputFacts OutputFacts2 SliceText Stream StreamSpec.
Import ListNotations.
Open Scope Z_scope.

(** ** Filling *)
Lemma fills_filling f n : fills (f_fill f) (f_width f - n) = filling f n.
Proof.
  unfold filling. rewrite concat_cat. generalize (f_width f - n)%nat. intros k.
  induction k as [|k IH]; [reflexivity|]. cbn [fills repeat]. unfold cat in *. cbn [fold_right append]. rewrite IH. reflexivity.
Qed.

Lemma pad_widened f x : pad f "" x = widened f x.
Proof.
  unfold pad, widened. cbn [String.length Nat.add]. rewrite fills_filling. destruct (f_adjust f); reflexivity.
Qed.

Lemma pad_zero f a b : f_width f = 0%nat -> pad f a b = (a ++ b)%string.
Proof. intros W. unfold pad. rewrite W. cbn [Nat.sub fills]. rewrite sapp_nil. destruct (f_adjust f); reflexivity. Qed.

Lemma widened_used f x : widened (used f) x = x.
Proof. rewrite <- pad_widened. apply pad_zero. reflexivity. Qed.

Lemma used_used f : used (used f) = used f. Proof. reflexivity. Qed.
Lemma used_zero f : f_width f = 0%nat -> used f = f.
Proof. destruct f. cbn. intros ->. reflexivity. Qed.

(** ** Integers without width *)
Definition num_text (f : fmt) (t : ity) (z : Z) : string := (fst (int_parts f t z) ++ snd (int_parts f t z))%string.

Lemma int_parts_used f t z : int_parts (used f) t z = int_parts f t z.
Proof. reflexivity. Qed.
Lemma num_text_used f t z : num_text (used f) t z = num_text f t z.
Proof. reflexivity. Qed.

Definition byte (t : ity) : bool := match t with I8 | U8 => true | _ => false end.
Lemma byte_promote t : byte (promote t) = false. Proof. destruct t; reflexivity. Qed.

Lemma insert_int s f t z : byte t = false -> insert (s, f) (PInt t z) =
  ((s ++ pad f (fst (int_parts f t z)) (snd (int_parts f t z)))%string, used f).
Proof. intros B. cbn [insert]. destruct (int_parts f t z). destruct t; try discriminate B; reflexivity. Qed.

Lemma insert_int_used s f t z : byte t = false -> insert (s, used f) (PInt t z) = ((s ++ num_text f t z)%string, used f).
Proof. intros B. rewrite insert_int by exact B. rewrite pad_zero by reflexivity. reflexivity. Qed.

Lemma insert_text s f x : insert (s, f) (PText x) = ((s ++ widened f x)%string, used f).
Proof. cbn [insert]. rewrite pad_widened. reflexivity. Qed.

Lemma insert_text_used s f x : insert (s, used f) (PText x) = ((s ++ x)%string, used f).
Proof. rewrite insert_text, widened_used. reflexivity. Qed.

Lemma inserts_cons o p ps : inserts o (p :: ps) = inserts (insert o p) ps. Proof. reflexivity. Qed.
Lemma inserts_app o ps qs : inserts o (ps ++ qs) = inserts (inserts o ps) qs.
Proof. unfold inserts. apply fold_left_app. Qed.

(** ** Digits *)
Lemma read_app b x y acc : read_digits b (x ++ y) acc = read_digits b y (read_digits b x acc).
Proof. revert acc. induction x as [|c x IH]; intros acc; [reflexivity|]. cbn [append read_digits]. apply IH. Qed.

Lemma digit_value_char up d : 0 <= d < 16 -> digit_value (digit_char up d) = d.
Proof.
  intros H. assert (C : d = 0 \/ d = 1 \/ d = 2 \/ d = 3 \/ d = 4 \/ d = 5 \/ d = 6 \/ d = 7 \/ d = 8 \/ d = 9 \/ d = 10 \/
    d = 11 \/ d = 12 \/ d = 13 \/ d = 14 \/ d = 15) by lia.
  repeat (destruct C as [->|C]; [destruct up; reflexivity|]). subst d. destruct up; reflexivity.
Qed.

Lemma digit_char_in up d : 0 <= d < 16 -> In (digit_char up d) in_numerals.
Proof.
  intros H. assert (C : d = 0 \/ d = 1 \/ d = 2 \/ d = 3 \/ d = 4 \/ d = 5 \/ d = 6 \/ d = 7 \/ d = 8 \/ d = 9 \/ d = 10 \/
    d = 11 \/ d = 12 \/ d = 13 \/ d = 14 \/ d = 15) by lia.
  repeat (destruct C as [->|C]; [destruct up; cbv; tauto|]). subst d. destruct up; cbv; tauto.
Qed.

Lemma put_digits_read up b : 2 <= b <= 16 -> forall fuel n acc, (1 <= fuel)%nat -> 0 <= n < 2 ^ Z.of_nat fuel ->
  read_digits b (put_digits up b fuel n acc) 0 = read_digits b acc n.
Proof.
  intros Hb. induction fuel as [|k IH]; intros n acc F H; [lia|]. cbn [put_digits].
  pose proof (Z.mod_pos_bound n b ltac:(lia)) as M. pose proof (Z.div_mod n b ltac:(lia)) as D.
  assert (Q : 0 <= n / b) by (apply Z.div_pos; lia).
  destruct (Z.eqb_spec (n / b) 0) as [E|E].
  - cbn [read_digits]. rewrite digit_value_char by lia. f_equal. nia.
  - rewrite Nat2Z.inj_succ, Z.pow_succ_r in H by lia.
    assert (H2 : n / b < 2 ^ Z.of_nat k). { apply Z.div_lt_upper_bound; [lia|]. nia. }
    destruct k as [|k]; [change (2 ^ Z.of_nat 0) with 1 in H2; lia|].
    rewrite IH by lia. cbn [read_digits]. rewrite digit_value_char by lia. f_equal. nia.
Qed.

Lemma in_base_read up b n : 2 <= b <= 16 -> 0 <= n -> read_digits b (in_base up b n) 0 = n.
Proof.
  intros Hb Hn. unfold in_base. rewrite put_digits_read; [reflexivity|exact Hb|lia|].
  rewrite Nat2Z.inj_succ, Z2Nat.id by apply Z.log2_nonneg. split; [exact Hn|].
  destruct (Z.eq_dec n 0) as [->|N]; [reflexivity|]. apply Z.log2_spec. lia.
Qed.

Lemma free_cons c x s : free c (String x s) <-> x <> c /\ free c s. Proof. reflexivity. Qed.

Lemma put_digits_free up b c : 2 <= b <= 16 -> ~ In c in_numerals -> forall fuel n acc, free c acc -> free c (put_digits up b fuel n acc).
Proof.
  intros Hb Hc. induction fuel as [|k IH]; intros n acc F; [exact F|]. cbn [put_digits].
  assert (F' : free c (String (digit_char up (n mod b)) acc)).
  { split; [|exact F]. intros <-. apply Hc, digit_char_in. pose proof (Z.mod_pos_bound n b ltac:(lia)). lia. }
  destruct (n / b =? 0); [exact F'|]. apply IH, F'.
Qed.

Lemma numerals_digits c : ~ In c in_numerals -> ~ In c digits.
Proof. intros H I. apply H. cbv in I. cbv. tauto. Qed.

Lemma num_text_free f t z c : ~ In c in_numerals -> free c (num_text f t z).
Proof.
  intros H. unfold num_text, int_parts.
  assert (X : forall x, In x in_numerals -> x <> c) by (intros x I ->; contradiction).
  destruct (f_base f); cbn [fst snd]; apply free_app; split.
  - destruct (z <? 0); [split; [apply X; cbv; tauto|exact I]|].
    destruct (f_pos f && is_signed t); [split; [apply X; cbv; tauto|exact I]|exact I].
  - apply free_dec, numerals_digits, H.
  - exact I.
  - apply free_app. split; [|apply put_digits_free; [lia|exact H|exact I]].
    destruct (f_showbase f && _); [split; [apply X; cbv; tauto|exact I]|exact I].
  - destruct (f_showbase f && _); [|exact I]. destruct (f_upper f); repeat split; apply X; cbv; tauto.
  - apply put_digits_free; [lia|exact H|exact I].
Qed.

Lemma in_base_not_empty up b n : in_base up b n <> ""%string.
Proof.
  unfold in_base. assert (G : forall k n acc, acc <> ""%string -> put_digits up b k n acc <> ""%string).
  { induction k as [|k IH]; intros m acc A; [exact A|]. cbn [put_digits]. destruct (_ =? 0); [discriminate|]. apply IH. discriminate. }
  cbn [put_digits]. destruct (_ =? 0); [discriminate|]. apply G. discriminate.
Qed.

Lemma sapp_empty a b : (a ++ b = "")%string -> a = ""%string /\ b = ""%string.
Proof. destruct a; [auto|discriminate]. Qed.

Lemma num_text_not_empty f t z : num_text f t z <> ""%string.
Proof.
  intros E. unfold num_text, int_parts in E. apply sapp_empty in E as [_ E]. destruct (f_base f); cbn [snd] in E.
  - exact (dec_not_empty _ E).
  - apply sapp_empty in E as [_ E]. exact (in_base_not_empty _ _ _ E).
  - exact (in_base_not_empty _ _ _ E).
Qed.

(** ** Numbers are told apart *)
Lemma dec_free_nonneg c z : 0 <= z -> ~ In c (list_ascii_of_string "0123456789") -> free c (dec z).
Proof.
  intros Hz H.
  assert (U : forall d, free c (NilEmpty.string_of_uint d)).
  { intros d. induction d; cbn; try exact I; (split; [intros <-; apply H; cbn; tauto|assumption]). }
  unfold dec, NilZero.string_of_int, NilZero.string_of_uint. destruct z as [|p|p]; [| |lia]; cbn [Z.to_int].
  - cbn. split; [intros <-; apply H; cbn; tauto|exact I].
  - destruct (Pos.to_uint p) eqn:E; rewrite <- ?E; try (cbn; split; [intros <-; apply H; cbn; tauto|exact I]); apply U.
Qed.

Lemma dec_abs z : dec z = ((if (z <? 0)%Z then "-" else "") ++ dec (Z.abs z))%string.
Proof.
  destruct z; reflexivity.
Qed.

Definition shown_sign (f : fmt) (t : ity) : bool := f_pos f && is_signed t.

Lemma dec_text_inj f t t' z z' : f_base f = BDec -> num_text f t z = num_text f t' z' ->
  z = z' /\ (0 <= z -> shown_sign f t = shown_sign f t').
Proof.
  intros B. unfold num_text, int_parts. rewrite B. cbn [fst snd]. fold (shown_sign f t). fold (shown_sign f t').
  assert (P : forall x, free "+" (dec (Z.abs x))) by (intros; apply dec_free_nonneg; [lia|cbn; intros H; repeat (destruct H as [H|H]; [discriminate|]); contradiction]).
  assert (M : forall x, free "-" (dec (Z.abs x))) by (intros; apply dec_free_nonneg; [lia|cbn; intros H; repeat (destruct H as [H|H]; [discriminate|]); contradiction]).
  assert (HP : forall x y, dec (Z.abs x) = String "+" y -> False) by (intros x y E; specialize (P x); rewrite E in P; destruct P; congruence).
  assert (HM : forall x y, dec (Z.abs x) = String "-" y -> False) by (intros x y E; specialize (M x); rewrite E in M; destruct M; congruence).
  destruct (Z.ltb_spec z 0), (Z.ltb_spec z' 0); destruct (shown_sign f t), (shown_sign f t'); cbn [append]; intros E;
    try discriminate E;
    try (exfalso; first [exact (HP _ _ E)|exact (HM _ _ E)|exact (HP _ _ (eq_sym E))|exact (HM _ _ (eq_sym E))]);
    try (injection E as E); apply dec_inj in E; split; try lia; intros; lia || reflexivity.
Qed.

Lemma based_text_inj f t t' z z' : f_base f <> BDec -> 0 < modulus t -> 0 < modulus t' -> num_text f t z = num_text f t' z' ->
  z mod modulus t = z' mod modulus t'.
Proof.
  intros B M M'. unfold num_text, int_parts.
  pose proof (Z.mod_pos_bound z _ M) as H. pose proof (Z.mod_pos_bound z' _ M') as H'.
  set (n := z mod modulus t) in *. set (n' := z' mod modulus t') in *. clearbody n n'.
  destruct (f_base f); [contradiction| |]; cbn [fst snd append]; intros E.
  - assert (R : forall k, 0 <= k -> read_digits 8 ((if (f_showbase f && negb (k =? 0)%Z)%bool then "0" else "") ++ in_base (f_upper f) 8 k) 0 = k).
    { intros k K. rewrite read_app. destruct (f_showbase f && negb (k =? 0)); cbn [read_digits]; change (0 * 8 + digit_value "0") with 0;
        apply in_base_read; lia. }
    rewrite <- (R n) by lia. rewrite <- (R n') by lia. rewrite E. reflexivity.
  - assert (R : forall k k', 0 <= k -> 0 <= k' -> in_base (f_upper f) 16 k = in_base (f_upper f) 16 k' -> k = k').
    { intros k k' K K' X. rewrite <- (in_base_read (f_upper f) 16 k) by lia. rewrite X. apply in_base_read; lia. }
    assert (Z0 : in_base (f_upper f) 16 0 = "0"%string) by (destruct (f_upper f); reflexivity).
    destruct (f_showbase f); cbn [andb] in E; [|apply R in E; lia].
    destruct (Z.eqb_spec n 0) as [->|N], (Z.eqb_spec n' 0) as [->|N']; cbn [negb append] in E.
    + reflexivity.
    + rewrite Z0 in E. destruct (f_upper f); discriminate E.
    + rewrite Z0 in E. destruct (f_upper f); discriminate E.
    + apply R; [lia|lia|]. destruct (f_upper f); injection E as E; exact E.
Qed.

Lemma modulus_pos t : 0 < modulus t. Proof. destruct t; reflexivity. Qed.
Lemma tmax_modulus t z : in_ty t z -> z < modulus t. Proof. unfold in_ty. destruct t; cbn; lia. Qed.

Lemma based_eq t t' z z' : in_ty t z -> in_ty t' z' -> t = t' \/ 0 <= z /\ 0 <= z' ->
  (z mod modulus t = z' mod modulus t' <-> z = z').
Proof.
  intros I I' [<-|[N N']].
  - split; [|intros ->; reflexivity]. intros E.
    assert (D : exists k, z - z' = k * modulus t).
    { exists (z / modulus t - z' / modulus t). pose proof (Z.div_mod z (modulus t) ltac:(pose proof (modulus_pos t); lia)).
      pose proof (Z.div_mod z' (modulus t) ltac:(pose proof (modulus_pos t); lia)). lia. }
    destruct D as [k D]. assert (k = 0); [|lia].
    unfold in_ty in *. destruct t; cbn in *; lia.
  - rewrite !Z.mod_small by (split; [assumption|apply tmax_modulus; assumption]). reflexivity.
Qed.

(** Two numbers in the same format. *)
Definition same_number (f : fmt) (v w : cint) : Prop :=
  cval v = cval w /\ (f_base f = BDec -> f_pos f = true -> is_signed (promote (cty v)) = is_signed (promote (cty w))).

Lemma in_promote v : wfc v -> in_ty (promote (cty v)) (cval v).
Proof. unfold wfc, in_ty. destruct v as [[] z]; cbn; lia. Qed.

Lemma number_iff f v w : wfc v -> wfc w -> (f_base f <> BDec -> comparable v w) ->
  (num_text f (promote (cty v)) (cval v) = num_text f (promote (cty w)) (cval w) <-> same_number f v w).
Proof.
  intros Wv Ww C. apply in_promote in Wv, Ww.
  assert (Dc : {f_base f = BDec} + {f_base f <> BDec}) by (destruct (f_base f); [left; reflexivity|right; discriminate|right; discriminate]).
  destruct Dc as [B|B]; split.
  - intros E. apply dec_text_inj in E; [|exact B]. destruct E as [E1 E2]. split; [exact E1|]. intros _ Ps.
    unfold shown_sign in E2. rewrite Ps in E2. cbn [andb] in E2. destruct (Z.le_gt_cases 0 (cval v)) as [L|L]; [auto|].
    unfold in_ty in *. destruct (cty v), (cty w); cbn in *; try reflexivity; lia.
  - intros [E1 E2]. unfold num_text, int_parts. rewrite B, E1. cbn [fst snd]. do 2 f_equal.
    destruct (f_pos f); [rewrite (E2 B eq_refl)|]; reflexivity.
  - intros E. apply based_text_inj in E; try apply modulus_pos; [|exact B].
    apply based_eq in E; try assumption; [|apply C, B]. split; [exact E|]. intros; contradiction.
  - intros [E1 _]. apply (based_eq _ _ _ _ Wv Ww (C B)) in E1. unfold num_text, int_parts.
    destruct (f_base f); [contradiction| |]; rewrite E1; reflexivity.
Qed.
