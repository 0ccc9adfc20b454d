From Coq Require Import ZArith Ascii String Decimal DecimalString DecimalPos DecimalZ DecimalFacts List Bool Lia.
From Verif Require Import Outcome CInt CIntFacts EndRatio EndRatioSpec EndRatioFacts Output OutputSpec OutputFacts OutputFacts2
  SliceText SliceTextSpec SliceTextFacts.
Import ListNotations.
Open Scope Z_scope.
Notation off t := (cval (nint (t_off t))).
Notation fac t := (cval (nint (t_fac t))).
Notation dvs t := (cval (nint (t_div t))).

(** The digits at the start of a text. *)
Definition digit (c : ascii) : bool :=
  match c with "0" | "1" | "2" | "3" | "4" | "5" | "6" | "7" | "8" | "9" => true | _ => false end%char.
Fixpoint all_digits (s : string) : bool :=
  match s with EmptyString => true | String c s => digit c && all_digits s end.
Definition stops (s : string) : Prop :=
  match s with EmptyString => True | String c _ => digit c = false end.

Lemma digits_split a b x y : all_digits a = true -> all_digits b = true -> stops x -> stops y ->
  (a ++ x = b ++ y)%string -> a = b /\ x = y.
Proof.
  revert b. induction a as [|c a IH]; intros [|d b] A B X Y E; cbn [append all_digits] in *.
  - auto.
  - subst x. cbn in X. rewrite X in B. discriminate.
  - subst y. cbn in Y. rewrite Y in A. discriminate.
  - injection E as -> E. apply andb_prop in A, B.
    destruct (IH b (proj2 A) (proj2 B) X Y E) as [-> ->]. auto.
Qed.

Lemma uint_digits d : all_digits (NilEmpty.string_of_uint d) = true.
Proof. induction d; cbn; auto. Qed.
Lemma uint_digits0 d : all_digits (NilZero.string_of_uint d) = true.
Proof. destruct d; try apply (uint_digits (_ _)). reflexivity. Qed.

Lemma dec_pos z : 0 <= z -> all_digits (dec z) = true.
Proof.
  intros H. unfold dec, NilZero.string_of_int. destruct z as [|p|p]; cbn [Z.to_int]; try apply uint_digits0. lia.
Qed.
Lemma dec_neg z : z < 0 -> exists s, dec z = String "-" s /\ all_digits s = true.
Proof.
  intros H. unfold dec, NilZero.string_of_int. destruct z as [|p|p]; cbn [Z.to_int]; try lia.
  eexists. split; [reflexivity|apply uint_digits0].
Qed.
Lemma dec_head z : 0 <= z -> exists c s, dec z = String c s /\ digit c = true.
Proof.
  intros H. pose proof (dec_pos z H) as D. destruct (dec z) as [|c s] eqn:E; [destruct (dec_not_empty z E)|].
  cbn in D. apply andb_prop in D. exists c, s. tauto.
Qed.

Lemma dec_split a b x y : stops x -> stops y -> (dec a ++ x = dec b ++ y)%string -> a = b /\ x = y.
Proof.
  intros X Y E. destruct (Z.neg_nonneg_cases a) as [A|A], (Z.neg_nonneg_cases b) as [B|B].
  - destruct (dec_neg a A) as (s & Ea & Da), (dec_neg b B) as (t & Eb & Db). rewrite Ea, Eb in E.
    cbn [append] in E. injection E as E. destruct (digits_split s t x y Da Db X Y E) as [-> ->].
    split; [|reflexivity]. apply dec_inj. congruence.
  - destruct (dec_neg a A) as (s & Ea & Da), (dec_head b B) as (c & t & Eb & Db). rewrite Ea, Eb in E.
    cbn [append] in E. injection E as <- _. discriminate.
  - destruct (dec_neg b B) as (s & Ea & Da), (dec_head a A) as (c & t & Eb & Db). rewrite Ea, Eb in E.
    cbn [append] in E. injection E as -> _. discriminate.
  - destruct (digits_split _ _ x y (dec_pos a A) (dec_pos b B) X Y E) as [G ->]. split; [apply dec_inj; exact G|reflexivity].
Qed.

Definition tail_text (t : tend) : string :=
  (if (off t =? 0)%Z then "" else (if (0 <=? off t)%Z then "+" else "") ++ dec (off t) ++ suffix (t_off t))%string.
Definition over_text (t : tend) : string :=
  (if (dvs t =? 1)%Z then "" else "/" ++ dec (dvs t) ++ suffix (t_div t))%string.

Definition signed_start (s : string) : Prop :=
  match s with EmptyString => True | String c _ => c = "+"%char \/ c = "-"%char end.
Lemma tail_start t : signed_start (tail_text t).
Proof.
  unfold tail_text. destruct (Z.eqb_spec (off t) 0); [exact I|]. destruct (Z.leb_spec 0 (off t)).
  - cbn. auto.
  - destruct (dec_neg (off t)) as (s & -> & _); [lia|]. cbn. auto.
Qed.
Lemma signed_stops s : signed_start s -> stops s.
Proof. destruct s as [|c s]; [exact id|]. cbn. intros [->| ->]; reflexivity. Qed.
Lemma suffix_stops a s : stops s -> stops (suffix a ++ s)%string.
Proof. unfold suffix. destruct (is_fixed a); [reflexivity|exact id]. Qed.
Lemma suffix_signed a b x y : signed_start x -> signed_start y -> (suffix a ++ x = suffix b ++ y)%string -> x = y.
Proof.
  unfold suffix. intros X Y E. destruct (is_fixed a), (is_fixed b); cbn [append] in E.
  - injection E as ->. reflexivity.
  - subst y. cbn in Y. destruct Y; discriminate.
  - subst x. cbn in X. destruct X; discriminate.
  - exact E.
Qed.

Lemma tail_inj t u : tail_text t = tail_text u -> off t = off u.
Proof.
  unfold tail_text. destruct (Z.eqb_spec (off t) 0) as [A|A], (Z.eqb_spec (off u) 0) as [B|B]; intros E.
  - congruence.
  - destruct (Z.leb_spec 0 (off u)); [discriminate|]. destruct (dec_neg (off u)) as (s & R & _); [lia|]. rewrite R in E. discriminate.
  - destruct (Z.leb_spec 0 (off t)); [discriminate|]. destruct (dec_neg (off t)) as (s & R & _); [lia|]. rewrite R in E. discriminate.
  - assert (X : forall a, stops (suffix a)) by (intros a; unfold suffix; destruct (is_fixed a); [reflexivity|exact I]).
    destruct (Z.leb_spec 0 (off t)) as [C|C], (Z.leb_spec 0 (off u)) as [D|D]; cbn [append] in E.
    + injection E as E. exact (proj1 (dec_split _ _ _ _ (X _) (X _) E)).
    + destruct (dec_neg (off u)) as (s & R & _); [lia|]. rewrite R in E. discriminate.
    + destruct (dec_neg (off t)) as (s & R & _); [lia|]. rewrite R in E. discriminate.
    + exact (proj1 (dec_split _ _ _ _ (X _) (X _) E)).
Qed.

Lemma over_inj t u : (over_text t ++ tail_text t = over_text u ++ tail_text u)%string ->
  dvs t = dvs u /\ tail_text t = tail_text u.
Proof.
  pose proof (tail_start t) as St. pose proof (tail_start u) as Su.
  unfold over_text. destruct (Z.eqb_spec (dvs t) 1) as [A|A], (Z.eqb_spec (dvs u) 1) as [B|B]; intros E; cbn [append] in E.
  - split; congruence.
  - rewrite E in St. cbn in St. destruct St; discriminate.
  - rewrite <- E in Su. cbn in Su. destruct Su; discriminate.
  - injection E as E. rewrite !sapp_assoc in E.
    destruct (dec_split _ _ _ _ (suffix_stops _ _ (signed_stops _ St)) (suffix_stops _ _ (signed_stops _ Su)) E) as [-> E2].
    split; [reflexivity|exact (suffix_signed _ _ _ _ St Su E2)].
Qed.

Lemma fac_start t x : (fac t =? 1) = false ->
  exists c s, ((dec (fac t) ++ suffix (t_fac t) ++ " * end") ++ x)%string = String c s /\ c <> "e"%char.
Proof.
  intros _. destruct (Z.neg_nonneg_cases (fac t)) as [A|A].
  - destruct (dec_neg _ A) as (s & -> & _). eexists _, _. split; [reflexivity|discriminate].
  - destruct (dec_head _ A) as (c & s & -> & D). eexists _, _. split; [reflexivity|]. intros ->. discriminate.
Qed.

Lemma print_end_inj t u : fine t -> fine u -> print_end t = print_end u ->
  fac t = fac u /\ dvs t = dvs u /\ off t = off u.
Proof.
  intros F G E. rewrite (print_end_text t F), (print_end_text u G) in E.
  fold (over_text t) (over_text u) (tail_text t) (tail_text u) in E.
  assert (X : fac t = fac u /\ (over_text t ++ tail_text t = over_text u ++ tail_text u)%string).
  { destruct (fac t =? 1) eqn:A, (fac u =? 1) eqn:B.
    - apply Z.eqb_eq in A, B. split; [congruence|]. injection E as E. exact E.
    - destruct (fac_start u (over_text u ++ tail_text u)%string B) as (c & s & R & N). rewrite R in E. cbn in E. injection E as <- _. congruence.
    - destruct (fac_start t (over_text t ++ tail_text t)%string A) as (c & s & R & N). rewrite R in E. cbn in E. injection E as -> _. congruence.
    - rewrite !sapp_assoc in E.
      assert (P : forall k (s : string), stops (suffix k ++ " * end" ++ s)%string) by (intros; apply suffix_stops; reflexivity).
      destruct (dec_split _ _ _ _ (P _ _) (P _ _) E) as [-> E2]. split; [reflexivity|].
      unfold suffix in E2. destruct (is_fixed (t_fac t)), (is_fixed (t_fac u)); cbn in E2; try discriminate; injection E2 as E2; exact E2. }
  destruct X as [X Y]. destruct (over_inj t u Y) as [D T]. split; [exact X|]. split; [exact D|exact (tail_inj t u T)].
Qed.

Lemma end_text_tells_l d e t u n x y : sgn_expr (plain d) -> sgn_expr (plain e) -> tbuild d = Ok t -> tbuild e = Ok u ->
  print_end t = print_end u -> sgn_ty n -> end_value (plain d) n = Ok x -> end_value (plain e) n = Ok y -> cval x = cval y.
Proof.
  intros Sd Se Bd Be E Sn X Y.
  destruct (tbuild_fine d t Sd Bd) as [F _], (tbuild_fine e u Se Be) as [G _].
  destruct (print_end_inj t u F G E) as (E1 & E2 & E3).
  unfold end_value in X, Y. rewrite (tbuild_bare d t Bd) in X. rewrite (tbuild_bare e u Be) in Y. cbn [bind] in X, Y.
  destruct F as (_ & A1 & A2 & A3), G as (_ & B1 & B2 & B3).
  destruct (end_size_exact t n x A1 A2 A3 Sn X) as [_ ->]. destruct (end_size_exact u n y B1 B2 B3 Sn Y) as [_ ->].
  rewrite E1, E2, E3. reflexivity.
Qed.
