From Coq Require Import ZArith Ascii String List Bool Lia.
From Verif Require Import Outcome CInt CIntFacts Spec ShapeSpec ShapeFacts EndRatio EndRatioSpec EndRatioFacts Slicer SlicerSpec SlicerFacts
  SlicerFacts2 Output OutputSpec OutputFacts OutputFacts2 SliceText SliceTextSpec SliceTextFacts.
Import ListNotations.
Open Scope Z_scope.

Lemma readable_text a : readable a -> show_num false a = written (is_fixed a) (cval (nint a)).
Proof.
  intros [[_ S] W]. unfold show_num, written. destruct a as [[|] [t v]]; cbn in *.
  - destruct t; cbn in *; try discriminate; reflexivity.
  - destruct W as [W|[W1 W2]]; [discriminate|]. destruct t; cbn in *; try discriminate; congruence.
Qed.
Lemma ratio_text_l n d : readable n -> readable d ->
  print_ratio n d = (written (is_fixed n) (cval (nint n)) ++ "/" ++ written (is_fixed d) (cval (nint d)))%string.
Proof. intros N D. unfold print_ratio. rewrite !readable_text by assumption. reflexivity. Qed.

Lemma nop_fixed f a b c : nop f a b = Ok c -> is_fixed c = is_fixed a && is_fixed b.
Proof. unfold nop. intros H. apply bind_inv in H as (x & _ & H). injection H as <-. reflexivity. Qed.
Lemma nneg_fixed a c : nneg a = Ok c -> is_fixed c = is_fixed a.
Proof. unfold nneg. intros H. apply bind_inv in H as (x & _ & H). injection H as <-. reflexivity. Qed.
Ltac fixeds := repeat match goal with
  | X : nop _ _ _ = Ok _ |- _ => apply nop_fixed in X
  | X : nneg _ = Ok _ |- _ => apply nneg_fixed in X end.
Lemma tbuild_fixed e : forall t, tbuild e = Ok t ->
  is_fixed (t_fac t) = constant_factor e /\ is_fixed (t_div t) = constant_divisor e /\ is_fixed (t_off t) = constant_offset e.
Proof.
  induction e; cbn [tbuild]; intros u H; try (apply bind_inv in H as (t & E & H); specialize (IHe _ E) as (A & B & C)).
  1: injection H as <-; auto.
  all: ops H; fixeds; cbn [t_fac t_div t_off constant_factor constant_divisor constant_offset];
    repeat match goal with X : is_fixed _ = _ |- _ => rewrite X end.
  all: repeat split; try reflexivity; try (destruct (is_fixed o); rewrite ?andb_true_r, ?andb_false_r; reflexivity).
  all: destruct (is_fixed o), (constant_offset e), (constant_divisor e); reflexivity.
Qed.

Lemma end_text_exactly_l e t : sgn_expr (plain e) -> tbuild e = Ok t -> exists f d o,
  print_end t = ((if (f =? 1)%Z then "end" else written (constant_factor e) f ++ " * end")
    ++ (if (d =? 1)%Z then "" else "/" ++ written (constant_divisor e) d)
    ++ (if (o =? 0)%Z then "" else (if (0 <=? o)%Z then "+" else "") ++ written (constant_offset e) o))%string /\
  d <> 0 /\ forall n c, sgn_ty n -> end_value (plain e) n = Ok c -> cval c = Z.quot (f * cval n + o) d.
Proof.
  intros S B. destruct (tbuild_fine e t S B) as [F Nz]. exists (fac t), (dvs t), (off t).
  split.
  - rewrite (print_end_text t F). destruct (tbuild_fixed e t B) as (<- & <- & <-). unfold written, suffix.
    rewrite !sapp_assoc. reflexivity.
  - split; [exact Nz|]. intros n c Sn H. unfold end_value in H. rewrite (tbuild_bare e t B) in H. cbn [bind] in H.
    destruct F as (_ & So & Sf & Sd). destruct (end_size_exact t n c So Sf Sd Sn H) as [_ E]. rewrite E. f_equal. lia.
Qed.

Lemma length_text_l kb kl ks text : readable kb -> sgn_ty (nint kl) -> (forall k, ks = Some k -> readable k) ->
  print_slicer (Ts (Some (TInt kb)) ks None (Some (TInt kl))) = Ok text ->
  let s := match ks with Some k => cval (nint k) | None => 1 end in
  text = (written (is_fixed kb) (cval (nint kb)) ++ ":" ++ step_text ks ++
          written (is_fixed kb && (is_fixed kl && step_fixed ks)) (cval (nint kb) + cval (nint kl) * s))%string.
Proof.
  intros Rb Sl Rs H s. unfold print_slicer in H. cbn [show_start ts_begin ts_len ts_stop ts_step bvalue show_stop bind] in H.
  apply bind_inv in H as (y & H1 & H). injection H as <-. cbn [show_bound].
  apply bind_inv in H1 as (x & Hx & H1). apply bind_inv in H1 as (z & Hz & H1). injection H1 as <-.
  cbn [vmul] in Hx. apply bind_inv in Hx as (w & Hw & Hx). injection Hx as <-.
  cbn [vadd] in Hz. apply bind_inv in Hz as (v & Hv & Hz). injection Hz as <-. cbn [show_bound].
  pose proof (nop_fixed _ _ _ _ Hw) as F1. pose proof (nop_fixed _ _ _ _ Hv) as F2.
  set (sl := Ts (Some (TInt kb)) ks None (Some (TInt kl))) in *.
  assert (Ss : sgn_ty (nint (factor sl))) by (apply step_sgn; exact Rs).
  destruct (nop_sgn Z.mul _ _ _ Hw Sl Ss) as (V1 & S1 & W1).
  destruct (nop_sgn Z.add _ _ _ Hv (proj1 Rb) S1) as (V2 & S2 & W2).
  rewrite (readable_text kb Rb), (readable_text v (wide_readable v W2 S2)).
  rewrite F2, F1, V2, V1. unfold factor, sl, step_text, step_fixed, s. cbn [ts_step].
  destruct ks as [k|]; [rewrite (readable_text k (Rs k eq_refl))|]; reflexivity.
Qed.

Lemma stop_length_text_l s l e n lz ez sz text : ts_begin s = None -> ts_len s = Some l -> ts_stop s = Some e -> axis n -> sgn_ty n ->
  legible (Some e) -> signed_bound l -> (forall k, ts_step s = Some k -> readable k) ->
  bound_is n (Some (plain_bound e)) 0 ez -> bound_is n (Some (plain_bound l)) 0 lz ->
  step_is (option_map nint (ts_step s)) sz -> 0 < sz ->
  print_slicer s = Ok text ->
  (exists f g, range_text text f sz g /\ f (cval n) = ez - lz * sz /\ g (cval n) = ez) /\
  exists co, reindex1 n (plain_slicer s) = Ok co /\ cval co = 0.
Proof.
  intros B L T A Sn Le Sl Ls He Hl Hs P H. split.
  - unfold print_slicer in H.
    destruct (show_start s) as [a| | |] eqn:Ea; cbn [bind] in H; try discriminate.
    destruct (show_stop s) as [b| | |] eqn:Eb; cbn [bind] in H; try discriminate. injection H as <-.
    assert (X : exists f, reads a f /\ f (cval n) = ez - lz * sz).
    { unfold show_start in Ea. rewrite L, T, B in Ea. repeat inv1 Ea. injection Ea as <-.
      destruct (bvalue_shown e _ Le Heqo) as [S1 _]. pose proof (bvalue_sgn l _ Sl Heqo0) as S2.
      destruct (vmul_ok _ _ _ S2 (step_sgn s Ls) Heqo1) as (S3 & _ & V3).
      destruct (vsub_ok _ _ _ S1 S3 Heqo2) as (_ & S4 & V4).
      destruct (show_bound_reads _ S4) as (g & R & G). exists g. split; [exact R|]. rewrite G, V4, V3.
      rewrite (bvalue_bound e _ n 0 ez S1 Heqo Sn He), (bvalue_bound l _ n 0 lz S2 Heqo0 Sn Hl), (step_factor s sz Hs). reflexivity. }
    assert (Y : exists g, reads b g /\ g (cval n) = ez).
    { unfold show_stop in Eb. rewrite T in Eb. inv1 Eb. injection Eb as <-. destruct (bvalue_shown e _ Le Heqo) as [S1 S2].
      destruct (show_bound_reads _ S2) as (g & R & G). exists g. split; [exact R|]. rewrite G.
      exact (bvalue_bound e _ n 0 ez S1 Heqo Sn He). }
    destruct X as (f & Ra & Fa). destruct Y as (g & Rb & Gb). exists f, g.
    split; [apply put_range; assumption|]. auto.
  - unfold plain_slicer. rewrite B, L, T. cbn [option_map reindex1].
    destruct (ts_step s) as [k|]; cbn [option_map step_is] in *; [|exists (int 0); split; reflexivity].
    destruct Hs as [Wk Vk]. rewrite clt_pos by exact Wk. rewrite Vk, (proj2 (Z.ltb_lt _ _) P).
    eexists. split; [reflexivity|]. destruct (cty n); reflexivity.
Qed.
