(** Property C78: the text of [end] expressions and of slicers. *)
From Coq Require Import ZArith Ascii String List Bool Lia.
From Verif Require Import Outcome CInt CIntFacts EndRatio EndRatioSpec Slicer SlicerSpec Output SliceText SliceTextSpec SliceTextFacts
  SliceTextFacts2 SliceTextFacts3.
Import ListNotations.
Open Scope Z_scope.

Theorem end_text_exact : forall e t, sgn_expr (plain e) -> tbuild e = Ok t ->
  cval (nint (t_div t)) = 1 \/ cval (nint (t_off t)) = 0 ->
  exists g, reads (print_end t) g /\
    forall n c, sgn_ty n -> end_value (plain e) n = Ok c -> cval c = g (cval n).
Proof. exact end_text_l. Qed.
Print Assumptions end_text_exact.

(** With a divisor and an offset the text always says something else, on an axis of size 0 already. *)
Theorem end_text_fraction_wrong : forall e t, sgn_expr (plain e) -> tbuild e = Ok t ->
  cval (nint (t_div t)) <> 1 -> cval (nint (t_off t)) <> 0 ->
  exists g, reads (print_end t) g /\
    forall c, end_value (plain e) (int 0) = Ok c -> cval c <> g 0.
Proof. exact end_text_wrong_l. Qed.
Print Assumptions end_text_fraction_wrong.

Theorem end_text_tells : forall d e t u n x y, sgn_expr (plain d) -> sgn_expr (plain e) ->
  tbuild d = Ok t -> tbuild e = Ok u -> print_end t = print_end u ->
  sgn_ty n -> end_value (plain d) n = Ok x -> end_value (plain e) n = Ok y -> cval x = cval y.
Proof. exact end_text_tells_l. Qed.
Print Assumptions end_text_tells.

(** The text to the letter: numbers computed from constants only have the suffix of constants. *)
Theorem end_text_letter : forall e t, sgn_expr (plain e) -> tbuild e = Ok t -> exists f d o,
  print_end t = ((if (f =? 1)%Z then "end" else written (constant_factor e) f ++ " * end")
    ++ (if (d =? 1)%Z then "" else "/" ++ written (constant_divisor e) d)
    ++ (if (o =? 0)%Z then "" else (if (0 <=? o)%Z then "+" else "") ++ written (constant_offset e) o))%string /\
  d <> 0 /\ forall n c, sgn_ty n -> end_value (plain e) n = Ok c -> cval c = Z.quot (f * cval n + o) d.
Proof. exact end_text_exactly_l. Qed.
Print Assumptions end_text_letter.

Theorem ratio_text : forall n d, readable n -> readable d ->
  print_ratio n d = (written (is_fixed n) (cval (nint n)) ++ "/" ++ written (is_fixed d) (cval (nint d)))%string.
Proof. exact ratio_text_l. Qed.
Print Assumptions ratio_text.

(** The range written is the range selected: bounds and step. *)
Theorem slice_range_text : forall s n bz ez sz, ts_len s = None -> axis n -> sgn_ty n ->
  legible (ts_begin s) -> legible (ts_stop s) -> (forall k, ts_step s = Some k -> readable k) ->
  bound_is n (option_map plain_bound (ts_begin s)) 0 bz -> bound_is n (option_map plain_bound (ts_stop s)) (cval n) ez ->
  step_is (option_map nint (ts_step s)) sz -> 0 <= bz <= ez -> ez <= cval n -> 0 < sz ->
  exists text f g, print_slicer s = Ok text /\ range_text text f sz g /\
  exists co ck, reindex1 n (plain_slicer s) = Ok co /\ reshape1 n (plain_slicer s) = Ok ck /\
    selects (cval co) (cval ck) sz (fun x => f (cval n) <= x < g (cval n) /\ (sz | x - f (cval n))).
Proof. exact slice_range_text_l. Qed.
Print Assumptions slice_range_text.

Theorem slice_length_text : forall s l n bz lz sz text, ts_len s = Some l -> ts_stop s = None -> axis n -> sgn_ty n ->
  legible (ts_begin s) -> signed_bound l -> (forall k, ts_step s = Some k -> readable k) ->
  bound_is n (option_map plain_bound (ts_begin s)) 0 bz -> bound_is n (Some (plain_bound l)) 0 lz ->
  step_is (option_map nint (ts_step s)) sz -> 0 <= bz -> 0 <= lz -> 0 < sz ->
  print_slicer s = Ok text ->
  exists f g, range_text text f sz g /\
  exists co ck, reindex1 n (plain_slicer s) = Ok co /\ reshape1 n (plain_slicer s) = Ok ck /\
    selects (cval co) (cval ck) sz (fun x => f (cval n) <= x < g (cval n) /\ (sz | x - f (cval n))).
Proof. exact slice_length_text_l. Qed.
Print Assumptions slice_length_text.

Theorem slice_length_letter : forall kb kl ks text, readable kb -> sgn_ty (nint kl) -> (forall k, ks = Some k -> readable k) ->
  print_slicer (Ts (Some (TInt kb)) ks None (Some (TInt kl))) = Ok text ->
  let s := match ks with Some k => cval (nint k) | None => 1 end in
  text = (written (is_fixed kb) (cval (nint kb)) ++ ":" ++ step_text ks ++
          written (is_fixed kb && (is_fixed kl && step_fixed ks)) (cval (nint kb) + cval (nint kl) * s))%string.
Proof. exact length_text_l. Qed.
Print Assumptions slice_length_letter.

(** With a stop and a length the text starts where the slice should, but the slice starts at 0. *)
Theorem slice_stop_length_text : forall s l e n lz ez sz text, ts_begin s = None -> ts_len s = Some l -> ts_stop s = Some e ->
  axis n -> sgn_ty n -> legible (Some e) -> signed_bound l -> (forall k, ts_step s = Some k -> readable k) ->
  bound_is n (Some (plain_bound e)) 0 ez -> bound_is n (Some (plain_bound l)) 0 lz ->
  step_is (option_map nint (ts_step s)) sz -> 0 < sz ->
  print_slicer s = Ok text ->
  (exists f g, range_text text f sz g /\ f (cval n) = ez - lz * sz /\ g (cval n) = ez) /\
  exists co, reindex1 n (plain_slicer s) = Ok co /\ cval co = 0.
Proof. exact stop_length_text_l. Qed.
Print Assumptions slice_stop_length_text.

Definition rt (z : Z) : knum := Nm false (int z).
(** 7 - 2 * end with run-time integers, (end - 1_c) * 3_c with constants, end / 2. *)
Example end_texts :
  let a := TESubL (rt 7) (TEMul TEEnd (rt 2)) in
  let b := TEMul (TESub TEEnd (Nm true (CI U8 1))) (Nm true (CI U8 3)) in
  let c := TEDiv TEEnd (rt 2) in
  sgn_expr (plain a) /\ sgn_expr (plain b) /\ sgn_expr (plain c) /\
  (t <- tbuild a ;; Ok (print_end t)) = Ok "-2 * end+7"%string /\
  (t <- tbuild b ;; Ok (print_end t)) = Ok "3_c * end-3_c"%string /\
  (t <- tbuild c ;; Ok (print_end t)) = Ok "end/2"%string.
Proof. cbn. unfold sgn_ty, wfc, in_ty. cbn. repeat split; try lia. Qed.

(** slice(from=1, to=end-1, by=2_c); last(3); slice(from=1, length=4, by=3). *)
Definition s1 := Ts (Some (TInt (rt 1))) (Some (Nm true (CI U8 2))) (Some (TEnd (TESub TEEnd (rt 1)))) None.
Definition s2 := Ts (Some (TEnd (TESub TEEnd (rt 3)))) None None (Some (TInt (rt 3))).
Definition s3 := Ts (Some (TInt (rt 1))) (Some (rt 3)) None (Some (TInt (Nm false (CI I8 4)))).
Example slicer_texts :
  print_slicer s1 = Ok "1:2_c:end-1"%string /\ print_slicer s2 = Ok "end-3:end"%string /\
  print_slicer s3 = Ok "1:3:13"%string /\
  print_slicer (Ts None (Some (rt 4)) None None) = Ok "begin:4:end"%string.
Proof. vm_compute. repeat split; reflexivity. Qed.
Ltac small := unfold readable, sgn_ty, wfc, in_ty; cbn; repeat split; try lia; try discriminate; auto.
Example slicer_texts_hypotheses :
  axis (int 10) /\ sgn_ty (int 10) /\ legible (ts_begin s1) /\ legible (ts_stop s1) /\
  (forall k, ts_step s1 = Some k -> readable k) /\
  bound_is (int 10) (option_map plain_bound (ts_begin s1)) 0 1 /\
  bound_is (int 10) (option_map plain_bound (ts_stop s1)) 10 9 /\ step_is (option_map nint (ts_step s1)) 2 /\
  legible (ts_begin s2) /\ signed_bound (TInt (rt 3)) /\
  bound_is (int 10) (option_map plain_bound (ts_begin s2)) 0 7 /\ bound_is (int 10) (Some (plain_bound (TInt (rt 3)))) 0 3.
Proof.
  assert (A : axis (int 10)) by (unfold axis; small).
  assert (R : readable (rt 1)) by (split; [small|right; split; discriminate]).
  split; [exact A|]. split; [small|]. split; [exact R|]. split; [split; [small|exact I]|].
  split; [intros k H; injection H as <-; small|]. split; [small|].
  split; [eexists; split; [vm_compute; reflexivity|reflexivity]|]. split; [small|].
  split; [split; [small|exact I]|]. split; [small|].
  split; [eexists; split; [vm_compute; reflexivity|reflexivity]|]. small.
Qed.

(** slice(to=end-1, length=2, by=3) on an axis of size 10; slice(from=1_c, length=2_c); a ratio. *)
Definition s4 := Ts None (Some (rt 3)) (Some (TEnd (TESub TEEnd (rt 1)))) (Some (TInt (rt 2))).
Example stop_length_ex : print_slicer s4 = Ok "end-7:3:end-1"%string /\
  bound_is (int 10) (Some (plain_bound (TEnd (TESub TEEnd (rt 1))))) 0 9 /\ bound_is (int 10) (Some (plain_bound (TInt (rt 2)))) 0 2 /\
  legible (ts_stop s4) /\ signed_bound (TInt (rt 2)) /\ step_is (option_map nint (ts_step s4)) 3 /\
  print_slicer (Ts (Some (TInt (Nm true (CI U8 1)))) None None (Some (TInt (Nm true (CI U8 2))))) = Ok "1_c:3_c"%string /\
  print_ratio (Nm true (CI U8 1)) (rt 2) = "1_c/2"%string /\ readable (Nm true (CI U8 1)) /\ readable (rt 2).
Proof.
  split; [vm_compute; reflexivity|]. split; [eexists; split; [vm_compute; reflexivity|reflexivity]|]. split; [small|].
  split; [split; [small|exact I]|]. split; [small|]. split; [small|]. split; [vm_compute; reflexivity|].
  split; [vm_compute; reflexivity|]. split; [small|]. split; [small|right; split; discriminate].
Qed.

(** end/2 + 1 is written end/2+2; on an axis of size 10 it is 6, not 7. *)
Theorem fraction_text_refuted : exists e t, tbuild e = Ok t /\ sgn_expr (plain e) /\
  print_end t = "end/2+2"%string /\ end_value (plain e) (int 10) = Ok (int 6).
Proof.
  exists (TEAdd (TEDiv TEEnd (rt 2)) (rt 1)). eexists. split; [vm_compute; reflexivity|].
  split; [small|]. split; vm_compute; reflexivity.
Qed.
Print Assumptions fraction_text_refuted.

(** end - 1ul has no sign in front of its offset, which is moreover the wrapped one; end + 3u reads end3. *)
Theorem unsigned_offset_text_refuted :
  (t <- tbuild (TESub TEEnd (Nm false (CI U64 1))) ;; Ok (print_end t)) = Ok "end18446744073709551615"%string /\
  end_value (ESub EEnd (CI U64 1)) (CI U64 10) = Ok (CI U64 9) /\
  (t <- tbuild (TEAdd TEEnd (Nm false (CI U32 3))) ;; Ok (print_end t)) = Ok "end3"%string.
Proof. vm_compute. repeat split; reflexivity. Qed.
Print Assumptions unsigned_offset_text_refuted.

(** slice(to=7, length=3) is written 4:7 and starts at 0; every(-1) is written as going from the first element; the
    bound of drop_first(int8_t{65}) is written as a letter; a slice from end-3 of length end/2 cannot be written. *)
Theorem slicer_text_refuted :
  (print_slicer (Ts None None (Some (TInt (rt 7))) (Some (TInt (rt 3)))) = Ok "4:7"%string /\
   reindex1 (int 10) (plain_slicer (Ts None None (Some (TInt (rt 7))) (Some (TInt (rt 3))))) = Ok (int 0)) /\
  (print_slicer (Ts None (Some (rt (-1))) None None) = Ok "begin:-1:end"%string /\
   reindex1 (int 10) (every (int (-1))) = Ok (int 9)) /\
  print_slicer (Ts (Some (TInt (Nm false (CI I8 65)))) None None None) = Ok "A:end"%string /\
  print_slicer (Ts (Some (TEnd (TESub TEEnd (rt 3)))) None None (Some (TEnd (TEDiv TEEnd (rt 2))))) = UB.
Proof. vm_compute. repeat split; reflexivity. Qed.
Print Assumptions slicer_text_refuted.
