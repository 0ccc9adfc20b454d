(** Property C20, continued: calculations with several ratios. *)
From Coq Require Import ZArith QArith List Bool Lia.
From Verif Require Import Outcome CInt CIntFacts EndRatio EndRatioSpec RatioSpec RatioFacts.
Import ListNotations.
Open Scope Z_scope.

(** Sums, products and comparisons do not depend on the order of the two operands, not even on whether they are defined. *)
Theorem ratio_operands_commute : forall a b, radd a b = radd b a /\ rmul a b = rmul b a /\ req a b = req b a /\ rneq a b = rneq b a.
Proof. exact ratio_comm_l. Qed.
Print Assumptions ratio_operands_commute.

(** A calculation that is defined gives the exact value, over the product of all denominators: ratios are never simplified. *)
Theorem ratio_calculation_exact : forall l r x, sgn_ratio r -> Forall (fun o => sgn_ratio (snd o)) l -> calculate r l = Ok x ->
  sgn_ratio x /\ (rvalue x == exact r l)%Q /\ cval (denum x) = denominators r l.
Proof. exact calculate_exact_l. Qed.
Print Assumptions ratio_calculation_exact.

(** So no sum, difference and product of 64 ratios with denominators other than -1 and 1 is defined, whatever its value, and of
    32 with members of type int. *)
Theorem ratio_calculation_overflows : forall r l, sgn_ratio r -> Forall (fun o => sgn_ratio (snd o)) l ->
  not_whole r -> Forall (fun o => not_whole (snd o)) l ->
  (64 <= S (length l) \/ (int_ratio r /\ Forall (fun o => int_ratio (snd o)) l /\ 32 <= S (length l)))%nat -> calculate r l = UB.
Proof. exact calculate_overflows_l. Qed.
Print Assumptions ratio_calculation_overflows.

Definition half : ratio := Rt (int 1) (int 2).
Definition halves (n : nat) : list (rop * ratio) := repeat (Plus, half) n.
Lemma half_sgn : sgn_ratio half.
Proof. unfold sgn_ratio, sgn_ty, wfc, in_ty. cbn. repeat split; lia. Qed.
Example halves_ex : sgn_ratio half /\ not_whole half /\ int_ratio half /\
  calculate half (halves 3) = Ok (Rt (int 32) (int 16)) /\ (exact half (halves 3) == 2)%Q /\
  (exists x, calculate half (halves 25) = Ok x) /\ calculate half (halves 31) = UB /\ (exact half (halves 31) == 16)%Q.
Proof.
  split; [apply half_sgn|]. split; [unfold not_whole; cbn; lia|]. split; [split; reflexivity|]. split; [reflexivity|]. split; [reflexivity|].
  split; [eexists; vm_compute; reflexivity|]. split; vm_compute; reflexivity.
Qed.
(** The bound is met: 31 factors -1/2 have the denominator -2^31. *)
Example bound_ex : calculate (Rt (int 1) (int (-2))) (repeat (Times, Rt (int 1) (int (-2))) 30) = Ok (Rt (int 1) (int (-2147483648))).
Proof. vm_compute. reflexivity. Qed.
Example mixed_ex : calculate half [(Plus, Rt (int 1) (CI U8 3)); (Minus, Rt (CI I64 1) (int 4)); (Times, half)] = Ok (Rt (CI I64 14) (int 48)) /\
  denominators half [(Plus, Rt (int 1) (CI U8 3)); (Minus, Rt (CI I64 1) (int 4)); (Times, half)] = 48.
Proof. split; vm_compute; reflexivity. Qed.

(** The ratio 0/0, which can be made, is equal to every ratio, so that == is not transitive with it. *)
Theorem ratio_nothing_equals_everything : forall a, sgn_ty (num a) -> sgn_ty (denum a) -> req (Rt (int 0) (int 0)) a = Ok true.
Proof. exact nothing_equal_l. Qed.
Print Assumptions ratio_nothing_equals_everything.
Theorem ratio_equality_transitive_refuted : exists a b c, sgn_ratio a /\ sgn_ratio c /\
  req a b = Ok true /\ req b c = Ok true /\ req a c = Ok false.
Proof.
  exists half, (Rt (int 0) (int 0)), (Rt (int 1) (int 3)). split; [apply half_sgn|].
  split; [unfold sgn_ratio, sgn_ty, wfc, in_ty; cbn; repeat split; lia|]. repeat split; vm_compute; reflexivity.
Qed.
Print Assumptions ratio_equality_transitive_refuted.

(** On members of type unsigned everything is computed modulo 2^32. *)
Theorem ratio_unsigned_modulo : forall a b, unsigned_ratio a -> unsigned_ratio b ->
  let n1 := cval (num a) in let d1 := cval (denum a) in let n2 := cval (num b) in let d2 := cval (denum b) in
  let u z := CI U32 (z mod 4294967296) in
  radd a b = Ok (Rt (u (n1 * d2 + n2 * d1)) (u (d1 * d2))) /\ rsub a b = Ok (Rt (u (n1 * d2 - n2 * d1)) (u (d1 * d2))) /\
  rmul a b = Ok (Rt (u (n1 * n2)) (u (d1 * d2))) /\ rdiv a b = Ok (Rt (u (n1 * d2)) (u (d1 * n2))) /\
  rneg a = Ok (Rt (u (- n1)) (denum a)) /\
  exists e, req a b = Ok e /\ (e = true <-> (n1 * d2) mod 4294967296 = (d1 * n2) mod 4294967296).
Proof. exact unsigned_l. Qed.
Print Assumptions ratio_unsigned_modulo.
Definition ur (n d : Z) : ratio := Rt (CI U32 n) (CI U32 d).
Example unsigned_ex : unsigned_ratio (ur 1 2) /\ unsigned_ratio (ur 2 3) /\ radd (ur 1 2) (ur 2 3) = Ok (ur 7 6) /\
  rsub (ur 1 2) (ur 2 3) = Ok (ur 4294967295 6).
Proof. unfold unsigned_ratio, wfc, in_ty. cbn. repeat split; lia || reflexivity. Qed.
(** So ratios of different values are equal, a sum has no denominator, and -1 is equal to a large number. *)
Theorem ratio_unsigned_refuted :
  (exists a b, unsigned_ratio a /\ unsigned_ratio b /\ req a b = Ok true /\ ~ (rvalue a == rvalue b)%Q) /\
  (exists a b r, unsigned_ratio a /\ unsigned_ratio b /\ radd a b = Ok r /\ cval (denum r) = 0) /\
  (exists a b, sgn_ratio a /\ unsigned_ratio b /\ req a b = Ok true /\ (rvalue a == -1 # 1)%Q /\ (rvalue b == 4294967295 # 1)%Q).
Proof.
  split; [|split].
  - exists (ur 65536 1), (ur 0 65536). split; [unfold unsigned_ratio, wfc, in_ty; cbn; repeat split; lia|].
    split; [unfold unsigned_ratio, wfc, in_ty; cbn; repeat split; lia|]. split; [vm_compute; reflexivity|]. vm_compute. discriminate.
  - exists (ur 1 65536), (ur 1 65536). eexists. split; [unfold unsigned_ratio, wfc, in_ty; cbn; repeat split; lia|].
    split; [unfold unsigned_ratio, wfc, in_ty; cbn; repeat split; lia|]. split; vm_compute; reflexivity.
  - exists (Rt (int (-1)) (int 1)), (ur 4294967295 1). split; [unfold sgn_ratio, sgn_ty, wfc, in_ty; cbn; repeat split; lia|].
    split; [unfold unsigned_ratio, wfc, in_ty; cbn; repeat split; lia|]. repeat split; vm_compute; reflexivity.
Qed.
Print Assumptions ratio_unsigned_refuted.
