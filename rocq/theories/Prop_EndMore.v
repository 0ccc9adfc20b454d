(** Property C19, continued: unsigned constants and chains of divisions. *)
From Coq Require Import ZArith List Bool Lia.
From Verif Require Import Outcome CInt CIntFacts Spec SpecFacts EndRatio EndMoreSpec EndMoreFacts.
Import ListNotations.
Open Scope Z_scope.

(** Everything of type unsigned, without division: the integer modulo 2^32, always defined. *)
Theorem end_unsigned_modulo : forall e n, u_expr e -> u_const n -> end_value e n = Ok (CI U32 (integer e (cval n) mod 4294967296)).
Proof. exact end_unsigned_l. Qed.
Print Assumptions end_unsigned_modulo.

(** end - u on an axis whose size is a long: always 2^32 too far. *)
Theorem end_minus_unsigned_long : forall u n, 0 < u < 4294967296 -> 0 <= n -> n + 4294967296 - u <= 9223372036854775807 ->
  end_value (ESub EEnd (CI U32 u)) (CI I64 n) = Ok (CI I64 (n + 4294967296 - u)).
Proof. exact end_minus_long_l. Qed.
Print Assumptions end_minus_unsigned_long.

(** end / d1 / d2 / ...: one division by the product of the divisors, undefined exactly when this is not an int. *)
Theorem end_divisions : forall ds n, Forall (fun d => 0 < d <= 2147483647) ds -> 0 <= n <= 2147483647 ->
  end_value (divisions EEnd ds) (int n) = if prod ds <=? 2147483647 then Ok (int (n / prod ds)) else UB.
Proof. exact end_divisions_l. Qed.
Print Assumptions end_divisions.

(** 3u * (5u - end) - 1u on an axis of 10 unsigned: -16 modulo 2^32. *)
Definition uex : eexpr := ESub (EMulL (CI U32 3) (ESubL (CI U32 5) EEnd)) (CI U32 1).
Example uex_ok : u_expr uex /\ u_const (CI U32 10) /\ integer uex 10 = -16 /\ end_value uex (CI U32 10) = Ok (CI U32 4294967280).
Proof. split; [|split; [|split; [reflexivity|vm_compute; reflexivity]]]; cbn; unfold u_const; cbn; repeat split; lia. Qed.
Example long_ex : end_value (ESub EEnd (CI U32 1)) (CI I64 10) = Ok (CI I64 4294967305).
Proof. vm_compute. reflexivity. Qed.
(** end/2/3/2 on 100 is 8; end/65536/65536 is undefined, though 100/65536/65536 is 0. *)
Example divisions_ex : end_value (divisions EEnd [2; 3; 2]) (int 100) = Ok (int 8) /\
  end_value (EDiv (EDiv EEnd (int 65536)) (int 65536)) (int 100) = UB.
Proof. split; vm_compute; reflexivity. Qed.
