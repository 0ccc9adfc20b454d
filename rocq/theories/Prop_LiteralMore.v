(** Property C17, continued: literals with separators and prefixes. *)
From Coq Require Import ZArith List Bool Lia.
From Verif Require Import Outcome CInt CIntFacts Spec ShapeSpec Literals LiteralsSpec LiteralsFacts LiteralMoreFacts.
Import ListNotations.
Open Scope Z_scope.

(** One separator (39 is its code) counts as the digit -9: the literal is right exactly when the digits before it denote 1, and too
    large otherwise. *)
Theorem literal_one_separator : forall xs ys, Forall digit xs -> Forall digit ys -> 1 <= decimal xs ->
  let w := (decimal xs * 10 - 9) * 10 ^ Z.of_nat (length ys) + decimal ys in
  w < 18446744073709551616 -> ~ bad_width w ->
  cval (literal_c (chars xs ++ 39 :: chars ys)) = w /\ (w = decimal (xs ++ ys) <-> decimal xs = 1) /\ decimal (xs ++ ys) <= w.
Proof. exact literal_separator_l. Qed.
Print Assumptions literal_one_separator.

(** 1'500_c is 1500; 3'500_c is 21500. *)
Example separator_ex : Forall digit [1] /\ Forall digit [3] /\ Forall digit [5; 0; 0] /\
  literal_c (chars [1] ++ 39 :: chars [5; 0; 0]) = CI U16 1500 /\ literal_c (chars [3] ++ 39 :: chars [5; 0; 0]) = CI U16 21500 /\
  ~ bad_width 21500.
Proof. repeat split; try (repeat constructor; lia). unfold bad_width; lia. Qed.

(** The letter of a prefix counts as a digit: 72 for x, 40 for X, 50 for b, 18 for B; an octal literal is read as a decimal one. *)
Theorem literal_prefixes : forall c ys, 48 <= c -> Forall digit ys ->
  let w := (c - 48) * 10 ^ Z.of_nat (length ys) + decimal ys in
  w < 18446744073709551616 -> ~ bad_width w -> cval (literal_c (48 :: c :: chars ys)) = w.
Proof. exact literal_prefix_l. Qed.
Print Assumptions literal_prefixes.

(** 0X10_c is 4010, 0B101_c is 18101 and 017_c is 17. *)
Example prefix_ex : literal_c (48 :: 88 :: chars [1; 0]) = CI U16 4010 /\ literal_c (48 :: 66 :: chars [1; 0; 1]) = CI U16 18101 /\
  literal_c (48 :: 49 :: chars [7]) = CI U8 17 /\ Forall digit [1; 0; 1] /\ ~ bad_width 18101.
Proof. repeat split; try (repeat constructor; lia). unfold bad_width; lia. Qed.
