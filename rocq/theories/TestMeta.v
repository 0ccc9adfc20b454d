(** Unit tests of the repository run on the model: end, ratios and constants.
    Each example is one TTS_CASE, its checks in their order; the definitions used are those of TestLang.v. *)
From Coq Require Import ZArith String List Bool.
From Verif Require Import Outcome CInt TestLang.
Import ListNotations.
Open Scope Z_scope.
Open Scope string_scope.
Open Scope list_scope.

(** test/unit/utility/meta/end.cpp 12-19: "Check end default state". *)
Example meta_end_1 : passes (
  [ eq_ (offset_ kend) (ilit 0)
  ; eq_ (factor_ kend) (ilit 1)
  ; eq_ (divisor_ kend) (ilit 1) ]) = true.
Proof. vm_compute. reflexivity. Qed.

(** test/unit/utility/meta/end.cpp 21-30: "Check end + k and k + end". *)
Example meta_end_2 : passes (
  [ eq_ (offset_ (add kend (ilit 3))) (ilit 3)
  ; eq_ (get_ratio (add kend (ilit 3))) (ratio_ (ilit 1) (ilit 1))
  ; eq_ (offset_ (add (ilit 5) kend)) (ilit 5)
  ; eq_ (get_ratio (add (ilit 5) kend)) (ratio_ (ilit 1) (ilit 1)) ]) = true.
Proof. vm_compute. reflexivity. Qed.

(** test/unit/utility/meta/end.cpp 32-41: "Check end - k and k - end". *)
Example meta_end_3 : passes (
  [ eq_ (offset_ (sub kend (ilit 3))) (neg (ilit 3))
  ; eq_ (get_ratio (sub kend (ilit 3))) (ratio_ (ilit 1) (ilit 1))
  ; eq_ (offset_ (sub (ilit 5) kend)) (ilit 5)
  ; eq_ (get_ratio (sub (ilit 5) kend)) (ratio_ (neg (ilit 1)) (ilit 1)) ]) = true.
Proof. vm_compute. reflexivity. Qed.

(** test/unit/utility/meta/end.cpp 43-58: "Check end * k and k * end". *)
Example meta_end_4 : passes (
  [ eq_ (offset_ (mul kend (ilit 3))) (ilit 0)
  ; eq_ (get_ratio (mul kend (ilit 3))) (ratio_ (ilit 3) (ilit 1))
  ; eq_ (offset_ (mul (add kend (ilit 2)) (ilit 3))) (mul (ilit 2) (ilit 3))
  ; eq_ (get_ratio (mul (add kend (ilit 2)) (ilit 3))) (ratio_ (ilit 3) (ilit 1))
  ; eq_ (offset_ (mul (ilit 5) kend)) (ilit 0)
  ; eq_ (get_ratio (mul (ilit 5) kend)) (ratio_ (ilit 5) (ilit 1))
  ; eq_ (offset_ (mul (ilit 5) (add kend (ilit 7)))) (mul (ilit 5) (ilit 7))
  ; eq_ (get_ratio (mul (ilit 5) (add kend (ilit 7)))) (ratio_ (ilit 5) (ilit 1)) ]) = true.
Proof. vm_compute. reflexivity. Qed.

(** test/unit/utility/meta/end.cpp 60-75: "Check end / k and k / end and corner cases". *)
Example meta_end_5 : passes (
  [ eq_ (offset_ (div kend (ilit 3))) (ilit 0)
  ; eq_ (get_ratio (div kend (ilit 3))) (ratio_ (ilit 1) (ilit 3))
  ; eq_ (offset_ (div (add kend (ilit 2)) (ilit 3))) (ilit 2)
  ; eq_ (get_ratio (div (add kend (ilit 2)) (ilit 3))) (ratio_ (ilit 1) (ilit 3))
  ; eq_ (offset_ (add (div (mul (ilit 2) kend) (ilit 3)) (ilit 1))) (ilit 3)
  ; eq_ (get_ratio (add (div (mul (ilit 2) kend) (ilit 3)) (ilit 1))) (ratio_ (ilit 2) (ilit 3))
  ; eq_ (offset_ (div (add (div (mul (ilit 2) kend) (ilit 3)) (ilit 1)) (ilit 2))) (ilit 3)
  ; eq_ (get_ratio (div (add (div (mul (ilit 2) kend) (ilit 3)) (ilit 1)) (ilit 2))) (ratio_ (ilit 2) (ilit 6)) ]) = true.
Proof. vm_compute. reflexivity. Qed.

(** test/unit/utility/meta/ratio.cpp 13-43: "Check ratio addition". *)
Example meta_ratio_1 : passes (
  let rdd := ratio_ (ilit 1) (ilit 3) in
  let rsd := ratio_ (clit "5") (ilit 7) in
  let rds := ratio_ (ilit 9) (clit "11") in
  let rss := ratio_ (clit "13") (clit "15") in
  [ eq_ (add rdd rdd) (ratio_ (ilit 2) (ilit 3))
  ; expect_not (is_static (num_ (add rdd rdd)))
  ; expect_not (is_static (denum_ (add rdd rdd)))
  ; eq_ (add rdd rsd) (ratio_ (add (mul (ilit 7) (ilit 1)) (mul (ilit 5) (ilit 3))) (mul (ilit 3) (ilit 7)))
  ; expect_not (is_static (num_ (add rdd rsd)))
  ; expect_not (is_static (denum_ (add rdd rsd)))
  ; eq_ (add rsd rds) (ratio_ (add (mul (ilit 5) (ilit 11)) (mul (ilit 9) (ilit 7))) (mul (ilit 7) (ilit 11)))
  ; expect_not (is_static (num_ (add rsd rds)))
  ; expect_not (is_static (denum_ (add rsd rds)))
  ; eq_ (add rds rss) (ratio_ (add (mul (ilit 9) (ilit 15)) (mul (ilit 13) (ilit 11))) (mul (ilit 11) (ilit 15)))
  ; expect_not (is_static (num_ (add rds rss)))
  ; expect (is_static (denum_ (add rds rss)))
  ; eq_ (add rss rss) (ratio_ (add (mul (ilit 13) (ilit 15)) (mul (ilit 13) (ilit 15))) (mul (ilit 15) (ilit 15)))
  ; expect (is_static (num_ (add rss rss)))
  ; expect (is_static (denum_ (add rss rss))) ]) = true.
Proof. vm_compute. reflexivity. Qed.

(** test/unit/utility/meta/ratio.cpp 45-74: "Check ratio subtraction". *)
Example meta_ratio_2 : passes (
  let rdd := ratio_ (ilit 1) (ilit 3) in
  let rsd := ratio_ (clit "5") (ilit 7) in
  let rds := ratio_ (ilit 9) (clit "11") in
  let rss := ratio_ (clit "13") (clit "15") in
  [ eq_ (sub rdd rdd) (ratio_ (ilit 0) (ilit 3))
  ; expect_not (is_static (num_ (sub rdd rdd)))
  ; expect_not (is_static (denum_ (sub rdd rdd)))
  ; eq_ (sub rdd rsd) (ratio_ (sub (mul (ilit 7) (ilit 1)) (mul (ilit 5) (ilit 3))) (mul (ilit 3) (ilit 7)))
  ; expect_not (is_static (num_ (sub rdd rsd)))
  ; expect_not (is_static (denum_ (sub rdd rsd)))
  ; eq_ (sub rsd rds) (ratio_ (sub (mul (ilit 5) (ilit 11)) (mul (ilit 9) (ilit 7))) (mul (ilit 7) (ilit 11)))
  ; expect_not (is_static (num_ (sub rsd rds)))
  ; expect_not (is_static (denum_ (sub rsd rds)))
  ; eq_ (sub rds rss) (ratio_ (sub (mul (ilit 9) (ilit 15)) (mul (ilit 13) (ilit 11))) (mul (ilit 11) (ilit 15)))
  ; expect_not (is_static (num_ (sub rds rss)))
  ; expect (is_static (denum_ (sub rds rss)))
  ; eq_ (sub rss rss) (ratio_ (sub (mul (ilit 13) (ilit 15)) (mul (ilit 13) (ilit 15))) (mul (ilit 15) (ilit 15)))
  ; expect (is_static (num_ (sub rss rss)))
  ; expect (is_static (denum_ (sub rss rss))) ]) = true.
Proof. vm_compute. reflexivity. Qed.

(** test/unit/utility/meta/ratio.cpp 76-105: "Check ratio product". *)
Example meta_ratio_3 : passes (
  let rdd := ratio_ (ilit 1) (ilit 3) in
  let rsd := ratio_ (clit "5") (ilit 7) in
  let rds := ratio_ (ilit 9) (clit "11") in
  let rss := ratio_ (clit "13") (clit "15") in
  [ eq_ (mul rdd rdd) (ratio_ (ilit 1) (ilit 9))
  ; expect_not (is_static (num_ (mul rdd rdd)))
  ; expect_not (is_static (denum_ (mul rdd rdd)))
  ; eq_ (mul rdd rsd) (ratio_ (mul (ilit 1) (ilit 5)) (mul (ilit 3) (ilit 7)))
  ; expect_not (is_static (num_ (mul rdd rsd)))
  ; expect_not (is_static (denum_ (mul rdd rsd)))
  ; eq_ (mul rsd rds) (ratio_ (mul (ilit 5) (ilit 9)) (mul (ilit 7) (ilit 11)))
  ; expect_not (is_static (num_ (mul rsd rds)))
  ; expect_not (is_static (denum_ (mul rsd rds)))
  ; eq_ (mul rds rss) (ratio_ (mul (ilit 9) (ilit 13)) (mul (ilit 11) (ilit 15)))
  ; expect_not (is_static (num_ (mul rds rss)))
  ; expect (is_static (denum_ (mul rds rss)))
  ; eq_ (mul rss rss) (ratio_ (mul (ilit 13) (ilit 13)) (mul (ilit 15) (ilit 15)))
  ; expect (is_static (num_ (mul rss rss)))
  ; expect (is_static (denum_ (mul rss rss))) ]) = true.
Proof. vm_compute. reflexivity. Qed.

(** test/unit/utility/meta/ratio.cpp 107-136: "Check ratio division". *)
Example meta_ratio_4 : passes (
  let rdd := ratio_ (ilit 1) (ilit 3) in
  let rsd := ratio_ (clit "5") (ilit 7) in
  let rds := ratio_ (ilit 9) (clit "11") in
  let rss := ratio_ (clit "13") (clit "15") in
  [ eq_ (div rdd rdd) (ratio_ (ilit 1) (ilit 1))
  ; expect_not (is_static (num_ (div rdd rdd)))
  ; expect_not (is_static (denum_ (div rdd rdd)))
  ; eq_ (div rdd rsd) (ratio_ (mul (ilit 1) (ilit 7)) (mul (ilit 5) (ilit 3)))
  ; expect_not (is_static (num_ (div rdd rsd)))
  ; expect_not (is_static (denum_ (div rdd rsd)))
  ; eq_ (div rsd rds) (ratio_ (mul (ilit 5) (ilit 11)) (mul (ilit 9) (ilit 7)))
  ; expect (is_static (num_ (div rsd rds)))
  ; expect_not (is_static (denum_ (div rsd rds)))
  ; eq_ (div rds rss) (ratio_ (mul (ilit 9) (ilit 15)) (mul (ilit 11) (ilit 13)))
  ; expect_not (is_static (num_ (div rds rss)))
  ; expect (is_static (denum_ (div rds rss)))
  ; eq_ (div rss rss) (ratio_ (mul (ilit 13) (ilit 15)) (mul (ilit 15) (ilit 13)))
  ; expect (is_static (num_ (div rss rss)))
  ; expect (is_static (denum_ (div rss rss))) ]) = true.
Proof. vm_compute. reflexivity. Qed.

(** test/unit/utility/meta/fixed.cpp 11-20: "fixed<N> behavior - Explicit usage". *)
Example meta_fixed_1 : passes (
  [ eq_ (value_ (fixd (ilit 0))) (ilit 0)
  ; eq_ (value_ (fixd (decl I16 (neg (ilit 1))))) (decl I16 (neg (ilit 1)))
  ; eq_ (value_ (fixd (tlit U64 1311768465173141112))) (tlit U64 1311768465173141112)
  ; has_type (value_ (fixd (ilit 0))) I32
  ; has_type (value_ (fixd (decl I16 (neg (ilit 1))))) I16
  ; has_type (value_ (fixd (decl I64 (ilit 123456789)))) I64 ]) = true.
Proof. vm_compute. reflexivity. Qed.

(** test/unit/utility/meta/fixed.cpp 22-37: "fixed<N> behavior - Literal API". *)
Example meta_fixed_2 : passes (
  let cst_0 := clit "0" in
  let cst_1 := clit "16540" in
  let cst_2 := clit "1234567" in
  [ eq_ (value_ cst_0) (decl U8 (ilit 0))
  ; eq_ (value_ cst_1) (decl U16 (ilit 16540))
  ; eq_ (value_ cst_2) (decl U32 (ilit 1234567))
  ; has_type (value_ cst_0) U8
  ; has_type (value_ cst_1) U16
  ; has_type (value_ cst_2) U32 ]) = true.
Proof. vm_compute. reflexivity. Qed.
