(** Unit tests of the repository run on the model: shapes and strides.
    Each example is one TTS_CASE, its checks in their order; the definitions used are those of TestLang.v. *)
From Coq Require Import ZArith String List Bool.
From Verif Require Import Outcome CInt TestLang.
Import ListNotations.
Open Scope Z_scope.
Open Scope string_scope.
Open Scope list_scope.

(** test/unit/utility/shape/compare.cpp 11-64: "Equality comparison between shapes". *)
Example shape_compare_1 : passes (
  [ eq_ (size_ [(ilit 3)]) (size_ [(ilit 3)])
  ; eq_ (size_ [(ilit 3)]) (size_ [(ilit 1); (ilit 3)])
  ; eq_ (size_ [(ilit 3)]) (size_ [(ilit 1); (ilit 1); (ilit 3)])
  ; eq_ (size_ [(ilit 3)]) (size_ [(ilit 1); (ilit 1); (ilit 1); (ilit 3)])
  ; eq_ (size_ [(opt (axis "height") (ilit 3))]) (size_ [(opt (axis "height") (ilit 3))])
  ; eq_ (size_ [(opt (axis "height") (ilit 3))]) (size_ [(ilit 1); (opt (axis "height") (ilit 3))])
  ; eq_ (size_ [(opt (axis "height") (ilit 3))]) (size_ [(ilit 1); (ilit 1); (opt (axis "height") (ilit 3))])
  ; eq_ (size_ [(opt (axis "height") (ilit 3))]) (size_ [(ilit 1); (ilit 1); (ilit 1); (opt (axis "height") (ilit
      3))])
  ; eq_ (size_ [(ilit 3); (ilit 5)]) (size_ [(ilit 15)])
  ; eq_ (size_ [(ilit 3); (ilit 5)]) (size_ [(ilit 3); (ilit 5)])
  ; eq_ (size_ [(ilit 3); (ilit 5)]) (size_ [(ilit 1); (ilit 3); (ilit 5)])
  ; eq_ (size_ [(ilit 3); (ilit 5)]) (size_ [(ilit 1); (ilit 1); (ilit 3); (ilit 5)])
  ; eq_ (size_ [(opt (axis "width") (ilit 15))]) (size_ [(opt (axis "height") (ilit 3)); (opt (axis "width") (ilit
      5))])
  ; eq_ (size_ [(opt (axis "height") (ilit 3)); (opt (axis "width") (ilit 5))]) (size_ [(opt (axis "width") (ilit
      15))])
  ; eq_ (size_ [(opt (axis "height") (ilit 3)); (opt (axis "width") (ilit 5))]) (size_ [(opt (axis "height") (ilit
      3)); (opt (axis "width") (ilit 5))])
  ; eq_ (size_ [(opt (axis "height") (ilit 3)); (opt (axis "width") (ilit 5))]) (size_ [(ilit 1); (opt (axis
      "height") (ilit 3)); (opt (axis "width") (ilit 5))])
  ; eq_ (size_ [(opt (axis "height") (ilit 3)); (opt (axis "width") (ilit 5))]) (size_ [(ilit 1); (ilit 1); (opt
      (axis "height") (ilit 3)); (opt (axis "width") (ilit 5))])
  ; eq_ (size_ [(ilit 3); (ilit 5); (ilit 7)]) (size_ [(ilit 105)])
  ; eq_ (size_ [(ilit 3); (ilit 5); (ilit 7)]) (size_ [(ilit 15); (ilit 7)])
  ; eq_ (size_ [(ilit 3); (ilit 5); (ilit 7)]) (size_ [(ilit 3); (ilit 5); (ilit 7)])
  ; eq_ (size_ [(ilit 3); (ilit 5); (ilit 7)]) (size_ [(ilit 1); (ilit 3); (ilit 5); (ilit 7)])
  ; eq_ (size_ [(opt (axis "width") (ilit 105))]) (size_ [(opt (axis "depth") (ilit 3)); (opt (axis "height") (ilit
      5)); (opt (axis "width") (ilit 7))])
  ; eq_ (size_ [(opt (axis "height") (ilit 15)); (opt (axis "width") (ilit 7))]) (size_ [(opt (axis "depth") (ilit
      3)); (opt (axis "height") (ilit 5)); (opt (axis "width") (ilit 7))])
  ; eq_ (size_ [(opt (axis "depth") (ilit 3)); (opt (axis "height") (ilit 5)); (opt (axis "width") (ilit 7))])
      (size_ [(opt (axis "width") (ilit 105))])
  ; eq_ (size_ [(opt (axis "depth") (ilit 3)); (opt (axis "height") (ilit 5)); (opt (axis "width") (ilit 7))])
      (size_ [(opt (axis "height") (ilit 15)); (opt (axis "width") (ilit 7))])
  ; eq_ (size_ [(opt (axis "depth") (ilit 3)); (opt (axis "height") (ilit 5)); (opt (axis "width") (ilit 7))])
      (size_ [(opt (axis "depth") (ilit 3)); (opt (axis "height") (ilit 5)); (opt (axis "width") (ilit 7))])
  ; eq_ (size_ [(opt (axis "depth") (ilit 3)); (opt (axis "height") (ilit 5)); (opt (axis "width") (ilit 7))])
      (size_ [(ilit 1); (opt (axis "depth") (ilit 3)); (opt (axis "height") (ilit 5)); (opt (axis "width") (ilit
      7))])
  ; eq_ (size_ [(ilit 3); (ilit 5); (ilit 7); (ilit 9)]) (size_ [(ilit 945)])
  ; eq_ (size_ [(ilit 3); (ilit 5); (ilit 7); (ilit 9)]) (size_ [(ilit 105); (ilit 9)])
  ; eq_ (size_ [(ilit 3); (ilit 5); (ilit 7); (ilit 9)]) (size_ [(ilit 15); (ilit 7); (ilit 9)])
  ; eq_ (size_ [(ilit 3); (ilit 5); (ilit 7); (ilit 9)]) (size_ [(ilit 3); (ilit 5); (ilit 7); (ilit 9)])
  ; eq_ (size_ [(opt (axis "depth") (ilit 15)); (opt (axis "height") (ilit 7)); (opt (axis "width") (ilit 9))])
      (size_ [(opt (axis "channel") (ilit 3)); (opt (axis "depth") (ilit 5)); (opt (axis "height") (ilit 7)); (opt
      (axis "width") (ilit 9))])
  ; eq_ (size_ [(opt (axis "height") (ilit 105)); (opt (axis "width") (ilit 9))]) (size_ [(opt (axis "channel")
      (ilit 3)); (opt (axis "depth") (ilit 5)); (opt (axis "height") (ilit 7)); (opt (axis "width") (ilit 9))])
  ; eq_ (size_ [(opt (axis "width") (ilit 945))]) (size_ [(opt (axis "channel") (ilit 3)); (opt (axis "depth")
      (ilit 5)); (opt (axis "height") (ilit 7)); (opt (axis "width") (ilit 9))])
  ; eq_ (size_ [(opt (axis "channel") (ilit 3)); (opt (axis "depth") (ilit 5)); (opt (axis "height") (ilit 7));
      (opt (axis "width") (ilit 9))]) (size_ [(opt (axis "width") (ilit 945))])
  ; eq_ (size_ [(opt (axis "channel") (ilit 3)); (opt (axis "depth") (ilit 5)); (opt (axis "height") (ilit 7));
      (opt (axis "width") (ilit 9))]) (size_ [(opt (axis "height") (ilit 105)); (opt (axis "width") (ilit 9))])
  ; eq_ (size_ [(opt (axis "channel") (ilit 3)); (opt (axis "depth") (ilit 5)); (opt (axis "height") (ilit 7));
      (opt (axis "width") (ilit 9))]) (size_ [(opt (axis "depth") (ilit 15)); (opt (axis "height") (ilit 7)); (opt
      (axis "width") (ilit 9))])
  ; eq_ (size_ [(opt (axis "channel") (ilit 3)); (opt (axis "depth") (ilit 5)); (opt (axis "height") (ilit 7));
      (opt (axis "width") (ilit 9))]) (size_ [(opt (axis "channel") (ilit 3)); (opt (axis "depth") (ilit 5)); (opt
      (axis "height") (ilit 7)); (opt (axis "width") (ilit 9))]) ]) = true.
Proof. vm_compute. reflexivity. Qed.

(** test/unit/utility/shape/compare.cpp 66-119: "Inequality comparison between shapes". *)
Example shape_compare_2 : passes (
  [ neq_ (size_ [(ilit 3)]) (size_ [(ilit 7)])
  ; neq_ (size_ [(ilit 3)]) (size_ [(ilit 5); (ilit 3)])
  ; neq_ (size_ [(ilit 3)]) (size_ [(ilit 1); (ilit 2); (ilit 3)])
  ; neq_ (size_ [(ilit 3)]) (size_ [(ilit 1); (ilit 2); (ilit 1); (ilit 9)])
  ; neq_ (size_ [(opt (axis "height") (ilit 3))]) (size_ [(opt (axis "height") (ilit 9))])
  ; neq_ (size_ [(opt (axis "height") (ilit 3))]) (size_ [(ilit 6); (opt (axis "height") (ilit 3))])
  ; neq_ (size_ [(opt (axis "height") (ilit 3))]) (size_ [(ilit 1); (ilit 3); (opt (axis "height") (ilit 3))])
  ; neq_ (size_ [(opt (axis "height") (ilit 3))]) (size_ [(ilit 2); (ilit 9); (ilit 1); (opt (axis "height") (ilit
      3))])
  ; neq_ (size_ [(ilit 3); (ilit 5)]) (size_ [(ilit 17)])
  ; neq_ (size_ [(ilit 3); (ilit 5)]) (size_ [(ilit 7); (ilit 5)])
  ; neq_ (size_ [(ilit 3); (ilit 5)]) (size_ [(ilit 1); (ilit 9); (ilit 5)])
  ; neq_ (size_ [(ilit 3); (ilit 5)]) (size_ [(ilit 3); (ilit 1); (ilit 3); (ilit 5)])
  ; neq_ (size_ [(opt (axis "width") (ilit 15))]) (size_ [(opt (axis "height") (ilit 9)); (opt (axis "width") (ilit
      5))])
  ; neq_ (size_ [(opt (axis "height") (ilit 3)); (opt (axis "width") (ilit 5))]) (size_ [(opt (axis "width") (ilit
      5))])
  ; neq_ (size_ [(opt (axis "height") (ilit 3)); (opt (axis "width") (ilit 5))]) (size_ [(opt (axis "height") (ilit
      3)); (opt (axis "width") (ilit 15))])
  ; neq_ (size_ [(opt (axis "height") (ilit 3)); (opt (axis "width") (ilit 5))]) (size_ [(ilit 1); (opt (axis
      "height") (ilit 8)); (opt (axis "width") (ilit 5))])
  ; neq_ (size_ [(opt (axis "height") (ilit 3)); (opt (axis "width") (ilit 5))]) (size_ [(ilit 1); (ilit 7); (opt
      (axis "height") (ilit 3)); (opt (axis "width") (ilit 5))])
  ; neq_ (size_ [(ilit 3); (ilit 5); (ilit 7)]) (size_ [(ilit 107)])
  ; neq_ (size_ [(ilit 3); (ilit 5); (ilit 7)]) (size_ [(ilit 35); (ilit 7)])
  ; neq_ (size_ [(ilit 3); (ilit 5); (ilit 7)]) (size_ [(ilit 3); (ilit 95); (ilit 7)])
  ; neq_ (size_ [(ilit 3); (ilit 5); (ilit 7)]) (size_ [(ilit 3); (ilit 3); (ilit 5); (ilit 7)])
  ; neq_ (size_ [(opt (axis "width") (ilit 15))]) (size_ [(opt (axis "depth") (ilit 3)); (opt (axis "height") (ilit
      5)); (opt (axis "width") (ilit 7))])
  ; neq_ (size_ [(opt (axis "height") (ilit 15)); (opt (axis "width") (ilit 77))]) (size_ [(opt (axis "depth")
      (ilit 3)); (opt (axis "height") (ilit 5)); (opt (axis "width") (ilit 7))])
  ; neq_ (size_ [(opt (axis "depth") (ilit 3)); (opt (axis "height") (ilit 5)); (opt (axis "width") (ilit 7))])
      (size_ [(opt (axis "width") (ilit 175))])
  ; neq_ (size_ [(opt (axis "depth") (ilit 3)); (opt (axis "height") (ilit 5)); (opt (axis "width") (ilit 7))])
      (size_ [(opt (axis "height") (ilit 75)); (opt (axis "width") (ilit 7))])
  ; neq_ (size_ [(opt (axis "depth") (ilit 3)); (opt (axis "height") (ilit 5)); (opt (axis "width") (ilit 7))])
      (size_ [(opt (axis "depth") (ilit 3)); (opt (axis "height") (ilit 35)); (opt (axis "width") (ilit 7))])
  ; neq_ (size_ [(opt (axis "depth") (ilit 3)); (opt (axis "height") (ilit 5)); (opt (axis "width") (ilit 7))])
      (size_ [(ilit 3); (opt (axis "depth") (ilit 33)); (opt (axis "height") (ilit 5)); (opt (axis "width") (ilit
      7))])
  ; neq_ (size_ [(ilit 3); (ilit 5); (ilit 7); (ilit 9)]) (size_ [(ilit 975)])
  ; neq_ (size_ [(ilit 3); (ilit 5); (ilit 7); (ilit 9)]) (size_ [(ilit 105); (ilit 11)])
  ; neq_ (size_ [(ilit 3); (ilit 5); (ilit 7); (ilit 9)]) (size_ [(ilit 1); (ilit 7); (ilit 9)])
  ; neq_ (size_ [(ilit 3); (ilit 5); (ilit 7); (ilit 9)]) (size_ [(ilit 3); (ilit 1); (ilit 77); (ilit 9)])
  ; neq_ (size_ [(opt (axis "depth") (ilit 19)); (opt (axis "height") (ilit 7)); (opt (axis "width") (ilit 9))])
      (size_ [(opt (axis "channel") (ilit 3)); (opt (axis "depth") (ilit 5)); (opt (axis "height") (ilit 7)); (opt
      (axis "width") (ilit 9))])
  ; neq_ (size_ [(opt (axis "height") (ilit 115)); (opt (axis "width") (ilit 9))]) (size_ [(opt (axis "channel")
      (ilit 3)); (opt (axis "depth") (ilit 5)); (opt (axis "height") (ilit 7)); (opt (axis "width") (ilit 9))])
  ; neq_ (size_ [(opt (axis "width") (ilit 995))]) (size_ [(opt (axis "channel") (ilit 3)); (opt (axis "depth")
      (ilit 5)); (opt (axis "height") (ilit 7)); (opt (axis "width") (ilit 9))])
  ; neq_ (size_ [(opt (axis "channel") (ilit 3)); (opt (axis "depth") (ilit 5)); (opt (axis "height") (ilit 7));
      (opt (axis "width") (ilit 9))]) (size_ [(opt (axis "width") (ilit 975))])
  ; neq_ (size_ [(opt (axis "channel") (ilit 3)); (opt (axis "depth") (ilit 5)); (opt (axis "height") (ilit 7));
      (opt (axis "width") (ilit 9))]) (size_ [(opt (axis "height") (ilit 135)); (opt (axis "width") (ilit 9))])
  ; neq_ (size_ [(opt (axis "channel") (ilit 3)); (opt (axis "depth") (ilit 5)); (opt (axis "height") (ilit 7));
      (opt (axis "width") (ilit 9))]) (size_ [(opt (axis "depth") (ilit 15)); (opt (axis "height") (ilit 8)); (opt
      (axis "width") (ilit 9))])
  ; neq_ (size_ [(opt (axis "channel") (ilit 3)); (opt (axis "depth") (ilit 5)); (opt (axis "height") (ilit 7));
      (opt (axis "width") (ilit 9))]) (size_ [(opt (axis "channel") (ilit 11)); (opt (axis "depth") (ilit 80));
      (opt (axis "height") (ilit 7)); (opt (axis "width") (ilit 9))]) ]) = true.
Proof. vm_compute. reflexivity. Qed.

(** test/unit/utility/shape/convert.cpp 13-19: "Small shape can be used to construct large shape". *)
Example shape_convert_1 : passes (
  let small := shape_of [joker; joker] [(ilit 4); (ilit 2)] in
  let large := shape_of [joker; joker; joker; joker] [small] in
  [ eq_ large (size_ [(ilit 1); (ilit 1); (at_index small 0); (at_index small 1)]) ]) = true.
Proof. vm_compute. reflexivity. Qed.

(** test/unit/utility/shape/convert.cpp 31-38: "Large shape need to be explicitly converted to small shape". *)
Example shape_convert_3 : passes (
  let large := shape_of [joker; joker; joker; joker] [(ilit 4); (ilit 2); (ilit 6); (ilit 9)] in
  let small := shape_of [joker; joker] [large] in
  [ eq_ (at_index small 0) (mul (mul (at_index large 0) (at_index large 1)) (at_index large 2))
  ; eq_ (at_index small 1) (at_index large 3) ]) = true.
Proof. vm_compute. reflexivity. Qed.

(** test/unit/utility/shape/fit_constraints.cpp 11-18: "Check fit_constraints with dynamic reference". *)
Example shape_fit_constraints_1 : passes (
  let ref := size_ [(ilit 7); (ilit 8); (ilit 9)] in
  [ expect (fit_constraints_ (size_ [(ilit 11); (ilit 12); (ilit 13)]) ref)
  ; expect (fit_constraints_ (size_ [(ilit 11); (clit "12"); (ilit 13)]) ref)
  ; expect (fit_constraints_ (size_ [(clit "11"); (clit "12"); (clit "13")]) ref) ]) = true.
Proof. vm_compute. reflexivity. Qed.

(** test/unit/utility/shape/fit_constraints.cpp 20-29: "Check fit_constraints with hybrid reference". *)
Example shape_fit_constraints_2 : passes (
  let ref := size_ [(ilit 7); (clit "8"); (ilit 9)] in
  [ expect_not (fit_constraints_ (size_ [(ilit 11); (ilit 12); (ilit 13)]) ref)
  ; expect_not (fit_constraints_ (size_ [(ilit 11); (clit "12"); (ilit 13)]) ref)
  ; expect (fit_constraints_ (size_ [(ilit 11); (ilit 8); (ilit 13)]) ref)
  ; expect (fit_constraints_ (size_ [(ilit 11); (clit "8"); (ilit 13)]) ref)
  ; expect (fit_constraints_ (size_ [(clit "11"); (clit "8"); (clit "13")]) ref) ]) = true.
Proof. vm_compute. reflexivity. Qed.

(** test/unit/utility/shape/fit_constraints.cpp 31-45: "Check fit_constraints with full-static reference". *)
Example shape_fit_constraints_3 : passes (
  let ref := size_ [(clit "7"); (clit "8"); (clit "9")] in
  [ expect_not (fit_constraints_ (size_ [(ilit 11); (ilit 12); (ilit 13)]) ref)
  ; expect_not (fit_constraints_ (size_ [(ilit 11); (clit "12"); (ilit 13)]) ref)
  ; expect_not (fit_constraints_ (size_ [(ilit 11); (clit "8"); (ilit 13)]) ref)
  ; expect_not (fit_constraints_ (size_ [(ilit 11); (clit "8"); (clit "9")]) ref)
  ; expect_not (fit_constraints_ (size_ [(clit "7"); (clit "8"); (ilit 13)]) ref)
  ; expect (fit_constraints_ (size_ [(clit "7"); (clit "8"); (clit "9")]) ref)
  ; expect (fit_constraints_ (size_ [(ilit 7); (clit "8"); (clit "9")]) ref)
  ; expect (fit_constraints_ (size_ [(clit "7"); (ilit 8); (clit "9")]) ref)
  ; expect (fit_constraints_ (size_ [(clit "7"); (clit "8"); (ilit 9)]) ref)
  ; expect (fit_constraints_ (size_ [(clit "7"); (ilit 8); (ilit 9)]) ref) ]) = true.
Proof. vm_compute. reflexivity. Qed.

(** test/unit/utility/shape/joker.cpp 12-33: "1D shape constructor with joker indexes". *)
Example shape_joker_1 : passes (
  let d1 := shape_of [joker] [joker] in
  let d2 := shape_of [joker] [(ilit 3)] in
  let d3 := shape_of [joker] [(clit "3")] in
  let s1 := shape_of [(ilit 3)] [joker] in
  let s2 := shape_of [(ilit 3)] [(ilit 3)] in
  let s3 := shape_of [(ilit 3)] [(clit "3")] in
  [ eq_ (get 0 d1) (ilit 0)
  ; eq_ (get 0 d2) (ilit 3)
  ; eq_ (get 0 d3) (ilit 3)
  ; eq_ (get 0 s1) (ilit 3)
  ; eq_ (get 0 s2) (ilit 3)
  ; eq_ (get 0 s3) (ilit 3) ]) = true.
Proof. vm_compute. reflexivity. Qed.

(** test/unit/utility/shape/default_ctor.cpp 14-33: "Default constructed shape behavior - Mixed 1D". *)
Example shape_default_ctor_1 : passes (
  let shape_d := shape_of [joker] [] in
  let shape_s := shape_of [(ilit 7)] [] in
  [ eq_ (sizeof shape_d) (mul (ilit 1) (sizeof (tlit I32 0)))
  ; eq_ (sizeof shape_s) (tlit U64 1)
  ; eq_ (nbdims_ shape_d) (ilit 1)
  ; eq_ (nbdims_ shape_s) (ilit 1)
  ; eq_ (numel_ shape_d) (tlit I64 0)
  ; eq_ (numel_ shape_s) (tlit I64 7)
  ; eq_ (order_ shape_d) (tlit I64 1)
  ; eq_ (order_ shape_s) (tlit I64 1)
  ; eq_ shape_d (size_ [(ilit 0)])
  ; eq_ shape_s (size_ [(ilit 7)]) ]) = true.
Proof. vm_compute. reflexivity. Qed.

(** test/unit/utility/shape/default_ctor.cpp 35-61: "Default constructed shape behavior - Mixed 2D". *)
Example shape_default_ctor_2 : passes (
  let shape_dd := shape_of [joker; joker] [] in
  let shape_ds := shape_of [joker; (ilit 7)] [] in
  let shape_sd := shape_of [(ilit 7); joker] [] in
  let shape_ss := shape_of [(ilit 7); (ilit 5)] [] in
  [ eq_ (sizeof shape_dd) (mul (ilit 2) (sizeof (tlit I32 0)))
  ; eq_ (sizeof shape_ds) (mul (ilit 1) (sizeof (tlit I32 0)))
  ; eq_ (sizeof shape_sd) (mul (ilit 1) (sizeof (tlit I32 0)))
  ; eq_ (sizeof shape_ss) (tlit U64 1)
  ; eq_ (nbdims_ shape_dd) (tlit I64 2)
  ; eq_ (nbdims_ shape_ds) (tlit I64 2)
  ; eq_ (nbdims_ shape_sd) (tlit I64 2)
  ; eq_ (nbdims_ shape_ss) (tlit I64 2)
  ; eq_ (order_ shape_dd) (tlit I64 2)
  ; eq_ (order_ shape_ds) (tlit I64 2)
  ; eq_ (order_ shape_sd) (tlit I64 2)
  ; eq_ (order_ shape_ss) (tlit I64 2)
  ; eq_ shape_dd (size_ [(ilit 0); (ilit 0)])
  ; eq_ shape_ds (size_ [(ilit 0); (ilit 7)])
  ; eq_ shape_sd (size_ [(ilit 7); (ilit 0)])
  ; eq_ shape_ss (size_ [(ilit 7); (ilit 5)]) ]) = true.
Proof. vm_compute. reflexivity. Qed.

(** test/unit/utility/shape/default_ctor.cpp 63-109: "Default constructed shape behavior - Mixed 3D". *)
Example shape_default_ctor_3 : passes (
  let shape_ddd := shape_of [joker; joker; joker] [] in
  let shape_dds := shape_of [joker; joker; (ilit 7)] [] in
  let shape_dsd := shape_of [joker; (ilit 7); joker] [] in
  let shape_dss := shape_of [joker; (ilit 7); (ilit 5)] [] in
  let shape_sdd := shape_of [(ilit 7); joker; joker] [] in
  let shape_sds := shape_of [(ilit 7); joker; (ilit 5)] [] in
  let shape_ssd := shape_of [(ilit 7); (ilit 5); joker] [] in
  let shape_sss := shape_of [(ilit 7); (ilit 5); (ilit 3)] [] in
  [ eq_ (sizeof shape_ddd) (mul (ilit 3) (sizeof (tlit I32 0)))
  ; eq_ (sizeof shape_dds) (mul (ilit 2) (sizeof (tlit I32 0)))
  ; eq_ (sizeof shape_dsd) (mul (ilit 2) (sizeof (tlit I32 0)))
  ; eq_ (sizeof shape_dss) (mul (ilit 1) (sizeof (tlit I32 0)))
  ; eq_ (sizeof shape_sdd) (mul (ilit 2) (sizeof (tlit I32 0)))
  ; eq_ (sizeof shape_sds) (mul (ilit 1) (sizeof (tlit I32 0)))
  ; eq_ (sizeof shape_ssd) (mul (ilit 1) (sizeof (tlit I32 0)))
  ; eq_ (sizeof shape_sss) (tlit U64 1)
  ; eq_ (nbdims_ shape_ddd) (tlit I64 3)
  ; eq_ (nbdims_ shape_dds) (tlit I64 3)
  ; eq_ (nbdims_ shape_dsd) (tlit I64 3)
  ; eq_ (nbdims_ shape_dss) (tlit I64 3)
  ; eq_ (nbdims_ shape_sdd) (tlit I64 3)
  ; eq_ (nbdims_ shape_sds) (tlit I64 3)
  ; eq_ (nbdims_ shape_ssd) (tlit I64 3)
  ; eq_ (nbdims_ shape_sss) (tlit I64 3)
  ; eq_ (order_ shape_ddd) (tlit I64 3)
  ; eq_ (order_ shape_dds) (tlit I64 3)
  ; eq_ (order_ shape_dsd) (tlit I64 3)
  ; eq_ (order_ shape_dss) (tlit I64 3)
  ; eq_ (order_ shape_sdd) (tlit I64 3)
  ; eq_ (order_ shape_sds) (tlit I64 3)
  ; eq_ (order_ shape_ssd) (tlit I64 3)
  ; eq_ (order_ shape_sss) (tlit I64 3)
  ; eq_ shape_ddd (size_ [(ilit 0); (ilit 0); (ilit 0)])
  ; eq_ shape_dds (size_ [(ilit 0); (ilit 0); (ilit 7)])
  ; eq_ shape_dsd (size_ [(ilit 0); (ilit 7); (ilit 0)])
  ; eq_ shape_dss (size_ [(ilit 0); (ilit 7); (ilit 5)])
  ; eq_ shape_sdd (size_ [(ilit 7); (ilit 0); (ilit 0)])
  ; eq_ shape_sds (size_ [(ilit 7); (ilit 0); (ilit 5)])
  ; eq_ shape_ssd (size_ [(ilit 7); (ilit 5); (ilit 0)])
  ; eq_ shape_sss (size_ [(ilit 7); (ilit 5); (ilit 3)]) ]) = true.
Proof. vm_compute. reflexivity. Qed.

(** test/unit/utility/shape/default_ctor.cpp 111-197: "Default constructed shape behavior - Mixed 4D". *)
Example shape_default_ctor_4 : passes (
  let shape_dddd := shape_of [joker; joker; joker; joker] [] in
  let shape_ddds := shape_of [joker; joker; joker; (ilit 7)] [] in
  let shape_ddsd := shape_of [joker; joker; (ilit 7); joker] [] in
  let shape_ddss := shape_of [joker; joker; (ilit 7); (ilit 5)] [] in
  let shape_dsdd := shape_of [joker; (ilit 7); joker; joker] [] in
  let shape_dsds := shape_of [joker; (ilit 7); joker; (ilit 5)] [] in
  let shape_dssd := shape_of [joker; (ilit 7); (ilit 5); joker] [] in
  let shape_dsss := shape_of [joker; (ilit 7); (ilit 5); (ilit 3)] [] in
  let shape_sddd := shape_of [(ilit 9); joker; joker; joker] [] in
  let shape_sdds := shape_of [(ilit 9); joker; joker; (ilit 7)] [] in
  let shape_sdsd := shape_of [(ilit 9); joker; (ilit 7); joker] [] in
  let shape_sdss := shape_of [(ilit 9); joker; (ilit 7); (ilit 5)] [] in
  let shape_ssdd := shape_of [(ilit 9); (ilit 7); joker; joker] [] in
  let shape_ssds := shape_of [(ilit 9); (ilit 7); joker; (ilit 5)] [] in
  let shape_sssd := shape_of [(ilit 9); (ilit 7); (ilit 5); joker] [] in
  let shape_ssss := shape_of [(ilit 9); (ilit 7); (ilit 5); (ilit 3)] [] in
  [ eq_ (sizeof shape_dddd) (mul (ilit 4) (sizeof (tlit I32 0)))
  ; eq_ (sizeof shape_ddds) (mul (ilit 3) (sizeof (tlit I32 0)))
  ; eq_ (sizeof shape_ddsd) (mul (ilit 3) (sizeof (tlit I32 0)))
  ; eq_ (sizeof shape_ddss) (mul (ilit 2) (sizeof (tlit I32 0)))
  ; eq_ (sizeof shape_dsdd) (mul (ilit 3) (sizeof (tlit I32 0)))
  ; eq_ (sizeof shape_dsds) (mul (ilit 2) (sizeof (tlit I32 0)))
  ; eq_ (sizeof shape_dssd) (mul (ilit 2) (sizeof (tlit I32 0)))
  ; eq_ (sizeof shape_dsss) (mul (ilit 1) (sizeof (tlit I32 0)))
  ; eq_ (sizeof shape_sddd) (mul (ilit 3) (sizeof (tlit I32 0)))
  ; eq_ (sizeof shape_sdds) (mul (ilit 2) (sizeof (tlit I32 0)))
  ; eq_ (sizeof shape_sdsd) (mul (ilit 2) (sizeof (tlit I32 0)))
  ; eq_ (sizeof shape_sdss) (mul (ilit 1) (sizeof (tlit I32 0)))
  ; eq_ (sizeof shape_ssdd) (mul (ilit 2) (sizeof (tlit I32 0)))
  ; eq_ (sizeof shape_ssds) (mul (ilit 1) (sizeof (tlit I32 0)))
  ; eq_ (sizeof shape_sssd) (mul (ilit 1) (sizeof (tlit I32 0)))
  ; eq_ (sizeof shape_ssss) (tlit U64 1)
  ; eq_ (nbdims_ shape_dddd) (tlit I64 4)
  ; eq_ (nbdims_ shape_ddds) (tlit I64 4)
  ; eq_ (nbdims_ shape_ddsd) (tlit I64 4)
  ; eq_ (nbdims_ shape_ddss) (tlit I64 4)
  ; eq_ (nbdims_ shape_dsdd) (tlit I64 4)
  ; eq_ (nbdims_ shape_dsds) (tlit I64 4)
  ; eq_ (nbdims_ shape_dssd) (tlit I64 4)
  ; eq_ (nbdims_ shape_dsss) (tlit I64 4)
  ; eq_ (nbdims_ shape_sddd) (tlit I64 4)
  ; eq_ (nbdims_ shape_sdds) (tlit I64 4)
  ; eq_ (nbdims_ shape_sdsd) (tlit I64 4)
  ; eq_ (nbdims_ shape_sdss) (tlit I64 4)
  ; eq_ (nbdims_ shape_ssdd) (tlit I64 4)
  ; eq_ (nbdims_ shape_ssds) (tlit I64 4)
  ; eq_ (nbdims_ shape_sssd) (tlit I64 4)
  ; eq_ (nbdims_ shape_ssss) (tlit I64 4)
  ; eq_ (order_ shape_dddd) (tlit I64 4)
  ; eq_ (order_ shape_ddds) (tlit I64 4)
  ; eq_ (order_ shape_ddsd) (tlit I64 4)
  ; eq_ (order_ shape_ddss) (tlit I64 4)
  ; eq_ (order_ shape_dsdd) (tlit I64 4)
  ; eq_ (order_ shape_dsds) (tlit I64 4)
  ; eq_ (order_ shape_dssd) (tlit I64 4)
  ; eq_ (order_ shape_dsss) (tlit I64 4)
  ; eq_ (order_ shape_sddd) (tlit I64 4)
  ; eq_ (order_ shape_sdds) (tlit I64 4)
  ; eq_ (order_ shape_sdsd) (tlit I64 4)
  ; eq_ (order_ shape_sdss) (tlit I64 4)
  ; eq_ (order_ shape_ssdd) (tlit I64 4)
  ; eq_ (order_ shape_ssds) (tlit I64 4)
  ; eq_ (order_ shape_sssd) (tlit I64 4)
  ; eq_ (order_ shape_ssss) (tlit I64 4)
  ; eq_ shape_dddd (size_ [(ilit 0); (ilit 0); (ilit 0); (ilit 0)])
  ; eq_ shape_ddds (size_ [(ilit 0); (ilit 0); (ilit 0); (ilit 7)])
  ; eq_ shape_ddsd (size_ [(ilit 0); (ilit 0); (ilit 7); (ilit 0)])
  ; eq_ shape_ddss (size_ [(ilit 0); (ilit 0); (ilit 7); (ilit 5)])
  ; eq_ shape_dsdd (size_ [(ilit 0); (ilit 7); (ilit 0); (ilit 0)])
  ; eq_ shape_dsds (size_ [(ilit 0); (ilit 7); (ilit 0); (ilit 5)])
  ; eq_ shape_dssd (size_ [(ilit 0); (ilit 7); (ilit 5); (ilit 0)])
  ; eq_ shape_dsss (size_ [(ilit 0); (ilit 7); (ilit 5); (ilit 3)])
  ; eq_ shape_sddd (size_ [(ilit 9); (ilit 0); (ilit 0); (ilit 0)])
  ; eq_ shape_sdds (size_ [(ilit 9); (ilit 0); (ilit 0); (ilit 7)])
  ; eq_ shape_sdsd (size_ [(ilit 9); (ilit 0); (ilit 7); (ilit 0)])
  ; eq_ shape_sdss (size_ [(ilit 9); (ilit 0); (ilit 7); (ilit 5)])
  ; eq_ shape_ssdd (size_ [(ilit 9); (ilit 7); (ilit 0); (ilit 0)])
  ; eq_ shape_ssds (size_ [(ilit 9); (ilit 7); (ilit 0); (ilit 5)])
  ; eq_ shape_sssd (size_ [(ilit 9); (ilit 7); (ilit 5); (ilit 0)])
  ; eq_ shape_ssss (size_ [(ilit 9); (ilit 7); (ilit 5); (ilit 3)]) ]) = true.
Proof. vm_compute. reflexivity. Qed.

(** test/unit/utility/shape/mixed_named_unnamed.cpp 12-43: "1D mixed shape constructor". *)
Example shape_mixed_named_unnamed_1 : passes (
  let x0 := shape_of [(axis "width")] [] in
  let x1 := shape_of [(axis "width")] [(opt (axis "width") (ilit 77))] in
  let x1b := size_ [(opt (axis "width") (ilit 99))] in
  let x3 := shape_of [(with_content (axis "width") (ilit 55))] [] in
  let x3b := shape_of [(with_content (axis "width") (ilit 55))] [(ilit 55)] in
  let x3c := shape_of [(with_content (axis "width") (ilit 55))] [(opt (axis "width") (ilit 55))] in
  let x3d := shape_of [(with_content (axis "width") (ilit 55))] [(opt (axis "width") joker)] in
  [ eq_ (order_ x0) (ilit 1)
  ; eq_ (at_axis x0 (axis "width")) (ilit 0)
  ; eq_ (order_ x1) (ilit 1)
  ; eq_ (at_axis x1 (axis "width")) (ilit 77)
  ; eq_ (order_ x1b) (ilit 1)
  ; eq_ (at_axis x1b (axis "width")) (ilit 99)
  ; eq_ (order_ x3) (ilit 1)
  ; eq_ (at_axis x3 (axis "width")) (ilit 55)
  ; eq_ (order_ x3b) (ilit 1)
  ; eq_ (at_axis x3b (axis "width")) (ilit 55)
  ; eq_ (order_ x3c) (ilit 1)
  ; eq_ (at_axis x3c (axis "width")) (ilit 55)
  ; eq_ (order_ x3d) (ilit 1)
  ; eq_ (at_axis x3d (axis "width")) (ilit 55) ]) = true.
Proof. vm_compute. reflexivity. Qed.

(** test/unit/utility/shape/mixed_named_unnamed.cpp 45-159: "2D mixed shape constructor". *)
Example shape_mixed_named_unnamed_2 : passes (
  let n := decl I32 (ilit 99) in
  let s0 := shape_of [(axis "width"); (axis "height")] [] in
  let s1 := size_ [(opt (axis "height") n); (opt (axis "width") (ilit 77))] in
  let s2 := shape_of [(axis "width"); (axis "height")] [(opt (axis "height") n); (opt (axis "width") (ilit 77))] in
  let s3 := shape_of [(axis "width"); (axis "height")] [(opt (axis "width") (ilit 77)); (opt (axis "height") n)] in
  let s4 := shape_of [(with_content (axis "width") (ilit 55)); (axis "height")] [(opt (axis "height") n)] in
  let s5 := shape_of [(with_content (axis "width") (ilit 55)); (axis "height")] [(opt (axis "height") n); (opt
    (axis "width") (ilit 55))] in
  let s6 := shape_of [(with_content (axis "width") (ilit 55)); (axis "height")] [(opt (axis "height") n); (opt
    (axis "width") joker)] in
  let s7 := shape_of [(axis "width"); (axis "height")] [(opt (axis "width") n)] in
  let s0_1 := shape_of [(axis "width"); (axis "height")] [n; (ilit 77)] in
  let s1_1 := shape_of [(axis "width"); (axis "height")] [(ilit 77); n] in
  let s2_1 := shape_of [(with_content (axis "width") (ilit 55)); (axis "height")] [joker; n] in
  let s3_1 := shape_of [(axis "width"); (with_content (axis "height") (ilit 88))] [n; joker] in
  let s4_1 := shape_of [(with_content (axis "width") (ilit 33)); (with_content (axis "height") (ilit 88))] [joker;
    joker] in
  let s5_1 := shape_of [(with_content (axis "width") (ilit 55)); (axis "height")] [(ilit 55); n] in
  let s6_1 := shape_of [(with_content (axis "width") (ilit 33)); (with_content (axis "height") (ilit 88))] [] in
  let s0_2 := shape_of [joker; joker] [n; (ilit 77)] in
  let s1_2 := size_ [n; (ilit 77)] in
  let s2_2 := shape_of [(ilit 55); joker] [joker; n] in
  let s2b := shape_of [(ilit 55); joker] [(ilit 55); n] in
  let s3_2 := shape_of [joker; (ilit 33)] [n; joker] in
  let s3b := shape_of [joker; (ilit 33)] [n; (ilit 33)] in
  let s4_2 := shape_of [(ilit 44); (ilit 33)] [joker; joker] in
  let s4b := shape_of [(ilit 44); (ilit 33)] [joker; (ilit 33)] in
  let s4c := shape_of [(ilit 44); (ilit 33)] [(ilit 44); joker] in
  let s4d := shape_of [(ilit 44); (ilit 33)] [(ilit 44); (ilit 33)] in
  let s4e := shape_of [(ilit 44); (ilit 33)] [] in
  [ eq_ (at_axis s0 (axis "width")) (ilit 0)
  ; eq_ (at_axis s0 (axis "height")) (ilit 0)
  ; eq_ (at_axis s1 (axis "width")) (ilit 77)
  ; eq_ (at_axis s1 (axis "height")) n
  ; eq_ (at_axis s2 (axis "width")) (ilit 77)
  ; eq_ (at_axis s2 (axis "height")) n
  ; eq_ (at_axis s3 (axis "width")) (ilit 77)
  ; eq_ (at_axis s3 (axis "height")) n
  ; eq_ (at_axis s4 (axis "width")) (ilit 55)
  ; eq_ (at_axis s4 (axis "height")) n
  ; eq_ (at_axis s5 (axis "width")) (ilit 55)
  ; eq_ (at_axis s5 (axis "height")) n
  ; eq_ (at_axis s6 (axis "width")) (ilit 55)
  ; eq_ (at_axis s6 (axis "height")) n
  ; eq_ (at_axis s7 (axis "width")) n
  ; eq_ (at_axis s7 (axis "height")) (ilit 0)
  ; eq_ (at_axis s0_1 (axis "width")) n
  ; eq_ (at_axis s0_1 (axis "height")) (ilit 77)
  ; eq_ (at_axis s1_1 (axis "width")) (ilit 77)
  ; eq_ (at_axis s1_1 (axis "height")) n
  ; eq_ (at_axis s2_1 (axis "width")) (ilit 55)
  ; eq_ (at_axis s2_1 (axis "height")) n
  ; eq_ (at_axis s3_1 (axis "width")) n
  ; eq_ (at_axis s3_1 (axis "height")) (ilit 88)
  ; eq_ (at_axis s4_1 (axis "width")) (ilit 33)
  ; eq_ (at_axis s4_1 (axis "height")) (ilit 88)
  ; eq_ (at_axis s5_1 (axis "width")) (ilit 55)
  ; eq_ (at_axis s5_1 (axis "height")) n
  ; eq_ (at_axis s6_1 (axis "width")) (ilit 33)
  ; eq_ (at_axis s6_1 (axis "height")) (ilit 88)
  ; eq_ (get 0 s0_2) n
  ; eq_ (get 1 s0_2) (ilit 77)
  ; eq_ (get 0 s1_2) n
  ; eq_ (get 1 s1_2) (ilit 77)
  ; eq_ (get 0 s2_2) (ilit 55)
  ; eq_ (get 1 s2_2) n
  ; eq_ (get 0 s2b) (ilit 55)
  ; eq_ (get 1 s2b) n
  ; eq_ (get 0 s3_2) n
  ; eq_ (get 1 s3_2) (ilit 33)
  ; eq_ (get 0 s3b) n
  ; eq_ (get 1 s3b) (ilit 33)
  ; eq_ (get 0 s4_2) (ilit 44)
  ; eq_ (get 1 s4_2) (ilit 33)
  ; eq_ (get 0 s4b) (ilit 44)
  ; eq_ (get 1 s4b) (ilit 33)
  ; eq_ (get 0 s4c) (ilit 44)
  ; eq_ (get 1 s4c) (ilit 33)
  ; eq_ (get 0 s4d) (ilit 44)
  ; eq_ (get 1 s4d) (ilit 33)
  ; eq_ (get 0 s4e) (ilit 44)
  ; eq_ (get 1 s4e) (ilit 33) ]) = true.
Proof. vm_compute. reflexivity. Qed.

(** test/unit/utility/shape/mixed_static_dynamic.cpp 12-53: "1D mixed shape constructor". *)
Example shape_mixed_static_dynamic_1 : passes (
  let s1 := size_ [(ilit 7)] in
  let s2 := size_as I16 [(ilit 33)] in
  let ss2 := size_as I16 [(decl I16 (ilit 33))] in
  let s2d := size_ [(decl I16 (ilit 33))] in
  let s3 := size_ [(fixd (ilit 9))] in
  let s3d := size_ [(fixd (ilit 390))] in
  [ eq_ (sizeof s1) (sizeof (tlit I32 0))
  ; eq_ (order_ s1) (ilit 1)
  ; eq_ (numel_ s1) (ilit 7)
  ; eq_ (get 0 s1) (ilit 7)
  ; eq_ (sizeof s2) (sizeof (tlit I16 0))
  ; eq_ (order_ s2) (ilit 1)
  ; eq_ (numel_ s2) (ilit 33)
  ; eq_ (get 0 s2) (ilit 33)
  ; eq_ (sizeof ss2) (sizeof (tlit I16 0))
  ; eq_ (order_ ss2) (ilit 1)
  ; eq_ (numel_ ss2) (ilit 33)
  ; eq_ (get 0 ss2) (ilit 33)
  ; eq_ (sizeof s2d) (sizeof (tlit I16 0))
  ; eq_ (order_ s2d) (ilit 1)
  ; eq_ (numel_ s2d) (ilit 33)
  ; eq_ (get 0 s2d) (ilit 33)
  ; eq_ (sizeof s3) (tlit U64 1)
  ; eq_ (sizeof (get 0 s3)) (tlit U64 1)
  ; eq_ (order_ s3) (ilit 1)
  ; eq_ (numel_ s3) (ilit 9)
  ; eq_ (get 0 s3) (ilit 9)
  ; eq_ (sizeof s3d) (tlit U64 1)
  ; eq_ (sizeof (get 0 s3d)) (tlit U64 1)
  ; eq_ (order_ s3d) (ilit 1)
  ; eq_ (numel_ s3d) (ilit 390)
  ; eq_ (get 0 s3d) (ilit 390) ]) = true.
Proof. vm_compute. reflexivity. Qed.

(** test/unit/utility/shape/mixed_static_dynamic.cpp 55-98: "2D partial shape constructor". *)
Example shape_mixed_static_dynamic_2 : passes (
  let s1 := size_ [(ilit 7); (ilit 9)] in
  let s2 := size_as I16 [(ilit 9); (ilit 3)] in
  let s3 := size_ [(clit "5"); (ilit 8)] in
  let s4 := size_as I16 [(ilit 5); (clit "9")] in
  let s5 := size_ [(clit "7"); (clit "9")] in
  [ eq_ (sizeof s1) (mul (ilit 2) (sizeof (ilit 7)))
  ; eq_ (order_ s1) (ilit 2)
  ; eq_ (numel_ s1) (ilit 63)
  ; eq_ (get 0 s1) (ilit 7)
  ; eq_ (get 1 s1) (ilit 9)
  ; eq_ (sizeof s2) (mul (ilit 2) (sizeof (tlit I16 0)))
  ; eq_ (order_ s2) (ilit 2)
  ; eq_ (numel_ s2) (ilit 27)
  ; eq_ (get 0 s2) (ilit 9)
  ; eq_ (get 1 s2) (ilit 3)
  ; eq_ (sizeof s3) (sizeof (tlit I32 0))
  ; eq_ (order_ s3) (ilit 2)
  ; eq_ (numel_ s3) (ilit 40)
  ; eq_ (get 0 s3) (ilit 5)
  ; eq_ (get 1 s3) (ilit 8)
  ; eq_ (sizeof s4) (sizeof (tlit I16 0))
  ; eq_ (order_ s4) (ilit 2)
  ; eq_ (numel_ s4) (ilit 45)
  ; eq_ (get 0 s4) (ilit 5)
  ; eq_ (get 1 s4) (ilit 9)
  ; eq_ (sizeof s5) (tlit U64 1)
  ; eq_ (order_ s5) (ilit 2)
  ; eq_ (numel_ s5) (ilit 63)
  ; eq_ (get 0 s5) (ilit 7)
  ; eq_ (get 1 s5) (ilit 9) ]) = true.
Proof. vm_compute. reflexivity. Qed.

(** test/unit/utility/shape/mixed_static_dynamic.cpp 100-184: "3D partial shape constructor". *)
Example shape_mixed_static_dynamic_3 : passes (
  let s1 := size_ [(ilit 7); (ilit 9); (ilit 11)] in
  let s2 := size_as I16 [(ilit 9); (ilit 3); (ilit 7)] in
  let s3 := size_ [(clit "7"); (ilit 9); (ilit 11)] in
  let s4 := size_ [(ilit 7); (clit "9"); (ilit 11)] in
  let s5 := size_ [(ilit 7); (ilit 9); (clit "11")] in
  let s6 := size_ [(clit "7"); (clit "9"); (ilit 11)] in
  let s7 := size_ [(ilit 7); (clit "9"); (clit "11")] in
  let s8 := size_as I16 [(clit "7"); (ilit 9); (clit "11")] in
  let s9 := size_ [(clit "7"); (clit "9"); (clit "11")] in
  [ eq_ (sizeof s1) (mul (ilit 3) (sizeof (ilit 7)))
  ; eq_ (order_ s1) (ilit 3)
  ; eq_ (numel_ s1) (ilit 693)
  ; eq_ (get 0 s1) (ilit 7)
  ; eq_ (get 1 s1) (ilit 9)
  ; eq_ (get 2 s1) (ilit 11)
  ; eq_ (sizeof s2) (mul (ilit 3) (sizeof (tlit I16 0)))
  ; eq_ (order_ s2) (ilit 3)
  ; eq_ (numel_ s2) (ilit 189)
  ; eq_ (get 0 s2) (ilit 9)
  ; eq_ (get 1 s2) (ilit 3)
  ; eq_ (get 2 s2) (ilit 7)
  ; eq_ (sizeof s3) (mul (ilit 2) (sizeof (tlit I32 0)))
  ; eq_ (order_ s3) (ilit 3)
  ; eq_ (numel_ s3) (ilit 693)
  ; eq_ (get 0 s3) (ilit 7)
  ; eq_ (get 1 s3) (ilit 9)
  ; eq_ (get 2 s3) (ilit 11)
  ; eq_ (sizeof s4) (mul (ilit 2) (sizeof (tlit I32 0)))
  ; eq_ (order_ s4) (ilit 3)
  ; eq_ (numel_ s4) (ilit 693)
  ; eq_ (get 0 s4) (ilit 7)
  ; eq_ (get 1 s4) (ilit 9)
  ; eq_ (get 2 s4) (ilit 11)
  ; eq_ (sizeof s5) (mul (ilit 2) (sizeof (tlit I32 0)))
  ; eq_ (order_ s5) (ilit 3)
  ; eq_ (numel_ s5) (ilit 693)
  ; eq_ (get 0 s5) (ilit 7)
  ; eq_ (get 1 s5) (ilit 9)
  ; eq_ (get 2 s5) (ilit 11)
  ; eq_ (sizeof s6) (sizeof (tlit I32 0))
  ; eq_ (order_ s6) (ilit 3)
  ; eq_ (numel_ s6) (ilit 693)
  ; eq_ (get 0 s6) (ilit 7)
  ; eq_ (get 1 s6) (ilit 9)
  ; eq_ (get 2 s6) (ilit 11)
  ; eq_ (sizeof s7) (sizeof (tlit I32 0))
  ; eq_ (order_ s7) (ilit 3)
  ; eq_ (numel_ s7) (ilit 693)
  ; eq_ (get 0 s7) (ilit 7)
  ; eq_ (get 1 s7) (ilit 9)
  ; eq_ (get 2 s7) (ilit 11)
  ; eq_ (sizeof s8) (sizeof (tlit I16 0))
  ; eq_ (order_ s8) (ilit 3)
  ; eq_ (numel_ s8) (ilit 693)
  ; eq_ (get 0 s8) (ilit 7)
  ; eq_ (get 1 s8) (ilit 9)
  ; eq_ (get 2 s8) (ilit 11)
  ; eq_ (sizeof s9) (tlit U64 1)
  ; eq_ (order_ s9) (ilit 3)
  ; eq_ (numel_ s9) (ilit 693)
  ; eq_ (get 0 s9) (ilit 7)
  ; eq_ (get 1 s9) (ilit 9)
  ; eq_ (get 2 s9) (ilit 11) ]) = true.
Proof. vm_compute. reflexivity. Qed.

(** test/unit/utility/shape/properties.cpp 11-23: "nbdims behavior on nD shape". *)
Example shape_properties_1 : passes (
  [ has_type (nbdims_ (size_as U8 [(ilit 4); (ilit 2); (ilit 6); (ilit 9)])) I32
  ; has_type (nbdims_ (size_as I16 [(ilit 4); (ilit 2); (ilit 6); (ilit 9)])) I32
  ; has_type (nbdims_ (size_ [(ilit 4); (ilit 2); (ilit 6); (ilit 9)])) I32
  ; has_type (nbdims_ (size_as I64 [(ilit 4); (ilit 2); (ilit 6); (ilit 9)])) I32
  ; eq_ (nbdims_ (size_ [(ilit 4); (ilit 2); (ilit 6); (ilit 9)])) (ilit 4)
  ; eq_ (nbdims_ (size_ [(ilit 1); (ilit 4); (ilit 2); (ilit 6)])) (ilit 3)
  ; eq_ (nbdims_ (size_ [(ilit 1); (ilit 1); (ilit 4); (ilit 2)])) (ilit 2)
  ; eq_ (nbdims_ (size_ [(ilit 1); (ilit 1); (ilit 1); (ilit 4)])) (ilit 1)
  ; eq_ (nbdims_ (size_ [(ilit 1); (ilit 1); (ilit 1); (ilit 1)])) (ilit 0) ]) = true.
Proof. vm_compute. reflexivity. Qed.

(** test/unit/utility/shape/properties.cpp 25-39: "numel behavior on nD shape". *)
Example shape_properties_2 : passes (
  [ has_type (numel_ (size_as U8 [(ilit 4); (ilit 2); (ilit 6); (ilit 9)])) I32
  ; has_type (numel_ (size_as I16 [(ilit 4); (ilit 2); (ilit 6); (ilit 9)])) I32
  ; has_type (numel_ (size_ [(ilit 4); (ilit 2); (ilit 6); (ilit 9)])) I32
  ; has_type (numel_ (size_as U32 [(ilit 4); (ilit 2); (ilit 6); (ilit 9)])) I32
  ; has_type (numel_ (size_as I64 [(ilit 4); (ilit 2); (ilit 6); (ilit 9)])) I32
  ; has_type (numel_ (size_as U64 [(ilit 4); (ilit 2); (ilit 6); (ilit 9)])) I32
  ; eq_ (numel_ (size_ [(ilit 4); (ilit 2); (ilit 6); (ilit 9)])) (ilit 432)
  ; eq_ (numel_ (size_ [(ilit 4); (ilit 2); (ilit 6); (ilit 1)])) (ilit 48)
  ; eq_ (numel_ (size_ [(ilit 4); (ilit 2); (ilit 1); (ilit 1)])) (ilit 8)
  ; eq_ (numel_ (size_ [(ilit 4); (ilit 1); (ilit 1); (ilit 1)])) (ilit 4)
  ; eq_ (numel_ (size_ [(ilit 1); (ilit 1); (ilit 1); (ilit 1)])) (ilit 1) ]) = true.
Proof. vm_compute. reflexivity. Qed.

(** test/unit/utility/shape/as_array.cpp 14-20: "Convert a 1D shape to std::array". *)
Example shape_as_array_1 : passes (
  [ eq_ (as_array_ (size_ [(ilit 9)])) (array I32 [(ilit 9)])
  ; eq_ (as_array_ (size_ [(clit "9")])) (array U8 [(ilit 9)])
  ; eq_ (as_array_ (size_ [(clit "390")])) (array U16 [(ilit 390)]) ]) = true.
Proof. vm_compute. reflexivity. Qed.

(** test/unit/utility/shape/as_array.cpp 22-28: "Convert a 2D shape to std::array". *)
Example shape_as_array_2 : passes (
  [ eq_ (as_array_ (size_ [(ilit 9); (ilit 7)])) (array I32 [(ilit 9); (ilit 7)])
  ; eq_ (as_array_ (size_ [(clit "9"); (clit "7")])) (array U8 [(ilit 9); (ilit 7)])
  ; eq_ (as_array_ (size_ [(clit "390"); (clit "7")])) (array U16 [(ilit 390); (ilit 7)]) ]) = true.
Proof. vm_compute. reflexivity. Qed.

(** test/unit/utility/shape/as_array.cpp 30-36: "Convert a 3D shape to std::array". *)
Example shape_as_array_3 : passes (
  [ eq_ (as_array_ (size_ [(ilit 9); (ilit 7); (ilit 11)])) (array I32 [(ilit 9); (ilit 7); (ilit 11)])
  ; eq_ (as_array_ (size_ [(clit "9"); (clit "7"); (clit "11")])) (array U8 [(ilit 9); (ilit 7); (ilit 11)])
  ; eq_ (as_array_ (size_ [(clit "390"); (clit "7"); (clit "11")])) (array U16 [(ilit 390); (ilit 7); (ilit 11)]) ]) = true.
Proof. vm_compute. reflexivity. Qed.

(** test/unit/utility/shape/as_array.cpp 38-44: "Convert a 4D shape to std::array". *)
Example shape_as_array_4 : passes (
  [ eq_ (as_array_ (size_ [(ilit 9); (ilit 7); (ilit 11); (ilit 32)])) (array I32 [(ilit 9); (ilit 7); (ilit 11);
      (ilit 32)])
  ; eq_ (as_array_ (size_ [(clit "9"); (clit "7"); (clit "11"); (tlit I8 32)])) (array U8 [(ilit 9); (ilit 7);
      (ilit 11); (ilit 32)])
  ; eq_ (as_array_ (size_ [(clit "390"); (clit "7"); (clit "11"); (decl I16 (ilit 32))])) (array U16 [(ilit 390);
      (ilit 7); (ilit 11); (ilit 32)]) ]) = true.
Proof. vm_compute. reflexivity. Qed.

(** test/unit/utility/stride/as_stride.cpp 12-26: "Convert a shapes to strides". *)
Example stride_as_stride_1 : passes (
  [ eq_ (as_stride_ (size_ [(ilit 9)])) (strides [(clit "1")])
  ; eq_ (is_unit_ (as_stride_ (size_ [(ilit 9)]))) true_
  ; eq_ (as_stride_ (size_ [(ilit 3); (ilit 4)])) (strides [(ilit 4); (clit "1")])
  ; eq_ (is_unit_ (as_stride_ (size_ [(ilit 3); (ilit 4)]))) true_
  ; eq_ (as_stride_ (size_ [(ilit 3); (ilit 5); (ilit 7)])) (strides [(ilit 35); (ilit 7); (clit "1")])
  ; eq_ (is_unit_ (as_stride_ (size_ [(ilit 3); (ilit 5); (ilit 7)]))) true_
  ; eq_ (as_stride_ (size_ [(ilit 2); (ilit 4); (ilit 6); (ilit 8)])) (strides [(ilit 192); (ilit 48); (ilit 8);
      (clit "1")])
  ; eq_ (is_unit_ (as_stride_ (size_ [(ilit 2); (ilit 4); (ilit 6); (ilit 8)]))) true_ ]) = true.
Proof. vm_compute. reflexivity. Qed.

(** test/unit/utility/stride/as_stride.cpp 28-37: "Convert a shapes of small types to strides". *)
Example stride_as_stride_2 : passes (
  let d0 := decl U8 (ilit 5) in
  let d1 := decl U8 (ilit 4) in
  let d2 := decl U8 (ilit 3) in
  let d3 := decl U8 (ilit 2) in
  [ eq_ (as_stride_ (size_ [d1])) (strides [(clit "1")])
  ; eq_ (as_stride_ (size_ [d1; d0])) (strides [d0; (clit "1")])
  ; eq_ (as_stride_ (size_ [d2; d1; d0])) (strides [(mul d0 d1); d0; (clit "1")])
  ; eq_ (as_stride_ (size_ [d3; d2; d1; d0])) (strides [(mul (mul d0 d1) d2); (mul d0 d1); d0; (clit "1")]) ]) = true.
Proof. vm_compute. reflexivity. Qed.
