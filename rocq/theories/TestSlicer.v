(** Unit tests of the repository run on the model: slices of shapes.
    Each example is one TTS_CASE, its checks in their order; the definitions used are those of TestLang.v. *)
From Coq Require Import ZArith String List Bool.
From Verif Require Import Outcome CInt TestLang.
Import ListNotations.
Open Scope Z_scope.
Open Scope string_scope.
Open Scope list_scope.

(** test/unit/utility/slicer/all.cpp 11-21: "Check dynamic slicing for kwk::_". *)
Example slicer_all_1 : passes (
  let shp := size_ [(ilit 2); (ilit 4); (ilit 5); (ilit 10)] in
  [ eq_ (call shp [joker]) (size_ [(ilit 400)])
  ; eq_ (call shp [joker; joker]) (size_ [(ilit 40); (ilit 10)])
  ; eq_ (call shp [joker; joker; joker]) (size_ [(ilit 8); (ilit 5); (ilit 10)])
  ; eq_ (call shp [joker; joker; joker; joker]) shp ]) = true.
Proof. vm_compute. reflexivity. Qed.

(** test/unit/utility/slicer/all.cpp 24-47: "Check static slicing for kwk::_". *)
Example slicer_all_2 : passes (
  let shp := size_ [(clit "2"); (clit "4"); (clit "5"); (clit "10")] in
  [ eq_ (call shp [joker]) (size_ [(ilit 400)])
  ; typed_eq (get 0 (call shp [joker])) (fixd (ilit 400))
  ; eq_ (call shp [joker; joker]) (size_ [(ilit 40); (ilit 10)])
  ; typed_eq (get 0 (call shp [joker; joker])) (fixd (ilit 40))
  ; typed_eq (get 1 (call shp [joker; joker])) (clit "10")
  ; eq_ (call shp [joker; joker; joker]) (size_ [(ilit 8); (ilit 5); (ilit 10)])
  ; typed_eq (get 0 (call shp [joker; joker; joker])) (fixd (ilit 8))
  ; typed_eq (get 1 (call shp [joker; joker; joker])) (clit "5")
  ; typed_eq (get 2 (call shp [joker; joker; joker])) (clit "10")
  ; eq_ (call shp [joker; joker; joker; joker]) shp
  ; typed_eq (get 0 (call shp [joker; joker; joker; joker])) (clit "2")
  ; typed_eq (get 1 (call shp [joker; joker; joker; joker])) (clit "4")
  ; typed_eq (get 2 (call shp [joker; joker; joker; joker])) (clit "5")
  ; typed_eq (get 3 (call shp [joker; joker; joker; joker])) (clit "10") ]) = true.
Proof. vm_compute. reflexivity. Qed.

(** test/unit/utility/slicer/between.cpp 11-52: "Check dynamic slicing for kwk::from/kwk::to combo". *)
Example slicer_between_1 : passes (
  let d0 := decl I32 (ilit 13) in
  let d1 := decl I32 (ilit 15) in
  let d2 := decl I32 (ilit 47) in
  let d3 := decl I32 (ilit 27) in
  let shp := size_ [d0; d1; d2; d3] in
  let v0 := decl U32 (ilit 1) in
  let v1 := decl U32 (ilit 4) in
  let v2 := decl U32 (ilit 8) in
  let v3 := decl U32 (ilit 9) in
  let v4 := decl U32 (ilit 11) in
  let b0 := slice [(field "from" v0); (field "to" v1)] in
  let c0 := slice [(field "from" (fixd v0)); (field "to" (fixd v1))] in
  let b1 := slice [(field "from" v1); (field "to" v2)] in
  let c1 := slice [(field "from" (fixd v1)); (field "to" (fixd v2))] in
  let b2 := slice [(field "from" v2); (field "to" v3)] in
  let c2 := slice [(field "from" (fixd v2)); (field "to" (fixd v3))] in
  let b3 := slice [(field "from" v3); (field "to" v4)] in
  let c3 := slice [(field "from" (fixd v3)); (field "to" (fixd v4))] in
  [ eq_ (call shp [b0]) (size_ [(sub v1 v0)])
  ; eq_ (call shp [b0; b1]) (size_ [(sub v1 v0); (sub v2 v1)])
  ; eq_ (call shp [b0; b1; b2]) (size_ [(sub v1 v0); (sub v2 v1); (sub v3 v2)])
  ; eq_ (call shp [b0; b1; b2; b3]) (size_ [(sub v1 v0); (sub v2 v1); (sub v3 v2); (sub v4 v3)])
  ; eq_ (call shp [c0]) (size_ [(sub v1 v0)])
  ; eq_ (call shp [c0; c1]) (size_ [(sub v1 v0); (sub v2 v1)])
  ; eq_ (call shp [c0; c1; c2]) (size_ [(sub v1 v0); (sub v2 v1); (sub v3 v2)])
  ; eq_ (call shp [c0; c1; c2; c3]) (size_ [(sub v1 v0); (sub v2 v1); (sub v3 v2); (sub v4 v3)])
  ; eq_ (get 0 (call shp [c0])) (sub v1 v0)
  ; eq_ (get 0 (call shp [c0; c1])) (sub v1 v0)
  ; eq_ (get 1 (call shp [c0; c1])) (sub v2 v1)
  ; eq_ (get 0 (call shp [c0; c1; c2])) (sub v1 v0)
  ; eq_ (get 1 (call shp [c0; c1; c2])) (sub v2 v1)
  ; eq_ (get 2 (call shp [c0; c1; c2])) (sub v3 v2)
  ; eq_ (get 0 (call shp [c0; c1; c2; c3])) (sub v1 v0)
  ; eq_ (get 1 (call shp [c0; c1; c2; c3])) (sub v2 v1)
  ; eq_ (get 2 (call shp [c0; c1; c2; c3])) (sub v3 v2)
  ; eq_ (get 3 (call shp [c0; c1; c2; c3])) (sub v4 v3) ]) = true.
Proof. vm_compute. reflexivity. Qed.

(** test/unit/utility/slicer/between.cpp 54-104: "Check static slicing for kwk::from/kwk::to combo". *)
Example slicer_between_2 : passes (
  let d0 := clit "13" in
  let d1 := clit "15" in
  let d2 := clit "47" in
  let d3 := clit "27" in
  let shp := size_ [d0; d1; d2; d3] in
  let v0 := decl U32 (ilit 1) in
  let v1 := decl U32 (ilit 4) in
  let v2 := decl U32 (ilit 8) in
  let v3 := decl U32 (ilit 9) in
  let v4 := decl U32 (ilit 11) in
  let b0 := slice [(field "from" v0); (field "to" v1)] in
  let c0 := slice [(field "from" (fixd v0)); (field "to" (fixd v1))] in
  let b1 := slice [(field "from" v1); (field "to" v2)] in
  let c1 := slice [(field "from" (fixd v1)); (field "to" (fixd v2))] in
  let b2 := slice [(field "from" v2); (field "to" v3)] in
  let c2 := slice [(field "from" (fixd v2)); (field "to" (fixd v3))] in
  let b3 := slice [(field "from" v3); (field "to" v4)] in
  let c3 := slice [(field "from" (fixd v3)); (field "to" (fixd v4))] in
  [ eq_ (call shp [b0]) (size_ [(sub v1 v0)])
  ; eq_ (call shp [b0; b1]) (size_ [(sub v1 v0); (sub v2 v1)])
  ; eq_ (call shp [b0; b1; b2]) (size_ [(sub v1 v0); (sub v2 v1); (sub v3 v2)])
  ; eq_ (call shp [b0; b1; b2; b3]) (size_ [(sub v1 v0); (sub v2 v1); (sub v3 v2); (sub v4 v3)])
  ; expect (is_fully_dynamic_ (call shp [b0]))
  ; expect (is_fully_dynamic_ (call shp [b0; b1]))
  ; expect (is_fully_dynamic_ (call shp [b0; b1; b2]))
  ; expect (is_fully_dynamic_ (call shp [b0; b1; b2; b3]))
  ; eq_ (call shp [c0]) (size_ [(sub v1 v0)])
  ; eq_ (call shp [c0; c1]) (size_ [(sub v1 v0); (sub v2 v1)])
  ; eq_ (call shp [c0; c1; c2]) (size_ [(sub v1 v0); (sub v2 v1); (sub v3 v2)])
  ; eq_ (call shp [c0; c1; c2; c3]) (size_ [(sub v1 v0); (sub v2 v1); (sub v3 v2); (sub v4 v3)])
  ; eq_ (get 0 (call shp [c0])) (sub v1 v0)
  ; eq_ (get 0 (call shp [c0; c1])) (sub v1 v0)
  ; eq_ (get 1 (call shp [c0; c1])) (sub v2 v1)
  ; eq_ (get 0 (call shp [c0; c1; c2])) (sub v1 v0)
  ; eq_ (get 1 (call shp [c0; c1; c2])) (sub v2 v1)
  ; eq_ (get 2 (call shp [c0; c1; c2])) (sub v3 v2)
  ; eq_ (get 0 (call shp [c0; c1; c2; c3])) (sub v1 v0)
  ; eq_ (get 1 (call shp [c0; c1; c2; c3])) (sub v2 v1)
  ; eq_ (get 2 (call shp [c0; c1; c2; c3])) (sub v3 v2)
  ; eq_ (get 3 (call shp [c0; c1; c2; c3])) (sub v4 v3) ]) = true.
Proof. vm_compute. reflexivity. Qed.

(** test/unit/utility/slicer/by.cpp 13-38: "Check kwk::by special cases". *)
Example slicer_by_1 : passes (
  let shp := size_ [(ilit 2); (ilit 2); (clit "3"); (clit "3")] in
  let shp0 := size_ [(ilit 0); (ilit 0); (clit "0"); (clit "0")] in
  let unit := ilit 1 in
  let zero := ilit 0 in
  [ eq_ (call shp [(slice [(field "by" (ilit 4))]); (slice [(field "by" (clit "5"))]); (slice [(field "by" (ilit
      6))]); (slice [(field "by" (clit "7"))])]) (size_ [(ilit 1); (ilit 1); (ilit 1); (ilit 1)])
  ; eq_ (call shp0 [(slice [(field "by" (ilit 4))]); (slice [(field "by" (clit "5"))]); (slice [(field "by" (ilit
      6))]); (slice [(field "by" (clit "7"))])]) (size_ [(ilit 0); (ilit 0); (ilit 0); (ilit 0)])
  ; typed_eq (get 0 (call shp [(slice [(field "by" (ilit 4))]); (slice [(field "by" (clit "5"))]); (slice [(field
      "by" (ilit 6))]); (slice [(field "by" (clit "7"))])])) unit
  ; typed_eq (get 1 (call shp [(slice [(field "by" (ilit 4))]); (slice [(field "by" (clit "5"))]); (slice [(field
      "by" (ilit 6))]); (slice [(field "by" (clit "7"))])])) unit
  ; typed_eq (get 2 (call shp [(slice [(field "by" (ilit 4))]); (slice [(field "by" (clit "5"))]); (slice [(field
      "by" (ilit 6))]); (slice [(field "by" (clit "7"))])])) unit
  ; typed_eq (get 3 (call shp [(slice [(field "by" (ilit 4))]); (slice [(field "by" (clit "5"))]); (slice [(field
      "by" (ilit 6))]); (slice [(field "by" (clit "7"))])])) (fixd unit)
  ; typed_eq (get 0 (call shp0 [(slice [(field "by" (ilit 4))]); (slice [(field "by" (clit "5"))]); (slice [(field
      "by" (ilit 6))]); (slice [(field "by" (clit "7"))])])) zero
  ; typed_eq (get 1 (call shp0 [(slice [(field "by" (ilit 4))]); (slice [(field "by" (clit "5"))]); (slice [(field
      "by" (ilit 6))]); (slice [(field "by" (clit "7"))])])) zero
  ; typed_eq (get 2 (call shp0 [(slice [(field "by" (ilit 4))]); (slice [(field "by" (clit "5"))]); (slice [(field
      "by" (ilit 6))]); (slice [(field "by" (clit "7"))])])) zero
  ; typed_eq (get 3 (call shp0 [(slice [(field "by" (ilit 4))]); (slice [(field "by" (clit "5"))]); (slice [(field
      "by" (ilit 6))]); (slice [(field "by" (clit "7"))])])) (fixd zero) ]) = true.
Proof. vm_compute. reflexivity. Qed.

(** test/unit/utility/slicer/by.cpp 40-69: "Check slicing for kwk::by". *)
Example slicer_by_2 : passes (
  let d0 := decl I32 (ilit 17) in
  let d1 := decl I32 (ilit 29) in
  let d2 := fixd (ilit 23) in
  let d3 := fixd (ilit 97) in
  let shp := size_ [d0; d1; d2; d3] in
  let v0 := decl I32 (ilit 4) in
  let v2 := decl I32 (ilit 6) in
  let one := decl I32 (ilit 1) in
  let v1 := fixd (ilit 5) in
  let v3 := fixd (ilit 7) in
  let e0 := slice [(field "by" v0)] in
  let e1 := slice [(field "by" v1)] in
  let e2 := slice [(field "by" v2)] in
  let e3 := slice [(field "by" v3)] in
  [ eq_ (call shp [e0; e1; e2; e3]) (size_ [(add (div d0 v0) (ilit 1)); (add (div d1 v1) (ilit 1)); (add (div d2
      v2) (ilit 1)); (add (div d3 v3) (ilit 1))])
  ; typed_eq (get 0 (call shp [e0; e1; e2; e3])) (add (div d0 v0) one)
  ; typed_eq (get 1 (call shp [e0; e1; e2; e3])) (add (div d1 v1) one)
  ; typed_eq (get 2 (call shp [e0; e1; e2; e3])) (add (div d2 v2) one)
  ; typed_eq (get 3 (call shp [e0; e1; e2; e3])) (add (div d3 v3) (fixd one)) ]) = true.
Proof. vm_compute. reflexivity. Qed.

(** test/unit/utility/slicer/by.cpp 71-100: "Check exact slicing for kwk::by". *)
Example slicer_by_3 : passes (
  let d0 := decl I64 (ilit 33) in
  let d1 := decl I64 (ilit 99) in
  let d2 := fixd (ilit 100) in
  let d3 := fixd (ilit 1000) in
  let shp := size_ [d0; d1; d2; d3] in
  let v0 := decl I64 (ilit 3) in
  let v2 := decl I64 (ilit 10) in
  let v1 := fixd (decl I64 (ilit 9)) in
  let v3 := fixd (decl I64 (ilit 5)) in
  let e0 := slice [(field "by" v0)] in
  let e1 := slice [(field "by" v1)] in
  let e2 := slice [(field "by" v2)] in
  let e3 := slice [(field "by" v3)] in
  [ eq_ (call shp [e0; e1; e2; e3]) (size_ [(div d0 v0); (div d1 v1); (div d2 v2); (div d3 v3)])
  ; typed_eq (get 0 (call shp [e0; e1; e2; e3])) (div d0 v0)
  ; typed_eq (get 1 (call shp [e0; e1; e2; e3])) (div d1 v1)
  ; typed_eq (get 2 (call shp [e0; e1; e2; e3])) (div d2 v2)
  ; typed_eq (get 3 (call shp [e0; e1; e2; e3])) (div d3 v3) ]) = true.
Proof. vm_compute. reflexivity. Qed.

(** test/unit/utility/slicer/from.cpp 11-37: "Check basic slicing for kwk::from". *)
Example slicer_from_1 : passes (
  let d0 := decl U64 (ilit 1) in
  let d1 := decl U64 (ilit 2) in
  let d2 := decl U64 (ilit 3) in
  let d3 := decl U64 (ilit 5) in
  let s2 := fixd d2 in
  let s3 := fixd d3 in
  let f := decl U64 (ilit 1) in
  let t0 := slice [(field "from" f)] in
  let t1 := slice [(field "from" (fixd f))] in
  let t2 := slice [(field "from" f)] in
  let t3 := slice [(field "from" (fixd f))] in
  let shp := size_ [d0; d1; s2; s3] in
  [ eq_ (call shp [t0; t1; t2; t3]) (size_ [(sub d0 f); (sub d1 f); (sub d2 f); (sub d3 f)])
  ; typed_eq (get 0 (call shp [t0; t1; t2; t3])) (sub d0 f)
  ; typed_eq (get 1 (call shp [t0; t1; t2; t3])) (sub d1 f)
  ; typed_eq (get 2 (call shp [t0; t1; t2; t3])) (sub d2 f)
  ; typed_eq (get 3 (call shp [t0; t1; t2; t3])) (fixd (sub d3 f)) ]) = true.
Proof. vm_compute. reflexivity. Qed.

(** test/unit/utility/slicer/from.cpp 39-56: "Check slicing with end for kwk::from". *)
Example slicer_from_2 : passes (
  let d0 := decl I64 (ilit 1) in
  let d1 := decl I64 (ilit 3) in
  let zero := decl I64 (ilit 0) in
  let s1 := fixd d1 in
  let t0 := slice [(field "from" kend)] in
  let shp := size_ [d0; s1] in
  [ eq_ (call shp [t0; t0]) (size_ [(ilit 0); (ilit 0)])
  ; typed_eq (get 0 (call shp [t0; t0])) zero
  ; typed_eq (get 1 (call shp [t0; t0])) (fixd zero) ]) = true.
Proof. vm_compute. reflexivity. Qed.

(** test/unit/utility/slicer/from.cpp 58-87: "Check slicing with end-n for kwk::from". *)
Example slicer_from_3 : passes (
  let d0 := decl U64 (ilit 1) in
  let d1 := decl U64 (ilit 3) in
  let d2 := decl U64 (ilit 5) in
  let d3 := decl U64 (ilit 7) in
  let s1 := fixd d1 in
  let s3 := fixd d3 in
  let v0 := decl U64 (ilit 1) in
  let c0 := fixd v0 in
  let t0 := slice [(field "from" (sub kend v0))] in
  let t1 := slice [(field "from" (sub kend c0))] in
  let shp := size_ [d0; s1; d2; s3] in
  [ eq_ (call shp [t0; t0; t1; t1]) (size_ [v0; v0; c0; c0])
  ; typed_eq (get 0 (call shp [t0; t0; t1; t1])) v0
  ; typed_eq (get 1 (call shp [t0; t0; t1; t1])) v0
  ; typed_eq (get 2 (call shp [t0; t0; t1; t1])) v0
  ; typed_eq (get 3 (call shp [t0; t0; t1; t1])) c0 ]) = true.
Proof. vm_compute. reflexivity. Qed.

(** test/unit/utility/slicer/from.cpp 89-117: "Check slicing with end/n for kwk::from". *)
Example slicer_from_4 : passes (
  let d0 := decl U64 (ilit 3) in
  let d1 := decl U64 (ilit 5) in
  let d2 := decl U64 (ilit 7) in
  let d3 := decl U64 (ilit 9) in
  let s1 := fixd d1 in
  let s3 := fixd d3 in
  let v0 := decl U64 (ilit 2) in
  let c0 := fixd v0 in
  let t0 := slice [(field "from" (div kend v0))] in
  let t1 := slice [(field "from" (div kend c0))] in
  let shp := size_ [d0; s1; d2; s3] in
  [ eq_ (call shp [t0; t0; t1; t1]) (size_ [(sub d0 (div d0 v0)); (sub d1 (div d1 v0)); (sub d2 (div d2 c0)); (sub
      d3 (div d3 c0))])
  ; typed_eq (get 0 (call shp [t0; t0; t1; t1])) (sub d0 (div d0 v0))
  ; typed_eq (get 1 (call shp [t0; t0; t1; t1])) (sub d1 (div d1 v0))
  ; typed_eq (get 2 (call shp [t0; t0; t1; t1])) (sub d2 (div d2 c0))
  ; typed_eq (get 3 (call shp [t0; t0; t1; t1])) (fixd (sub d3 (div d3 c0))) ]) = true.
Proof. vm_compute. reflexivity. Qed.

(** test/unit/utility/slicer/from.cpp 119-162: "Check slicing with (k * end / q) for kwk::from". *)
Example slicer_from_5 : passes (
  let d0 := decl U64 (ilit 3) in
  let d1 := decl U64 (ilit 5) in
  let d2 := decl U64 (ilit 7) in
  let d3 := decl U64 (ilit 9) in
  let d4 := decl U64 (ilit 11) in
  let d5 := decl U64 (ilit 13) in
  let d6 := decl U64 (ilit 15) in
  let d7 := decl U64 (ilit 17) in
  let s4 := fixd d4 in
  let s5 := fixd d5 in
  let s6 := fixd d6 in
  let s7 := fixd d7 in
  let f := decl U64 (ilit 2) in
  let d := decl U64 (ilit 5) in
  let fc := fixd f in
  let dc := fixd d in
  let tdd := slice [(field "from" (div (mul kend f) d))] in
  let tdc := slice [(field "from" (div (mul kend f) dc))] in
  let tcd := slice [(field "from" (div (mul kend fc) d))] in
  let tcc := slice [(field "from" (div (mul kend fc) dc))] in
  let shp := size_ [d0; d1; d2; d3; s4; s5; s6; s7] in
  let sliced := call shp [tdd; tdc; tcd; tcc; tdd; tdc; tcd; tcc] in
  [ eq_ sliced (size_ [(sub d0 (div (mul d0 f) d)); (sub d1 (div (mul d1 f) d)); (sub d2 (div (mul d2 f) d)); (sub
      d3 (div (mul d3 f) d)); (sub d4 (div (mul d4 f) d)); (sub d5 (div (mul d5 f) d)); (sub d6 (div (mul d6 f)
      d)); (sub d7 (div (mul d7 f) d))])
  ; typed_eq (get 0 sliced) (sub d0 (div (mul d0 f) d))
  ; typed_eq (get 1 sliced) (sub d1 (div (mul d1 f) d))
  ; typed_eq (get 2 sliced) (sub d2 (div (mul d2 f) d))
  ; typed_eq (get 3 sliced) (sub d3 (div (mul d3 f) d))
  ; typed_eq (get 4 sliced) (sub d4 (div (mul d4 f) d))
  ; typed_eq (get 5 sliced) (sub d5 (div (mul d5 f) d))
  ; typed_eq (get 6 sliced) (sub d6 (div (mul d6 f) d))
  ; typed_eq (get 7 sliced) (fixd (sub d7 (div (mul d7 f) d))) ]) = true.
Proof. vm_compute. reflexivity. Qed.

(** test/unit/utility/slicer/from.cpp 164-205: "Check slicing with (k * end / q + dynamic_offset) for kwk::from". *)
Example slicer_from_6 : passes (
  let od := decl U64 (ilit 2) in
  let d0 := decl U64 (ilit 5) in
  let d1 := decl U64 (ilit 7) in
  let d2 := decl U64 (ilit 9) in
  let d3 := decl U64 (ilit 11) in
  let d4 := decl U64 (ilit 13) in
  let d5 := decl U64 (ilit 15) in
  let d6 := decl U64 (ilit 17) in
  let d7 := decl U64 (ilit 19) in
  let s4 := fixd d4 in
  let s5 := fixd d5 in
  let s6 := fixd d6 in
  let s7 := fixd d7 in
  let f := decl U64 (ilit 2) in
  let d := decl U64 (ilit 5) in
  let fc := fixd f in
  let dc := fixd d in
  let tdd := slice [(field "from" (add (div (mul kend f) d) od))] in
  let tdc := slice [(field "from" (add (div (mul kend f) dc) od))] in
  let tcd := slice [(field "from" (add (div (mul kend fc) d) od))] in
  let tcc := slice [(field "from" (add (div (mul kend fc) dc) od))] in
  let shp := size_ [d0; d1; d2; d3; s4; s5; s6; s7] in
  let sliced := call shp [tdd; tdc; tcd; tcc; tdd; tdc; tcd; tcc] in
  [ eq_ sliced (size_ [(sub (sub d0 (div (mul d0 f) d)) od); (sub (sub d1 (div (mul d1 f) d)) od); (sub (sub d2
      (div (mul d2 f) d)) od); (sub (sub d3 (div (mul d3 f) d)) od); (sub (sub d4 (div (mul d4 f) d)) od); (sub
      (sub d5 (div (mul d5 f) d)) od); (sub (sub d6 (div (mul d6 f) d)) od); (sub (sub d7 (div (mul d7 f) d)) od)])
  ; typed_eq (get 0 sliced) (sub (sub d0 (div (mul d0 f) d)) od)
  ; typed_eq (get 1 sliced) (sub (sub d1 (div (mul d1 f) d)) od)
  ; typed_eq (get 2 sliced) (sub (sub d2 (div (mul d2 f) d)) od)
  ; typed_eq (get 3 sliced) (sub (sub d3 (div (mul d3 f) d)) od)
  ; typed_eq (get 4 sliced) (sub (sub d4 (div (mul d4 f) d)) od)
  ; typed_eq (get 5 sliced) (sub (sub d5 (div (mul d5 f) d)) od)
  ; typed_eq (get 6 sliced) (sub (sub d6 (div (mul d6 f) d)) od)
  ; typed_eq (get 7 sliced) (sub (sub d7 (div (mul d7 f) d)) od) ]) = true.
Proof. vm_compute. reflexivity. Qed.

(** test/unit/utility/slicer/from.cpp 207-248: "Check slicing with (k * end / q + static_offset) for kwk::from". *)
Example slicer_from_7 : passes (
  let oc := fixd (tlit U64 2) in
  let d0 := decl U64 (ilit 5) in
  let d1 := decl U64 (ilit 7) in
  let d2 := decl U64 (ilit 9) in
  let d3 := decl U64 (ilit 11) in
  let d4 := decl U64 (ilit 13) in
  let d5 := decl U64 (ilit 15) in
  let d6 := decl U64 (ilit 17) in
  let d7 := decl U64 (ilit 19) in
  let s4 := fixd d4 in
  let s5 := fixd d5 in
  let s6 := fixd d6 in
  let s7 := fixd d7 in
  let f := decl U64 (ilit 2) in
  let d := decl U64 (ilit 5) in
  let fc := fixd f in
  let dc := fixd d in
  let tdd := slice [(field "from" (add (div (mul kend f) d) oc))] in
  let tdc := slice [(field "from" (add (div (mul kend f) dc) oc))] in
  let tcd := slice [(field "from" (add (div (mul kend fc) d) oc))] in
  let tcc := slice [(field "from" (add (div (mul kend fc) dc) oc))] in
  let shp := size_ [d0; d1; d2; d3; s4; s5; s6; s7] in
  let sliced := call shp [tdd; tdc; tcd; tcc; tdd; tdc; tcd; tcc] in
  [ eq_ sliced (size_ [(sub (sub d0 (div (mul d0 f) d)) oc); (sub (sub d1 (div (mul d1 f) d)) oc); (sub (sub d2
      (div (mul d2 f) d)) oc); (sub (sub d3 (div (mul d3 f) d)) oc); (sub (sub d4 (div (mul d4 f) d)) oc); (sub
      (sub d5 (div (mul d5 f) d)) oc); (sub (sub d6 (div (mul d6 f) d)) oc); (sub (sub d7 (div (mul d7 f) d)) oc)])
  ; typed_eq (get 0 sliced) (sub (sub d0 (div (mul d0 f) d)) oc)
  ; typed_eq (get 1 sliced) (sub (sub d1 (div (mul d1 f) d)) oc)
  ; typed_eq (get 2 sliced) (sub (sub d2 (div (mul d2 f) d)) oc)
  ; typed_eq (get 3 sliced) (sub (sub d3 (div (mul d3 f) d)) oc)
  ; typed_eq (get 4 sliced) (sub (sub d4 (div (mul d4 f) d)) oc)
  ; typed_eq (get 5 sliced) (sub (sub d5 (div (mul d5 f) d)) oc)
  ; typed_eq (get 6 sliced) (sub (sub d6 (div (mul d6 f) d)) oc)
  ; typed_eq (get 7 sliced) (fixd (sub (sub d7 (div (mul d7 f) d)) oc)) ]) = true.
Proof. vm_compute. reflexivity. Qed.

(** test/unit/utility/slicer/length.cpp 12-53: "Check slicing for kwk::length". *)
Example slicer_length_1 : passes (
  let d0 := decl I32 (ilit 13) in
  let d1 := decl I32 (ilit 15) in
  let d2 := decl I32 (ilit 47) in
  let d3 := decl I32 (ilit 27) in
  let shp := size_ [d0; d1; d2; d3] in
  let v0 := decl U32 (ilit 1) in
  let v1 := decl U32 (ilit 4) in
  let v2 := decl U32 (ilit 8) in
  let v3 := decl U32 (ilit 9) in
  let b0 := slice [(field "length" v0)] in
  let c0 := slice [(field "length" (fixd v0))] in
  let b1 := slice [(field "length" v1)] in
  let c1 := slice [(field "length" (fixd v1))] in
  let b2 := slice [(field "length" v2)] in
  let c2 := slice [(field "length" (fixd v2))] in
  let b3 := slice [(field "length" v3)] in
  let c3 := slice [(field "length" (fixd v3))] in
  [ eq_ (call shp [b0]) (size_ [v0])
  ; eq_ (call shp [b0; b1]) (size_ [v0; v1])
  ; eq_ (call shp [b0; b1; b2]) (size_ [v0; v1; v2])
  ; eq_ (call shp [b0; b1; b2; b3]) (size_ [v0; v1; v2; v3])
  ; eq_ (call shp [c0]) (size_ [v0])
  ; eq_ (call shp [c0; c1]) (size_ [v0; v1])
  ; eq_ (call shp [c0; c1; c2]) (size_ [v0; v1; v2])
  ; eq_ (call shp [c0; c1; c2; c3]) (size_ [v0; v1; v2; v3])
  ; eq_ (get 0 (call shp [c0])) v0
  ; eq_ (get 0 (call shp [c0; c1])) v0
  ; eq_ (get 1 (call shp [c0; c1])) v1
  ; eq_ (get 0 (call shp [c0; c1; c2])) v0
  ; eq_ (get 1 (call shp [c0; c1; c2])) v1
  ; eq_ (get 2 (call shp [c0; c1; c2])) v2
  ; eq_ (get 0 (call shp [c0; c1; c2; c3])) v0
  ; eq_ (get 1 (call shp [c0; c1; c2; c3])) v1
  ; eq_ (get 2 (call shp [c0; c1; c2; c3])) v2
  ; eq_ (get 3 (call shp [c0; c1; c2; c3])) v3 ]) = true.
Proof. vm_compute. reflexivity. Qed.

(** test/unit/utility/slicer/length.cpp 55-97: "Check slicing for kwk::length + kwk::from". *)
Example slicer_length_2 : passes (
  let d0 := decl I32 (ilit 13) in
  let d1 := decl I32 (ilit 15) in
  let d2 := decl I32 (ilit 47) in
  let d3 := decl I32 (ilit 27) in
  let shp := size_ [d0; d1; d2; d3] in
  let v0 := decl U32 (ilit 1) in
  let v1 := decl U32 (ilit 4) in
  let v2 := decl U32 (ilit 8) in
  let v3 := decl U32 (ilit 9) in
  let b0 := slice [(field "length" v0); (field "from" (ilit 4))] in
  let c0 := slice [(field "length" (fixd v0)); (field "from" (fixd (ilit 2)))] in
  let b1 := slice [(field "length" v1); (field "from" (ilit 4))] in
  let c1 := slice [(field "length" (fixd v1)); (field "from" (fixd (ilit 2)))] in
  let b2 := slice [(field "length" v2); (field "from" (ilit 4))] in
  let c2 := slice [(field "length" (fixd v2)); (field "from" (fixd (ilit 2)))] in
  let b3 := slice [(field "length" v3); (field "from" (ilit 4))] in
  let c3 := slice [(field "length" (fixd v3)); (field "from" (fixd (ilit 2)))] in
  [ eq_ (call shp [b0]) (size_ [v0])
  ; eq_ (call shp [b0; b1]) (size_ [v0; v1])
  ; eq_ (call shp [b0; b1; b2]) (size_ [v0; v1; v2])
  ; eq_ (call shp [b0; b1; b2; b3]) (size_ [v0; v1; v2; v3])
  ; eq_ (call shp [c0]) (size_ [v0])
  ; eq_ (call shp [c0; c1]) (size_ [v0; v1])
  ; eq_ (call shp [c0; c1; c2]) (size_ [v0; v1; v2])
  ; eq_ (call shp [c0; c1; c2; c3]) (size_ [v0; v1; v2; v3])
  ; eq_ (get 0 (call shp [c0])) v0
  ; eq_ (get 0 (call shp [c0; c1])) v0
  ; eq_ (get 1 (call shp [c0; c1])) v1
  ; eq_ (get 0 (call shp [c0; c1; c2])) v0
  ; eq_ (get 1 (call shp [c0; c1; c2])) v1
  ; eq_ (get 2 (call shp [c0; c1; c2])) v2
  ; eq_ (get 0 (call shp [c0; c1; c2; c3])) v0
  ; eq_ (get 1 (call shp [c0; c1; c2; c3])) v1
  ; eq_ (get 2 (call shp [c0; c1; c2; c3])) v2
  ; eq_ (get 3 (call shp [c0; c1; c2; c3])) v3 ]) = true.
Proof. vm_compute. reflexivity. Qed.

(** test/unit/utility/slicer/length.cpp 99-141: "Check slicing for kwk::length + kwk::to". *)
Example slicer_length_3 : passes (
  let d0 := decl I32 (ilit 13) in
  let d1 := decl I32 (ilit 15) in
  let d2 := decl I32 (ilit 47) in
  let d3 := decl I32 (ilit 27) in
  let shp := size_ [d0; d1; d2; d3] in
  let v0 := decl U32 (ilit 1) in
  let v1 := decl U32 (ilit 4) in
  let v2 := decl U32 (ilit 8) in
  let v3 := decl U32 (ilit 9) in
  let b0 := slice [(field "length" v0); (field "to" (ilit 100))] in
  let c0 := slice [(field "length" (fixd v0)); (field "to" (fixd (ilit 100)))] in
  let b1 := slice [(field "length" v1); (field "to" (ilit 100))] in
  let c1 := slice [(field "length" (fixd v1)); (field "to" (fixd (ilit 100)))] in
  let b2 := slice [(field "length" v2); (field "to" (ilit 100))] in
  let c2 := slice [(field "length" (fixd v2)); (field "to" (fixd (ilit 100)))] in
  let b3 := slice [(field "length" v3); (field "to" (ilit 100))] in
  let c3 := slice [(field "length" (fixd v3)); (field "to" (fixd (ilit 100)))] in
  [ eq_ (call shp [b0]) (size_ [v0])
  ; eq_ (call shp [b0; b1]) (size_ [v0; v1])
  ; eq_ (call shp [b0; b1; b2]) (size_ [v0; v1; v2])
  ; eq_ (call shp [b0; b1; b2; b3]) (size_ [v0; v1; v2; v3])
  ; eq_ (call shp [c0]) (size_ [v0])
  ; eq_ (call shp [c0; c1]) (size_ [v0; v1])
  ; eq_ (call shp [c0; c1; c2]) (size_ [v0; v1; v2])
  ; eq_ (call shp [c0; c1; c2; c3]) (size_ [v0; v1; v2; v3])
  ; eq_ (get 0 (call shp [c0])) v0
  ; eq_ (get 0 (call shp [c0; c1])) v0
  ; eq_ (get 1 (call shp [c0; c1])) v1
  ; eq_ (get 0 (call shp [c0; c1; c2])) v0
  ; eq_ (get 1 (call shp [c0; c1; c2])) v1
  ; eq_ (get 2 (call shp [c0; c1; c2])) v2
  ; eq_ (get 0 (call shp [c0; c1; c2; c3])) v0
  ; eq_ (get 1 (call shp [c0; c1; c2; c3])) v1
  ; eq_ (get 2 (call shp [c0; c1; c2; c3])) v2
  ; eq_ (get 3 (call shp [c0; c1; c2; c3])) v3 ]) = true.
Proof. vm_compute. reflexivity. Qed.

(** test/unit/utility/slicer/length.cpp 143-185: "Check slicing for kwk::length + kwk::by". *)
Example slicer_length_4 : passes (
  let d0 := decl I32 (ilit 13) in
  let d1 := decl I32 (ilit 15) in
  let d2 := decl I32 (ilit 47) in
  let d3 := decl I32 (ilit 27) in
  let shp := size_ [d0; d1; d2; d3] in
  let v0 := decl U32 (ilit 1) in
  let v1 := decl U32 (ilit 4) in
  let v2 := decl U32 (ilit 8) in
  let v3 := decl U32 (ilit 9) in
  let b0 := slice [(field "length" v0); (field "by" (ilit 2))] in
  let c0 := slice [(field "length" (fixd v0)); (field "by" (fixd (ilit 4)))] in
  let b1 := slice [(field "length" v1); (field "by" (ilit 2))] in
  let c1 := slice [(field "length" (fixd v1)); (field "by" (fixd (ilit 4)))] in
  let b2 := slice [(field "length" v2); (field "by" (ilit 2))] in
  let c2 := slice [(field "length" (fixd v2)); (field "by" (fixd (ilit 4)))] in
  let b3 := slice [(field "length" v3); (field "by" (ilit 2))] in
  let c3 := slice [(field "length" (fixd v3)); (field "by" (fixd (ilit 4)))] in
  [ eq_ (call shp [b0]) (size_ [v0])
  ; eq_ (call shp [b0; b1]) (size_ [v0; v1])
  ; eq_ (call shp [b0; b1; b2]) (size_ [v0; v1; v2])
  ; eq_ (call shp [b0; b1; b2; b3]) (size_ [v0; v1; v2; v3])
  ; eq_ (call shp [c0]) (size_ [v0])
  ; eq_ (call shp [c0; c1]) (size_ [v0; v1])
  ; eq_ (call shp [c0; c1; c2]) (size_ [v0; v1; v2])
  ; eq_ (call shp [c0; c1; c2; c3]) (size_ [v0; v1; v2; v3])
  ; eq_ (get 0 (call shp [c0])) v0
  ; eq_ (get 0 (call shp [c0; c1])) v0
  ; eq_ (get 1 (call shp [c0; c1])) v1
  ; eq_ (get 0 (call shp [c0; c1; c2])) v0
  ; eq_ (get 1 (call shp [c0; c1; c2])) v1
  ; eq_ (get 2 (call shp [c0; c1; c2])) v2
  ; eq_ (get 0 (call shp [c0; c1; c2; c3])) v0
  ; eq_ (get 1 (call shp [c0; c1; c2; c3])) v1
  ; eq_ (get 2 (call shp [c0; c1; c2; c3])) v2
  ; eq_ (get 3 (call shp [c0; c1; c2; c3])) v3 ]) = true.
Proof. vm_compute. reflexivity. Qed.

(** test/unit/utility/slicer/to.cpp 11-39: "Check basic slicing for kwk::to". *)
Example slicer_to_1 : passes (
  let d0 := decl U64 (ilit 1) in
  let d1 := decl U64 (ilit 2) in
  let d2 := decl U64 (ilit 3) in
  let d3 := decl U64 (ilit 5) in
  let s2 := fixd d2 in
  let s3 := fixd d3 in
  let t0 := slice [(field "to" d0)] in
  let t1 := slice [(field "to" (fixd d1))] in
  let t2 := slice [(field "to" d2)] in
  let t3 := slice [(field "to" (fixd d3))] in
  let shp := size_ [d0; d1; s2; s3] in
  [ eq_ (call shp [t0; t1; t2; t3]) (size_ [d0; d1; d2; d3])
  ; typed_eq (get 0 (call shp [t0; t1; t2; t3])) d0
  ; typed_eq (get 1 (call shp [t0; t1; t2; t3])) (fixd d1)
  ; typed_eq (get 2 (call shp [t0; t1; t2; t3])) d2
  ; typed_eq (get 3 (call shp [t0; t1; t2; t3])) (fixd d3) ]) = true.
Proof. vm_compute. reflexivity. Qed.

(** test/unit/utility/slicer/to.cpp 41-58: "Check slicing with end for kwk::to". *)
Example slicer_to_2 : passes (
  let d0 := decl I64 (ilit 1) in
  let d1 := decl I64 (ilit 3) in
  let s1 := fixd d1 in
  let t0 := slice [(field "to" kend)] in
  let shp := size_ [d0; s1] in
  [ eq_ (call shp [t0; t0]) (size_ [d0; s1])
  ; typed_eq (get 0 (call shp [t0; t0])) d0
  ; typed_eq (get 1 (call shp [t0; t0])) (fixd d1) ]) = true.
Proof. vm_compute. reflexivity. Qed.

(** test/unit/utility/slicer/to.cpp 60-85: "Check slicing with end-n for kwk::to". *)
Example slicer_to_3 : passes (
  let d0 := decl U64 (ilit 1) in
  let d1 := decl U64 (ilit 3) in
  let d2 := decl U64 (ilit 5) in
  let d3 := decl U64 (ilit 7) in
  let s1 := fixd d1 in
  let s3 := fixd d3 in
  let v0 := decl U64 (ilit 1) in
  let c0 := fixd v0 in
  let t0 := slice [(field "to" (sub kend v0))] in
  let t1 := slice [(field "to" (sub kend c0))] in
  let shp := size_ [d0; s1; d2; s3] in
  [ eq_ (call shp [t0; t0; t1; t1]) (size_ [(sub d0 v0); (sub d1 v0); (sub d2 c0); (sub d3 c0)])
  ; typed_eq (get 0 (call shp [t0; t0; t1; t1])) (sub d0 v0)
  ; typed_eq (get 1 (call shp [t0; t0; t1; t1])) (sub d1 v0)
  ; typed_eq (get 2 (call shp [t0; t0; t1; t1])) (sub d2 c0)
  ; typed_eq (get 3 (call shp [t0; t0; t1; t1])) (fixd (sub d3 c0)) ]) = true.
Proof. vm_compute. reflexivity. Qed.

(** test/unit/utility/slicer/to.cpp 87-112: "Check slicing with end/n for kwk::to". *)
Example slicer_to_4 : passes (
  let d0 := decl U64 (ilit 3) in
  let d1 := decl U64 (ilit 5) in
  let d2 := decl U64 (ilit 7) in
  let d3 := decl U64 (ilit 9) in
  let s1 := fixd d1 in
  let s3 := fixd d3 in
  let v0 := decl U64 (ilit 2) in
  let c0 := fixd v0 in
  let t0 := slice [(field "to" (div kend v0))] in
  let t1 := slice [(field "to" (div kend c0))] in
  let shp := size_ [d0; s1; d2; s3] in
  [ eq_ (call shp [t0; t0; t1; t1]) (size_ [(div d0 v0); (div d1 v0); (div d2 c0); (div d3 c0)])
  ; typed_eq (get 0 (call shp [t0; t0; t1; t1])) (div d0 v0)
  ; typed_eq (get 1 (call shp [t0; t0; t1; t1])) (div d1 v0)
  ; typed_eq (get 2 (call shp [t0; t0; t1; t1])) (div d2 c0)
  ; typed_eq (get 3 (call shp [t0; t0; t1; t1])) (fixd (div d3 c0)) ]) = true.
Proof. vm_compute. reflexivity. Qed.

(** test/unit/utility/slicer/to.cpp 114-153: "Check slicing with (k * end / q) for kwk::to". *)
Example slicer_to_5 : passes (
  let d0 := decl U64 (ilit 3) in
  let d1 := decl U64 (ilit 5) in
  let d2 := decl U64 (ilit 7) in
  let d3 := decl U64 (ilit 9) in
  let d4 := decl U64 (ilit 11) in
  let d5 := decl U64 (ilit 13) in
  let d6 := decl U64 (ilit 15) in
  let d7 := decl U64 (ilit 17) in
  let s4 := fixd d4 in
  let s5 := fixd d5 in
  let s6 := fixd d6 in
  let s7 := fixd d7 in
  let f := decl U64 (ilit 2) in
  let d := decl U64 (ilit 5) in
  let fc := fixd f in
  let dc := fixd d in
  let tdd := slice [(field "to" (div (mul kend f) d))] in
  let tdc := slice [(field "to" (div (mul kend f) dc))] in
  let tcd := slice [(field "to" (div (mul kend fc) d))] in
  let tcc := slice [(field "to" (div (mul kend fc) dc))] in
  let shp := size_ [d0; d1; d2; d3; s4; s5; s6; s7] in
  let sliced := call shp [tdd; tdc; tcd; tcc; tdd; tdc; tcd; tcc] in
  [ eq_ sliced (size_ [(div (mul d0 f) d); (div (mul d1 f) d); (div (mul d2 f) d); (div (mul d3 f) d); (div (mul d4
      f) d); (div (mul d5 f) d); (div (mul d6 f) d); (div (mul d7 f) d)])
  ; typed_eq (get 0 sliced) (div (mul d0 f) d)
  ; typed_eq (get 1 sliced) (div (mul d1 f) d)
  ; typed_eq (get 2 sliced) (div (mul d2 f) d)
  ; typed_eq (get 3 sliced) (div (mul d3 f) d)
  ; typed_eq (get 4 sliced) (div (mul d4 f) d)
  ; typed_eq (get 5 sliced) (div (mul d5 f) d)
  ; typed_eq (get 6 sliced) (div (mul d6 f) d)
  ; typed_eq (get 7 sliced) (fixd (div (mul d7 f) d)) ]) = true.
Proof. vm_compute. reflexivity. Qed.

(** test/unit/utility/slicer/to.cpp 155-196: "Check slicing with (k * end / q + dynamic_offset) for kwk::to". *)
Example slicer_to_6 : passes (
  let od := decl U64 (ilit 2) in
  let d0 := decl U64 (ilit 5) in
  let d1 := decl U64 (ilit 7) in
  let d2 := decl U64 (ilit 9) in
  let d3 := decl U64 (ilit 11) in
  let d4 := decl U64 (ilit 13) in
  let d5 := decl U64 (ilit 15) in
  let d6 := decl U64 (ilit 17) in
  let d7 := decl U64 (ilit 19) in
  let s4 := fixd d4 in
  let s5 := fixd d5 in
  let s6 := fixd d6 in
  let s7 := fixd d7 in
  let f := decl U64 (ilit 2) in
  let d := decl U64 (ilit 5) in
  let fc := fixd f in
  let dc := fixd d in
  let tdd := slice [(field "to" (add (div (mul kend f) d) od))] in
  let tdc := slice [(field "to" (add (div (mul kend f) dc) od))] in
  let tcd := slice [(field "to" (add (div (mul kend fc) d) od))] in
  let tcc := slice [(field "to" (add (div (mul kend fc) dc) od))] in
  let shp := size_ [d0; d1; d2; d3; s4; s5; s6; s7] in
  let sliced := call shp [tdd; tdc; tcd; tcc; tdd; tdc; tcd; tcc] in
  [ eq_ sliced (size_ [(add (div (mul d0 f) d) od); (add (div (mul d1 f) d) od); (add (div (mul d2 f) d) od); (add
      (div (mul d3 f) d) od); (add (div (mul d4 f) d) od); (add (div (mul d5 f) d) od); (add (div (mul d6 f) d)
      od); (add (div (mul d7 f) d) od)])
  ; typed_eq (get 0 sliced) (add (div (mul d0 f) d) od)
  ; typed_eq (get 1 sliced) (add (div (mul d1 f) d) od)
  ; typed_eq (get 2 sliced) (add (div (mul d2 f) d) od)
  ; typed_eq (get 3 sliced) (add (div (mul d3 f) d) od)
  ; typed_eq (get 4 sliced) (add (div (mul d4 f) d) od)
  ; typed_eq (get 5 sliced) (add (div (mul d5 f) d) od)
  ; typed_eq (get 6 sliced) (add (div (mul d6 f) d) od)
  ; typed_eq (get 7 sliced) (add (div (mul d7 f) d) od) ]) = true.
Proof. vm_compute. reflexivity. Qed.

(** test/unit/utility/slicer/to.cpp 198-239: "Check slicing with (k * end / q + static_offset) for kwk::to". *)
Example slicer_to_7 : passes (
  let oc := fixd (tlit U64 2) in
  let d0 := decl U64 (ilit 5) in
  let d1 := decl U64 (ilit 7) in
  let d2 := decl U64 (ilit 9) in
  let d3 := decl U64 (ilit 11) in
  let d4 := decl U64 (ilit 13) in
  let d5 := decl U64 (ilit 15) in
  let d6 := decl U64 (ilit 17) in
  let d7 := decl U64 (ilit 19) in
  let s4 := fixd d4 in
  let s5 := fixd d5 in
  let s6 := fixd d6 in
  let s7 := fixd d7 in
  let f := decl U64 (ilit 2) in
  let d := decl U64 (ilit 5) in
  let fc := fixd f in
  let dc := fixd d in
  let tdd := slice [(field "to" (add (div (mul kend f) d) oc))] in
  let tdc := slice [(field "to" (add (div (mul kend f) dc) oc))] in
  let tcd := slice [(field "to" (add (div (mul kend fc) d) oc))] in
  let tcc := slice [(field "to" (add (div (mul kend fc) dc) oc))] in
  let shp := size_ [d0; d1; d2; d3; s4; s5; s6; s7] in
  let sliced := call shp [tdd; tdc; tcd; tcc; tdd; tdc; tcd; tcc] in
  [ eq_ sliced (size_ [(add (div (mul d0 f) d) oc); (add (div (mul d1 f) d) oc); (add (div (mul d2 f) d) oc); (add
      (div (mul d3 f) d) oc); (add (div (mul d4 f) d) oc); (add (div (mul d5 f) d) oc); (add (div (mul d6 f) d)
      oc); (add (div (mul d7 f) d) oc)])
  ; typed_eq (get 0 sliced) (add (div (mul d0 f) d) oc)
  ; typed_eq (get 1 sliced) (add (div (mul d1 f) d) oc)
  ; typed_eq (get 2 sliced) (add (div (mul d2 f) d) oc)
  ; typed_eq (get 3 sliced) (add (div (mul d3 f) d) oc)
  ; typed_eq (get 4 sliced) (add (div (mul d4 f) d) oc)
  ; typed_eq (get 5 sliced) (add (div (mul d5 f) d) oc)
  ; typed_eq (get 6 sliced) (add (div (mul d6 f) d) oc)
  ; typed_eq (get 7 sliced) (fixd (add (div (mul d7 f) d) oc)) ]) = true.
Proof. vm_compute. reflexivity. Qed.
