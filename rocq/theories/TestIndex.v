(** Unit tests of the repository run on the model: those written with loops and products of lists. *)
From Coq Require Import ZArith String List Bool.
From Verif Require Import Outcome CInt Shape Prefilled NamedStride Names SliceText TestLang.
Import ListNotations.
Open Scope Z_scope.
Open Scope list_scope.

Definition upto (n : nat) : list Z := map Z.of_nat (seq 0 n).
(** kumi::cartesian_product and nested loops. *)
Fixpoint product {A} (ls : list (list A)) : list (list A) :=
  match ls with [] => [[]] | l :: ls' => flat_map (fun x => map (cons x) (product ls')) l end.
Definition ints (l : list Z) : list te := map ilit l.
Definition ok (b : outcome bool) : bool := match b with Ok b => b | _ => false end.
Definition dims (l : list Z) : shape := map int l.

(** test/unit/utility/shape/convert.cpp 21-29: large = small, an assignment of shapes (shape.hpp 209-215). *)
Example shape_convert_2 : passes (
  let small := shape_of [joker; joker] [ilit 4; ilit 2] in
  let large := shape_of [joker; joker; joker; joker] [small] in
  [ eq_ large (size_ [ilit 1; ilit 1; at_index small 0; at_index small 1]) ]) = true.
Proof. vm_compute. reflexivity. Qed.

(** test/unit/utility/shape/convert.cpp 40-49. *)
Example shape_convert_4 : passes (
  let large := shape_of [joker; joker; joker; joker] [ilit 4; ilit 2; ilit 6; ilit 9] in
  let small := shape_of [joker; joker] [shape_of [joker; joker] [large]] in
  [ eq_ (at_index small 0) (mul (mul (at_index large 0) (at_index large 1)) (at_index large 2))
  ; eq_ (at_index small 1) (at_index large 3) ]) = true.
Proof. vm_compute. reflexivity. Qed.

(** test/unit/utility/shape/joker.cpp 51-76: all products of jokers, integers and constants. *)
Definition joker_d : list (list te) :=
  [[joker; ilit 9; clit "33"]; [joker; ilit 5; clit "93"]; [joker; ilit 7; clit "61"]; [joker; ilit 3; clit "42"]].
Definition joker_v : list (list te) :=
  [ints [0; 9; 33]; ints [0; 5; 93]; ints [0; 7; 61]; ints [0; 3; 42]].
Definition joker_test (n : nat) : bool :=
  passes (map (fun cv => eq_ (size_ (fst cv)) (size_ (snd cv)))
              (combine (product (skipn (4 - n) joker_d)) (product (skipn (4 - n) joker_v)))).
Example shape_joker_2_3_4 : forallb joker_test [2; 3; 4]%nat = true.
Proof. vm_compute. reflexivity. Qed.

(** test/unit/utility/shape/ctor.cpp and of_size.cpp: 3, 6, ... of type std::ptrdiff_t, for 1 to 10 axes. *)
Definition ctor_test (n : nat) : bool :=
  let sh := size_ (map (fun i => tlit I64 (3 * (1 + i))) (upto n)) in
  passes (eq_ (order_ sh) (ilit (Z.of_nat n)) ::
          map (fun i => eq_ (at_index sh i) (tlit I64 (3 * (Z.of_nat i + 1)))) (seq 0 n)).
Example shape_ctor : forallb ctor_test (seq 1 10) = true.
Proof. vm_compute. reflexivity. Qed.

(** test/unit/utility/stride/with_strides.cpp: values and is_unit of all products of 1_c, 2_c and 9. *)
Definition in_ : list (bool * Z * te) := [(true, 1, clit "1"); (false, 2, clit "2"); (false, 9, ilit 9)].
Definition strides_test (n : nat) : bool :=
  forallb (fun m =>
    let st := strides (map snd m) in
    let unit := match rev m with (b, _, _) :: _ => b | [] => false end in
    passes (eq_ (order_ st) (ilit (Z.of_nat n)) :: eq_ (is_unit_ st) (Ok (VB unit)) ::
            map (fun i => eq_ (get i st) (nth i (map (fun x => ilit (snd (fst x))) m) UB)) (seq 0 n)))
    (product (repeat in_ n)).
Example stride_with_strides : forallb strides_test [1; 2; 3; 4]%nat = true.
Proof. vm_compute. reflexivity. Qed.

(** test/unit/utility/stride/coordinates.cpp: all positions of four shapes of 120 elements. *)
Definition coordinates_test (l : list Z) : bool :=
  let ps := product (map (fun n => upto (Z.to_nat n)) l) in
  (length ps =? 120)%nat &&
  forallb (fun pc => ok (r <- coordinates true (int (fst pc)) (dims l) ;;
                         Ok ((length r =? length l)%nat && forallb (fun ab => same_cint (fst ab) (int (snd ab))) (combine r (snd pc)))))
          (combine (upto 120) ps).
Example stride_coordinates : forallb coordinates_test [[120]; [60; 2]; [20; 3; 2]; [5; 4; 3; 2]] = true.
Proof. vm_compute. reflexivity. Qed.

(** test/unit/utility/stride/linear_index.cpp: the expressions of the test. *)
Definition index_expr (p : list Z) : Z :=
  match p with
  | [i] => i
  | [i1; i0] => i0 + 3 * i1
  | [i2; i1; i0] => i0 + 2 * i1 + 6 * i2
  | [i3; i2; i1; i0] => i0 + 2 * i1 + 6 * i2 + 24 * i3
  | _ => -1
  end.
Definition linear_test (l : list Z) : bool :=
  forallb (fun p => ok (r <- linear_index true (dims l) (map int p) ;; Ok (cval r =? index_expr p)))
          (product (map (fun n => upto (Z.to_nat n)) l)).
Example stride_linear_index : forallb linear_test [[13]; [4; 3]; [4; 3; 2]; [5; 4; 3; 2]] = true.
Proof. vm_compute. reflexivity. Qed.
