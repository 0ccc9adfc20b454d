(** Property C18, continued: which element of a nested std::array a container reads. *)
From Coq Require Import ZArith List Bool Lia.
From Verif Require Import Outcome CInt CIntFacts Spec SpecFacts ShapeSpec Shape Literals LiteralsSpec LiteralsFacts StdArrayFacts.
Import ListNotations.
Open Scope Z_scope.

(** In every order: the element at the row-major rank in the reversed extents. *)
Theorem std_array_reads : forall a is_, only_std a -> a <> Elem -> fine_extents a -> posprod (extents a) <= 2147483647 ->
  wfs is_ -> in_box (rev (extents a)) (vals is_) ->
  exists c, linear_index false (array_sizes a) is_ = Ok c /\ cval c = rank (rev (extents a)) (vals is_).
Proof. exact std_array_reads_l. Qed.
Print Assumptions std_array_reads.

(** Extents that read the same from both ends: the right element. *)
Theorem std_array_palindrome : forall a is_, only_std a -> a <> Elem -> fine_extents a -> posprod (extents a) <= 2147483647 ->
  rev (extents a) = extents a -> wfs is_ -> in_box (extents a) (vals is_) ->
  exists c, linear_index false (array_sizes a) is_ = Ok c /\ cval c = mem_offset a (vals is_).
Proof. exact std_array_palindrome_l. Qed.
Print Assumptions std_array_palindrome.

(** Two dimensions: element (i,j) of the container is a[i][j] exactly in row 0 or when the array is square. *)
Theorem std_array_right_iff : forall n m i j, 0 <= n -> 0 <= m -> ~ bad_width n -> ~ bad_width m ->
  posprod [n; m] <= 2147483647 -> wfc i -> wfc j ->
  let a := StdArray (StdArray Elem m) n in
  0 <= cval i < n -> 0 <= cval i < m -> 0 <= cval j < n -> 0 <= cval j < m ->
  exists c, linear_index false (array_sizes a) [i; j] = Ok c /\ cval c = cval i * n + cval j /\
    (cval c = mem_offset a [cval i; cval j] <-> cval i = 0 \/ n = m).
Proof. exact std_array_2d_l. Qed.
Print Assumptions std_array_right_iff.

(** std::array<std::array<std::array<T,3>,4>,3>: a palindrome; std::array<std::array<T,4>,3>: element (2,1) is at 7, a[2][1] at 9. *)
Example std_array_3d_ex : let a := StdArray (StdArray (StdArray Elem 3) 4) 3 in
  only_std a /\ fine_extents a /\ rev (extents a) = extents a /\ posprod (extents a) <= 2147483647 /\
  in_box (extents a) [2; 3; 1] /\ linear_index false (array_sizes a) [int 2; int 3; int 1] = Ok (int 34) /\ mem_offset a [2; 3; 1] = 34.
Proof.
  cbn. split; [exact Logic.I|]. split; [repeat constructor; unfold bad_width; lia|]. split; [reflexivity|].
  split; [vm_compute; discriminate|]. split; [repeat constructor; lia|]. split; vm_compute; reflexivity.
Qed.
Example std_array_2d_ex : let a := StdArray (StdArray Elem 4) 3 in
  posprod [3; 4] <= 2147483647 /\ ~ bad_width 3 /\ ~ bad_width 4 /\
  linear_index false (array_sizes a) [int 2; int 1] = Ok (int 7) /\ mem_offset a [2; 1] = 9 /\
  linear_index false (array_sizes a) [int 0; int 2] = Ok (int 2) /\ mem_offset a [0; 2] = 2.
Proof.
  cbn. split; [vm_compute; discriminate|]. split; [unfold bad_width; lia|]. split; [unfold bad_width; lia|].
  repeat split; vm_compute; reflexivity.
Qed.
