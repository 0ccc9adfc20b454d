(** Unit tests of the repository run on the model: tables, views, slices of a table, interpolation, labels. The checks
    of sizeof and those that addresses differ are left out. *)
From Coq Require Import ZArith QArith String List Bool.
From Coq Require Import Floats.SpecFloat.
From Verif Require Import Outcome CInt Shape Prefilled Literals Memory Container Source ForEach Algo NamedSize NamedStride EndRatio
  Slicer SliceText SliceKinds Interp Label.
Import ListNotations.
Open Scope Z_scope.
Open Scope list_scope.

Fixpoint count_from (k : Z) (n : nat) : list Z :=
  match n with O => [] | S n' => k :: count_from (k + 1) n' end.
Definition upto (n : Z) : list Z := count_from 0 (Z.to_nat n).
Definition ref_ (n : Z) : mem Z := [Some (map Some (count_from 1 (Z.to_nat n)))].

(** What the tests look at: size(), the extents of shape(), and the elements in the order of for_each. *)
Definition seen (mc : mem Z * container) : outcome (Z * list Z * list Z) :=
  n <- c_size (snd mc) ;;
  es <- for_each_containers
    (fun ps lm => match ps with [p] => e <- load (snd lm) p ;; Ok (fst lm ++ [e], snd lm) | _ => UB end)
    (snd mc) [] ([], fst mc) ;;
  Ok (cval n, map cval (c_shape (snd mc)), fst es).
Definition expected (ns : list Z) : outcome (Z * list Z * list Z) :=
  let n := fold_right Z.mul 1 ns in Ok (n, ns, count_from 1 (Z.to_nat n)).
Definition eqo (a b : outcome (Z * list Z * list Z)) : bool :=
  match a, b with
  | Ok (n, s, l), Ok (n', s', l') =>
      (n =? n') && (if list_eq_dec Z.eq_dec s s' then true else false) && (if list_eq_dec Z.eq_dec l l' then true else false)
  | _, _ => false
  end.

(** The array [ref] as C array or std::array, as a contiguous range, and as a pointer. *)
Definition sources (n : Z) : list source :=
  [SArray (Ptr 0 0) (CArray Elem n); SArray (Ptr 0 0) (StdArray Elem n); SRange (Ptr 0 0) n; SPtr (Ptr 0 0)].
(** A view and a table from each source with a given shape. *)
Definition both (len : Z) (st : bool) (sh : shape) : bool :=
  forallb (fun s =>
    let want := expected (map cval sh) in
    eqo (c <- view_on true (Some (st, sh)) s ;; seen (ref_ len, c)) want
    && eqo (mc <- table_from (ref_ len) true (Some (st, sh)) s ;; seen mc) want) (sources len).

(** test/unit/container/view and table, dynamic.1d.cpp to dynamic.4d.cpp: sizes of type int and std::ptrdiff_t;
    7 and 4; (4,3) and (3,4) of 12; (4,3,2) and (3,4,2) of 24; (2,3,2,2) and (3,2,2,2) of 24. *)
Example dynamic_1d_to_4d :
  forallb (fun t =>
    forallb (fun ls => both (fst ls) false (map (CI t) (snd ls)))
      [(7, [7]); (7, [4]); (12, [4; 3]); (12, [3; 4]); (24, [4; 3; 2]); (24, [3; 4; 2]); (24, [2; 3; 2; 2]); (24, [3; 2; 2; 2])])
    [I32; I64; U64] = true.
Proof. vm_compute. reflexivity. Qed.

(** static.1d.cpp to static.4d.cpp: of_size(4_c, 3_c) and so on. *)
Example static_1d_to_4d :
  forallb (fun ls => both (fst ls) true (map int (snd ls)))
    [(7, [7]); (7, [4]); (7, [5]); (12, [4; 3]); (12, [3; 4]); (24, [4; 3; 2]); (24, [3; 4; 2]); (24, [2; 3; 2; 2]); (24, [3; 2; 2; 2])]
  = true.
Proof. vm_compute. reflexivity. Qed.

(** static.1d.cpp and dynamic.1d.cpp without of_size: the shape is the one of the array, static, or the number of
    elements of the range. *)
Example default_sizes :
  forallb (fun s =>
    eqo (c <- view_on true None s ;; seen (ref_ 7, c)) (expected [7])
    && eqo (mc <- table_from (ref_ 7) true None s ;; seen mc) (expected [7]))
    [SArray (Ptr 0 0) (CArray Elem 7); SArray (Ptr 0 0) (StdArray Elem 7); SRange (Ptr 0 0) 7] = true /\
  map default_static (sources 7) = [true; true; false; false].
Proof. vm_compute. split; reflexivity. Qed.

(** test/unit/container/view/empty: views of size 0. *)
Example empty_1d :
  forallb (fun s => eqo (c <- view_on true (Some (false, [CI U64 0])) s ;; seen ([Some []] : mem Z, c)) (expected [0])) (sources 0)
  = true.
Proof. vm_compute. reflexivity. Qed.

(** * test/unit/container/table/slicing.cpp *)

Definition k (n : Z) : knum := kint (int n).
Definition seven : list kslc :=
  [ KAll; kat (int 3); KEnd (TESub TEEnd (k 1)); kbetween (int 3) (TInt (k 6));
    KSl (Ts (Some (TInt (k 2))) None (Some (TInt (k 5))) None);
    KSl (Ts (Some (TInt (k 2))) (Some (k 2)) (Some (TInt (k 5))) None);
    kevery (int 2) ].
Example slicing_preserves :
  map (fun s => preserve_reachability [plain_slc s]) seven = [true; true; true; true; true; false; false].
Proof. reflexivity. Qed.

(** The slices of v = table{source = ref}: what v_x(i) is for i below size(), or for i = 0. *)
Definition sliced (only0 : bool) (s : kslc) : outcome (list Z) :=
  mv <- table_from (ref_ 12) true None (SArray (Ptr 0 0) (CArray Elem 12)) ;;
  p <- of_size true [EConst (int 12)] ;;
  r <- with_strides_args true [APos (EConst (int 1))] ;;
  x <- pslice_container true (snd mv) p r [s] ;;
  n <- c_size (fst (fst x)) ;;
  mapM (fun i => get (fst mv) (fst (fst x)) [int i]) (if only0 then [0] else upto (cval n)).
Example slicing_values :
  map (fun bs => sliced (fst bs) (snd bs)) (combine [false; true; true; false; false; false; false] seven)
  = [ Ok (count_from 1 12); Ok [4]; Ok [12]; Ok [4; 5; 6]; Ok [3; 4; 5]; Ok [3; 5]; Ok [1; 3; 5; 7; 9; 11] ].
Proof. vm_compute. reflexivity. Qed.

(** * test/unit/utility/interpolator *)

Definition d (z : Z) : spec_float := binary_normalize 53 1024 z 0 false.
Definition div (a b : Z) : spec_float := SFdiv 53 1024 (d a) (d b).
Definition carr (ns : list Z) : arr := fold_right (fun n a => CArray a n) Elem ns.
Definition cdata (l : list Z) : mem Z := [Some (map Some l)].
Definition ints_of (l : list Z) (ns : list Z) : outcome container := view_on true None (SArray (Ptr 0 0) (carr ns)).
Fixpoint tuples (ns : list Z) : list (list Z) :=
  match ns with [] => [[]] | n :: ns' => flat_map (fun i => map (cons i) (tuples ns')) (upto n) end.

(** floor.cpp 10-17: the test wants i/2 where the elements are 1 to 5, and the value is i/2 + 1: between two integers
    TTS_ULP_EQUAL takes half of their difference, here its tolerance. *)
Example floor_1d :
  map (fun i => c <- ints_of [1; 2; 3; 4; 5] [5] ;; floor_interpolate binary64 (cdata [1; 2; 3; 4; 5]) c [div i 2]) (upto 10)
  = map (fun i => Ok (i / 2 + 1)) (upto 10).
Proof. vm_compute. reflexivity. Qed.

(** floor.cpp 19-31 and 33-54. *)
Definition grid : list Z := [1; 2; 3; 4; 51; 52; 53; 54; 101; 102; 103; 104; 151; 152; 153; 154].
Example floor_2d :
  map (fun t => c <- ints_of grid [4; 4] ;;
                floor_interpolate binary64 (cdata grid) c (map (fun i => div i 2) t)) (tuples [8; 8])
  = map (fun t => match t with [j; i] => Ok (i / 2 + 1 + 50 * (j / 2)) | _ => UB end) (tuples [8; 8]).
Proof. vm_compute. reflexivity. Qed.
Example floor_3d :
  map (fun t => c <- ints_of grid [2; 4; 4] ;;
                floor_interpolate binary64 (cdata (grid ++ map Z.opp grid)) c (map (fun i => div i 2) t)) (tuples [4; 8; 8])
  = map (fun t => match t with [l; j; i] => Ok ((i / 2 + 1 + 50 * (j / 2)) * (if 2 <=? l then -1 else 1)) | _ => UB end)
        (tuples [4; 8; 8]).
Proof. vm_compute. reflexivity. Qed.

(** linear.cpp: the values are those of the test exactly, in binary64, and not only up to half a unit in the last
    place. 0.1 and 0.2 are the quotients 1/10 and 2/10, correctly rounded. *)
Definition linear (l ns : list Z) (ps : list spec_float) : outcome spec_float :=
  c <- ints_of l ns ;; linear_interpolate binary64 d (cdata l) c ps.
Example linear_1d :
  map (fun i => linear [0; 2] [2] [SFmul 53 1024 (d i) (div 1 10)]) (upto 10)
  = map (fun i => Ok (SFmul 53 1024 (d i) (div 2 10))) (upto 10).
Proof. vm_compute. reflexivity. Qed.
Definition plus (a b : spec_float) : spec_float := SFadd 53 1024 a b.
Example linear_2d :
  map (fun t => linear [1; 2; 3; 4] [2; 2] (map (fun i => div i 4) t)) (tuples [4; 4])
  = map (fun t => match t with
                  | [j; i] => Ok (plus (plus (d 1) (div i 4)) (SFmul 53 1024 (d 2) (div j 4)))
                  | _ => UB end) (tuples [4; 4]).
Proof. vm_compute. reflexivity. Qed.
Example linear_3d :
  map (fun t => linear [1; 2; 3; 4; 5; 6; 7; 8] [2; 2; 2] (map (fun i => div i 4) t)) (tuples [4; 4; 4])
  = map (fun t => match t with
                  | [l; j; i] => Ok (plus (plus (plus (d 1) (div i 4)) (SFmul 53 1024 (d 2) (div j 4)))
                                          (SFmul 53 1024 (d 4) (div l 4)))
                  | _ => UB end) (tuples [4; 4; 4]).
Proof. vm_compute. reflexivity. Qed.

(** * test/unit/algorithm/views/relabel.cpp: views of arrays of up to four dimensions, labelled "data". *)
Example relabel_1d_to_4d :
  forallb (fun n =>
    match c <- view_on true None (SArray (Ptr 0 0) (CArray Elem n)) ;;
          relabel true (L (Some (Literal, "data"%string)) c) (Literal, "vdata"%string) with
    | Ok e => String.eqb (label_of e) "vdata"
    | _ => false
    end) [2; 6; 24; 120] = true.
Proof. vm_compute. reflexivity. Qed.
