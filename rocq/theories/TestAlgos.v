(** Unit tests of the repository run on the model: algorithms on integers. The checks with floating-point elements
    are compared there up to a tolerance and are left out, except where the numbers are small integers. The views are
    views of arrays by sizes of type std::size_t, as in the tests. Where a test runs over more than about two thousand
    elements it is run here on fewer, and the comment says so. *)
From Coq Require Import ZArith String List Bool.
From Verif Require Import Outcome CInt Shape Memory Container ForEach Algo Search Calls.
Import ListNotations.
Open Scope Z_scope.
Open Scope list_scope.

Fixpoint count_from (k : Z) (n : nat) : list Z :=
  match n with O => [] | S n' => k :: count_from (k + 1) n' end.
Definition upto (n : Z) : list Z := count_from 0 (Z.to_nat n).
(** for(i < n) input[i] = f(i). *)
Definition filled (n : Z) (f : Z -> Z) : list Z := map f (upto n).
(** input[k] = v. *)
Definition put_at (k v : Z) (l : list Z) : list Z :=
  map (fun iv => if fst iv =? k then v else snd iv) (combine (upto (Z.of_nat (length l))) l).
Definition arrays {T} (ls : list (list T)) : mem T := map (fun l => Some (map Some l)) ls.
(** view{source = input, of_size(d0, ...)} with std::size_t d0. *)
Definition view (b : nat) (ns : list Z) : outcome container :=
  make_view false false (map (CI U64) ns) None (Ptr b 0).
Definition at_pos (r : outcome (option (list cint))) : outcome (option (list Z)) :=
  o <- r ;; Ok (option_map (map cval) o).
Definition found {M} (r : outcome (option (list cint) * M)) : outcome (option (list Z)) :=
  at_pos (x <- r ;; Ok (fst x)).
(** The positions of test/test.hpp lindex_to_pos_arr: quotients and remainders by the inner extents. *)
Fixpoint unrank (ns : list Z) (k : Z) : list Z :=
  match ns with
  | [] => []
  | _ :: ns' => let w := fold_right Z.mul 1 ns' in k / w :: unrank ns' (k mod w)
  end.

Ltac run_all :=
  repeat (cbv beta zeta;
          match goal with
          | |- _ /\ _ => apply conj
          | |- Forall _ (_ :: _) => apply Forall_cons
          | |- Forall _ [] => apply Forall_nil
          end);
  vm_compute; reflexivity.

(** * test/unit/algorithm/algos/find/1d.cpp *)

Definition even (x : Z) : bool := x mod 2 =? 0.
Definition on1 {A} (l : list Z) (f : container -> mem Z -> outcome A) : outcome A :=
  c <- view 0 [Z.of_nat (length l)] ;; f c (arrays [l]).

(** 14-56. *)
Example find_1d :
  let input := filled 20 (fun i => i * 2 - 10) in
  map (fun v => found (on1 input (fun c m => find Z.eqb c v m))) [11; -10; 12; 28]
    = [Ok None; Ok (Some [0]); Ok (Some [11]); Ok (Some [19])] /\
  found (on1 [] (fun c m => find Z.eqb c 0 m)) = Ok None.
Proof. vm_compute. split; reflexivity. Qed.

(** 59-117 and 120-185: even numbers, with 7 put at a place. *)
Definition odd (x : Z) : bool := x mod 2 =? 1.
Example find_if_1d :
  let evens := filled 20 (fun i => i * 2) in
  map (fun k => found (on1 (put_at k 7 evens) (fun c m => find_if c odd m))) [-1; 12; 0; 19]
    = [Ok None; Ok (Some [12]); Ok (Some [0]); Ok (Some [19])] /\
  found (on1 evens (fun c m => find_if c even m)) = Ok (Some [0]) /\
  found (on1 [] (fun c m => find_if c even m)) = Ok None.
Proof. vm_compute. repeat split; reflexivity. Qed.
Example find_if_not_1d :
  let evens := filled 20 (fun i => i * 2) in
  map (fun k => found (on1 (put_at k 7 evens) (fun c m => find_if_not c even m))) [-1; 12; 0; 19]
    = [Ok None; Ok (Some [12]); Ok (Some [0]); Ok (Some [19])] /\
  found (on1 evens (fun c m => find_if_not c odd m)) = Ok (Some [0]) /\
  found (on1 [] (fun c m => find_if_not c even m)) = Ok None.
Proof. vm_compute. repeat split; reflexivity. Qed.

(** 188-240. *)
Example find_first_of_1d :
  let input := filled 40 (fun i => i * 2) in
  map (fun vs => found (c <- view 0 [40] ;; v <- view 1 [5] ;; find_first_of Z.eqb c v (arrays [input; vs])))
      [[-10; -5; 1; 7; 11]; [-10; -5; 0; 8; 11]; [-10; -5; 1; 16; 8]; [78; -5; 1; 7; 11]]
    = [Ok None; Ok (Some [0]); Ok (Some [4]); Ok (Some [39])].
Proof. vm_compute. reflexivity. Qed.

(** 243-288, 291-339, 342-390. *)
Example find_last_1d :
  let sixes := filled 40 (fun _ => 6) in
  let fives := filled 40 (fun _ => 5) in
  map (fun k => found (on1 (put_at k 8 sixes) (fun c m => find_last Z.eqb false c 8 m))) [-1; 4; 0; 39]
    = [Ok None; Ok (Some [4]); Ok (Some [0]); Ok (Some [39])] /\
  found (on1 sixes (fun c m => find_last Z.eqb false c 6 m)) = Ok (Some [39]) /\
  found (on1 [] (fun c m => find_last Z.eqb false c 8 m)) = Ok None /\
  map (fun k => found (on1 (put_at k 8 fives) (fun c m => find_last_if false c even m))) [-1; 4; 0; 39]
    = [Ok None; Ok (Some [4]); Ok (Some [0]); Ok (Some [39])] /\
  found (on1 [] (fun c m => find_last_if false c even m)) = Ok None /\
  map (fun k => found (on1 (put_at k 8 fives) (fun c m => find_last_if_not false c (fun e => negb (even e)) m))) [-1; 4; 0; 39]
    = [Ok None; Ok (Some [4]); Ok (Some [0]); Ok (Some [39])] /\
  found (on1 [] (fun c m => find_last_if_not false c (fun e => negb (even e)) m)) = Ok None.
Proof. vm_compute. repeat split; reflexivity. Qed.

(** * test/unit/algorithm/algos/binary_search/1d.cpp, 2d.cpp, 4d.cpp *)

Definition sorted (ns : list Z) (f : Z -> Z) : mem Z := arrays [filled (fold_right Z.mul 1 ns) f].
Definition sizes : list (list Z) := [[20]; [8; 12]; [8; 12; 6; 14]].
Definition total (ns : list Z) : Z := fold_right Z.mul 1 ns.
Definition searched {A} (ns : list Z) (f : container -> outcome A) : outcome A := c <- view 0 ns ;; f c.
Definition eqr (a b : outcome (option (list Z))) : bool :=
  match a, b with
  | Ok None, Ok None => true
  | Ok (Some x), Ok (Some y) => if list_eq_dec Z.eq_dec x y then true else false
  | _, _ => false
  end.

(** lower_bound, with and without function: 1d.cpp 20-156, 2d.cpp 20-157, 4d.cpp 20-161. *)
Example lower_bound_nd :
  forallb (fun ns =>
    let n := total ns in
    forallb (fun sv => eqr (at_pos (searched ns (fun c => lower_bound true Z.ltb c (fst sv) (sorted ns (fun i => i)))))
                           (Ok (option_map (unrank ns) (snd sv))))
            [(-2984612, Some 0); (0, Some 0); (-1, Some 0); (10, Some 10); (n - 1, Some (n - 1)); (n, None); (78456465, None)]
    && forallb (fun sv => eqr (at_pos (searched ns (fun c =>
                              lower_bound true (fun i e => i <? (e - 10) * 2) c (fst sv) (sorted ns (fun i => (i - 10) * 2)))))
                           (Ok (option_map (unrank ns) (snd sv))))
            [(-2984612, Some 0); (-1, Some 0); (0, Some 0); (9, Some 9); (n - 1, Some (n - 1)); (n, None); (78456465, None)])
    sizes = true.
Proof. vm_compute. reflexivity. Qed.

(** upper_bound: 1d.cpp 234-375, 2d.cpp 160-298, 4d.cpp 164-306. *)
Example upper_bound_nd :
  forallb (fun ns =>
    let n := total ns in
    let values := [(-78495, Some 0); (-1, Some 0); (0, Some 1); (n - 2, Some (n - 1)); (n - 1, None); (n, None); (78456465, None)] in
    forallb (fun sv => eqr (at_pos (searched ns (fun c => upper_bound true Z.ltb c (fst sv) (sorted ns (fun i => i)))))
                           (Ok (option_map (unrank ns) (snd sv)))) values
    && forallb (fun sv => eqr (at_pos (searched ns (fun c =>
                              upper_bound true (fun s e => s * 3 - 20 <? e) c (fst sv) (sorted ns (fun i => i * 3 - 20)))))
                           (Ok (option_map (unrank ns) (snd sv)))) values)
    sizes = true.
Proof. vm_compute. reflexivity. Qed.

(** Size 0: 1d.cpp 159-231 and 378-458. *)
Example bounds_of_nothing :
  forallb (fun v =>
    eqr (at_pos (searched [0] (fun c => lower_bound true Z.ltb c v (arrays [[]])))) (Ok None)
    && eqr (at_pos (searched [0] (fun c => lower_bound true (fun i e => i <? (e - 10) * 2) c v (arrays [[]])))) (Ok None)
    && eqr (at_pos (searched [0] (fun c => upper_bound true Z.ltb c v (arrays [[]])))) (Ok None)
    && eqr (at_pos (searched [0] (fun c => upper_bound true (fun s e => s * 3 - 20 <? e) c v (arrays [[]])))) (Ok None))
    [-2984612; -1; 0; 9; 19; 20; 78456465] = true.
Proof. vm_compute. reflexivity. Qed.

(** binary_search: 1d.cpp 461-634, 2d.cpp 301-475, 4d.cpp 309-487. *)
Example binary_search_nd :
  forallb (fun ns =>
    let n := total ns in
    forallb (fun sv => match searched ns (fun c => binary_search true Z.ltb c (fst sv) (sorted ns (fun i => i * 3))) with
                       | Ok b => Bool.eqb b (snd sv) | _ => false end)
      [(-895, false); (-1, false); (0, true); (53, false); (54, true); (55, false); (56, false);
       ((n - 1) * 3, true); (n * 3, false); (60000, false); (60001, false)])
    sizes = true.
Proof. vm_compute. reflexivity. Qed.

(** * test/unit/algorithm/algos/predicates/1d.cpp, 2d.cpp, 4d.cpp

    Every predicate counts its calls. The tests in two and four dimensions have 471 times 11 and 471 times 715
    elements; here 47 times 11 and 21 times 5 times 4 times 2. *)

Definition counting (f : Z -> bool) (e : Z) (n : Z) : outcome (bool * Z) := Ok (f e, n + 1).
Definition predicate_sizes : list (list Z) := [[471]; [47; 11]; [21; 5; 4; 2]].
Definition with_view {A} (ns : list Z) (f : Z -> Z) (edit : list Z -> list Z)
    (g : container -> mem Z -> outcome (A * mem Z)) : outcome A :=
  c <- view 0 ns ;; r <- g c (arrays [edit (filled (total ns) f)]) ;; Ok (fst r).

Example predicates_nd :
  Forall (fun ns =>
    let n := total ns in
    let third x := x mod 3 =? 0 in
    let f3 := fun i => i * 3 in
    let odds := fun i => i * 2 + 1 in
    let same := fun l : list Z => l in
    with_view ns f3 same (fun c m => all_of_call c (counting third) 0 m) = Ok (true, n) /\
    with_view ns f3 (put_at 200 8) (fun c m => all_of_call c (counting third) 0 m) = Ok (false, 201) /\
    with_view ns odds (put_at 200 222) (fun c m => any_of_call c (counting even) 0 m) = Ok (true, 201) /\
    with_view ns odds same (fun c m => any_of_call c (counting even) 0 m) = Ok (false, n) /\
    with_view ns odds same (fun c m => none_of_call c (counting even) 0 m) = Ok (true, n) /\
    with_view ns odds (put_at 200 222) (fun c m => none_of_call c (counting even) 0 m) = Ok (false, 201) /\
    with_view ns (fun i => i * 2) (fun l => put_at 100 8 (put_at 234 8 (put_at 311 8 (put_at 312 8 l))))
      (fun c m => count Z.eqb c 8 m) = Ok 5 /\
    with_view ns (fun i => i * 2) (fun l => put_at 234 8 (put_at 311 8 (put_at 312 8 l)))
      (fun c m => count_if c (fun e => e <=? 100) m) = Ok 54) predicate_sizes.
Proof. unfold predicate_sizes. run_all. Qed.

(** * test/unit/algorithm/algos/reduce/1d.cpp, 2d.cpp, 4d.cpp, with the same sizes.

    In four dimensions the sum of the test itself leaves the range of its elements of type int; the elements here are
    integers without bound (C63 treats the range). *)
Definition sum (l : list Z) : Z := fold_right Z.add 0 l.
Example reduce_nd :
  Forall (fun ns =>
    let n := total ns in
    let s := sum (filled n (fun i => i * 3)) in
    let same := fun l : list Z => l in
    with_view ns (fun i => i * 3) same (fun c m => reduce c Z.add 0 m) = Ok s /\
    with_view ns (fun i => i * 3) same (fun c m => reduce_call c (fun a e q => Ok (a + e + 1, q + 1)) 0 0 m) = Ok (s + n, n) /\
    with_view ns (fun i => i * 3) same (fun c m => reduce c (fun a e => a + e + 1) 87 m) = Ok (s + n + 87))
    predicate_sizes.
Proof. unfold predicate_sizes. run_all. Qed.

(** * test/unit/algorithm/algos/replace/1d.cpp, 2d.cpp, 4d.cpp, with the same sizes. *)
Definition after (ls : list (list Z)) (ns : list Z) (f : container -> mem Z -> outcome (mem Z)) : outcome (mem Z) :=
  c <- view 0 ns ;; f c (arrays ls).
Example replace_nd :
  Forall (fun ns =>
    let l := upto (total ns) in
    after [l] ns (fun c m => m1 <- replace Z.eqb c 5 3 m ;; m2 <- replace Z.eqb c 8 4 m1 ;; replace Z.eqb c 10 7825 m2)
      = Ok (arrays [put_at 5 3 (put_at 8 4 (put_at 10 7825 l))]) /\
    after [l] ns (fun c m => replace_if c (fun e => (e <? 50) || (e =? 123)) 3 m)
      = Ok (arrays [map (fun e => if (e <? 50) || (e =? 123) then 3 else e) l])) predicate_sizes.
Proof. unfold predicate_sizes. run_all. Qed.

(** * test/unit/algorithm/algos/copy/1d.cpp, 2d.cpp, 4d.cpp

    One dimension: 200 elements, 1 and 0; the million of 1d.cpp 45-62 is not run. Two: 12 by 70. Four: 12, 70, 8, 18 in
    the test, 6, 7, 4, 5 here. *)
Definition two_views {A} (a b : list Z) (ns : list Z) (f : container -> container -> mem Z -> outcome A) : outcome A :=
  out <- view 0 ns ;; inp <- view 1 ns ;; f out inp (arrays [a; b]).
Example copy_nd :
  Forall (fun ns =>
    let n := total ns in
    let zeros := filled n (fun _ => 0) in
    two_views zeros (upto n) ns (fun o i m => copy o i m) = Ok (arrays [upto n; upto n]) /\
    two_views zeros (upto n) ns (fun o i m => copy_if_call (fun e q => Ok (e <? 101, q + 1)) o i 0 m)
      = Ok (n, arrays [map (fun e => if e <? 101 then e else 0) (upto n); upto n]))
    [[200]; [1]; [0]; [12; 70]; [6; 7; 4; 5]].
Proof. run_all. Qed.

(** * test/unit/algorithm/algos/generator/1d.cpp, 2d.cpp, 4d.cpp: fill, generate and its calls, iota. *)
Definition code (is_ : list cint) : Z := fold_left (fun a i => a * 100 + cval i) is_ 0.
Example fill_nd :
  Forall (fun ns => after [filled (total ns) (fun _ => 0)] ns (fun c m => fill c 8 m)
                    = Ok (arrays [filled (total ns) (fun _ => 8)])) [[20]; [6; 10]; [6; 10; 4; 12]].
Proof. run_all. Qed.
Example generate_nd :
  Forall (fun ns =>
    (c <- view 0 ns ;; generate_call (fun is_ q => Ok (code is_, q + 1)) c 0 (arrays [filled (total ns) (fun _ => 0)]))
    = Ok (total ns, arrays [map (fun k => fold_left (fun a i => a * 100 + i) (unrank ns k) 0) (upto (total ns))]))
    [[6]; [6; 7]; [6; 7; 9; 4]].
Proof. run_all. Qed.
Definition cints (l : list Z) : mem cint := [Some (map (fun v => Some (CI I32 v)) l)].
(** iota(view), iota(view, 87), iota(view, 87, std::size_t 5). *)
Example iota_nd :
  Forall (fun ns =>
    let n := total ns in
    let start := cints (filled n (fun _ => 0)) in
    (c <- view 0 ns ;; @iota_default I32 c start) = Ok (cints (upto n)) /\
    (c <- view 0 ns ;; @iota I32 c (CI I32 87) start) = Ok (cints (filled n (fun i => i + 87))) /\
    (c <- view 0 ns ;; @iota_step I32 c (CI I32 87) (CI U64 5) start) = Ok (cints (filled n (fun i => i * 5 + 87))))
    [[6]; [6; 8]; [6; 8; 11; 3]].
Proof. run_all. Qed.

(** * test/unit/algorithm/algos/transform.cpp: 87 elements; 87 by 18, here 29 by 18; in four dimensions 6, 7, 4, 5. *)
Example transform_nd :
  Forall (fun ns =>
    let n := total ns in
    (out <- view 0 ns ;; a <- view 1 ns ;; b <- view 2 ns ;;
     transform (fun es => match es with [x; y] => x + y | _ => 0 end) out a [b]
       (arrays [filled n (fun _ => 0); filled n (fun i => i * 3); filled n (fun i => i * 2)]))
    = Ok (arrays [filled n (fun i => i * 5); filled n (fun i => i * 3); filled n (fun i => i * 2)]))
    [[87]; [29; 18]; [6; 7; 4; 5]].
Proof. run_all. Qed.

(** * test/unit/algorithm/algos/for_each.cpp *)

(** 14-22: of_size(4, fixed<6>, 3ULL). *)
Example for_each_shape :
  let shp := [int 4; int 6; CI U64 3] in
  for_each shp (fun _ n => Ok (n + 1)) 0 = Ok 72 /\ (n <- numel shp ;; Ok (cval n)) = Ok 72.
Proof. vm_compute. split; reflexivity. Qed.

(** 25-160: the number of elements and their sum; three and four dimensions with 20, 41 and 20, 41, 14, 11 there, with
    5, 4, 7 and 5, 4, 7, 3 here. *)
Example for_each_nd :
  Forall (fun ns =>
    let n := total ns in
    (c <- view 0 ns ;; r <- for_each_containers
        (fun ps qm => match ps with
                      | [p] => e <- load (snd qm) p ;; Ok ((fst (fst qm) + 1, snd (fst qm) + e), snd qm)
                      | _ => UB end) c [] ((0, 0), arrays [filled n (fun i => i * 2)]) ;; Ok (fst r))
    = Ok (n, sum (filled n (fun i => i * 2)))) [[20]; [0]; [20; 41]; [5; 4; 7]; [5; 4; 7; 3]].
Proof. run_all. Qed.

(** 163-330: the same by for_each_index, which then writes e = i0 + 1, or a number made of the coordinates. *)
Example for_each_index_nd :
  Forall (fun ns =>
    let n := total ns in
    (c <- view 0 ns ;; for_each_index
        (fun p is_ qm => e <- load (snd qm) p ;; m' <- store (snd qm) p (code is_ + 1) ;;
                         Ok ((fst (fst qm) + 1, snd (fst qm) + e), m')) c ((0, 0), arrays [filled n (fun i => i * 2)]))
    = Ok ((n, sum (filled n (fun i => i * 2))),
          arrays [map (fun k => fold_left (fun a i => a * 100 + i) (unrank ns k) 0 + 1) (upto n)]))
    [[20]; [0]; [20; 41]; [5; 4; 7]; [5; 4; 7; 3]].
Proof. run_all. Qed.

(** * test/unit/algorithm/algos/numeric/1d.cpp, 2d.cpp, 4d.cpp

    The tests divide, multiply and add numbers of type float and double, and compare with the functions of <numeric>;
    here the calls are counted as in 14-50 and the sums are sums of integers. *)
Definition scanned (init : Z) (l : list Z) : list Z :=
  snd (fold_left (fun sl e => (fst sl + e, snd sl ++ [fst sl + e])) l (init, [])).
Example numeric_nd :
  Forall (fun ns =>
    let n := total ns in
    let a := upto n in
    let b := filled n (fun i => i * 3 + 10) in
    let prod := sum (map (fun i => i * (i * 3 + 10)) (upto n)) in
    (r <- two_views a b ns (fun x y m =>
       transform_reduce_call x y (11, 0) (fun r d q => Ok ((fst r + d, snd r + 1), q)) (fun u v q => Ok (u * v, q + 1)) 0 m) ;;
     Ok (fst r)) = Ok ((11 + prod, n), n) /\
    (r <- two_views a b ns (fun x y m => inner_product true x y 87 Z.add Z.mul m) ;; Ok (fst r)) = Ok (87 + prod) /\
    two_views (filled n (fun _ => 0)) b ns (fun o i m => inclusive_scan i o 87 Z.add m) = Ok (arrays [scanned 87 b; b]) /\
    two_views (filled n (fun _ => 0)) b ns (fun o i m => exclusive_scan i o 87 Z.add m)
      = Ok (arrays [firstn (length b) (87 :: scanned 87 b); b]) /\
    two_views (filled n (fun _ => 0)) b ns (fun o i m => transform_inclusive_scan i o 87 Z.add (fun e => e * 2) m)
      = Ok (arrays [scanned 87 (map (fun e => e * 2) b); b]) /\
    two_views (filled n (fun _ => 0)) b ns (fun o i m => transform_exclusive_scan i o 87 Z.add (fun e => e * 2) m)
      = Ok (arrays [firstn (length b) (87 :: scanned 87 (map (fun e => e * 2) b)); b]))
    [[200]; [20; 12]; [5; 4; 3; 2]].
Proof. run_all. Qed.

(** * test/unit/algorithm/views/reverse.cpp 16-43 *)
Example reverse_1d :
  (r <- view 0 [2] ;; d <- view 1 [2] ;; e <- reverse false d ;; copy r e (arrays [[0; 0]; [0; 1]]))
  = Ok (arrays [[1; 0]; [0; 1]]).
Proof. vm_compute. reflexivity. Qed.
