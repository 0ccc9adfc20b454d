(** C96: the calls of the library end, and how often their loops test their conditions. *)
From Coq Require Import ZArith List Bool Lia.
From Verif Require Import Outcome CInt CIntFacts Spec ShapeSpec Shape Memory Container ContainerSpec ForEach Algo Search Calls Exn
  Steps StepsSpec StepsFacts.
Import ListNotations.
Open Scope Z_scope.

(** The three loops end if what they call does, for all sizes: negative, too many elements to count, of any type. *)
Theorem loops_end : forall (S : Type) (ds : list cint) (s : S), wfs ds ->
  (forall f, (forall is_ s, ends (f is_ s)) -> ends (for_each ds f s)) /\
  (forall f, (forall is_ s, ends (f is_ s)) -> ends (for_until ds f s)) /\
  (forall f, (forall is_ s, ends (f is_ s)) -> ends (for_each_exn ds f s)).
Proof. exact @loops_end_l. Qed.
Print Assumptions loops_end.

(** The algorithms end if the callables they are given do: no precondition but that the sizes of the container
    they loop over are values of their types. The containers may be too small, overlap, or be gone. *)
Theorem writers_end : forall (T Q : Type) (out in_ : container) (q : Q) (m : mem T), sizes_are_values out ->
  (forall f c0 cs, (forall vs q, ends (f vs q)) -> ends (transform_call f out c0 cs q m)) /\
  ends (copy out in_ m) /\
  (forall f, (forall v q, ends (f v q)) -> ends (copy_if_call f out in_ q m)) /\
  (forall v, ends (fill out v m)) /\
  (forall f, (forall is_ q, ends (f is_ q)) -> ends (generate_call f out q m)) /\
  (forall f v, (forall v q, ends (f v q)) -> ends (replace_if_call out f v q m)).
Proof. exact @writers_end_l. Qed.
Print Assumptions writers_end.

Theorem iotas_end : forall (et : ity) (out : container) (v w : cint) (m : mem cint), sizes_are_values out ->
  ends (@iota et out v m) /\ ends (@iota_step et out v w m).
Proof. exact @iotas_end_l. Qed.
Print Assumptions iotas_end.

Theorem readers_end : forall (T Q : Type) (in1 in2 : container) (dbg : bool) (q : Q) (m : mem T), sizes_are_values in1 ->
  (forall (A : Type) f (init : A), (forall a v q, ends (f a v q)) -> ends (reduce_call in1 f init q m)) /\
  (forall f, (forall v q, ends (f v q)) -> ends (all_of_call in1 f q m) /\ ends (any_of_call in1 f q m) /\
                                          ends (none_of_call in1 f q m) /\ ends (count_if_call in1 f q m)) /\
  (forall (A B : Type) R F (init : A), (forall a b q, ends (R a b q)) -> (forall a (b : T) q, ends (F a b q : outcome (B * Q))) ->
    ends (transform_reduce_call in1 in2 init R F q m) /\ ends (inner_product_call dbg in1 in2 init R F q m)) /\
  (forall (B : Type) out f1 f2 (init : T), (forall a b q, ends (f1 a b q)) -> (forall a q, ends (f2 a q : outcome (B * Q))) ->
    ends (exclusive_scan_call in1 out init f1 f2 q m) /\ ends (inclusive_scan_call in1 out init f1 f2 q m)).
Proof. exact @readers_end_l. Qed.
Print Assumptions readers_end.

Theorem searches_end : forall (T Q : Type) (c : container) (q : Q) (m : mem T), sizes_are_values c ->
  (forall f, (forall v q, ends (f v q)) -> ends (find_if_call c f q m) /\ forall static, ends (find_last_if_call static c f q m)) /\
  (forall eqb vs, sizes_are_values vs -> ends (find_first_of eqb c vs m)).
Proof. exact @searches_end_l. Qed.
Print Assumptions searches_end.

(** The bisections end on everything, sorted or not, whatever the order is: not even the sizes matter. *)
Theorem bisections_end : forall (T Q : Type) (dbg : bool) (func : T -> T -> Q -> outcome (bool * Q)) (c : container) (x : T) (q : Q) (m : mem T),
  (forall a b q, ends (func a b q)) ->
  ends (lower_bound_call dbg func c x q m) /\ ends (upper_bound_call dbg func c x q m) /\ ends (binary_search_call dbg func c x q m).
Proof. exact @bisections_end_l. Qed.
Print Assumptions bisections_end.

(** So do the algorithms with callables that throw. *)
Theorem throwing_end : forall (T Q : Type) (c in_ : container) (q : Q) (m : mem T), sizes_are_values c ->
  (forall f c0 cs, (forall vs q, ends (f vs q)) -> ends (transform_exn f c c0 cs q m)) /\
  (forall f, (forall v q, ends (f v q)) -> ends (copy_if_exn f c in_ q m)) /\
  (forall f, (forall is_ q, ends (f is_ q)) -> ends (generate_exn f c q m)) /\
  (forall f v, (forall v q, ends (f v q)) -> ends (replace_if_exn c f v q m)) /\
  (forall f, (forall v q, ends (f v q)) -> ends (for_each_elems_exn f c q m)) /\
  (forall (A : Type) f (init : A), (forall a v q, ends (f a v q)) -> ends (reduce_exn c f init q m)) /\
  (forall (B : Type) out f1 f2 (init : T), (forall a b q, ends (f1 a b q)) -> (forall a q, ends (f2 a q : outcome (option B * Q))) ->
    ends (exclusive_scan_exn c out init f1 f2 q m) /\ ends (inclusive_scan_exn c out init f1 f2 q m)).
Proof. exact @throwing_end_l. Qed.
Print Assumptions throwing_end.

(** for_each tests its conditions exactly [tests] times if it returns, whatever is called. *)
Theorem for_each_tests : forall (S : Type) (ds : list cint) (f : list cint -> S -> outcome S) (s : S), wfs ds ->
  for_each_counted ds f s = match for_each ds f s with
                            | Ok s' => Ok (s', tests (vals ds))
                            | Abort => Abort | UB => UB | NoFuel => NoFuel
                            end.
Proof. exact @for_each_tests_l. Qed.
Print Assumptions for_each_tests.

(** for_until at most as often, and as often if it finds nothing. *)
Theorem for_until_tests : forall (S : Type) (ds : list cint) (f : list cint -> S -> outcome (bool * S)) (s : S), wfs ds ->
  match for_until ds f s with
  | Ok (found, s') => exists k, for_until_counted ds f s = Ok ((found, s'), k) /\ 0 <= k <= tests (vals ds) /\
                               (found = false -> k = tests (vals ds))
  | Abort => for_until_counted ds f s = Abort
  | UB => for_until_counted ds f s = UB
  | NoFuel => for_until_counted ds f s = NoFuel
  end.
Proof. exact @for_until_tests_l. Qed.
Print Assumptions for_until_tests.

(** That is between one and 2d per element for a table of d dimensions that is not empty. *)
Theorem tests_per_element : forall ns, Forall (fun n => 1 <= n) ns -> ns <> [] ->
  prod ns <= tests ns <= 2 * Z.of_nat (length ns) * prod ns.
Proof. exact tests_bounds_l. Qed.
Print Assumptions tests_per_element.

(** The bisections make at most 1 + log2 n turns, each of them reading one element. *)
Theorem bisection_turns : forall (T : Type) (dbg : bool) (cond : T -> bool) (c : container) (m : mem T) (n : cint),
  numel (c_shape c) = Ok n ->
  match bisect dbg cond c m (bisect_fuel n) n (int 0) (int 0) with
  | Ok r => exists k, bisect_counted dbg cond c m (bisect_fuel n) n (int 0) (int 0) = Ok (r, k) /\ 0 <= k /\
                      (0 < cval n -> k <= 1 + Z.log2 (cval n)) /\ (cval n <= 0 -> k = 0)
  | Abort => bisect_counted dbg cond c m (bisect_fuel n) n (int 0) (int 0) = Abort
  | UB => bisect_counted dbg cond c m (bisect_fuel n) n (int 0) (int 0) = UB
  | NoFuel => False
  end.
Proof. exact @bisection_turns_l. Qed.
Print Assumptions bisection_turns.

(** Not true: a table without elements costs nothing. Loops over a table whose outer sizes are not zero go through
    all of them: for_each on shape (2147483647, 0) tests 4294967295 times without a call, on (0, 2147483647) once. *)
Theorem empty_costs_nothing_refuted : forall (S : Type) (f : list cint -> S -> outcome S) (s : S),
  for_each_counted [int 2147483647; int 0] f s = Ok (s, 4294967295) /\
  for_each_counted [int 0; int 2147483647] f s = Ok (s, 1).
Proof. exact @empty_cost_l. Qed.
Print Assumptions empty_costs_nothing_refuted.

(** In general as many as the loops over the sizes before the first zero, and one for each of their turns. *)
Theorem empty_costs : forall (S : Type) (f : list cint -> S -> outcome S) (s : S) ds a r, wfs ds -> vals ds = a ++ 0 :: r ->
  Forall (fun n => 1 <= n) a -> nonnegs r -> for_each_counted ds f s = Ok (s, tests a + prod a).
Proof. exact @empty_costs_l. Qed.
Print Assumptions empty_costs.

(** Examples *)
Definition sh3 : list cint := [CI U8 2; int 3; CI I64 2].
Example tests_ex : for_each_counted sh3 (fun _ s => Ok (s + 1)) 0 = Ok (12, 3 + 2 * (4 + 3 * 3)) /\ tests (vals sh3) = 29 /\ prod (vals sh3) = 12.
Proof. vm_compute. auto. Qed.
(** The largest size of a small type, and a negative one. *)
Example tests_narrow_ex : for_each_counted [CI U8 255] (fun _ s => Ok (s + 1)) 0 = Ok (255, 256).
Proof. vm_compute. reflexivity. Qed.
Example tests_negative_ex : for_each_counted [int 2; int (-5)] (fun _ s => Ok (s + 1)) 0 = Ok (0, 5).
Proof. vm_compute. reflexivity. Qed.
(** A search that stops at (1,0) of a 2x3 shape: three tests for the outer loop, four and two for the inner one. *)
Example until_ex : for_until_counted [int 2; int 3] (fun p s => Ok (hd 0 (vals p) =? 1, s + 1)) 0 = Ok ((true, 4), 9).
Proof. vm_compute. reflexivity. Qed.
(** Bisecting six elements takes three turns; of an unsorted table too. *)
Definition bc : container := Cn K2 [int 2; int 3] [] (Ptr 0 0).
Definition bm : mem Z := [Some (map Some [9; 3; 7; 1; 5; 8])].
Example turns_ex : numel (c_shape bc) = Ok (int 6) /\
  bisect_counted true (fun e => e <? 6) bc bm 6 (int 6) (int 0) (int 0) = Ok ((int 5, int 5), 3) /\ 1 + Z.log2 6 = 3.
Proof. vm_compute. auto. Qed.
(** The conditions of the theorems on termination hold of tables with a negative size, and of callables that abort,
    are undefined, or change their state. *)
Definition nc : container := Cn K2 [int (-3); CI U64 18446744073709551615] [] (Ptr 7 0).
Example ends_ex : sizes_are_values nc /\
  (forall v (q : Z), ends (if v =? 0 then Abort else if v =? 1 then UB else Ok (true, q + 1))).
Proof.
  split; [repeat (apply Forall_cons; [unfold wfc, in_ty; cbn; lia|]); apply Forall_nil|].
  intros v q. destruct (v =? 0); [discriminate|]. destruct (v =? 1); discriminate.
Qed.
