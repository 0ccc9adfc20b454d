(** Properties C66 and C67: what the algorithms do with callables that have effects. *)
From Coq Require Import ZArith List Bool Lia.
From Verif Require Import Outcome CInt CIntFacts Spec SpecFacts ShapeSpec Shape ShapeFacts ShapeFacts2
  ForEachSpec Memory MemFacts Container ContainerSpec ContainerFacts ContainerFacts2 ContainerFacts3
  Algo AlgoSpec AlgoFacts4 Search SearchSpec SearchFacts Calls CallSpec CallFacts CallFacts2 CallFacts3 CallFacts4.
Import ListNotations.
Open Scope Z_scope.

(** ** C66 *)
Theorem transform_calls : forall (T Q : Type) (f : list T -> Q -> outcome (T * Q)) out c0 cs m rows q,
  can_write m out out -> Forall (can_read m out) (c0 :: cs) ->
  Forall (fun i => no_cross_alias out i out) (c0 :: cs) -> arguments m out (c0 :: cs) rows ->
  agrees (map_calls f rows q) (transform_call f out c0 cs q m)
    (fun r qm => fst qm = snd r /\ values (snd qm) out out (fst r) /\ frame out out m (snd qm)).
Proof. exact @transform_call_l. Qed.
Print Assumptions transform_calls.

Theorem generate_calls : forall (T Q : Type) (f : list cint -> Q -> outcome (T * Q)) out m q, can_write m out out ->
  exists trace, visits_all (c_shape out) trace /\
  agrees (map_calls f trace q) (generate_call f out q m)
    (fun r qm => fst qm = snd r /\ values (snd qm) out out (fst r) /\ frame out out m (snd qm)).
Proof. exact @generate_call_l. Qed.
Print Assumptions generate_calls.

Theorem copy_if_calls : forall (T Q : Type) (f : T -> Q -> outcome (bool * Q)) out in_ m vs q,
  can_write m out out -> can_read m out in_ -> no_cross_alias out in_ out -> values m out in_ vs ->
  agrees (map_calls f vs q) (copy_if_call f out in_ q m)
    (fun r qm => fst qm = snd r /\ frame out out m (snd qm) /\
       written m out out (map (fun p : T * bool => if snd p then Some (fst p) else None) (combine vs (fst r))) (snd qm)).
Proof. exact @copy_if_call_l. Qed.
Print Assumptions copy_if_calls.

Theorem replace_if_calls : forall (T Q : Type) (f : T -> Q -> outcome (bool * Q)) x out m vs q,
  can_write m out out -> can_read m out out -> values m out out vs ->
  agrees (map_calls f vs q) (replace_if_call out f x q m)
    (fun r qm => fst qm = snd r /\ frame out out m (snd qm) /\
       written m out out (map (fun b : bool => if b then Some x else None) (fst r)) (snd qm)).
Proof. exact @replace_if_call_l. Qed.
Print Assumptions replace_if_calls.

Theorem reduce_calls : forall (T A Q : Type) c (f : A -> T -> Q -> outcome (A * Q)) init q m vs,
  can_read m c c -> values m c c vs ->
  reduce_call c f init q m = (r <- fold_calls f vs init q ;; Ok (r, m)).
Proof. exact @reduce_call_l. Qed.
Print Assumptions reduce_calls.

Theorem all_of_calls : forall (T Q : Type) c (f : T -> Q -> outcome (bool * Q)) q m vs,
  can_read m c c -> values m c c vs ->
  all_of_call c f q m = (r <- ask_until false f vs q ;; Ok ((negb (fst r), snd r), m)).
Proof. exact @all_of_call_l. Qed.
Print Assumptions all_of_calls.

Theorem any_of_calls : forall (T Q : Type) c (f : T -> Q -> outcome (bool * Q)) q m vs,
  can_read m c c -> values m c c vs ->
  any_of_call c f q m = (r <- ask_until true f vs q ;; Ok (r, m)).
Proof. exact @any_of_call_l. Qed.
Print Assumptions any_of_calls.

Theorem none_of_calls : forall (T Q : Type) c (f : T -> Q -> outcome (bool * Q)) q m vs,
  can_read m c c -> values m c c vs ->
  none_of_call c f q m = (r <- ask_until true f vs q ;; Ok ((negb (fst r), snd r), m)).
Proof. exact @none_of_call_l. Qed.
Print Assumptions none_of_calls.

Theorem count_if_calls : forall (T Q : Type) c (f : T -> Q -> outcome (bool * Q)) q m vs,
  can_read m c c -> values m c c vs -> prod (dims c) < 2 ^ 64 ->
  count_if_call c f q m = (r <- map_calls f vs q ;; Ok ((yes (fst r), snd r), m)).
Proof. exact @count_if_call_l. Qed.
Print Assumptions count_if_calls.

Theorem transform_reduce_calls : forall (T A B Q : Type) c1 c2 (init : A) (R : A -> B -> Q -> outcome (A * Q))
    (F : T -> T -> Q -> outcome (B * Q)) q m vs1 vs2,
  can_read m c1 c1 -> can_read m c1 c2 -> values m c1 c1 vs1 -> values m c1 c2 vs2 ->
  transform_reduce_call c1 c2 init R F q m =
  (r <- fold_calls (fun a p q => d <- F (fst p) (snd p) q ;; R a (fst d) (snd d)) (combine vs1 vs2) init q ;; Ok (r, m)).
Proof. exact @transform_reduce_call_l. Qed.
Print Assumptions transform_reduce_calls.

Theorem inner_product_calls : forall (T A B Q : Type) dbg c1 c2 (init : A) (R : A -> B -> Q -> outcome (A * Q))
    (F : T -> T -> Q -> outcome (B * Q)) q m vs1 vs2,
  can_read m c1 c1 -> can_read m c1 c2 -> values m c1 c1 vs1 -> values m c1 c2 vs2 ->
  legal (c_shape c1) -> legal (c_shape c2) -> c_shape c1 <> [] -> dims c1 = dims c2 ->
  inner_product_call dbg c1 c2 init R F q m =
  (r <- fold_calls (fun a p q => d <- F (fst p) (snd p) q ;; R a (fst d) (snd d)) (combine vs1 vs2) init q ;; Ok (r, m)).
Proof. exact @inner_product_call_l. Qed.
Print Assumptions inner_product_calls.

(** Shapes of the same order that differ: no call at all, whatever the callables would do. *)
Theorem inner_product_no_call : forall (T A B Q : Type) c1 c2 (init : A) (R : A -> B -> Q -> outcome (A * Q))
    (F : T -> T -> Q -> outcome (B * Q)) q (m : mem T),
  legal (c_shape c1) -> legal (c_shape c2) -> c_shape c1 <> [] ->
  length (c_shape c1) = length (c_shape c2) -> dims c1 <> dims c2 ->
  inner_product_call true c1 c2 init R F q m = Abort.
Proof. exact @inner_product_call_abort_l. Qed.
Print Assumptions inner_product_no_call.

Theorem inclusive_scan_calls : forall (T B Q : Type) in_ out (init : T) (f1 : T -> B -> Q -> outcome (T * Q))
    (f2 : T -> Q -> outcome (B * Q)) q m vs,
  can_read m in_ in_ -> can_write m in_ out -> no_cross_alias in_ in_ out -> values m in_ in_ vs ->
  agrees (scan_calls f1 f2 vs init q) (inclusive_scan_call in_ out init f1 f2 q m)
    (fun r sm => snd (fst sm) = snd r /\ values (snd sm) in_ out (fst r) /\ frame in_ out m (snd sm)).
Proof. exact @inclusive_call_l. Qed.
Print Assumptions inclusive_scan_calls.

Theorem exclusive_scan_calls : forall (T B Q : Type) in_ out (init : T) (f1 : T -> B -> Q -> outcome (T * Q))
    (f2 : T -> Q -> outcome (B * Q)) q m vs,
  can_read m in_ in_ -> can_write m in_ out -> no_alias in_ in_ out -> values m in_ in_ vs ->
  agrees (scan_calls f1 f2 vs init q) (exclusive_scan_call in_ out init f1 f2 q m)
    (fun r sm => snd (fst sm) = snd r /\ values (snd sm) in_ out (firstn (length vs) (init :: fst r)) /\
       frame in_ out m (snd sm)).
Proof. exact @exclusive_call_l. Qed.
Print Assumptions exclusive_scan_calls.

Theorem find_if_calls : forall (T Q : Type) c (f : T -> Q -> outcome (bool * Q)) q m vs,
  can_read m c c -> Forall (fun n => n <= 2147483648) (dims c) -> values m c c vs ->
  agrees (ask_first f vs q) (find_if_call c f q m)
    (fun r p => snd p = snd r /\ found_at (c_shape c) (box (dims c)) (fst r) (fst p)).
Proof. exact @find_if_call_l. Qed.
Print Assumptions find_if_calls.

Theorem find_if_not_calls : forall (T Q : Type) c (f : T -> Q -> outcome (bool * Q)) q m vs,
  can_read m c c -> Forall (fun n => n <= 2147483648) (dims c) -> values m c c vs ->
  agrees (ask_first (fun x q => r <- f x q ;; Ok (negb (fst r), snd r)) vs q) (find_if_not_call c f q m)
    (fun r p => snd p = snd r /\ found_at (c_shape c) (box (dims c)) (fst r) (fst p)).
Proof. exact @find_if_not_call_l. Qed.
Print Assumptions find_if_not_calls.

(** From the last element to the first. *)
Theorem find_last_if_calls : forall (T Q : Type) st c (f : T -> Q -> outcome (bool * Q)) q m vs,
  default_layout c -> Forall (fun n => cty n <> U32) (c_shape c) -> readable m c -> values m c c vs ->
  agrees (ask_first f (rev vs) q) (find_last_if_call st c f q m)
    (fun r p => snd p = snd r /\ found_at (c_shape c) (rev (box (dims c))) (fst r) (fst p)).
Proof. exact @find_last_if_call_l. Qed.
Print Assumptions find_last_if_calls.

Theorem find_last_if_not_calls : forall (T Q : Type) st c (f : T -> Q -> outcome (bool * Q)) q m vs,
  default_layout c -> Forall (fun n => cty n <> U32) (c_shape c) -> readable m c -> values m c c vs ->
  agrees (ask_first (fun x q => r <- f x q ;; Ok (negb (fst r), snd r)) (rev vs) q) (find_last_if_not_call st c f q m)
    (fun r p => snd p = snd r /\ found_at (c_shape c) (rev (box (dims c))) (fst r) (fst p)).
Proof. exact @find_last_if_not_call_l. Qed.
Print Assumptions find_last_if_not_calls.

(** With callables without effects these are the algorithms of the other properties, on any container and
    memory. *)
Theorem effect_free_writers : forall (T Q : Type) (m : mem T) (q : Q),
  (forall f out c0 cs, transform_call (fun vs q => Ok (f vs, q)) out c0 cs q m =
     (m' <- transform f out c0 cs m ;; Ok (q, m'))) /\
  (forall f out in_, copy_if_call (fun v q => Ok (f v, q)) out in_ q m = (m' <- copy_if f out in_ m ;; Ok (q, m'))) /\
  (forall f out x, replace_if_call out (fun v q => Ok (f v, q)) x q m = (m' <- replace_if out f x m ;; Ok (q, m'))) /\
  (forall f out, generate_call (fun is_ q => Ok (f is_, q)) out q m = (m' <- generate f out m ;; Ok (q, m'))) /\
  (forall (B : Type) (f1 : T -> B -> T) (f2 : T -> B) init in_ out,
     (r <- exclusive_scan_call in_ out init (fun s d q => Ok (f1 s d, q)) (fun v q => Ok (f2 v, q)) q m ;;
      Ok (snd (fst r), snd r)) = (m' <- transform_exclusive_scan in_ out init f1 f2 m ;; Ok (q, m'))) /\
  (forall (B : Type) (f1 : T -> B -> T) (f2 : T -> B) init in_ out,
     (r <- inclusive_scan_call in_ out init (fun s d q => Ok (f1 s d, q)) (fun v q => Ok (f2 v, q)) q m ;;
      Ok (snd (fst r), snd r)) = (m' <- transform_inclusive_scan in_ out init f1 f2 m ;; Ok (q, m'))).
Proof.
  exact (fun T Q m q => conj (transform_free m q) (conj (copy_if_free m q) (conj (replace_if_free m q)
    (conj (generate_free m q) (conj (@exclusive_free T Q m q) (@inclusive_free T Q m q)))))).
Qed.
Print Assumptions effect_free_writers.

Theorem effect_free_readers : forall (T Q : Type) (m : mem T) (q : Q),
  (forall (A : Type) (f : A -> T -> A) init c, reduce_call c (fun a v q => Ok (f a v, q)) init q m =
     (r <- reduce c f init m ;; Ok ((fst r, q), snd r))) /\
  (forall f c, all_of_call c (fun v q => Ok (f v, q)) q m = (r <- all_of c f m ;; Ok ((fst r, q), snd r))) /\
  (forall f c, any_of_call c (fun v q => Ok (f v, q)) q m = (r <- any_of c f m ;; Ok ((fst r, q), snd r))) /\
  (forall f c, none_of_call c (fun v q => Ok (f v, q)) q m = (r <- none_of c f m ;; Ok ((fst r, q), snd r))) /\
  (forall f c, count_if_call c (fun v q => Ok (f v, q)) q m = (r <- count_if c f m ;; Ok ((fst r, q), snd r))) /\
  (forall (A B : Type) (R : A -> B -> A) (F : T -> T -> B) init c1 c2,
     transform_reduce_call c1 c2 init (fun a d q => Ok (R a d, q)) (fun v w q => Ok (F v w, q)) q m =
     (r <- transform_reduce c1 c2 init R F m ;; Ok ((fst r, q), snd r))) /\
  (forall (A B : Type) dbg (R : A -> B -> A) (F : T -> T -> B) init c1 c2,
     inner_product_call dbg c1 c2 init (fun a d q => Ok (R a d, q)) (fun v w q => Ok (F v w, q)) q m =
     (r <- inner_product dbg c1 c2 init R F m ;; Ok ((fst r, q), snd r))) /\
  (forall f c, find_if_call c (fun v q => Ok (f v, q)) q m = (r <- find_if c f m ;; Ok (fst r, q))) /\
  (forall f c, find_if_not_call c (fun v q => Ok (f v, q)) q m = (r <- find_if_not c f m ;; Ok (fst r, q))) /\
  (forall st f c, find_last_if_call st c (fun v q => Ok (f v, q)) q m = (r <- find_last_if st c f m ;; Ok (fst r, q))) /\
  (forall st f c, find_last_if_not_call st c (fun v q => Ok (f v, q)) q m =
     (r <- find_last_if_not st c f m ;; Ok (fst r, q))).
Proof.
  exact (fun T Q m q => conj (@reduce_free T Q m q) (conj (all_of_free m q) (conj (any_of_free m q)
    (conj (none_of_free m q) (conj (count_if_free m q) (conj (@transform_reduce_free T Q m q)
    (conj (@inner_product_free T Q m q) (conj (find_if_free m q) (conj (find_if_not_free m q)
    (conj (find_last_if_free m q) (find_last_if_not_free m q))))))))))).
Qed.
Print Assumptions effect_free_readers.

(** A 2x3 table, another one, and callables that number or log their calls. *)
Definition ca : container := Cn K2 [int 2; int 3] [] (Ptr 0 0).
Definition cb : container := Cn K2 [int 2; int 3] [] (Ptr 1 0).
Definition cm : mem Z := [Some (map Some [1; 3; 3; 3; 5; 8]); Some (map Some [0; 0; 0; 0; 0; 0])].
Definition number (v : list Z) (q : Z) : outcome (Z * Z) := Ok (10 * hd 0 v + q, q + 1).
Definition logged (p : Z -> bool) (v : Z) (q : list Z) : outcome (bool * list Z) := Ok (p v, q ++ [v]).
Definition picky (v : Z) (q : Z) : outcome (bool * Z) := if v =? 5 then Abort else Ok (true, q + 1).
Example ca_default : default_layout ca. Proof. by_default false. Qed.
Example cb_default : default_layout cb. Proof. by_default false. Qed.
Example ca_readable : readable cm ca. Proof. by_box. Qed.
Example cb_writable : writable cm cb. Proof. by_box. Qed.
Example ca_can_read : can_read cm cb ca.
Proof. apply default_can_read; [exact ca_default|reflexivity|exact ca_readable]. Qed.
Example cb_can_write : can_write cm cb cb.
Proof. apply default_can_write; [exact cb_default|reflexivity|exact cb_writable]. Qed.
Example ca_no_cross : no_cross_alias cb ca cb.
Proof. apply no_alias_cross. eapply other_block_no_alias; [reflexivity|reflexivity|discriminate]. Qed.
Example ca_rows : arguments cm cb [ca] [[1]; [3]; [3]; [3]; [5]; [8]].
Proof. repeat (constructor; [constructor; [reflexivity|constructor]|]). constructor. Qed.
Example transform_calls_ex : transform_call number cb ca [] 0 cm =
  Ok (6, [Some (map Some [1; 3; 3; 3; 5; 8]); Some (map Some [10; 31; 32; 33; 54; 85])]).
Proof. vm_compute. reflexivity. Qed.
Example predicates_calls_ex :
  (all_of_call ca (logged (fun v => v <? 3)) [] cm, any_of_call ca (logged (fun v => v =? 5)) [] cm,
   find_if_call ca (logged (fun v => v =? 5)) [] cm, find_last_if_call false ca (logged (fun v => v =? 3)) [] cm)
  = (Ok ((false, [1; 3]), cm), Ok ((true, [1; 3; 3; 3; 5]), cm),
     Ok (Some [int 1; int 1], [1; 3; 3; 3; 5]), Ok (Some [int 1; int 0], [8; 5; 3])).
Proof. vm_compute. reflexivity. Qed.
(** Sizes of types size_t and unsigned short. *)
Definition cu : container := Cn K2 [CI U64 2; CI U16 3] [] (Ptr 0 0).
Example cu_default : default_layout cu. Proof. by_default false. Qed.
Example cu_readable : readable cm cu. Proof. by_box. Qed.
Example cu_types : Forall (fun n => cty n <> U32) (c_shape cu). Proof. repeat constructor; discriminate. Qed.
Example find_last_unsigned_ex : find_last_if_call false cu (logged (fun v => v =? 3)) [] cm = Ok (Some [int 1; int 0], [8; 5; 3]).
Proof. vm_compute. reflexivity. Qed.
(** A call that aborts stops the algorithm there. *)
Example abort_calls_ex : (copy_if_call picky cb ca 0 cm, count_if_call ca picky 0 cm) = (Abort, Abort).
Proof. vm_compute. reflexivity. Qed.

(** ** C67 *)
(** Any comparison, with effects and answering anything (it may even contradict itself), that can be
    applied to the elements. *)
Theorem lower_bound_calls : forall (T Q : Type) dbg (func : T -> T -> Q -> outcome (bool * Q)) c x q m, searchable m c ->
  (forall is_ v q, in_box (dims c) is_ -> value m c is_ v -> exists r, func v x q = Ok r) ->
  exists r q' k, lower_bound_call dbg func c x q m = Ok (r, q') /\
    match r with
    | Some pos => map cty pos = map (fun _ => I32) (c_shape c) /\ wfs pos /\ in_box (dims c) (vals pos)
    | None => True
    end /\
    called (fun q1 q2 => exists is_ v b, in_box (dims c) is_ /\ value m c is_ v /\ func v x q1 = Ok (b, q2)) k q q' /\
    Z.log2 (prod (dims c) + 1) <= k <= Z.log2_up (prod (dims c) + 1).
Proof. exact @lower_bound_calls_l. Qed.
Print Assumptions lower_bound_calls.

Theorem upper_bound_calls : forall (T Q : Type) dbg (func : T -> T -> Q -> outcome (bool * Q)) c x q m, searchable m c ->
  (forall is_ v q, in_box (dims c) is_ -> value m c is_ v -> exists r, func x v q = Ok r) ->
  exists r q' k, upper_bound_call dbg func c x q m = Ok (r, q') /\
    match r with
    | Some pos => map cty pos = map (fun _ => I32) (c_shape c) /\ wfs pos /\ in_box (dims c) (vals pos)
    | None => True
    end /\
    called (fun q1 q2 => exists is_ v b, in_box (dims c) is_ /\ value m c is_ v /\ func x v q1 = Ok (b, q2)) k q q' /\
    Z.log2 (prod (dims c) + 1) <= k <= Z.log2_up (prod (dims c) + 1).
Proof. exact @upper_bound_calls_l. Qed.
Print Assumptions upper_bound_calls.

Theorem binary_search_calls : forall (T Q : Type) dbg (func : T -> T -> Q -> outcome (bool * Q)) c x q m, searchable m c ->
  (forall is_ v q, in_box (dims c) is_ -> value m c is_ v -> exists r, func v x q = Ok r) ->
  (forall is_ v q, in_box (dims c) is_ -> value m c is_ v -> exists r, func x v q = Ok r) ->
  exists b q' k, binary_search_call dbg func c x q m = Ok (b, q') /\
    called (fun q1 q2 => exists is_ v b, in_box (dims c) is_ /\ value m c is_ v /\
              (func v x q1 = Ok (b, q2) \/ func x v q1 = Ok (b, q2))) k q q' /\
    Z.log2 (prod (dims c) + 1) <= k <= Z.log2_up (prod (dims c) + 1) + 1.
Proof. exact @binary_search_calls_l. Qed.
Print Assumptions binary_search_calls.

(** On a sorted container: the right answer in a logarithmic number of comparisons. *)
Theorem sorted_searches_count : forall (T : Type) dbg (less : T -> T -> bool) c x m, searchable m c ->
  strict_weak_order less -> sorted less m c ->
  (exists r k, lower_bound_call dbg (fun a b k => Ok (less a b, k + 1)) c x 0 m = Ok (r, k) /\
     first_at m c (fun v => less v x = false) r /\ k <= Z.log2_up (prod (dims c) + 1)) /\
  (exists r k, upper_bound_call dbg (fun a b k => Ok (less a b, k + 1)) c x 0 m = Ok (r, k) /\
     first_at m c (fun v => less x v = true) r /\ k <= Z.log2_up (prod (dims c) + 1)) /\
  (exists b k, binary_search_call dbg (fun a b k => Ok (less a b, k + 1)) c x 0 m = Ok (b, k) /\
     (b = true <-> exists is_ v, in_box (dims c) is_ /\ value m c is_ v /\ less v x = false /\ less x v = false) /\
     k <= Z.log2_up (prod (dims c) + 1) + 1).
Proof. exact @sorted_searches_l. Qed.
Print Assumptions sorted_searches_count.

(** The answers of the comparison, not its effects, decide the result. *)
Theorem searches_answers : forall (T Q : Type) dbg (less : T -> T -> bool) (func : T -> T -> Q -> outcome (bool * Q))
    c x q (m : mem T), (forall a b q, exists q', func a b q = Ok (less a b, q')) ->
  agrees (lower_bound dbg less c x m) (lower_bound_call dbg func c x q m) (fun r s => fst s = r) /\
  agrees (upper_bound dbg less c x m) (upper_bound_call dbg func c x q m) (fun r s => fst s = r) /\
  agrees (binary_search dbg less c x m) (binary_search_call dbg func c x q m) (fun r s => fst s = r).
Proof.
  exact (fun T Q dbg less func c x q m H => conj (lower_bound_answers_l dbg less func c x q m H)
    (conj (upper_bound_answers_l dbg less func c x q m H) (binary_search_answers_l dbg less func c x q m H))).
Qed.
Print Assumptions searches_answers.

Example ca_searchable : searchable cm ca.
Proof.
  split; [by_check|]. split; [discriminate|]. split; [apply default_addressable; exact ca_default|exact ca_readable].
Qed.
Definition compared (a b : Z) (q : list (Z * Z)) : outcome (bool * list (Z * Z)) := Ok (a <? b, q ++ [(a, b)]).
Definition fickle (a b : Z) (q : Z) : outcome (bool * Z) := Ok (Z.even q, q + 1).
Example search_calls_ex :
  (lower_bound_call true compared ca 4 [] cm, upper_bound_call true compared ca 3 [] cm,
   binary_search_call true compared ca 9 [] cm, binary_search_call true fickle ca 3 0 cm)
  = (Ok (Some [int 1; int 1], [(3, 4); (8, 4); (5, 4)]), Ok (Some [int 1; int 1], [(3, 3); (3, 8); (3, 5)]),
     Ok (false, [(3, 9); (8, 9)]), Ok (true, 4)).
Proof. vm_compute. reflexivity. Qed.
