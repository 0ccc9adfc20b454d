(** Property C74: function objects with a state of their own: which object is called, and where its state
    ends up. *)
From Coq Require Import ZArith List Bool Lia.
From Verif Require Import Outcome CInt CIntFacts Spec SpecFacts ShapeSpec Shape ShapeFacts ShapeFacts2
  ForEachSpec Memory MemFacts Container ContainerSpec ContainerFacts ContainerFacts2 ContainerFacts3
  Algo AlgoSpec AlgoFacts4 Search SearchSpec Calls CallSpec CallFacts Objects ObjectSpec ObjectFacts.
Import ListNotations.
Open Scope Z_scope.

(** ** The caller's own object is called *)
Theorem transform_object : forall (T Q : Type) (f : operator Q (list T) T) i out c0 cs m rows os q,
  nth_error os i = Some q -> can_write m out out -> Forall (can_read m out) (c0 :: cs) ->
  Forall (fun i => no_cross_alias out i out) (c0 :: cs) -> arguments m out (c0 :: cs) rows ->
  agrees (map_calls (call f) rows q) (transform_obj f i out c0 cs os m)
    (fun r om => only_changed i (snd r) os (fst om) /\ values (snd om) out out (fst r) /\ frame out out m (snd om)).
Proof. exact @transform_obj_l. Qed.
Print Assumptions transform_object.

(** for_each returns a second object in the same state. *)
Theorem for_each_object : forall (T Q : Type) (f : operator Q (list T) (option T)) i c0 cs m rows os q,
  nth_error os i = Some q -> can_write m c0 c0 -> Forall (can_read m c0) (c0 :: cs) ->
  Forall (fun i => no_cross_alias c0 i c0) (c0 :: cs) -> arguments m c0 (c0 :: cs) rows ->
  agrees (map_calls (call f) rows q) (for_each_obj f i c0 cs os m)
    (fun r omj => only_changed i (snd r) os (fst (fst omj)) /\ new_object os (fst (fst omj)) (snd omj) (snd r) /\
       written m c0 c0 (fst r) (snd (fst omj)) /\ frame c0 c0 m (snd (fst omj))).
Proof. exact @for_each_obj_l. Qed.
Print Assumptions for_each_object.

(** With a context for_each_index calls the object itself, without one a copy; both return the state reached. *)
Theorem for_each_index_object : forall (T Q : Type) (f : operator Q (T * list cint) (option T)) i c m vs os q,
  nth_error os i = Some q -> can_write m c c -> can_read m c c -> values m c c vs ->
  exists trace, visits_all (c_shape c) trace /\
  agrees (map_calls (call f) (combine vs trace) q) (for_each_index_on f i c os m)
    (fun r omj => only_changed i (snd r) os (fst (fst omj)) /\ new_object os (fst (fst omj)) (snd omj) (snd r) /\
       written m c c (fst r) (snd (fst omj)) /\ frame c c m (snd (fst omj))) /\
  agrees (map_calls (call f) (combine vs trace) q) (for_each_index_obj f i c os m)
    (fun r omj => unaffected os (fst (fst omj)) /\ new_object os (fst (fst omj)) (snd omj) (snd r) /\
       written m c c (fst r) (snd (fst omj)) /\ frame c c m (snd (fst omj))).
Proof. exact @for_each_index_l. Qed.
Print Assumptions for_each_index_object.

(** Over a shape, with or without a context, a copy is called; only with a context is it returned. *)
Theorem for_each_shape_object : forall (Q : Type) (f : operator Q (list cint) unit) i sh os q,
  nth_error os i = Some q -> wfs sh -> nonnegs (vals sh) ->
  exists trace, visits_all sh trace /\
  agrees (map_calls (call f) trace q) (for_each_shape_on f i sh os)
    (fun r oj => unaffected os (fst oj) /\ new_object os (fst oj) (snd oj) (snd r)) /\
  agrees (map_calls (call f) trace q) (for_each_shape_obj f i sh os) (fun r os' => unaffected os os').
Proof. exact @for_each_shape_on_l. Qed.
Print Assumptions for_each_shape_object.

(** ** A copy is called and dropped: the caller's objects are as before *)
Theorem reduce_object : forall (T Q A : Type) c (f : operator Q (A * T) A) i init os q m vs,
  nth_error os i = Some q -> can_read m c c -> values m c c vs ->
  agrees (fold_calls (fun a v => call f (a, v)) vs init q) (reduce_obj c f i init os m)
    (fun r aom => fst (fst aom) = fst r /\ snd aom = m /\ unaffected os (snd (fst aom))).
Proof. exact @reduce_obj_l. Qed.
Print Assumptions reduce_object.

(** Two function objects: each copy has its own state, even if they are copies of one object. *)
Theorem transform_reduce_object : forall (T Q A B : Type) (R : operator Q (A * B) A) (F : operator Q (T * T) B)
    c1 c2 init i k os q1 q2 m vs1 vs2,
  nth_error os i = Some q1 -> nth_error os k = Some q2 ->
  can_read m c1 c1 -> can_read m c1 c2 -> values m c1 c1 vs1 -> values m c1 c2 vs2 ->
  agrees (fold_calls (fun a p s => d <- with_second (call F) p s ;; with_first (call R) (a, fst d) (snd d))
            (combine vs1 vs2) init (q1, q2))
    (transform_reduce_obj c1 c2 init R i F k os m)
    (fun r aom => fst (fst aom) = fst r /\ snd aom = m /\ unaffected os (snd (fst aom))).
Proof. exact @transform_reduce_obj_l. Qed.
Print Assumptions transform_reduce_object.

Theorem inner_product_object : forall (T Q A B : Type) (R : operator Q (A * B) A) (F : operator Q (T * T) B)
    dbg c1 c2 init i k os q1 q2 m vs1 vs2,
  nth_error os i = Some q1 -> nth_error os k = Some q2 ->
  can_read m c1 c1 -> can_read m c1 c2 -> values m c1 c1 vs1 -> values m c1 c2 vs2 ->
  legal (c_shape c1) -> legal (c_shape c2) -> c_shape c1 <> [] -> dims c1 = dims c2 ->
  agrees (fold_calls (fun a p s => d <- with_second (call F) p s ;; with_first (call R) (a, fst d) (snd d))
            (combine vs1 vs2) init (q1, q2))
    (inner_product_obj dbg c1 c2 init R i F k os m)
    (fun r aom => fst (fst aom) = fst r /\ snd aom = m /\ unaffected os (snd (fst aom))).
Proof. exact @inner_product_obj_l. Qed.
Print Assumptions inner_product_object.

Theorem inclusive_scan_object : forall (T Q B : Type) (f1 : operator Q (T * B) T) (f2 : operator Q T B)
    in_ out init i k os q1 q2 m vs,
  nth_error os i = Some q1 -> nth_error os k = Some q2 ->
  can_read m in_ in_ -> can_write m in_ out -> no_cross_alias in_ in_ out -> values m in_ in_ vs ->
  agrees (scan_calls (fun a b => with_first (call f1) (a, b)) (with_second (call f2)) vs init (q1, q2))
    (inclusive_scan_obj in_ out init f1 i f2 k os m)
    (fun r sm => unaffected os (snd (fst sm)) /\ values (snd sm) in_ out (fst r) /\ frame in_ out m (snd sm)).
Proof. exact @inclusive_obj_l. Qed.
Print Assumptions inclusive_scan_object.

Theorem exclusive_scan_object : forall (T Q B : Type) (f1 : operator Q (T * B) T) (f2 : operator Q T B)
    in_ out init i k os q1 q2 m vs,
  nth_error os i = Some q1 -> nth_error os k = Some q2 ->
  can_read m in_ in_ -> can_write m in_ out -> no_alias in_ in_ out -> values m in_ in_ vs ->
  agrees (scan_calls (fun a b => with_first (call f1) (a, b)) (with_second (call f2)) vs init (q1, q2))
    (exclusive_scan_obj in_ out init f1 i f2 k os m)
    (fun r sm => unaffected os (snd (fst sm)) /\ values (snd sm) in_ out (firstn (length vs) (init :: fst r)) /\
       frame in_ out m (snd sm)).
Proof. exact @exclusive_obj_l. Qed.
Print Assumptions exclusive_scan_object.

Theorem find_if_object : forall (T Q : Type) c (f : operator Q T bool) i os q m vs, nth_error os i = Some q ->
  can_read m c c -> Forall (fun n => n <= 2147483648) (dims c) -> values m c c vs ->
  agrees (ask_first (call f) vs q) (find_if_obj c f i os m)
    (fun r p => found_at (c_shape c) (box (dims c)) (fst r) (fst p) /\ unaffected os (snd p)).
Proof. exact @find_if_obj_l. Qed.
Print Assumptions find_if_object.

Theorem find_last_if_object : forall (T Q : Type) st c (f : operator Q T bool) i os q m vs, nth_error os i = Some q ->
  default_layout c -> Forall (fun n => cty n <> U32) (c_shape c) -> readable m c -> values m c c vs ->
  agrees (ask_first (call f) (rev vs) q) (find_last_if_obj st c f i os m)
    (fun r p => found_at (c_shape c) (rev (box (dims c))) (fst r) (fst p) /\ unaffected os (snd p)).
Proof. exact @find_last_if_obj_l. Qed.
Print Assumptions find_last_if_object.

(** ** The binary searches *)
(** As the searches of C67 with the state kept elsewhere. *)
Theorem bounds_object : forall (T Q : Type) dbg (f : operator Q (T * T) bool) i c x os q m, nth_error os i = Some q ->
  agrees (lower_bound_call dbg (fun a b => call f (a, b)) c x q m) (lower_bound_obj dbg f i c x os m)
    (fun r p => fst p = fst r /\ unaffected os (snd p)) /\
  agrees (upper_bound_call dbg (fun a b => call f (a, b)) c x q m) (upper_bound_obj dbg f i c x os m)
    (fun r p => fst p = fst r /\ unaffected os (snd p)).
Proof.
  exact (fun T Q dbg f i c x os q m H =>
    conj (lower_bound_obj_l dbg f i c x os q m H) (upper_bound_obj_l dbg f i c x os q m H)).
Qed.
Print Assumptions bounds_object.

(** binary_search is lower_bound and one more comparison, and that one starts from the state the caller's object
    has, not from the one the search reached. *)
Theorem binary_search_object : forall (T Q : Type) dbg (f : operator Q (T * T) bool) i c x os q m,
  nth_error os i = Some q ->
  agrees (first <- lower_bound_call dbg (fun a b => call f (a, b)) c x q m ;;
          match fst first with
          | None => Ok false
          | Some pos => e <- get m c pos ;; r <- call f (x, e) q ;; Ok (negb (fst r))
          end)
    (binary_search_obj dbg f i c x os m) (fun b p => fst p = b /\ unaffected os (snd p)).
Proof. exact @binary_search_obj_l. Qed.
Print Assumptions binary_search_object.

(** ** Operators that must be const *)
Theorem generate_object : forall (T Q : Type) (f : list cint -> Q -> outcome T) i out os q m,
  nth_error os i = Some q -> can_write m out out ->
  exists trace, visits_all (c_shape out) trace /\
  agrees (map_calls (call (Constant f)) trace q) (generate_obj (Constant f) i out os m)
    (fun r om => unaffected os (fst om) /\ values (snd om) out out (fst r) /\ frame out out m (snd om)).
Proof. exact @generate_obj_l. Qed.
Print Assumptions generate_object.

Theorem copy_if_object : forall (T Q : Type) (f : T -> Q -> outcome bool) i out in_ os q m vs,
  nth_error os i = Some q -> can_write m out out -> can_read m out in_ -> no_cross_alias out in_ out ->
  values m out in_ vs ->
  agrees (map_calls (call (Constant f)) vs q) (copy_if_obj (Constant f) i out in_ os m)
    (fun r om => unaffected os (fst om) /\ frame out out m (snd om) /\
       written m out out (map (fun p : T * bool => if snd p then Some (fst p) else None) (combine vs (fst r))) (snd om)).
Proof. exact @copy_if_obj_l. Qed.
Print Assumptions copy_if_object.

Theorem replace_if_object : forall (T Q : Type) (f : T -> Q -> outcome bool) i x out os q m vs,
  nth_error os i = Some q -> can_write m out out -> can_read m out out -> values m out out vs ->
  agrees (map_calls (call (Constant f)) vs q) (replace_if_obj out (Constant f) i x os m)
    (fun r om => unaffected os (fst om) /\ frame out out m (snd om) /\
       written m out out (map (fun b : bool => if b then Some x else None) (fst r)) (snd om)).
Proof. exact @replace_if_obj_l. Qed.
Print Assumptions replace_if_object.

Theorem predicates_object : forall (T Q : Type) c (f : T -> Q -> outcome bool) i os q m vs,
  nth_error os i = Some q -> can_read m c c -> values m c c vs ->
  agrees (ask_until false (call (Constant f)) vs q) (all_of_obj c (Constant f) i os m)
    (fun r bom => fst (fst bom) = negb (fst r) /\ snd bom = m /\ unaffected os (snd (fst bom))) /\
  agrees (ask_until true (call (Constant f)) vs q) (any_of_obj c (Constant f) i os m)
    (fun r bom => fst (fst bom) = fst r /\ snd bom = m /\ unaffected os (snd (fst bom))) /\
  agrees (ask_until true (call (Constant f)) vs q) (none_of_obj c (Constant f) i os m)
    (fun r bom => fst (fst bom) = negb (fst r) /\ snd bom = m /\ unaffected os (snd (fst bom))) /\
  (prod (dims c) < 2 ^ 64 ->
   agrees (map_calls (call (Constant f)) vs q) (count_if_obj c (Constant f) i os m)
     (fun r bom => fst (fst bom) = yes (fst r) /\ snd bom = m /\ unaffected os (snd (fst bom)))).
Proof. exact @predicates_obj_l. Qed.
Print Assumptions predicates_object.

Theorem find_not_object : forall (T Q : Type) c (f : T -> Q -> outcome bool) i os q m vs, nth_error os i = Some q ->
  values m c c vs ->
  (can_read m c c -> Forall (fun n => n <= 2147483648) (dims c) ->
   agrees (ask_first (fun x q => r <- call (Constant f) x q ;; Ok (negb (fst r), snd r)) vs q)
     (find_if_not_obj c (Constant f) i os m)
     (fun r p => found_at (c_shape c) (box (dims c)) (fst r) (fst p) /\ unaffected os (snd p))) /\
  (forall st, default_layout c -> Forall (fun n => cty n <> U32) (c_shape c) -> readable m c ->
   agrees (ask_first (fun x q => r <- call (Constant f) x q ;; Ok (negb (fst r), snd r)) (rev vs) q)
     (find_last_if_not_obj st c (Constant f) i os m)
     (fun r p => found_at (c_shape c) (rev (box (dims c))) (fst r) (fst p) /\ unaffected os (snd p))).
Proof.
  exact (fun T Q c f i os q m vs Hq V => conj (fun CR L => find_if_not_obj_l c f i os q m vs Hq CR L V)
    (fun st D Sg R => find_last_if_not_obj_l st c f i os q m vs Hq D Sg R V)).
Qed.
Print Assumptions find_not_object.

(** All calls of such an object see the state it was passed with. *)
Theorem constant_calls : forall (Q A R : Type) (f : A -> Q -> outcome R) vs q,
  map_calls (call (Constant f)) vs q = (ws <- mapM (fun v => f v q) vs ;; Ok (ws, q)).
Proof. exact @constant_calls_l. Qed.
Print Assumptions constant_calls.

(** An operator that is not const is accepted by none of these nine. *)
Theorem changing_operators_rejected : forall (T Q : Type) (g : list cint -> Q -> outcome (T * Q)) (f : T -> Q -> outcome (bool * Q))
    i out in_ x st os m,
  generate_obj (Changing g) i out os m = UB /\ copy_if_obj (Changing f) i out in_ os m = UB /\
  replace_if_obj out (Changing f) i x os m = UB /\ all_of_obj in_ (Changing f) i os m = UB /\
  any_of_obj in_ (Changing f) i os m = UB /\ none_of_obj in_ (Changing f) i os m = UB /\
  count_if_obj in_ (Changing f) i os m = UB /\ find_if_not_obj in_ (Changing f) i os m = UB /\
  find_last_if_not_obj st in_ (Changing f) i os m = UB.
Proof. repeat split. Qed.
Print Assumptions changing_operators_rejected.

(** ** Non-trivial instances *)
Definition oa : container := Cn K2 [int 2; int 3] [] (Ptr 0 0).
Definition ob : container := Cn K2 [int 2; int 3] [] (Ptr 1 0).
Definition om : mem Z := [Some (map Some [1; 3; 3; 3; 5; 8]); Some (map Some [0; 0; 0; 0; 0; 0])].
Definition om2 (l : list Z) : mem Z := [Some (map Some [1; 3; 3; 3; 5; 8]); Some (map Some l)].
Definition om1 (l : list Z) : mem Z := [Some (map Some l); Some (map Some [0; 0; 0; 0; 0; 0])].
(** struct number { int n; int operator()(int v) { return 10 * v + n++; } }; *)
Definition number : operator Z (list Z) Z := Changing (fun v n => Ok (10 * hd 0 v + n, n + 1)).
Definition tag : operator Z (list Z) (option Z) :=
  Changing (fun v n => Ok (if hd 0 v =? 3 then Some n else None, n + 1)).
Definition tag_at : operator Z (Z * list cint) (option Z) :=
  Changing (fun p n => Ok (if fst p =? 3 then Some n else None, n + 1)).
Definition tick {A} : operator Z A unit := Changing (fun _ n => Ok (tt, n + 1)).
Definition weigh : operator Z (Z * Z) Z := Changing (fun p n => Ok (fst p + n * snd p, n + 1)).
Definition third : operator Z Z bool := Changing (fun v n => Ok (2 <=? n, n + 1)).
Definition above : Z -> Z -> outcome bool := fun v n => Ok (n <? v).

Example oa_default : default_layout oa. Proof. by_default false. Qed.
Example ob_default : default_layout ob. Proof. by_default false. Qed.
Example oa_readable : readable om oa. Proof. by_box. Qed.
Example oa_writable : writable om oa. Proof. by_box. Qed.
Example ob_writable : writable om ob. Proof. by_box. Qed.
Example oa_can_read : can_read om oa oa.
Proof. apply default_can_read; [exact oa_default|reflexivity|exact oa_readable]. Qed.
Example oa_can_write : can_write om oa oa.
Proof. apply default_can_write; [exact oa_default|reflexivity|exact oa_writable]. Qed.
Example ob_can_write : can_write om ob ob.
Proof. apply default_can_write; [exact ob_default|reflexivity|exact ob_writable]. Qed.
Example oa_no_cross : no_cross_alias ob oa ob.
Proof. apply no_alias_cross. eapply other_block_no_alias; [reflexivity|reflexivity|discriminate]. Qed.
Example oa_values : values om oa oa [1; 3; 3; 3; 5; 8].
Proof. repeat (constructor; [reflexivity|]). constructor. Qed.
Example oa_rows : arguments om ob [oa] [[1]; [3]; [3]; [3]; [5]; [8]].
Proof. repeat (constructor; [constructor; [reflexivity|constructor]|]). constructor. Qed.

(** The first list is the caller's objects: 7 and 0; the second is used. *)
Example by_reference_ex :
  (transform_obj number 1 ob oa [] [7; 0] om, for_each_obj tag 1 oa [] [7; 0] om, for_each_index_on tag_at 1 oa [7; 0] om)
  = (Ok ([7; 6], om2 [10; 31; 32; 33; 54; 85]),
     Ok (([7; 6; 6], om1 [1; 1; 2; 3; 5; 8]), 2%nat), Ok (([7; 6; 6], om1 [1; 1; 2; 3; 5; 8]), 2%nat)).
Proof. vm_compute. reflexivity. Qed.
(** The same calls, one on a copy: the result is at position 3 and the caller's object is still 0. *)
Example by_value_ex :
  (for_each_index_obj tag_at 1 oa [7; 0] om, for_each_shape_on tick 1 [int 2; int 3] [7; 0],
   for_each_shape_obj tick 1 [int 2; int 3] [7; 0])
  = (Ok (([7; 0; 6; 6], om1 [1; 1; 2; 3; 5; 8]), 3%nat), Ok ([7; 0; 6; 6], 3%nat), Ok [7; 0; 6; 6]).
Proof. vm_compute. reflexivity. Qed.
(** 0*1 + 1*3 + 2*3 + 3*3 + 4*5 + 5*8 = 78, and the object still says 0. With one object for both roles the
    two copies count separately. *)
Example reduce_ex :
  (reduce_obj oa weigh 1 0 [7; 0] om, transform_reduce_obj oa oa 0 weigh 1 weigh 1 [7; 0] om,
   inclusive_scan_obj oa ob 0 weigh 1 (Changing (fun v n => Ok (v + n, n + 1))) 1 [7; 0] om)
  = (Ok ((78, [7; 0; 6]), om), Ok ((400, [7; 0; 6; 6]), om), Ok ((133, [7; 0; 6; 6]), om2 [0; 4; 14; 32; 68; 133])).
Proof. vm_compute. reflexivity. Qed.
Example find_ex :
  (find_if_obj oa third 1 [7; 0] om, find_last_if_obj false oa third 1 [7; 0] om,
   find_if_not_obj oa (Constant above) 1 [7; 0] om, count_if_obj oa (Constant above) 0 [3; 0] om)
  = (Ok (Some [int 0; int 2], [7; 0; 3]), Ok (Some [int 1; int 0], [7; 0; 3]),
     Ok (None, [7; 0; 0]), Ok ((2, [3; 0; 3]), om)).
Proof. vm_compute. reflexivity. Qed.

(** A comparison that is "less" for the first three calls and "false" afterwards: keeping its state outside
    (C67) binary_search answers otherwise than with the state in the object. *)
Definition tired : operator Z (Z * Z) bool :=
  Changing (fun p n => Ok (if n <? 3 then fst p <? snd p else false, n + 1)).
Theorem binary_search_restarts_refuted : exists (f : operator Z (Z * Z) bool) c x q m b b' q' os',
  binary_search_call true (fun a b => call f (a, b)) c x q m = Ok (b, q') /\
  binary_search_obj true f 0 c x [q] m = Ok (b', os') /\ b <> b'.
Proof.
  exists tired, oa, 4, 0, om, true, false, 4, [0; 1; 3]. split; [vm_compute; reflexivity|].
  split; [vm_compute; reflexivity|discriminate].
Qed.
Print Assumptions binary_search_restarts_refuted.
