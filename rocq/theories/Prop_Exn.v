(** Property C70: what an exception thrown by a callable leaves behind. *)
From Coq Require Import ZArith List Bool Lia.
From Verif Require Import Outcome CInt CIntFacts Spec SpecFacts ShapeSpec Shape ShapeFacts ShapeFacts2
  ForEachSpec Memory MemFacts Container ContainerSpec ContainerFacts ContainerFacts2 ContainerFacts3
  Algo AlgoSpec AlgoFacts4 CallSpec Exn ExnSpec ExnFacts.
Import ListNotations.
Open Scope Z_scope.

Theorem transform_exception : forall (T Q : Type) (f : list T -> Q -> outcome (option T * Q)) out c0 cs m rows q,
  can_write m out out -> Forall (can_read m out) (c0 :: cs) ->
  Forall (fun i => no_cross_alias out i out) (c0 :: cs) -> arguments m out (c0 :: cs) rows ->
  agrees (calls_throw f rows q) (transform_exn f out c0 cs q m)
    (fun r xqm => fst xqm = snd (fst r) /\ fst (snd xqm) = snd r /\
       (exists all, then_nothing (map Some (fst (fst r))) all /\ written m out out all (snd (snd xqm))) /\
       frame out out m (snd (snd xqm))).
Proof. exact @transform_exn_l. Qed.
Print Assumptions transform_exception.

Theorem copy_if_exception : forall (T Q : Type) (f : T -> Q -> outcome (option bool * Q)) out in_ m vs q,
  can_write m out out -> can_read m out in_ -> no_cross_alias out in_ out -> values m out in_ vs ->
  agrees (calls_throw f vs q) (copy_if_exn f out in_ q m)
    (fun r xqm => fst xqm = snd (fst r) /\ fst (snd xqm) = snd r /\
       (exists all, then_nothing (map (fun p : T * bool => if snd p then Some (fst p) else None)
                                      (combine vs (fst (fst r)))) all /\
          written m out out all (snd (snd xqm))) /\
       frame out out m (snd (snd xqm))).
Proof. exact @copy_if_exn_l. Qed.
Print Assumptions copy_if_exception.

Theorem replace_if_exception : forall (T Q : Type) (f : T -> Q -> outcome (option bool * Q)) x out m vs q,
  can_write m out out -> can_read m out out -> values m out out vs ->
  agrees (calls_throw f vs q) (replace_if_exn out f x q m)
    (fun r xqm => fst xqm = snd (fst r) /\ fst (snd xqm) = snd r /\
       (exists all, then_nothing (map (fun b : bool => if b then Some x else None) (fst (fst r))) all /\
          written m out out all (snd (snd xqm))) /\
       frame out out m (snd (snd xqm))).
Proof. exact @replace_if_exn_l. Qed.
Print Assumptions replace_if_exception.

Theorem generate_exception : forall (T Q : Type) (f : list cint -> Q -> outcome (option T * Q)) out m q,
  can_write m out out ->
  exists trace, visits_all (c_shape out) trace /\
  agrees (calls_throw f trace q) (generate_exn f out q m)
    (fun r xqm => fst xqm = snd (fst r) /\ fst (snd xqm) = snd r /\
       (exists all, then_nothing (map Some (fst (fst r))) all /\ written m out out all (snd (snd xqm))) /\
       frame out out m (snd (snd xqm))).
Proof. exact @generate_exn_l. Qed.
Print Assumptions generate_exception.

(** The element at which the callable throws keeps what the callable has left there. *)
Theorem for_each_exception : forall (T Q : Type) (f : T -> Q -> outcome ((T * bool) * Q)) c m vs q,
  can_write m c c -> can_read m c c -> values m c c vs ->
  agrees (leaves_throw f vs q) (for_each_elems_exn f c q m)
    (fun r xqm => fst xqm = snd (fst r) /\ fst (snd xqm) = snd r /\
       (exists all, then_nothing (map Some (fst (fst r))) all /\ written m c c all (snd (snd xqm))) /\
       frame c c m (snd (snd xqm))).
Proof. exact @for_each_exn_l. Qed.
Print Assumptions for_each_exception.

Theorem reduce_exception : forall (T A Q : Type) c (f : A -> T -> Q -> outcome (option A * Q)) init q m vs,
  can_read m c c -> values m c c vs ->
  reduce_exn c f init q m = (r <- fold_throw f vs init q ;; Ok (snd (fst r), ((fst (fst r), snd r), m))).
Proof. exact @reduce_exn_l. Qed.
Print Assumptions reduce_exception.

Theorem inclusive_scan_exception : forall (T B Q : Type) in_ out (init : T)
    (f1 : T -> B -> Q -> outcome (option T * Q)) (f2 : T -> Q -> outcome (option B * Q)) q m vs,
  can_read m in_ in_ -> can_write m in_ out -> no_cross_alias in_ in_ out -> values m in_ in_ vs ->
  agrees (scan_throw f1 f2 vs init q) (inclusive_scan_exn in_ out init f1 f2 q m)
    (fun r xsm => fst xsm = snd (fst r) /\ snd (fst (snd xsm)) = snd r /\
       (exists all, then_nothing (map Some (fst (fst r))) all /\ written m in_ out all (snd (snd xsm))) /\
       frame in_ out m (snd (snd xsm))).
Proof. exact @inclusive_exn_l. Qed.
Print Assumptions inclusive_scan_exception.

(** An exclusive scan has written the element at which its callable throws. *)
Theorem exclusive_scan_exception : forall (T B Q : Type) in_ out (init : T)
    (f1 : T -> B -> Q -> outcome (option T * Q)) (f2 : T -> Q -> outcome (option B * Q)) q m vs,
  can_read m in_ in_ -> can_write m in_ out -> no_alias in_ in_ out -> values m in_ in_ vs ->
  agrees (scan_throw f1 f2 vs init q) (exclusive_scan_exn in_ out init f1 f2 q m)
    (fun r xsm => fst xsm = snd (fst r) /\ snd (fst (snd xsm)) = snd r /\
       (exists all, then_nothing (map Some (firstn (length vs) (init :: fst (fst r)))) all /\
          written m in_ out all (snd (snd xsm))) /\
       frame in_ out m (snd (snd xsm))).
Proof. exact @exclusive_exn_l. Qed.
Print Assumptions exclusive_scan_exception.

(** A 2x3 table, another one, and callables that throw at 5 and log their calls. *)
Definition xa : container := Cn K2 [int 2; int 3] [] (Ptr 0 0).
Definition xb : container := Cn K2 [int 2; int 3] [] (Ptr 1 0).
Definition xm : mem Z := [Some (map Some [1; 3; 4; 3; 5; 8]); Some (map Some [0; 0; 0; 0; 0; 0])].
Definition twice5 (v : list Z) (q : list (list Z)) : outcome (option Z * list (list Z)) :=
  Ok (if hd 0 v =? 5 then None else Some (2 * hd 0 v), q ++ [v]).
Definition odd5 (v : Z) (q : list Z) : outcome (option bool * list Z) :=
  Ok (if v =? 5 then None else Some (Z.odd v), q ++ [v]).
Definition plus5 (a v : Z) (q : list Z) : outcome (option Z * list Z) :=
  Ok (if v =? 5 then None else Some (a + v), q ++ [v]).
Definition same (v : Z) (q : list Z) : outcome (option Z * list Z) := Ok (Some v, q).
Definition spoil (v : Z) (q : list Z) : outcome ((Z * bool) * list Z) := Ok ((- v, v =? 5), q ++ [v]).
Example xa_default : default_layout xa. Proof. by_default false. Qed.
Example xb_default : default_layout xb. Proof. by_default false. Qed.
Example xa_readable : readable xm xa. Proof. by_box. Qed.
Example xb_writable : writable xm xb. Proof. by_box. Qed.
Example xa_can_read : can_read xm xb xa.
Proof. apply default_can_read; [exact xa_default|reflexivity|exact xa_readable]. Qed.
Example xb_can_write : can_write xm xb xb.
Proof. apply default_can_write; [exact xb_default|reflexivity|exact xb_writable]. Qed.
Example xa_can_write : can_write xm xa xa.
Proof. apply default_can_write; [exact xa_default|reflexivity|by_box]. Qed.
Example xa_no_alias : no_alias xa xa xb.
Proof. eapply other_block_no_alias; [reflexivity|reflexivity|discriminate]. Qed.
Example xa_rows : arguments xm xb [xa] [[1]; [3]; [4]; [3]; [5]; [8]].
Proof. repeat (constructor; [constructor; [reflexivity|constructor]|]). constructor. Qed.
Example xa_values : values xm xa xa [1; 3; 4; 3; 5; 8].
Proof. repeat (constructor; [reflexivity|]). constructor. Qed.

Example transform_exception_ex : transform_exn twice5 xb xa [] [] xm =
  Ok (true, ([[1]; [3]; [4]; [3]; [5]], [Some (map Some [1; 3; 4; 3; 5; 8]); Some (map Some [2; 6; 8; 6; 0; 0])])).
Proof. vm_compute. reflexivity. Qed.
Example spec_exception_ex : calls_throw twice5 [[1]; [3]; [4]; [3]; [5]; [8]] [] =
  Ok (([2; 6; 8; 6], true), [[1]; [3]; [4]; [3]; [5]]).
Proof. vm_compute. reflexivity. Qed.
Example if_exception_ex : (copy_if_exn odd5 xb xa [] xm, replace_if_exn xa odd5 7 [] xm) =
  (Ok (true, ([1; 3; 4; 3; 5], [Some (map Some [1; 3; 4; 3; 5; 8]); Some (map Some [1; 3; 0; 3; 0; 0])])),
   Ok (true, ([1; 3; 4; 3; 5], [Some (map Some [7; 7; 4; 7; 5; 8]); Some (map Some [0; 0; 0; 0; 0; 0])]))).
Proof. vm_compute. reflexivity. Qed.
Example generate_exception_ex :
  generate_exn (fun is_ q => Ok (if q =? 4 then None else Some (10 * hd 0 (vals is_) + q), q + 1)) xb 0 xm =
  Ok (true, (5, [Some (map Some [1; 3; 4; 3; 5; 8]); Some (map Some [0; 1; 2; 13; 0; 0])])).
Proof. vm_compute. reflexivity. Qed.
Example for_each_exception_ex : for_each_elems_exn spoil xa [] xm =
  Ok (true, ([1; 3; 4; 3; 5], [Some (map Some [-1; -3; -4; -3; -5; 8]); Some (map Some [0; 0; 0; 0; 0; 0])])).
Proof. vm_compute. reflexivity. Qed.
Example reduce_exception_ex : reduce_exn xa plus5 0 [] xm = Ok (true, ((11, [1; 3; 4; 3; 5]), xm)).
Proof. vm_compute. reflexivity. Qed.
(** Inclusive: four elements written; exclusive: five. *)
Example scan_exception_ex : (inclusive_scan_exn xa xb 0 plus5 same [] xm, exclusive_scan_exn xa xb 9 plus5 same [] xm) =
  (Ok (true, ((11, [1; 3; 4; 3; 5]), [Some (map Some [1; 3; 4; 3; 5; 8]); Some (map Some [1; 4; 8; 11; 0; 0])])),
   Ok (true, ((20, [1; 3; 4; 3; 5]), [Some (map Some [1; 3; 4; 3; 5; 8]); Some (map Some [9; 10; 13; 17; 20; 0])]))).
Proof. vm_compute. reflexivity. Qed.
(** Nothing thrown: everything written. *)
Example no_exception_ex :
  transform_exn (fun v q => Ok (Some (2 * hd 0 v), q + 1)) xb xa [] 0 xm =
  Ok (false, (6, [Some (map Some [1; 3; 4; 3; 5; 8]); Some (map Some [2; 6; 8; 6; 10; 16])])).
Proof. vm_compute. reflexivity. Qed.
