(** C85: tables of static size whose elements are objects with operations that throw. *)
From Coq Require Import ZArith List Bool.
From Verif Require Import Outcome Memory ForEachSpec Alloc AllocSpec Lifetime LifetimeSpec LifetimeFacts
  FailSpec Throw ThrowSpec ThrowFacts ThrowFacts2.
Import ListNotations.
Open Scope nat_scope.

(** Whatever operations of elements throw, after any history whose exceptions are caught the tables hold what
    the values say, each in its own living objects; exceptions come out where they say, the program ends where
    they say, and is undefined only where they say. *)
Theorem throwing_tables_are_values : forall (T : Type) fails (tc : tclass T) (n : nat) (os : list (xop T)),
  match xtable_runs fails tc n (fun _ => None) 0 os with
  | Goes (e, t, xs) => exists s, xruns fails tc n sinit 0 os = Ok (s, t, xs) /\ tables_hold n s e
  | Ends => xruns fails tc n sinit 0 os = Abort
  | Undefined => xruns fails tc n sinit 0 os = UB
  end.
Proof. exact @throwing_tables_l. Qed.
Print Assumptions throwing_tables_are_values.

(** No object outlives the tables: what an operation had constructed when it threw has been destroyed. *)
Theorem throwing_tables_leave_nothing : forall (T : Type) fails (tc : tclass T) (n : nat) (os : list (xop T)) s t xs,
  xruns fails tc n sinit 0 os = Ok (s, t, xs) -> (forall v, s_vars s v = None) ->
  forall b i x, slot (s_slots s) b i <> Some (Some x).
Proof. exact @throwing_end_l. Qed.
Print Assumptions throwing_tables_leave_nothing.

(** An exception out of any operation but a move, a move assignment and an assignment to an element leaves
    every table where it was, with the values it had. *)
Theorem throwing_table_operation_changes_nothing : forall (T : Type) fails (tc : tclass T) (n : nat) (os : list (xop T)) s t xs o s' t',
  xruns fails tc n sinit 0 os = Ok (s, t, xs) -> all_or_nothing o = true ->
  xstep fails tc n s t o = Ok (s', t', true) -> as_before s s'.
Proof. exact @strong_l. Qed.
Print Assumptions throwing_table_operation_changes_nothing.

(** With elements whose moves do not throw, only default construction can end the program, and every exception
    out of an operation on a whole table leaves all tables as they were. *)
Theorem elements_with_safe_moves : forall (T : Type) fails (tc : tclass T) (n : nat) (os : list (xop T)) s t xs o,
  (forall t, fails KMove t = false) -> xruns fails tc n sinit 0 os = Ok (s, t, xs) ->
  (xstep fails tc n s t o = Abort -> default_construction o = true) /\
  (forall s' t', xstep fails tc n s t o = Ok (s', t', true) -> (exists v i x, o = XOp (SWrite v i x)) \/ as_before s s').
Proof. exact @safe_moves_l. Qed.
Print Assumptions elements_with_safe_moves.

(** When nothing throws, the tables of C62. *)
Theorem tables_without_exceptions : forall (T : Type) (tc : tclass T) (n : nat) (os : list (sop T)),
  match table_runs (t_class tc) n (fun _ => None) os with
  | Some e => exists s t, xruns (fun _ _ => false) tc n sinit 0 (map XOp os) = Ok (s, t, map (fun _ => false) os) /\ tables_hold n s e
  | None => xruns (fun _ _ => false) tc n sinit 0 (map XOp os) = UB
  end.
Proof. exact @never_l. Qed.
Print Assumptions tables_without_exceptions.

(** A move that throws loses values: the new table does not come to be, and the elements of the source that
    were moved before stay moved from. *)
Theorem throwing_move_loses_values_refuted : forall (T : Type) fails (tc : tclass T) (n : nat) (os : list (xop T)) s t xs v w l k,
  xruns fails tc n sinit 0 os = Ok (s, t, xs) -> s_vars s v = None ->
  (exists b, s_vars s w = Some b /\ nth_error (s_slots s) b = Some (map Some l)) ->
  first_throw fails (repeat KMove n) t = Some k ->
  exists s' t' b, xstep fails tc n s t (XOp (SMove v w)) = Ok (s', t', true) /\ s_vars s' v = None /\ s_vars s' w = Some b /\
    nth_error (s_slots s') b = Some (map Some (until (e_moved (t_class tc)) (t_left tc) k l)).
Proof. exact @moved_values_lost_l. Qed.
Print Assumptions throwing_move_loses_values_refuted.

(** A move of an element that throws while two tables are swapped, or while one is copied onto another, ends the
    program. *)
Theorem throwing_swap_ends_refuted : forall (T : Type) fails (tc : tclass T) (n : nat) (os : list (xop T)) s t xs v w k,
  xruns fails tc n sinit 0 os = Ok (s, t, xs) -> s_vars s v <> None -> s_vars s w <> None ->
  first_throw fails (repeat KMove (3 * n)) t = Some k ->
  xstep fails tc n s t (XOp (SSwap v w)) = Abort.
Proof. exact @swap_ends_l. Qed.
Print Assumptions throwing_swap_ends_refuted.

Theorem throwing_copy_assignment_ends_refuted : forall (T : Type) fails (tc : tclass T) (n : nat) (os : list (xop T)) s t xs v w k,
  xruns fails tc n sinit 0 os = Ok (s, t, xs) -> s_vars s v <> None -> s_vars s w <> None ->
  first_throw fails (repeat KDefault n ++ repeat KCopy n) t = None ->
  first_throw fails (repeat KMove (3 * n)) (t + (n + n)) = Some k ->
  xstep fails tc n s t (XOp (SCopyAssign v w)) = Abort.
Proof. exact @copy_assign_ends_l. Qed.
Print Assumptions throwing_copy_assignment_ends_refuted.

(** Integers with a nil: a moved object holds 0, a broken one -1. *)
Definition cells : tclass Z := TC (EC 7 (fun _ => 0) (fun x => x))%Z (fun _ _ => (-1)%Z) (fun x => x) (fun x => x).
(** The operations of these numbers throw. *)
Definition at_times (l : list nat) (_ : ekind) (t : nat) : bool := existsb (Nat.eqb t) l.

(** Three elements. Table 0 is made from a source (operations 0 to 5); the second construction of table 1 throws
    (6, 7); the copy of table 0 throws at its last assignment (8 to 13); table 2 is made from settings (14 to 16);
    the assignment of table 0 to table 2 throws at its first copy (17 to 20); the move of table 0 throws at its
    last element (21 to 23); table 2 is moved onto table 0, throwing at the second element (24, 25); an element
    written to table 0 throws (26). *)
Definition throwing_story : list (xop Z) :=
  [XOp (SFrom 0 [1; 2; 3]%Z); XNew 1; XOp (SCopy 1 0); XNew 2; XOp (SCopyAssign 2 0); XOp (SMove 1 0);
   XOp (SMoveAssign 0 2); XOp (SWrite 0 2 5%Z)].
Definition throwing_times : list nat := [7; 13; 20; 23; 25; 26].
Example throwing_story_ex :
  match xruns (at_times throwing_times) cells 3 sinit 0 throwing_story with
  | Ok (s, t, xs) => Some (s_slots s, map (s_vars s) [0; 1; 2], t, xs)
  | _ => None
  end = Some ([[Some 7; Some (-1); Some (-1)]; [None; None; None]; [None; None; None]; [Some 0; Some 7; Some 7];
               [None; None; None]; [None; None; None]]%Z,
              [Some 0; None; Some 3], 27, [false; true; true; false; true; true; true; true]).
Proof. vm_compute. reflexivity. Qed.
Example throwing_values_ex :
  match xtable_runs (at_times throwing_times) cells 3 (fun _ => None) 0 throwing_story with
  | Goes (e, t, xs) => Some (map e [0; 1; 2], t, xs)
  | _ => None
  end = Some ([Some [7; -1; -1]; None; Some [0; 7; 7]]%Z, 27, [false; true; true; false; true; true; true; true]).
Proof. vm_compute. reflexivity. Qed.
(** After the move of that history, table 0 has lost its first two values, and table 1 does not exist. *)
Example throwing_move_ex :
  match xruns (at_times throwing_times) cells 3 sinit 0 (firstn 6 throwing_story) with
  | Ok (s, t, xs) => Some (nth_error (s_slots s) 0, map (s_vars s) [0; 1], t)
  | _ => None
  end = Some (Some [Some 0; Some 0; Some 3]%Z, [Some 0; None], 24) /\
  first_throw (at_times throwing_times) (repeat KMove 3) 21 = Some 2.
Proof. vm_compute. split; reflexivity. Qed.

(** A swap whose sixth move throws; an assignment whose local copy is made and whose third move throws; a default
    construction, and one from settings, whose third element throws; a source too short. *)
Definition two_tables : list (xop Z) := [XOp (SFrom 0 [1; 2; 3]%Z); XNew 1].
Example throwing_ends_ex : exists s t xs,
  xruns (at_times [14]) cells 3 sinit 0 two_tables = Ok (s, t, xs) /\ t = 9 /\
  s_vars s 0 <> None /\ s_vars s 1 <> None /\
  first_throw (at_times [14]) (repeat KMove (3 * 3)) t = Some 5 /\
  first_throw (at_times [17]) (repeat KDefault 3 ++ repeat KCopy 3) t = None /\
  first_throw (at_times [17]) (repeat KMove (3 * 3)) (t + (3 + 3)) = Some 2 /\
  xstep (at_times [17]) cells 3 s t (XOp (SCopyAssign 1 0)) = Abort /\
  xstep (at_times [14]) cells 3 s t (XOp (SDefault 2)) <> Abort /\
  xstep (at_times [11]) cells 3 s t (XOp (SDefault 2)) = Abort /\
  (exists s', xstep (at_times [11]) cells 3 s t (XNew 2) = Ok (s', 12, true)) /\
  xstep (at_times [11]) cells 3 s t (XOp (SFrom 2 [4; 5]%Z)) <> UB /\
  xstep (at_times [14]) cells 3 s t (XOp (SFrom 2 [4; 5]%Z)) = UB.
Proof.
  do 3 eexists. split; [vm_compute; reflexivity|]. split; [reflexivity|]. split; [discriminate|]. split; [discriminate|].
  split; [reflexivity|]. split; [reflexivity|]. split; [reflexivity|]. split; [vm_compute; reflexivity|]. split; [vm_compute; discriminate|].
  split; [vm_compute; reflexivity|]. split; [eexists; vm_compute; reflexivity|]. split; [vm_compute; discriminate|]. vm_compute. reflexivity.
Qed.

(** Moves that do not throw: only copies, operations 12 and 17, do. *)
Definition copies_throw (k : ekind) (t : nat) : bool := match k with KCopy => existsb (Nat.eqb t) [12; 17] | _ => false end.
Example safe_moves_ex : (forall t, copies_throw KMove t = false) /\
  match xruns copies_throw cells 3 sinit 0 (two_tables ++ [XOp (SCopyAssign 1 0); XOp (SCopyAssign 1 0); XOp (SMove 2 0); XOp (SSwap 1 0)]) with
  | Ok (s, t, xs) => Some (map (fun v => match s_vars s v with Some b => nth_error (s_slots s) b | None => None end) [0; 1; 2], xs)
  | _ => None
  end = Some ([Some [Some 7; Some 7; Some 7]; Some [Some 0; Some 0; Some 0]; Some [Some 1; Some 2; Some 3]]%Z,
              [false; false; true; true; false; false]).
Proof. split; [reflexivity|]. vm_compute. reflexivity. Qed.
