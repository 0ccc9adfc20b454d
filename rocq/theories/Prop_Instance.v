(** Property C91: tables with stateful allocators. *)
From Coq Require Import ZArith List Bool Permutation.
From Verif Require Import Outcome Alloc Instance InstanceSpec InstanceFacts.
Import ListNotations.
Open Scope Z_scope.

(** No operation on tables changes an allocator of the program. *)
Theorem user_allocators_untouched : forall A W (ac : behaviour A W) h0 w0 os s,
  iruns ac h0 (iinit w0) os = Ok s -> forall u, i_user s u = given os u None.
Proof. exact @user_untouched_l. Qed.
Print Assumptions user_allocators_untouched.

(** The calls to allocate: one for each table made, on a copy of the allocator given as it is at that
    time; one for each copy, on a heap_allocator. *)
Theorem allocate_calls : forall A W (ac : behaviour A W) h0 w0 os s,
  iruns ac h0 (iinit w0) os = Ok s ->
  requests (i_trace s) = asked h0 os (fun _ => None) (fun _ => 0).
Proof. exact @requests_l. Qed.
Print Assumptions allocate_calls.

(** Each call to deallocate belongs to one call to allocate, and finds its allocator exactly in the state
    this call left it in. *)
Theorem deallocate_finds_state : forall A W (ac : behaviour A W) h0 w0 os s,
  iruns ac h0 (iinit w0) os = Ok s ->
  exists kept, Permutation (allocations ac (i_trace s)) (releases (i_trace s) ++ kept).
Proof. exact @releases_l. Qed.
Print Assumptions deallocate_finds_state.

(** Once all tables are gone, every block was released so, and every allocator object is gone. *)
Theorem all_states_released : forall A W (ac : behaviour A W) h0 w0 os s,
  iruns ac h0 (iinit w0) os = Ok s -> (forall v, i_tabs s v = None) ->
  Permutation (allocations ac (i_trace s)) (releases (i_trace s)) /\
  Permutation (ends (i_trace s)) (seq 0 (i_next s)).
Proof. exact @all_released_l. Qed.
Print Assumptions all_states_released.

(** No allocator object ends twice. *)
Theorem allocator_objects_end_once : forall A W (ac : behaviour A W) h0 w0 os s,
  iruns ac h0 (iinit w0) os = Ok s -> NoDup (ends (i_trace s)).
Proof. exact @objects_once_l. Qed.
Print Assumptions allocator_objects_end_once.

(** The object which allocates is a temporary: it is gone when the operation is over, and it is never the
    one which releases. *)
Theorem allocating_object_is_temporary : forall A W (ac : behaviour A W) h0 w0 os s,
  iruns ac h0 (iinit w0) os = Ok s -> forall id, allocating id (i_trace s) ->
  In (EGone id) (i_trace s) /\ ~ deallocating id (i_trace s).
Proof. exact @other_object_l. Qed.
Print Assumptions allocating_object_is_temporary.

(** What allocators share is changed by these calls only, each finding what the one before left. *)
Theorem worlds_threaded : forall A W (ac : behaviour A W) h0 w0 os s,
  iruns ac h0 (iinit w0) os = Ok s -> through ac w0 (i_trace s) (i_world s).
Proof. exact @worlds_l. Qed.
Print Assumptions worlds_threaded.

(** The histories which run: those that use names properly and copy no moved-from table, unless it is
    empty. *)
Theorem usable_histories : forall A W (ac : behaviour A W) h0 w0 os, provides ac ->
  (exists s, iruns ac h0 (iinit w0) os = Ok s) <-> usable os (fun _ => false) (fun _ => None) = true.
Proof. exact @usable_l. Qed.
Print Assumptions usable_histories.

(** An allocator which counts its blocks twice: in itself (the number of the allocator and the count), and
    in a count that all allocators share, beside the next free address. *)
Definition counting : behaviour (nat * Z) (nat * Z) :=
  Behaviour _ _
    (fun w a n => if n =? 0 then (w, (a, None)) else ((S (fst w), snd w + 1), ((fst a, snd a + 1), Some (fst w))))
    (fun w a _ => ((fst w, snd w - 1), (fst a, snd a - 1))).
(** Tables from two states of one allocator, a copy, a move, assignments, a swap. *)
Definition in_ops : list (iop (nat * Z) (nat * Z)) :=
  [NUser 0 (1%nat, 0); NNew 0 0 24; NUser 0 (2%nat, 7); NNew 1 0 8; NCopy 2 0; NMove 3 1; NMoveAssign 0 3;
   NSwap 0 2; NCopyAssign 1 0].
Definition in_start : istate (nat * Z) (nat * Z) := iinit (100%nat, 0).
Example in_run : exists s, iruns counting (0%nat, 0) in_start in_ops = Ok s /\
  i_user s 0%nat = Some (2%nat, 7) /\ i_world s = (104%nat, 3) /\
  requests (i_trace s) = [((1%nat, 0), 24); ((2%nat, 7), 8); ((0%nat, 0), 24); ((0%nat, 0), 24)] /\
  allocations counting (i_trace s) = [((1%nat, 1), 100%nat); ((2%nat, 8), 101%nat); ((0%nat, 1), 102%nat);
    ((0%nat, 1), 103%nat)] /\
  releases (i_trace s) = [((1%nat, 1), 100%nat)].
Proof. eexists. split; [vm_compute; reflexivity|]. repeat split. Qed.
(** Once the tables are gone the shared count is right again; that of the program's allocator never moved. *)
Example in_run_end : exists s,
  iruns counting (0%nat, 0) in_start (in_ops ++ [NDestroy 0; NDestroy 1; NDestroy 2; NDestroy 3]) = Ok s /\
  (forall v, i_tabs s v = None) /\ length (releases (i_trace s)) = 4%nat /\ i_next s = 8%nat /\
  allocating 2 (i_trace s) /\ i_user s 0%nat = Some (2%nat, 7) /\ i_world s = (104%nat, 0).
Proof.
  eexists. split; [vm_compute; reflexivity|]. split; [intros [|[|[|[|v]]]]; reflexivity|].
  split; [reflexivity|]. split; [reflexivity|]. split; [|split; reflexivity].
  exists (101%nat, 1), (2%nat, 7), 8. cbn [i_trace In]. tauto.
Qed.
Example counting_provides : provides counting /\ usable in_ops (fun _ => false) (fun _ => None) = true /\
  usable (in_ops ++ [NCopy 4 3]) (fun _ => false) (fun _ => None) = false /\
  usable (in_ops ++ [NCopyAssign 3 0; NCopy 4 3]) (fun _ => false) (fun _ => None) = true /\
  usable (in_ops ++ [NDefault 4; NMove 5 4; NCopy 6 4]) (fun _ => false) (fun _ => None) = true.
Proof.
  split; [|vm_compute; auto]. intros w a n N. cbn. destruct (Z.eqb_spec n 0) as [->|]; [discriminate N|discriminate].
Qed.
