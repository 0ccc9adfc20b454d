(** Properties C29, C30 and C31: ownership of memory and of allocators. *)
From Coq Require Import ZArith List Bool Lia PeanoNat.
From Verif Require Import Outcome CInt Spec SpecFacts ShapeSpec Shape Memory MemFacts Container ContainerSpec
  ContainerFacts ContainerFacts2 ContainerFacts3 MoveFacts Alloc AllocSpec AllocFacts AllocFacts2 AllocFacts3.
Import ListNotations.
Open Scope Z_scope.

(** C29. A history is any list of operations on any number of tables; [hruns] is [Ok] when none of them is
    undefined. Every prefix of a history is a history, so these hold at all times. *)
Theorem histories_release_correctly : forall zero os s, hruns zero hinit os = Ok s ->
  well_released (h_trace s) /\ well_owned s /\ no_leak s.
Proof. exact histories_l. Qed.
Print Assumptions histories_release_correctly.

Theorem histories_end_without_memory : forall zero os s, hruns zero hinit os = Ok s -> (forall v, h_tabs s v = None) ->
  forall k b n, In (Alloc k b n) (h_trace s) -> In (Free k b) (h_trace s).
Proof. exact histories_end_l. Qed.
Print Assumptions histories_end_without_memory.

(** No operation is undefined, except copying from a table whose elements were moved away. *)
Theorem histories_never_stuck : forall zero os s o, hruns zero hinit os = Ok s -> allowed s o ->
  exists s', hstep zero s o = Ok s'.
Proof. exact histories_progress_l. Qed.
Print Assumptions histories_never_stuck.

Theorem copy_of_hollow_table_undefined : forall zero s v w t,
  h_tabs s v = None -> h_tabs s w = Some t -> hollow t -> hstep zero s (TCopy v w) = UB.
Proof. exact copy_hollow_l. Qed.
Print Assumptions copy_of_hollow_table_undefined.

(** A history is defined exactly when the tables, seen as a number of elements each, allow it; and then each
    table reports that number. A move leaves its source reporting elements it has no more. *)
Theorem histories_as_sizes : forall zero os,
  match size_runs (fun _ => None) os with
  | Some e => exists s, hruns zero hinit os = Ok s /\ sees s e
  | None => forall s, hruns zero hinit os <> Ok s
  end.
Proof. exact histories_as_sizes_l. Qed.
Print Assumptions histories_as_sizes.

Example histories_as_sizes_ex : exists e,
  size_runs (fun _ => None) [TNew 0 7 6; TNew 1 0 2; TMove 2 0; TMoveAssign 1 2; TSwap 0 1; TCopyAssign 2 0] = Some e /\
  map e [0; 1; 2]%nat = [Some (6, false); Some (6, true); Some (6, false)] /\
  size_runs e [TCopy 3 1] = None.
Proof. eexists. split; [reflexivity|]. split; reflexivity. Qed.

(** Tables 0 (allocator 7, 6 elements), 1 (heap, 2 elements), 2 (a copy of 0, from the heap allocator), moves,
    assignments, self-assignments and swaps, then all are destroyed. *)
Definition history : list hop :=
  [TNew 0 7 6; TNew 1 0 2; TCopy 2 0; TMove 3 0; TMoveAssign 1 3; TCopyAssign 2 2; TMoveAssign 1 1;
   TSwap 1 2; TDefault 4; TCopyAssign 4 1; TCopyAssign 0 2; TNew 5 7 0; TMoveAssign 3 5; TSwap 4 4].
Definition ending : list hop := map TDestroy [0; 1; 2; 3; 4; 5]%nat.
Definition trace_of (r : outcome hstate) : option (list event) := match r with Ok s => Some (h_trace s) | _ => None end.
Example history_ex : trace_of (hruns (fun _ => false) hinit (history ++ ending)) = Some
  [Alloc 7 0 6; Alloc 0 1 2; Alloc 0 2 6; Read 0 6; Free 0 1; Alloc 0 3 6; Read 2 6; Free 0 2;
   Alloc 0 4 6; Read 3 6; Alloc 0 5 6; Read 0 6; Free 0 5; Free 0 3; Free 7 0; Free 0 4].
Proof. vm_compute. reflexivity. Qed.
Example history_all_destroyed : exists s, hruns (fun _ => false) hinit (history ++ ending) = Ok s /\
  forall v, h_tabs s v = None.
Proof.
  eexists. split; [vm_compute; reflexivity|]. intros v. cbn.
  do 6 (destruct v as [|v]; [reflexivity|]). reflexivity.
Qed.
(** An allocator that returns a block for zero bytes gets it back as well. *)
Example history_zero_ex : trace_of (hruns (fun _ => true) hinit [TNew 0 7 0; TMove 1 0; TDestroy 0; TDestroy 1]) =
  Some [Alloc 7 0 0; Free 7 0].
Proof. vm_compute. reflexivity. Qed.
Example copy_of_hollow_ex : exists s t, hruns (fun _ => false) hinit [TNew 0 0 6; TMove 1 0] = Ok s /\
  h_tabs s 2%nat = None /\ h_tabs s 0%nat = Some t /\ hollow t.
Proof. do 2 eexists. split; [vm_compute; reflexivity|]. split; [reflexivity|]. split; [reflexivity|]. split; [discriminate|reflexivity]. Qed.

(** C30. Any program over any number of any_allocator variables behaves as if each variable held an allocator
    by value, and leaves no object behind; it is undefined exactly when it copies from, or allocates with, a
    variable holding nothing. *)
Theorem any_allocators_are_values : forall (A R : Type) (ac : alloc_class A R) os,
  match value_runs ac (fun _ => None) os with
  | Some (e, r) => exists s, aruns ac ainit os = Ok (s, r) /\ holds s e
  | None => aruns ac ainit os = UB
  end.
Proof. exact @any_values_l. Qed.
Print Assumptions any_allocators_are_values.

Theorem any_allocator_lvalue_copy_diverges : forall (A : Type) (wrap : any -> A) fuel h p,
  any_copy_lvalue wrap fuel h p = NoFuel.
Proof. exact @any_copy_lvalue_l. Qed.
Print Assumptions any_allocator_lvalue_copy_diverges.

Theorem any_allocator_lvalue_assignment_diverges : forall (A : Type) (wrap : any -> A) fuel s v w,
  a_vars s w <> None -> any_assign_lvalue wrap fuel s v w = NoFuel.
Proof. exact @any_assign_lvalue_l. Qed.
Print Assumptions any_allocator_lvalue_assignment_diverges.

(** Allocators with a counter: each allocation returns it and adds the size. *)
Definition counter : alloc_class Z Z := AC _ _ (fun a n => (a + n, a)) (fun a r => a - 1).
Example any_values_ex :
  match value_runs counter (fun _ => None)
    [AFrom 0 100; ACopy 1 0; AAllocate 0 5; AAllocate 0 6; AAllocate 1 1; ASwap 0 1; AAllocate 0 1; ADefault 2;
     ACopyAssign 2 1; AAllocate 2 1; AAllocate 1 1; AMoveAssign 0 2; ACopyAssign 1 1; AMoveAssign 1 1; AAllocate 0 1;
     AAssign 2 7; ADeallocate 2 3; AAllocate 2 1; ADestroy 0; ADestroy 1] with
  | Some (e, r) => Some (e 0%nat, e 1%nat, e 2%nat, r)
  | None => None
  end = Some (None, None, Some (Some 7), [100; 105; 100; 101; 111; 111; 112; 6]).
Proof. vm_compute. reflexivity. Qed.
(** Copying or using a default-constructed or moved-from any_allocator. *)
Example any_null_copy_ex : aruns counter ainit [ADefault 0; ACopy 1 0] = UB /\
  aruns counter ainit [AFrom 0 1; AMove 1 0; ACopy 2 0] = UB /\ aruns counter ainit [AFrom 0 1; AMove 1 0; AAllocate 0 4] = UB.
Proof. vm_compute. auto. Qed.
Example any_lvalue_ex : exists s : astate Z, a_vars s 1%nat <> None /\ aruns counter ainit [AFrom 1 3; AFrom 0 4] = Ok (s, []).
Proof. eexists. split; [|vm_compute; reflexivity]. discriminate. Qed.

(** C31. *)
Theorem moved_from_table : forall (T : Type) (m : mem T) c new old,
  default_layout c -> c_kind c <> KStatic -> move_table c = (new, old) ->
  (forall is_, coord_of c is_ -> get m new is_ = get m c is_) /\
  dims old = dims c /\ c_numel old = Ok (int (prod (dims c))) /\ c_empty old = Ok (prod (dims c) =? 0) /\
  (forall is_, coord_of c is_ -> get m old is_ = UB /\ forall v, put m old is_ v = UB) /\
  (0 < prod (dims c) -> copy_table m old = UB) /\
  release m (c_data old) = Ok m /\ release m (c_data new) = release m (c_data c).
Proof. exact @moved_from_l. Qed.
Print Assumptions moved_from_table.

(** It can be assigned to, and is then an ordinary table. *)
Theorem moved_from_table_can_be_assigned : forall (T : Type) (m : mem T) c src new old,
  default_layout c -> c_kind c <> KStatic -> move_table c = (new, old) ->
  default_layout src -> same_type c src -> readable m src ->
  exists m' d, assign_table m old src = Ok (m', d) /\ c_shape d = c_shape src /\
    (forall is_, coord_of src is_ -> get m' d is_ = get m src is_) /\
    (forall p, valid m p -> cell m' p = cell m p).
Proof. exact @moved_from_reassign_l. Qed.
Print Assumptions moved_from_table_can_be_assigned.

Definition mt : container := Cn K2 [int 2; int 3] [] (Ptr 0 0).
Definition mt2 : container := Cn K2 [int 1; int 2] [] (Ptr 1 0).
Definition mm : mem Z := [Some (map Some [1; 2; 3; 4; 5; 6]); Some (map Some [8; 9])].
Example mt_default : default_layout mt. Proof. by_default false. Qed.
Example mt2_default : default_layout mt2. Proof. by_default false. Qed.
Example mt2_readable : readable mm mt2. Proof. by_box. Qed.
Example mt_same_type : same_type mt mt2. Proof. split; [reflexivity|]. split; [reflexivity|]. discriminate. Qed.
Example moved_ex : let '(new, old) := move_table mt in
  (get mm new [int 1; int 0], get mm old [int 1; int 0], c_empty old, copy_table mm old) = (Ok 4, UB, Ok false, UB).
Proof. vm_compute. reflexivity. Qed.
