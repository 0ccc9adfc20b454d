(** C62: tables of objects of a class type. *)
From Coq Require Import ZArith List Bool.
From Verif Require Import Outcome Memory ForEachSpec Alloc AllocSpec Lifetime LifetimeSpec LifetimeFacts.
Import ListNotations.
Open Scope nat_scope.

(** After any history, the tables of static size hold what variables of a value type would hold, each in
    its own living objects, and no other object is alive. A history that is wrong for variables of a value
    type is undefined. *)
Theorem stack_tables_are_values : forall (T : Type) (ec : eclass T) (n : nat) (os : list (sop T)),
  match table_runs ec n (fun _ => None) os with
  | Some e => exists s, sruns ec n sinit os = Ok s /\ tables_hold n s e
  | None => sruns ec n sinit os = UB
  end.
Proof. exact @stack_tables_l. Qed.
Print Assumptions stack_tables_are_values.

(** No object outlives the tables. *)
Theorem stack_tables_leave_nothing : forall (T : Type) (ec : eclass T) (n : nat) (os : list (sop T)) s,
  sruns ec n sinit os = Ok s -> (forall v, s_vars s v = None) ->
  forall b i x, slot (s_slots s) b i <> Some (Some x).
Proof. exact @stack_tables_end_l. Qed.
Print Assumptions stack_tables_leave_nothing.

(** The elements of a new heap table are not objects: reading or assigning any of them is undefined. *)
Theorem heap_tables_hold_no_object_refuted : forall (T : Type) (n : nat) (h : slots T) i x,
  look (fst (heap_new n h)) (snd (heap_new n h)) i = UB /\
  e_assign (fst (heap_new n h)) (snd (heap_new n h)) i x = UB.
Proof. exact (fun T n h i x => conj (heap_raw_l n h i) (heap_write_l n h i x)). Qed.
Print Assumptions heap_tables_hold_no_object_refuted.

(** Hence a heap table of objects cannot be made from a source, nor copied. *)
Theorem heap_tables_from_a_source_refuted : forall (T : Type) (n : nat) (h : slots T), n <> 0 ->
  (forall xs, heap_from n (from_list xs) h = UB) /\ (forall c, heap_from n (fun h i => look h c i) h = UB).
Proof. exact @heap_copies_l. Qed.
Print Assumptions heap_tables_from_a_source_refuted.

(** An object that the user constructs in the storage of a heap table is still alive when the table is gone. *)
Theorem heap_tables_do_not_destroy_refuted : forall (T : Type) (n : nat) (h : slots T) i x, i < n ->
  exists h', e_construct (fst (heap_new n h)) (snd (heap_new n h)) i x = Ok h' /\
    look (heap_destroy (snd (heap_new n h)) h') (snd (heap_new n h)) i = Ok x.
Proof. exact @heap_leak_l. Qed.
Print Assumptions heap_tables_do_not_destroy_refuted.

(** Tables of three std::vector<int>, whose move empties the source and whose move to itself may too. *)
Definition vectors : eclass (list Z) := EC [] (fun _ => []) (fun _ => []).
Definition story : list (sop (list Z)) :=
  [SFrom 0 [[1];[2;3];[4]]%Z; SCopy 1 0; SWrite 1 1 [9]%Z; SDefault 2; SSwap 1 1; SCopyAssign 2 1;
   SMove 3 0; SMoveAssign 1 3; SCopyAssign 2 2; SDestroy 3].
Example story_values :
  match table_runs vectors 3 (fun _ => None) story with
  | Some e => map e [0;1;2;3] = [Some [[];[];[]]; Some [[1];[2;3];[4]]; Some [[1];[9];[4]]; None]%Z
  | None => False
  end.
Proof. vm_compute. reflexivity. Qed.
Example story_objects :
  match sruns vectors 3 sinit (story ++ [SMoveAssign 2 2; SDestroy 0]) with
  | Ok s => s_slots s = [[None;None;None]; [Some [1];Some [2;3];Some [4]]; [Some [];Some [];Some []];
                         [None;None;None]; [None;None;None]; [None;None;None]]%Z
  | _ => False
  end.
Proof. vm_compute. reflexivity. Qed.
Example story_ends :
  match sruns vectors 3 sinit (story ++ [SDestroy 1; SDestroy 2; SDestroy 0]) with
  | Ok s => concat (s_slots s) = repeat None 18 /\ map (s_vars s) [0;1;2;3] = [None;None;None;None]
  | _ => False
  end.
Proof. vm_compute. split; reflexivity. Qed.
Example story_wrong : sruns vectors 3 sinit (story ++ [SWrite 3 0 []]) = UB.
Proof. vm_compute. reflexivity. Qed.
