(** Property C69: what failing allocations and throwing copies do to tables. *)
From Coq Require Import ZArith List Bool Lia PeanoNat.
From Verif Require Import Outcome Memory Alloc AllocSpec AllocFacts AllocFacts2 AllocFacts3 Fail FailSpec FailFacts FailFacts2.
Import ListNotations.
Open Scope Z_scope.

(** In every history, whatever fails: an operation that throws leaves all tables and all their memory as they
    were. *)
Theorem throwing_operation_changes_nothing : forall throws zero os s xs f o s',
  fruns throws zero hinit os = Ok (s, xs) -> fstep throws zero f s o = Ok (s', true) -> untouched s s'.
Proof. exact strong_l. Qed.
Print Assumptions throwing_operation_changes_nothing.

(** Nothing is released twice, read after its release or owned twice, and the only blocks that are lost come
    from deleters that could not be made, one each. *)
Theorem failing_histories_release_correctly : forall throws zero os s xs,
  fruns throws zero hinit os = Ok (s, xs) ->
  well_released (h_trace s) /\ well_owned s /\
  exists lost, NoDup lost /\ (forall b, In b lost <-> leaked s b) /\
    (length lost <= list_sum (map (fun p => lost_in (fst p) (snd p)) os))%nat.
Proof. exact fail_histories_l. Qed.
Print Assumptions failing_histories_release_correctly.

Theorem failing_histories_without_leak : forall throws zero os s xs,
  fruns throws zero hinit os = Ok (s, xs) -> (forall o, ~ In (o, NoDeleter) os) -> no_leak s.
Proof. exact fail_no_leak_l. Qed.
Print Assumptions failing_histories_without_leak.

(** A deleter that cannot be made loses the block allocated for it, for good. *)
Theorem failing_deleter_leaks : forall throws zero os s xs o s' x,
  fruns throws zero hinit os = Ok (s, xs) -> fstep throws zero NoDeleter s o = Ok (s', x) ->
  match o with
  | TNew _ _ n => n <> 0
  | TCopy _ w | TCopyAssign _ w => exists t, h_tabs s w = Some t /\ ht_size t <> 0
  | _ => False
  end ->
  x = true /\ exists b, leaked s' b /\ ~ leaked s b.
Proof. exact fail_leaks_l. Qed.
Print Assumptions failing_deleter_leaks.

Theorem leaked_blocks_stay_leaked : forall throws zero os1 os2 s1 x1 s2 x2 b,
  fruns throws zero hinit os1 = Ok (s1, x1) -> leaked s1 b -> fruns throws zero s1 os2 = Ok (s2, x2) -> leaked s2 b.
Proof. exact leak_forever_l. Qed.
Print Assumptions leaked_blocks_stay_leaked.

(** Whether a history is defined, and whether it ends the program, follows from the sizes reported by the
    tables, and it throws where they say. *)
Theorem failing_histories_as_sizes : forall throws zero os,
  match fsize_runs throws (fun _ => None) os with
  | Goes (e, xs) => exists s, fruns throws zero hinit os = Ok (s, xs) /\ sees s e
  | Ends => fruns throws zero hinit os = Abort
  | Undefined => fruns throws zero hinit os = UB
  end.
Proof. exact fail_sizes_l. Qed.
Print Assumptions failing_histories_as_sizes.

(** With heap_allocator, and any allocator that returns null, a table for which there is no memory is
    constructed all the same: it reports its elements and has none. Copying for want of memory is undefined. *)
Theorem table_without_memory_is_hollow : forall throws zero s v k n,
  h_tabs s v = None -> 0 < n -> k = 0%nat \/ throws k = false ->
  exists s' t, fstep throws zero NoMemory s (TNew v k n) = Ok (s', false) /\ h_trace s' = h_trace s /\
    h_tabs s' v = Some t /\ ht_size t = n /\ hollow t.
Proof. exact null_table_l. Qed.
Print Assumptions table_without_memory_is_hollow.

Theorem copy_without_memory_undefined : forall throws zero s v w t,
  h_tabs s w = Some t -> ht_size t <> 0 ->
  (h_tabs s v = None -> fstep throws zero NoMemory s (TCopy v w) = UB) /\
  (h_tabs s v <> None -> fstep throws zero NoMemory s (TCopyAssign v w) = UB).
Proof. exact null_copy_l. Qed.
Print Assumptions copy_without_memory_undefined.

(** Default construction lets no exception out: a deleter that cannot be made for it ends the program. *)
Theorem default_table_without_deleter_ends_refuted : forall throws zero s v,
  h_tabs s v = None -> fstep throws zero NoDeleter s (TDefault v) = Abort.
Proof. exact default_ends_l. Qed.
Print Assumptions default_table_without_deleter_ends_refuted.

(** Allocator 7 throws. Table 0 has 6 elements from it; table 1 cannot be made; the copy of element 2 throws
    while table 2 is copied and while table 3 is assigned; a deleter cannot be made; then all goes well. *)
Definition failing : list (hop * fate) :=
  [(TNew 0 7 6, Fine); (TNew 1 7 4, NoMemory); (TCopy 2 0, BadCopy 2); (TNew 3 0 5, Fine); (TCopyAssign 3 0, BadCopy 2);
   (TCopyAssign 3 0, NoDeleter); (TDefault 5, NoMemory); (TCopyAssign 3 0, Fine); (TMove 1 0, NoMemory); (TNew 2 0 3, NoMemory);
   (TSwap 1 2, BadCopy 0)].
Definition throws7 (k : nat) : bool := Nat.eqb k 7.
Example failing_ex :
  match fruns throws7 (fun _ => false) hinit failing with
  | Ok (s, xs) => Some (h_trace s, xs, map (h_tabs s) [0; 1; 2; 3; 4]%nat)
  | _ => None
  end = Some
  ([Alloc 7 0 6; Alloc 0 1 6; Read 0 3; Free 0 1; Alloc 0 2 5; Alloc 0 3 6; Read 0 3; Free 0 3; Alloc 0 4 6;
    Alloc 0 5 6; Read 0 6; Free 0 2],
   [false; true; true; false; true; true; false; false; false; false; false],
   [Some (HT (HB None None) 6); Some (HT (HB None (Some 0%nat)) 3); Some (HT (HB (Some 0%nat) (Some 7%nat)) 6);
    Some (HT (HB (Some 5%nat) (Some 0%nat)) 6); None]).
Proof. vm_compute. reflexivity. Qed.

Example failing_sizes_ex : exists e xs, fsize_runs throws7 (fun _ => None) failing = Goes (e, xs) /\
  map e [0; 1; 2; 3; 4]%nat = [Some (6, true); Some (3, true); Some (6, false); Some (6, false); None] /\
  fsize_runs throws7 e [(TCopy 4 2, NoMemory)] = Undefined /\ fsize_runs throws7 e [(TCopy 4 1, Fine)] = Undefined /\
  fsize_runs throws7 e [(TMove 6 3, NoDeleter); (TDefault 4, NoDeleter)] = Ends /\
  fsize_runs throws7 e [(TDefault 3, NoDeleter)] = Undefined /\
  fsize_runs throws7 (fun _ => None) [(TDefault 0, Fine); (TCopy 1 0, NoMemory)] <> Undefined.
Proof. do 2 eexists. split; [vm_compute; reflexivity|]. repeat (split; [reflexivity|]). discriminate. Qed.

(** Block 4 of that history. *)
Example failing_leak_ex : exists s xs, fruns throws7 (fun _ => false) hinit failing = Ok (s, xs) /\ leaked s 4.
Proof.
  do 2 eexists. split; [vm_compute; reflexivity|]. split; [|split].
  - exists 0%nat, 6. cbn. tauto.
  - intros k H. cbn in H. decompose [or] H; try discriminate; contradiction.
  - intros v t. cbn. do 6 (destruct v as [|v]; [intros E; first [discriminate E|injection E as <-; discriminate]|]). intros E. discriminate E.
Qed.
Example failing_no_leak_ex : exists s xs,
  fruns throws7 (fun _ => false) hinit [(TNew 0 7 6, Fine); (TNew 1 7 4, NoMemory); (TCopy 2 0, BadCopy 2)] = Ok (s, xs) /\
  xs = [false; true; true] /\ h_trace s = [Alloc 7 0 6; Alloc 0 1 6; Read 0 3; Free 0 1].
Proof. do 2 eexists. split; [vm_compute; reflexivity|]. split; reflexivity. Qed.
Example table_without_memory_ex : exists s xs, fruns throws7 (fun _ => false) hinit [(TNew 0 0 6, Fine); (TNew 1 0 1000, NoMemory)] = Ok (s, xs) /\
  h_tabs s 2%nat = None /\ fstep throws7 (fun _ => false) NoMemory s (TCopy 2 0) = UB /\
  fstep throws7 (fun _ => false) NoMemory s (TCopyAssign 1 0) = UB.
Proof. do 2 eexists. split; [vm_compute; reflexivity|]. split; [reflexivity|]. split; reflexivity. Qed.
