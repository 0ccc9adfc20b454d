(** Property C83: programs of tables, views, slices and algorithms. *)
From Coq Require Import ZArith List Bool Lia.
From Verif Require Import Outcome CInt CIntFacts Spec SpecFacts ShapeSpec Shape ShapeFacts ShapeFacts2 EndRatio EndRatioSpec
  ForEachSpec Memory Container ContainerSpec Slicer SlicerSpec SlicerFacts SlicerFacts3 Alloc Program ProgramSpec
  ProgramFacts ProgramFacts5 ProgramFacts6 CheckSpec SearchSpec Prop_Slicer.
Import ListNotations.
Open Scope Z_scope.

(** Every program that has a meaning on arrays computes that meaning: after any number of calls, the same
    results, the same memory, and variables that designate the cells of their arrays. *)
Theorem programs_on_arrays : forall S T dbg (p : program S T) n m0 s w s',
  wruns dbg p n (winit m0) s w s' ->
  exists k, kruns dbg p n (kinit m0) s = Ok (k, s') /\ agrees w k.
Proof. exact @programs_l. Qed.
Print Assumptions programs_on_arrays.

(** In every state of such a program, tables are made of live cells of their own. *)
Theorem tables_stay_apart : forall S T dbg (p : program S T) n m0 s w s' k,
  wruns dbg p n (winit m0) s w s' -> kruns dbg p n (kinit m0) s = Ok (k, s') ->
  forall t c, k_tabs k t = Some c ->
    (c_data c <> Null -> forall q, cell_of c q -> valid (k_mem k) q /\ ~ valid m0 q) /\
    (forall u d q, u <> t -> k_tabs k u = Some d -> c_data c <> Null -> cell_of c q -> ~ cell_of d q).
Proof. exact @separate_l. Qed.
Print Assumptions tables_stay_apart.

(** Nothing leaks: the live cells are those the program started with and those of the tables that are left. *)
Theorem programs_do_not_leak : forall S T dbg (p : program S T) n m0 s w s' k,
  wruns dbg p n (winit m0) s w s' -> kruns dbg p n (kinit m0) s = Ok (k, s') ->
  forall q, valid (k_mem k) q <->
    valid m0 q \/ exists t c, k_tabs k t = Some c /\ c_data c <> Null /\ cell_of c q.
Proof. exact @accounted_l. Qed.
Print Assumptions programs_do_not_leak.

(** A call only changes cells of the variables it writes to, and of tables it ends. *)
Theorem calls_keep_other_cells : forall S T dbg (p : program S T) n m0 s w s' k (o : op S T) w' r,
  wruns dbg p n (winit m0) s w s' -> kruns dbg p n (kinit m0) s = Ok (k, s') -> wstep dbg w o w' r ->
  exists k', kstep dbg k o = Ok (k', r) /\
    forall q, valid (k_mem k) q -> ~ written k o q -> ~ ended k o q -> peek (k_mem k') q = peek (k_mem k) q.
Proof. exact @frame_l. Qed.
Print Assumptions calls_keep_other_cells.

(** Destroying a table, or assigning to a table whose shape is not known at compile time, ends all its
    cells, whatever the shapes, while the views of it still designate them. *)
Theorem views_are_left_behind : forall S T dbg (p : program S T) n m0 s w s' k (o : op S T) w' r,
  wruns dbg p n (winit m0) s w s' -> kruns dbg p n (kinit m0) s = Ok (k, s') -> wstep dbg w o w' r ->
  forall t c, ends k o t -> k_tabs k t = Some c ->
  exists k', kstep dbg k o = Ok (k', r) /\ k_views k' = k_views k /\
    forall q, c_data c <> Null -> cell_of c q -> ~ valid (k_mem k') q.
Proof. exact @ended_l. Qed.
Print Assumptions views_are_left_behind.

(** An assigned table gets the dimensions and the values its source had before, even if the source is a view
    of that very table. A table whose shape is known at compile time stays where it is, so that its views see
    the new values. *)
Theorem assignment_copies_values : forall S T dbg (p : program S T) n m0 s w s' k t h w' (r : res S T),
  wruns dbg p n (winit m0) s w s' -> kruns dbg p n (kinit m0) s = Ok (k, s') -> wstep dbg w (OAssign t h) w' r ->
  exists k' c c', kstep dbg k (OAssign t h) = Ok (k', r) /\ kget k h = Ok c /\ k_tabs k' t = Some c' /\ dims c' = dims c /\
    (forall is_, in_box (dims c) is_ -> peek (k_mem k') (elem c' is_) = peek (k_mem k) (elem c is_)) /\
    (stack_table k t = true -> k_tabs k t = Some c').
Proof. exact @assign_values_l. Qed.
Print Assumptions assignment_copies_values.

(** With assertions any program at all gives what it gives without them, or does not finish; and one that has
    a meaning without assertions finishes in the same way with them, or is stopped by one. *)
Theorem assertions_confirm_programs : forall S T (p : program S T) n k s,
  confirms (kruns true p n k s) (kruns false p n k s).
Proof. exact @runs_confirm_l. Qed.
Print Assumptions assertions_confirm_programs.
Theorem assertions_only_stop_programs : forall S T (p : program S T) n m0 s w s',
  wruns false p n (winit m0) s w s' -> only_stops (kruns true p n (kinit m0) s) (kruns false p n (kinit m0) s).
Proof. exact @programs_stop_l. Qed.
Print Assumptions assertions_only_stop_programs.

(** A program with a loop: a table made from 24 numbers of the user; the elements of a slice of it are
    multiplied by 10 until the sum of the table is at least 1000; then the first element over 1599. *)
Definition st := (nat * list Z)%type.
Definition times10 (s : st) : elem_fun st Z := Rd 0 (fun v => Wr 0 (v * 10) (Done (fst s, snd s))).
Definition pr : program st Z := {|
  p_call := fun s => match fst s with
    | 0%nat => Some (OUse 0 true [int 4; int 6] (Ptr 0 0))
    | 1%nat => Some (OTable 0 false (View 0))
    | 2%nat => Some (OSlice 1 false false (Tab 0) sls1)
    | 3%nat => Some (OEach times10 (View 1) [] s)
    | 4%nat => Some (OReduce (Tab 0) Z.add 0)
    | 5%nat => Some (OFind (Tab 0) (fun v => 1599 <? v))
    | 6%nat => Some (ODrop 0)
    | _ => None
    end;
  p_next := fun s r => match r with
    | RVal v => (if v <? 1000 then 3%nat else 5%nat, v :: snd s)
    | RPos (Some is_) => (6%nat, is_ ++ snd s)
    | RState s' => (4%nat, snd s')
    | _ => (Datatypes.S (fst s), snd s)
    end |}.
Ltac one := eapply wr_call; [reflexivity| |cbn [p_next pr]].
Example pr_means : exists w, wruns true pr 10 (winit sm) (0%nat, []) w (7%nat, [2; 4; 7008; 888]) /\ w_mem w = sm ++ [None].
Proof.
  eexists. split.
  { one. { apply w_use; [reflexivity|by_check|discriminate]. }
    one. { eapply w_table; [reflexivity|reflexivity|reflexivity|apply contents_by; vm_compute; reflexivity|vm_compute; reflexivity]. }
    one. { eapply w_slice; [reflexivity|eexists; split; reflexivity|reflexivity|exact sc_sliced|intros _; exact sc_wide|left; reflexivity]. }
    one. { eapply w_each; [reflexivity|apply Forall2_nil|apply Forall_cons; [apply reaches_by; vm_compute; reflexivity|apply Forall_nil]|vm_compute; reflexivity]. }
    one. { eapply w_reduce; [eexists; split; reflexivity|apply contents_by; vm_compute; reflexivity]. }
    one. { eapply w_each; [reflexivity|apply Forall2_nil|apply Forall_cons; [apply reaches_by; vm_compute; reflexivity|apply Forall_nil]|vm_compute; reflexivity]. }
    one. { eapply w_reduce; [eexists; split; reflexivity|apply contents_by; vm_compute; reflexivity]. }
    one. { eapply (w_find _ _ _ _ _ _ (Some [2; 4])); [eexists; split; reflexivity|apply contents_by; vm_compute; reflexivity|apply first_by; vm_compute; reflexivity]. }
    one. { eapply w_drop. reflexivity. }
    apply wr_end. reflexivity. }
  vm_compute. reflexivity.
Qed.
Example pr_runs : exists k, kruns true pr 10 (kinit sm) (0%nat, []) = Ok (k, (7%nat, [2; 4; 7008; 888])) /\ k_mem k = sm ++ [None].
Proof. eexists. split; vm_compute; reflexivity. Qed.

(** The cells kept by a call: writing through the slice changes neither the numbers of the user nor the
    first row's first element; the loop above is in a state where this applies. *)
Definition seq_prog (l : list (op st Z)) : program st Z := {|
  p_call := fun s => nth_error l (fst s);
  p_next := fun s r => (Datatypes.S (fst s),
    match r with RVal v => v :: snd s | RPos (Some is_) => is_ ++ snd s | RBool b => (if b then 1 else 0) :: snd s | _ => snd s end) |}.
Definition pr2 : list (op st Z) := [OUse 0 true [int 4; int 6] (Ptr 0 0); OTable 0 false (View 0);
  OSlice 1 false false (Tab 0) sls1; OView 2 false (Tab 0)].
Example pr2_means : exists w k, wruns true (seq_prog pr2) 4 (winit sm) (0%nat, []) w (4%nat, []) /\
  kruns true (seq_prog pr2) 4 (kinit sm) (0%nat, []) = Ok (k, (4%nat, [])) /\
  (exists w', wstep (S := st) true w (OFill (View 1) 7) w' RNone) /\
  (exists w', wstep (S := st) true w (OAssign 0 (View 0)) w' RNone) /\
  (exists c, k_tabs k 0%nat = Some c /\ c_data c = Ptr 1 0 /\ dims c = [4; 6]) /\
  valid (k_mem k) (Ptr 1 0) /\ ~ written k (OFill (S := st) (View 1) 7) (Ptr 1 0).
Proof.
  do 2 eexists. split; [|split; [vm_compute; reflexivity|]].
  { one. { apply w_use; [reflexivity|by_check|discriminate]. }
    one. { eapply w_table; [reflexivity|reflexivity|reflexivity|apply contents_by; vm_compute; reflexivity|vm_compute; reflexivity]. }
    one. { eapply w_slice; [reflexivity|eexists; split; reflexivity|reflexivity|exact sc_sliced|intros _; exact sc_wide|left; reflexivity]. }
    one. { eapply w_view; [reflexivity|eexists; split; reflexivity|reflexivity]. }
    apply wr_stop. }
  split.
  { eexists. eapply w_fill; [reflexivity|apply reaches_by; vm_compute; reflexivity|vm_compute; reflexivity]. }
  split.
  { eexists. eapply w_assign; [reflexivity|reflexivity|reflexivity|reflexivity|reflexivity|cbn; lia
      |apply contents_by; vm_compute; reflexivity|vm_compute; reflexivity]. }
  split; [eexists; split; [reflexivity|split; reflexivity]|].
  split; [vm_compute; discriminate|].
  intros (h & c & [<-|[]] & E & is_ & B & Ep). cbn in E. injection E as <-. apply box_In in B. vm_compute in B.
  repeat (destruct B as [<-|B]; [discriminate Ep|]). contradiction.
Qed.

(** The same with a table whose shape is known at compile time, and another one of the same shape: a view of
    the first one is still good after an assignment, a move from the table and a swap, and sees the values. *)
Definition pr3 : list (op st Z) := [OUse 0 true [int 4; int 6] (Ptr 0 0); ONew 0 true [int 4; int 6];
  OFill (Tab 0) 5; OView 1 false (Tab 0); OAssign 0 (View 0); OGet (View 1) [int 1; int 2]; OMove 1 0;
  OFill (Tab 1) 9; OSwap 0 1; OGet (View 1) [int 1; int 2]; OGet (Tab 1) [int 1; int 2]].
Example pr3_means : exists w k, wruns true (seq_prog pr3) 11 (winit sm) (0%nat, []) w (11%nat, [8; 9; 8]) /\
  kruns true (seq_prog pr3) 11 (kinit sm) (0%nat, []) = Ok (k, (11%nat, [8; 9; 8])) /\
  stack_table k 0 = true /\ exists w', wstep (S := st) true w (OAssign 0 (Tab 1)) w' RNone.
Proof.
  do 2 eexists. split; [|split; [vm_compute; reflexivity|]].
  { one. { apply w_use; [reflexivity|by_check|discriminate]. }
    one. { eapply w_new; [reflexivity|by_check|discriminate|vm_compute; reflexivity]. }
    one. { eapply w_fill; [eexists; split; reflexivity|apply reaches_by; vm_compute; reflexivity|vm_compute; reflexivity]. }
    one. { eapply w_view; [reflexivity|eexists; split; reflexivity|reflexivity]. }
    one. { eapply w_assign_static; [reflexivity|reflexivity|reflexivity|reflexivity|discriminate|reflexivity
             |apply contents_by; vm_compute; reflexivity|apply contents_by; vm_compute; reflexivity]. }
    one. { eapply w_get; [reflexivity|by_check|by_check|discriminate|vm_compute; reflexivity]. }
    one. { eapply w_move_static; [reflexivity|reflexivity|reflexivity|apply contents_by; vm_compute; reflexivity|vm_compute; reflexivity]. }
    one. { eapply w_fill; [eexists; split; reflexivity|apply reaches_by; vm_compute; reflexivity|vm_compute; reflexivity]. }
    one. { eapply w_swap_static; [reflexivity|reflexivity|reflexivity|reflexivity|reflexivity
             |apply contents_by; vm_compute; reflexivity|apply contents_by; vm_compute; reflexivity]. }
    one. { eapply w_get; [reflexivity|by_check|by_check|discriminate|vm_compute; reflexivity]. }
    one. { eapply w_get; [eexists; split; reflexivity|by_check|by_check|discriminate|vm_compute; reflexivity]. }
    apply wr_stop. }
  split; [vm_compute; reflexivity|].
  eexists. eapply w_assign_static; [reflexivity|eexists; split; reflexivity|reflexivity|reflexivity|discriminate|reflexivity
             |apply contents_by; vm_compute; reflexivity|apply contents_by; vm_compute; reflexivity].
Qed.

(** Arrays that run backwards, searches, and a loop that is given the coordinates: the mirror image of the
    numbers of the user, the third column from the last row to the first. *)
Definition sls4 : list slc := [every (int (-1)); SIdx (int 2)].
Ltac by_int := apply in_tyb_spec; reflexivity.
Example sls4_sliced : sliced [int 4; int 6] sls4 [3; 2] [4; 1] [-1; 1].
Proof.
  split; [by_slicer|]. constructor; [|unfold inside; simpl; lia|constructor; [|unfold inside; simpl; lia|constructor]].
  - refine (takes_backward _ None (Some (int (-1))) 3 (-1) _ _ _ _); try reflexivity; try (simpl; lia). split; [by_int|reflexivity].
  - apply (takes_index (int 6) (int 2)). by_int.
Qed.
Definition pr4 : list (op st Z) := [OUse 0 true [int 4; int 6] (Ptr 0 0); OReverse 1 false (View 0);
  OSlice 2 false false (View 0) sls4; OGet (View 1) [int 0; int 1]; OLower (View 0) Z.ltb 7;
  OUpper (View 0) Z.ltb 7; OSearch (View 2) Z.gtb 14; OTable 0 false (View 0);
  OEachIndex (fun s is_ => Rd 0 (fun v => Wr 0 (v + 100 * hd 0 is_) (Done s))) (Tab 0) (0%nat, []);
  OReduce (Tab 0) Z.add 0; OFindLast false (Tab 0) (fun v => v <? 210); OReverse 3 false (Tab 0);
  OInner (View 1) (View 3) 0 Z.add Z.mul; OPut (View 2) [int 0; int 0] 77; OGet (View 0) [int 3; int 2]].
Definition gots : list Z := [77; 63724; 1; 5; 3876; 1; 1; 2; 1; 1; 22].
Example gtb_order : strict_weak_order Z.gtb.
Proof.
  split; [intros x; rewrite Z.gtb_ltb; apply Z.ltb_irrefl|]. split; intros x y z; rewrite !Z.gtb_ltb, ?Z.ltb_lt, ?Z.ltb_ge; lia.
Qed.
Example ltb_order : strict_weak_order Z.ltb.
Proof. split; [intros; apply Z.ltb_irrefl|]. split; intros x y z; rewrite ?Z.ltb_lt, ?Z.ltb_ge; lia. Qed.
Example pr4_means : exists w k, wruns true (seq_prog pr4) 15 (winit sm) (0%nat, []) w (15%nat, gots) /\
  kruns true (seq_prog pr4) 15 (kinit sm) (0%nat, []) = Ok (k, (15%nat, gots)).
Proof.
  do 2 eexists. split; [|vm_compute; reflexivity].
  { one. { apply w_use; [reflexivity|by_check|discriminate]. }
    one. { eapply w_reverse; [reflexivity|reflexivity|reflexivity|reflexivity]. }
    one. { eapply w_slice; [reflexivity|reflexivity|reflexivity|exact sls4_sliced|intros _; repeat constructor|right; reflexivity]. }
    one. { eapply w_get; [reflexivity|by_check|by_check|intros _; repeat constructor|vm_compute; reflexivity]. }
    one. { eapply (w_lower _ _ _ _ _ _ _ (Some [1; 1])); [reflexivity|apply contents_by; vm_compute; reflexivity|exact ltb_order
             |repeat constructor|apply first_by; vm_compute; reflexivity]. }
    one. { eapply (w_upper _ _ _ _ _ _ _ (Some [1; 2])); [reflexivity|apply contents_by; vm_compute; reflexivity|exact ltb_order
             |repeat constructor|apply first_by; vm_compute; reflexivity]. }
    one. { eapply w_search; [reflexivity|apply contents_by; vm_compute; reflexivity|exact gtb_order|repeat constructor]. }
    one. { eapply w_table; [reflexivity|reflexivity|reflexivity|apply contents_by; vm_compute; reflexivity|vm_compute; reflexivity]. }
    one. { eapply w_each_index; [eexists; split; reflexivity|apply reaches_by; vm_compute; reflexivity|vm_compute; reflexivity]. }
    one. { eapply w_reduce; [eexists; split; reflexivity|apply contents_by; vm_compute; reflexivity]. }
    one. { eapply (w_find_last _ _ _ _ _ _ _ _ _ (Some [1; 5])); [eexists; split; reflexivity|reflexivity|reflexivity
             |apply contents_by; vm_compute; reflexivity|apply last_by; vm_compute; reflexivity]. }
    one. { eapply w_reverse; [reflexivity|eexists; split; reflexivity|reflexivity|reflexivity]. }
    one. { eapply w_inner; [reflexivity|reflexivity|reflexivity|reflexivity|apply contents_by; vm_compute; reflexivity
             |apply contents_by; vm_compute; reflexivity]. }
    one. { eapply w_put; [reflexivity|by_check|by_check|intros _; repeat constructor|vm_compute; reflexivity]. }
    one. { eapply w_get; [reflexivity|by_check|by_check|discriminate|vm_compute; reflexivity]. }
    apply wr_stop. }
Qed.

(** An assertion that stops a program that has a meaning without: a bound of type signed char, on an axis of
    200 elements. *)
Definition pr5 : list (op st Z) := [OUse 0 true [int 200] (Ptr 0 0); OSlice 1 false false (View 0) [drop_first (CI I8 100)];
  ONumel (View 1)].
Example pr5_stopped : exists w k, wruns false (seq_prog pr5) 3 (winit sm) (0%nat, []) w (3%nat, []) /\
  kruns false (seq_prog pr5) 3 (kinit sm) (0%nat, []) = Ok (k, (3%nat, [])) /\
  kruns true (seq_prog pr5) 3 (kinit sm) (0%nat, []) = Abort.
Proof.
  do 2 eexists. split; [|split; vm_compute; reflexivity].
  one. { apply w_use; [reflexivity|by_check|discriminate]. }
  one. { eapply (w_slice _ _ _ _ _ _ _ _ _ _ [100] [100] [1]); [reflexivity|reflexivity|reflexivity| |discriminate|left; reflexivity].
         split; [by_slicer|]. constructor; [|unfold inside; simpl; lia|constructor].
         refine (takes_range _ (Some (BInt (CI I8 100))) None None 100 200 1 _ _ _ _ _ _); try reflexivity; try (simpl; lia). split; [by_int|reflexivity]. }
  one. { eapply w_numel. reflexivity. }
  apply wr_stop.
Qed.

(** Calls without a meaning on arrays do go wrong. A view of a table that was assigned to, whose
    shape is not known at compile time: reading is undefined, although the new elements have the same shape. *)
Theorem view_after_assignment_refuted : exists k s,
  kruns true (seq_prog (pr2 ++ [OGet (View 2) [int 0; int 1]])) 5 (kinit sm) (0%nat, []) = Ok (k, s) /\ snd s = [1] /\
  kruns true (seq_prog (pr2 ++ [OAssign 0 (View 0); OGet (View 2) [int 0; int 1]])) 6 (kinit sm) (0%nat, []) = UB.
Proof. do 2 eexists. split; [vm_compute; reflexivity|]. split; vm_compute; reflexivity. Qed.
Print Assumptions view_after_assignment_refuted.

(** A table made from a slice: other elements than those of the slice. *)
Theorem table_from_slice_refuted : exists k s,
  kruns true (seq_prog (pr2 ++ [OTable 1 false (View 1); OGet (View 1) [int 1; int 0]; OGet (Tab 1) [int 1; int 0]])) 7
    (kinit sm) (0%nat, []) = Ok (k, s) /\ snd s = [5; 13].
Proof. do 2 eexists. split; vm_compute; reflexivity. Qed.
Print Assumptions table_from_slice_refuted.

(** An array that runs backwards: with coordinates of unsigned types its elements are not found, and its own
    mirror image is outside of the memory; with coordinates of type int everything is there. *)
Definition pr6 : list (op st Z) := [OUse 0 true [int 4; int 6] (Ptr 0 0); OReverse 1 false (View 0); OReverse 2 false (View 1)].
Theorem backward_arrays_refuted : exists k s,
  kruns true (seq_prog (pr6 ++ [OGet (View 1) [int 0; int 1]])) 4 (kinit sm) (0%nat, []) = Ok (k, s) /\ snd s = [22] /\
  kruns true (seq_prog (pr6 ++ [OGet (View 1) [CI U32 0; CI U32 1]])) 4 (kinit sm) (0%nat, []) = UB /\
  kruns true (seq_prog (pr6 ++ [OGet (View 2) [int 0; int 1]])) 4 (kinit sm) (0%nat, []) = UB.
Proof. do 2 eexists. split; [vm_compute; reflexivity|]. split; [vm_compute; reflexivity|]. split; lazy; reflexivity. Qed.
Print Assumptions backward_arrays_refuted.
