(** Property C71: write access to the elements. *)
From Coq Require Import List Bool.
From Verif Require Import Outcome Rights RightsSpec RightsFacts.
Import ListNotations.

(** Views on const data never give write access to it; views on other data always do, const or not. *)
Theorem const_data_is_protected : forall st obj l, no_copy l -> reads_through l (view_named st true obj).
Proof. exact view_read_l. Qed.
Print Assumptions const_data_is_protected.

Theorem const_views_are_writable : forall st obj l, no_copy l -> writes_through l (view_named st false obj).
Proof. exact view_write_l. Qed.
Print Assumptions const_views_are_writable.

(** Tables on the heap are never protected: const or not, through anything. *)
Theorem heap_tables_never_protected : forall obj l, no_copy l -> writes_through l (table_named false false obj).
Proof. exact heap_l. Qed.
Print Assumptions heap_tables_never_protected.

(** Static tables: direct access respects const; slices and reversed views are read-only even if the table is
    not const. *)
Theorem static_tables_direct : forall b,
  writes_through [] (table_named true b false) /\ reads_through [] (table_named true b true) /\
  reads_through [Const] (table_named true b false).
Proof. exact static_direct_l. Qed.
Print Assumptions static_tables_direct.

Theorem slices_of_static_tables_read_only : forall b obj l s, no_copy l -> first_view l = Some s ->
  (exists st, s = Slice st) \/ s = Reverse -> reads_through l (table_named true b obj).
Proof. exact static_slices_l. Qed.
Print Assumptions slices_of_static_tables_read_only.

(** The elements of a const static table (const objects) can be written exactly through chains of views whose
    first one is made by reshape, relabel or view{...}. *)
Theorem const_static_tables_written : forall l, no_copy l ->
  (writes_through l (table_named true false true) <->
   exists s, first_view l = Some s /\ ((exists st, s = Reshape st) \/ s = Relabel \/ s = ViewOf)).
Proof. exact static_const_l. Qed.
Print Assumptions const_static_tables_written.

(** Nothing reaches the first container through a copy. *)
Theorem copies_share_nothing : forall l e e', chain l e = Ok e' -> In TableOf l -> e_shares e' = false.
Proof. exact copy_l. Qed.
Print Assumptions copies_share_nothing.

(** Every chain compiles, except from a table of const elements, such as one made from a const range: that one
    can be written, directly, sliced or reversed, but has no views. *)
Theorem chains_compile : forall l e, t_cat (e_type e) = View \/ t_const (e_type e) = false ->
  exists e', chain l e = Ok e'.
Proof. exact compiles_l. Qed.
Print Assumptions chains_compile.

Theorem tables_of_const_elements_written : forall obj l, no_copy l ->
  (first_view l = None \/ first_view l = Some Reverse \/ exists st, first_view l = Some (Slice st)) ->
  writes_through l (table_named false true obj).
Proof. exact const_source_l. Qed.
Print Assumptions tables_of_const_elements_written.

Theorem tables_of_const_elements_have_no_view : forall l st obj, first_view l = Some ViewOf ->
  chain l (table_named st true obj) = UB.
Proof. exact const_source_view_l. Qed.
Print Assumptions tables_of_const_elements_have_no_view.

(** const table, static: t(0) = 1 does not compile, nor slice(t)(0) = 1, but reshape(t, s)(0) = 1 does, and
    so does a slice of that. *)
Example rights_ex :
  map (fun l => match chain l (table_named true false true) with Ok e => Some (assignable e, e_shares e) | _ => None end)
    [[]; [Slice false]; [Reshape true]; [Const; ViewOf; Slice false; Reverse]; [Slice true; ViewOf]; [TableOf]]
  = [Some (false, true); Some (false, true); Some (true, true); Some (true, true); Some (false, true); Some (true, false)].
Proof. vm_compute. reflexivity. Qed.
Example rights_no_copy : no_copy [Const; ViewOf; Slice false; Reverse].
Proof. intros H. repeat destruct H as [H|H]; try discriminate H. exact H. Qed.
Example rights_first : first_view [Const; ViewOf; Slice false; Reverse] = Some ViewOf /\
  first_view [Const; Const; Slice false; Relabel] = Some (Slice false).
Proof. split; reflexivity. Qed.
(** A const heap table written through a slice of a slice; a slice of a static table that is not const; a copy. *)
Example rights_tables_ex : no_copy [Slice true; Slice false] /\ first_view [Const; Slice true] = Some (Slice true) /\
  map (fun x => match x with Ok e => Some (assignable e, e_shares e) | _ => None end)
    [chain [Slice true; Slice false] (table_named false false true); chain [Const; Slice true] (table_named true false false);
     chain [ViewOf; TableOf; Slice true] (table_named false false true); chain [Reverse] (table_named false true true);
     chain [Slice true; ViewOf] (table_named false true false); chain [ViewOf] (table_named false true false)]
  = [Some (true, true); Some (false, true); Some (true, false); Some (true, true); Some (true, true); None].
Proof.
  split; [intros H; repeat destruct H as [H|H]; try discriminate H; exact H|]. split; [reflexivity|]. vm_compute. reflexivity.
Qed.
