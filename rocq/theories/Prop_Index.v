(** Property C12, continued: the run-time access of shapes with compile-time axes. *)
From Coq Require Import ZArith List Bool Lia.
From Verif Require Import Outcome CInt CIntFacts Spec ShapeSpec Shape ShapeFacts2 Prefilled PrefilledSpec PrefilledFacts PrefilledFacts3 IndexFacts.
Import ListNotations.
Open Scope Z_scope.

(** shape[i] is the extent of the run-time axis with i run-time axes before it, or of the only run-time axis. *)
Theorem runtime_index_counts_runtime_axes : forall dbg p i j e, wfp p ->
  (dbg = true -> exists d, nth_error (pdesc p) i = Some d /\ runtime d) ->
  nth_error (pdesc p) j = Some e -> runtime e ->
  nb_runtime (firstn j (pdesc p)) = i \/ nb_runtime (pdesc p) = 1%nat -> pindex dbg p i = pget p j.
Proof. exact pindex_counts_l. Qed.
Print Assumptions runtime_index_counts_runtime_axes.

(** With assertions the number of a compile-time axis is refused. *)
Theorem runtime_index_static_aborts : forall p i d c, wfp p -> (0 < nb_runtime (pdesc p))%nat ->
  nth_error (pdesc p) i = Some d -> acont d = CStatic c -> pindex true p i = Abort.
Proof. exact pindex_static_l. Qed.
Print Assumptions runtime_index_static_aborts.

(** The types of shapes for which shape[i] is the extent of axis i, whatever the extents: those without compile-time axes before it. *)
Theorem runtime_index_is_get_iff : forall ds i d, nth_error ds i = Some d -> runtime d -> (2 <= nb_runtime ds)%nat ->
  ((forall p, wfp p -> pdesc p = ds -> pindex true p i = pget p i) <-> all_runtime (firstn i ds)).
Proof. exact pindex_iff_l. Qed.
Print Assumptions runtime_index_is_get_iff.

(** of_size(_, 4_c, _, _) with extents 2, 4, 7, 9: shape[1] aborts, shape[2] is 9, shape[3] is outside. *)
Definition mixed_ds : list desc := normalize [(None, CJoker); (None, CStatic (CI U8 4)); (None, CJoker); (None, CJoker)].
Definition mixed_p : prefilled := {| pdesc := mixed_ds; pstore := [int 2; int 7; int 9] |}.
Example mixed_p_ex : wfp mixed_p /\ to_values mixed_p = Ok [int 2; CI U8 4; int 7; int 9] /\
  pindex true mixed_p 0 = Ok (int 2) /\ pindex true mixed_p 1 = Abort /\
  pindex true mixed_p 2 = Ok (int 9) /\ pget mixed_p 2 = Ok (int 7) /\ pindex true mixed_p 3 = UB /\ pindex false mixed_p 1 = Ok (int 7).
Proof. split; [split; [reflexivity|repeat constructor; unfold wfc, in_ty; cbn; lia]|repeat split; reflexivity]. Qed.
Example mixed_ds_ex : exists d, nth_error mixed_ds 2 = Some d /\ runtime d /\ (2 <= nb_runtime mixed_ds)%nat /\
  nb_runtime (firstn 3 mixed_ds) = 2%nat /\ ~ all_runtime (firstn 2 mixed_ds) /\ all_runtime (firstn 1 mixed_ds).
Proof.
  eexists. split; [reflexivity|]. split; [intros c H; discriminate|]. split; [cbn; lia|]. split; [reflexivity|]. split.
  - intros H. inversion H as [|? ? ? H1]; subst. inversion H1 as [|? ? H2]; subst. exact (H2 _ eq_refl).
  - repeat constructor. intros c H; discriminate.
Qed.
