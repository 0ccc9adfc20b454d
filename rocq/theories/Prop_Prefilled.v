(** Properties C10-C16: construction, storage and conversion of mixed compile-time / run-time shapes. *)
From Coq Require Import ZArith String List Bool Lia Permutation.
From Verif Require Import Outcome CInt CIntFacts Spec ShapeSpec Shape ShapeFacts2
  Prefilled PrefilledSpec PrefilledFacts PrefilledFacts3.
Import ListNotations.
Open Scope Z_scope.

(** Example descriptors: shape<height[3], width, depth[as<uint8_t>], channel[4]>. *)
Definition ex_ds : list desc :=
  [ {| aid := AName "height"; acont := CStatic (int 3) |};
    {| aid := AName "width"; acont := CJoker |};
    {| aid := AName "depth"; acont := CType U8 |};
    {| aid := AName "channel"; acont := CStatic (CI U8 4) |} ].
(** shape<_,_,_> and shape<_,_> *)
Definition ex_3d : list desc := normalize [(None, CJoker); (None, CJoker); (None, CJoker)].
Definition ex_2d : list desc := normalize [(None, CJoker); (None, CJoker)].
Definition ex_src : prefilled := {| pdesc := ex_2d; pstore := [int 5; int 7] |}.

Example ex_src_wf : wfp ex_src.
Proof. split; [reflexivity|]. repeat constructor; cbv; discriminate. Qed.
Example ex_src_values : to_values ex_src = Ok [int 5; int 7].
Proof. reflexivity. Qed.
Example ex_src_legal : legal [int 5; int 7].
Proof. by_check. Qed.
Example ex_3d_wide : Forall wide_axis ex_3d.
Proof. repeat constructor; try discriminate; cbv; discriminate. Qed.
Example ex_2d_wide : Forall wide_axis ex_2d.
Proof. repeat constructor; try discriminate; cbv; discriminate. Qed.
Example ex_ds_distinct : distinct_axes ex_ds.
Proof. repeat constructor; cbn; intuition discriminate. Qed.
Example ex_ds_sane : Forall sane_desc ex_ds.
Proof. repeat constructor; cbv; discriminate. Qed.

(** C10 *)
Theorem shape_conversion_keeps_volume : forall dbg dst src vs, wfp src -> to_values src = Ok vs ->
  legal vs -> vs <> [] -> Forall wide_axis dst -> dst <> [] -> axes_fit dst (pdesc src) ->
  exists p vs', shape_convert dbg dst src = Ok p /\ wfp p /\ pdesc p = dst /\ to_values p = Ok vs' /\
    legal vs' /\ shape_eq vs' vs = Ok true /\ prod (vals vs') = prod (vals vs) /\
    vals vs' = (if (length vs <=? length dst)%nat
                then repeat 1 (length dst - length vs) ++ vals vs
                else merge_axes (length vs - length dst + 1) (vals vs)).
Proof. exact convert_order_l. Qed.
Print Assumptions shape_conversion_keeps_volume.

Example shape_conversion_ex :
  let one := normalize [(None, CJoker)] in
  axes_fit ex_3d (pdesc ex_src) /\ axes_fit one (pdesc ex_src) /\ axes_fit ex_2d ex_3d /\
  (exists p, shape_convert true ex_3d ex_src = Ok p /\ to_values p = Ok [int 1; int 5; int 7]) /\
  (exists p, shape_convert true one ex_src = Ok p /\ to_values p = Ok [int 35]).
Proof. split; [reflexivity|]. split; [reflexivity|]. split; [reflexivity|]. split; eexists; split; reflexivity. Qed.

Theorem shape_widen_narrow_roundtrip : forall dbg dst back src vs, wfp src -> to_values src = Ok vs ->
  legal vs -> vs <> [] -> Forall wide_axis dst -> Forall wide_axis back ->
  (length vs <= length dst)%nat -> length back = length vs -> axes_fit dst (pdesc src) -> axes_fit back dst ->
  exists p q vs', shape_convert dbg dst src = Ok p /\ shape_convert dbg back p = Ok q /\
    to_values q = Ok vs' /\ vals vs' = vals vs.
Proof. exact roundtrip_l. Qed.
Print Assumptions shape_widen_narrow_roundtrip.

Example shape_roundtrip_ex : exists p q, shape_convert true ex_3d ex_src = Ok p /\
  shape_convert true ex_2d p = Ok q /\ to_values q = Ok [int 5; int 7].
Proof. do 2 eexists. split; [reflexivity|split; reflexivity]. Qed.

(** C11 *)
Theorem positional_construction_total : forall dbg ds def vs, (length vs <= length ds)%nat ->
  (exists p, pconstruct dbg ds def vs = Ok p /\ pdesc p = ds /\ wfp p) \/
  (dbg = true /\ pconstruct dbg ds def vs = Abort).
Proof. exact construct_total_l. Qed.
Print Assumptions positional_construction_total.

Theorem positional_construction_reads_back : forall dbg ds def vs p, (length vs <= length ds)%nat ->
  pconstruct dbg ds def vs = Ok p ->
  forall i d e, nth_error ds i = Some d ->
    nth_error (repeat (EInt (int 1)) (length ds - length vs) ++ vs) i = Some e ->
    pget p i = Ok (expected def d e).
Proof. exact construct_reads_back_l. Qed.
Print Assumptions positional_construction_reads_back.

Theorem positional_construction_aborts_iff : forall ds def vs, Forall sane_desc ds ->
  Forall sane_ext vs -> (length vs <= length ds)%nat ->
  (pconstruct true ds def vs = Abort <->
   exists i d e, nth_error ds i = Some d /\
     nth_error (repeat (EInt (int 1)) (length ds - length vs) ++ vs) i = Some e /\ contradicts d e).
Proof. exact construct_abort_iff_l. Qed.
Print Assumptions positional_construction_aborts_iff.

Example positional_construction_ex :
  (exists p, pconstruct true ex_ds (int 0) [EJoker; EInt (int 9); EInt (int 260); EConst (int 4)] = Ok p /\
             to_values p = Ok [int 3; int 9; CI U8 4; CI U8 4]) /\
  pconstruct true ex_ds (int 0) [EInt (int 2); EInt (int 9); EInt (int 2); EJoker] = Abort /\
  (exists p, pconstruct true ex_3d (int 0) [EInt (int 9)] = Ok p /\
             to_values p = Ok [int 1; int 1; int 9]).
Proof. split; [|split]; [eexists; split; reflexivity|reflexivity|eexists; split; reflexivity]. Qed.

(** C12 *)
Theorem runtime_index_is_get : forall dbg p i, wfp p -> all_runtime (pdesc p) ->
  (i < length (pdesc p))%nat -> pindex dbg p i = pget p i.
Proof. exact pindex_runtime_l. Qed.
Print Assumptions runtime_index_is_get.

Theorem runtime_index_out_of_range_aborts : forall p i, wfp p -> (0 < nb_runtime (pdesc p))%nat ->
  (length (pdesc p) <= i)%nat -> pindex true p i = Abort.
Proof. exact pindex_oob_l. Qed.
Print Assumptions runtime_index_out_of_range_aborts.

Example runtime_index_ex : all_runtime ex_2d /\ pindex true ex_src 1 = Ok (int 7) /\
  pindex true ex_src 2 = Abort.
Proof. split; [|split; reflexivity]. repeat constructor; discriminate. Qed.

(** Not get<i>: shape<2,_,_> with run-time extents 5 and 7. *)
Theorem runtime_index_mixed_wrong_refuted :
  exists p i v w, wfp p /\ pget p i = Ok v /\ pindex true p i = Ok w /\ cval v <> cval w.
Proof.
  exists {| pdesc := normalize [(None, CStatic (int 2)); (None, CJoker); (None, CJoker)];
            pstore := [int 5; int 7] |}, 1%nat, (int 5), (int 7).
  split; [split; [reflexivity|repeat constructor; cbv; discriminate]|].
  split; [reflexivity|]. split; [reflexivity|cbv; discriminate].
Qed.
Print Assumptions runtime_index_mixed_wrong_refuted.

(** In general: a run-time axis at a position not below the number of run-time axes is read outside
    of the stored extents, and the assertions do not catch it. *)
Theorem runtime_index_mixed_overrun : forall p i d, wfp p -> nth_error (pdesc p) i = Some d ->
  runtime d -> (2 <= nb_runtime (pdesc p) <= i)%nat -> pindex true p i = UB.
Proof. exact pindex_overrun_l. Qed.
Print Assumptions runtime_index_mixed_overrun.

Example runtime_index_mixed_overrun_ex :
  let p := {| pdesc := normalize [(None, CStatic (int 2)); (None, CJoker); (None, CJoker)];
              pstore := [int 5; int 7] |} in
  pget p 2 = Ok (int 7) /\ pindex true p 2 = UB.
Proof. split; reflexivity. Qed.

(** Without assertions the storage is indexed whatever the position: an extent too many is undefined behaviour, and
    with a single run-time axis every position, in range or not, gives the extent of that axis. *)
Theorem runtime_index_release : forall p i, wfp p -> (0 < nb_runtime (pdesc p))%nat ->
  (nb_runtime (pdesc p) = 1%nat -> exists x, pstore p = [x] /\ pindex false p i = Ok x) /\
  ((2 <= nb_runtime (pdesc p) <= i)%nat -> pindex false p i = UB) /\
  ((2 <= nb_runtime (pdesc p))%nat -> (i < nb_runtime (pdesc p))%nat ->
     exists x, nth_error (pstore p) i = Some x /\ pindex false p i = Ok x).
Proof. exact pindex_release_l. Qed.
Print Assumptions runtime_index_release.

Example runtime_index_release_ex :
  let p := {| pdesc := normalize [(None, CStatic (int 2)); (None, CJoker)]; pstore := [int 5] |} in
  pindex true p 0 = Abort /\ pindex true p 9 = Abort /\ pindex false p 0 = Ok (int 5) /\ pindex false p 9 = Ok (int 5) /\
  pindex false ex_src 2 = UB.
Proof. repeat split; reflexivity. Qed.

(** C13 *)
Theorem one_slot_per_runtime_axis : forall ds,
  length (make_storage ds) = nb_runtime ds /\ map cty (make_storage ds) = runtime_types ds.
Proof. exact storage_size_l. Qed.
Print Assumptions one_slot_per_runtime_axis.

Theorem slots_increase : forall ds i j d e si sj, nth_error ds i = Some d -> nth_error ds j = Some e ->
  runtime d -> runtime e ->
  nth_error (index (map_descriptor ds)) i = Some si -> nth_error (index (map_descriptor ds)) j = Some sj ->
  (i < j)%nat -> 0 <= si < sj /\ sj < Z.of_nat (length (make_storage ds)).
Proof. exact slots_distinct_l. Qed.
Print Assumptions slots_increase.

Theorem slot_number : forall ds i d, nth_error ds i = Some d ->
  nth_error (index (map_descriptor ds)) i =
  Some (if is_dynamic d then Z.of_nat (nb_runtime (firstn i ds)) else -1).
Proof. exact slot_number_l. Qed.
Print Assumptions slot_number.

Theorem write_changes_one_axis : forall p i d v, wfp p -> nth_error (pdesc p) i = Some d -> runtime d ->
  exists p', pset p i v = Ok p' /\ wfp p' /\ pdesc p' = pdesc p /\
    pget p' i = Ok (conv (axis_type d) v) /\ forall j, j <> i -> pget p' j = pget p j.
Proof. exact write_one_axis_l. Qed.
Print Assumptions write_changes_one_axis.

Example storage_ex : index (map_descriptor ex_ds) = [-1; 0; 1; -1] /\
  make_storage ex_ds = [int 0; CI U8 0] /\
  (exists p', pset (pdefault ex_ds) 2 (int 9) = Ok p' /\ to_values p' = Ok [int 3; int 0; CI U8 9; CI U8 4]).
Proof. split; [reflexivity|split; [reflexivity|eexists; split; reflexivity]]. Qed.

(** C14 *)
Theorem named_construction_any_order : forall dbg ds def os os', distinct_axes ds ->
  NoDup (map fst os) -> incl (map fst os) (map aid ds) -> Permutation os os' ->
  pconstruct_named dbg ds def os = pconstruct_named dbg ds def os'.
Proof. exact named_permutation_l. Qed.
Print Assumptions named_construction_any_order.

Theorem named_construction_total : forall dbg ds def os, distinct_axes ds -> NoDup (map fst os) ->
  incl (map fst os) (map aid ds) ->
  (exists p, pconstruct_named dbg ds def os = Ok p /\ pdesc p = ds /\ wfp p) \/
  (dbg = true /\ pconstruct_named dbg ds def os = Abort).
Proof. exact named_total_l. Qed.
Print Assumptions named_construction_total.

Theorem named_construction_reads_back : forall dbg ds def os p, distinct_axes ds ->
  NoDup (map fst os) -> incl (map fst os) (map aid ds) -> pconstruct_named dbg ds def os = Ok p ->
  (forall d e, In d ds -> In (aid d, e) os -> pget_axis p (aid d) = Ok (expected def d e)) /\
  (forall d, In d ds -> runtime d -> ~ In (aid d) (map fst os) ->
     pget_axis p (aid d) = Ok (CI (axis_type d) 0)).
Proof. exact named_reads_back_l. Qed.
Print Assumptions named_construction_reads_back.

Theorem named_construction_aborts_iff : forall ds def os, distinct_axes ds -> NoDup (map fst os) ->
  incl (map fst os) (map aid ds) -> (0 < nb_runtime ds)%nat ->
  Forall sane_desc ds -> Forall (fun o => sane_ext (snd o)) os ->
  (pconstruct_named true ds def os = Abort <->
   exists d e, In d ds /\ In (aid d, e) os /\ contradicts d e).
Proof. exact named_abort_iff_l. Qed.
Print Assumptions named_construction_aborts_iff.

Example named_construction_ex :
  let os := [(AName "depth", EInt (int 6)); (AName "height", EConst (int 3)); (AName "width", EInt (int 2))] in
  NoDup (map fst os) /\ incl (map fst os) (map aid ex_ds) /\
  exists p, pconstruct_named true ex_ds (int 0) os = Ok p /\
            to_values p = Ok [int 3; int 2; CI U8 6; CI U8 4].
Proof.
  split; [repeat constructor; cbn; intuition discriminate|].
  split; [intros a; cbn; intuition|]. eexists. split; reflexivity.
Qed.

(** The compile-time check [duplicate_axis] is the distinctness asked for above, and unnamed axes
    always pass it. *)
Theorem duplicate_axis_check : forall ds, has_duplicate ds = false <-> distinct_axes ds.
Proof. exact has_duplicate_iff_l. Qed.
Print Assumptions duplicate_axis_check.

Theorem unnamed_axes_distinct : forall cs, distinct_axes (normalize (map (fun c => (None, c)) cs)).
Proof. exact implicit_axes_distinct_l. Qed.
Print Assumptions unnamed_axes_distinct.

(** A fully compile-time shape ignores contradicting named values, even with assertions enabled. *)
Theorem named_static_only_ignored : forall dbg ds def os, nb_runtime ds = 0%nat ->
  exists p, pconstruct_named dbg ds def os = Ok p /\ pdesc p = ds /\ wfp p /\
    forall i d c, nth_error ds i = Some d -> acont d = CStatic c -> pget p i = Ok c.
Proof. exact named_static_only_l. Qed.
Print Assumptions named_static_only_ignored.

Theorem named_static_mismatch_unnoticed_refuted :
  exists ds a v p w, pconstruct_named true ds (int 0) [(a, EInt v)] = Ok p /\
    pget_axis p a = Ok w /\ cval w <> cval v.
Proof.
  exists [{| aid := AName "height"; acont := CStatic (int 3) |}], (AName "height"), (int 5).
  do 2 eexists. split; [reflexivity|]. split; [reflexivity|cbv; discriminate].
Qed.
Print Assumptions named_static_mismatch_unnoticed_refuted.

(** C15 *)
Theorem as_array_exact_when_representable : forall p vs, wfp p -> to_values p = Ok vs ->
  Forall (fun v => in_ty (largest_type (map cty vs)) (cval v)) vs ->
  exists a, as_array p = Ok a /\ vals a = vals vs /\
            Forall (fun x => cty x = largest_type (map cty vs)) a.
Proof. exact as_array_fits_l. Qed.
Print Assumptions as_array_exact_when_representable.

Theorem as_array_exact_same_sign : forall p vs, wfp p -> to_values p = Ok vs -> wfs vs ->
  same_sign vs -> exists a, as_array p = Ok a /\ vals a = vals vs.
Proof. exact as_array_same_sign_l. Qed.
Print Assumptions as_array_exact_same_sign.

Example as_array_ex :
  let p := {| pdesc := normalize [(None, CType U8); (None, CStatic (CI U32 70000))]; pstore := [CI U8 3] |} in
  wfp p /\ as_array p = Ok [CI U32 3; CI U32 70000].
Proof. split; [split; [reflexivity|repeat constructor; cbv; discriminate]|reflexivity]. Qed.

(** A legal shape {std::int8_t(3), std::uint8_t(200)} whose array reads [3, -56]. *)
Theorem as_array_exact_refuted :
  exists p vs a, wfp p /\ to_values p = Ok vs /\ legal vs /\ as_array p = Ok a /\ vals a <> vals vs.
Proof.
  exists {| pdesc := normalize [(None, CType I8); (None, CType U8)]; pstore := [CI I8 3; CI U8 200] |}.
  do 2 eexists. split; [split; [reflexivity|repeat constructor; cbv; discriminate]|].
  split; [reflexivity|]. split; [by_check|]. split; [reflexivity|cbv; discriminate].
Qed.
Print Assumptions as_array_exact_refuted.

(** C16 *)
Theorem fit_constraints_same_order : forall self other, wfp self -> wfp other ->
  length (pdesc self) = length (pdesc other) ->
  Forall sane_desc (pdesc other) -> (forall vs, to_values self = Ok vs -> Forall sane vs) ->
  exists b, fit_constraints self other = Ok b /\
    (b = true <-> forall i d c v, nth_error (pdesc other) i = Some d -> acont d = CStatic c ->
                    pget self i = Ok v -> cval v = cval c).
Proof. exact fit_constraints_iff_l. Qed.
Print Assumptions fit_constraints_same_order.

Example fit_constraints_ex :
  let other v := {| pdesc := normalize [(None, CStatic (CI U8 v)); (None, CJoker)]; pstore := [int 1] |} in
  wfp (other 5) /\ fit_constraints ex_src (other 5) = Ok true /\ fit_constraints ex_src (other 6) = Ok false.
Proof. split; [split; [reflexivity|repeat constructor; cbv; discriminate]|split; reflexivity]. Qed.

(** The documentation asks for equal orders. *)
Theorem fit_constraints_different_orders : forall self other, wfp self -> wfp other ->
  length (pdesc self) <> length (pdesc other) ->
  exists b, fit_constraints self other = Ok b /\ (b = true <-> all_runtime (pdesc other)).
Proof. exact fit_constraints_orders_l. Qed.
Print Assumptions fit_constraints_different_orders.

Theorem fit_constraints_different_orders_refuted :
  exists self other, wfp self /\ wfp other /\ length (pdesc self) <> length (pdesc other) /\
    fit_constraints self other = Ok true.
Proof.
  exists ex_src, {| pdesc := ex_3d; pstore := [int 1; int 1; int 1] |}.
  split; [exact ex_src_wf|]. split; [split; [reflexivity|repeat constructor; cbv; discriminate]|].
  split; [discriminate|reflexivity].
Qed.
Print Assumptions fit_constraints_different_orders_refuted.

Theorem constructible_same_order : forall a b, length a = length b ->
  Forall sane_desc a -> Forall sane_desc b ->
  (is_contructible_from a b = true <->
   map aid a = map aid b /\
   forall i x y c c', nth_error a i = Some x -> nth_error b i = Some y ->
     acont x = CStatic c -> acont y = CStatic c' -> cval c = cval c').
Proof. exact constructible_iff_l. Qed.
Print Assumptions constructible_same_order.

Example constructible_ex :
  let st v := normalize [(None, CStatic (int v)); (None, CJoker)] in
  is_contructible_from (st 4) ex_2d = true /\ is_contructible_from (st 4) (st 5) = false.
Proof. split; reflexivity. Qed.

Theorem conversion_same_order : forall dbg ds src, wfp src -> length (pdesc src) = length ds ->
  Forall sane_desc ds -> (forall vs, to_values src = Ok vs -> Forall sane vs) ->
  (dbg = true /\ pconvert dbg ds src = Abort /\
   exists i d c v, nth_error ds i = Some d /\ acont d = CStatic c /\ pget src i = Ok v /\ cval v <> cval c) \/
  (exists p, pconvert dbg ds src = Ok p /\ pdesc p = ds /\ wfp p /\
     (dbg = true -> forall i d c v, nth_error ds i = Some d -> acont d = CStatic c ->
        pget src i = Ok v -> cval v = cval c) /\
     forall i d v, nth_error ds i = Some d -> pget src i = Ok v ->
        pget p i = Ok (match acont d with CStatic c => c | _ => conv (axis_type d) v end)).
Proof. exact convert_same_order_l. Qed.
Print Assumptions conversion_same_order.

(** An accepted conversion that aborts with assertions and silently changes an extent without. *)
Theorem accepted_conversion_changes_extent_refuted :
  exists ds src, wfp src /\ is_contructible_from ds (pdesc src) = true /\
    pconvert true ds src = Abort /\
    exists p v w, pconvert false ds src = Ok p /\ pget src 0 = Ok v /\ pget p 0 = Ok w /\ cval v <> cval w.
Proof.
  exists (normalize [(None, CStatic (int 4)); (None, CJoker)]), ex_src.
  split; [exact ex_src_wf|]. split; [reflexivity|]. split; [reflexivity|].
  do 3 eexists. split; [reflexivity|]. split; [reflexivity|]. split; [reflexivity|cbv; discriminate].
Qed.
Print Assumptions accepted_conversion_changes_extent_refuted.

(** Widening to a shape whose added outer axis is a compile-time extent other than 1 is accepted at
    compile time; it aborts with assertions and silently multiplies the number of elements without. *)
Theorem accepted_widening_changes_volume_refuted :
  exists ds src, wfp src /\ is_contructible_from ds (pdesc src) = true /\
    shape_convert true ds src = Abort /\
    exists p vs vs', shape_convert false ds src = Ok p /\ to_values src = Ok vs /\ to_values p = Ok vs' /\
      prod (vals vs') <> prod (vals vs).
Proof.
  exists (normalize [(None, CStatic (int 3)); (None, CJoker); (None, CJoker)]), ex_src.
  split; [exact ex_src_wf|]. split; [reflexivity|]. split; [reflexivity|].
  do 3 eexists. split; [reflexivity|]. split; [reflexivity|]. split; [reflexivity|cbv; discriminate].
Qed.
Print Assumptions accepted_widening_changes_volume_refuted.
