(** C81: axes and their names. *)
From Coq Require Import ZArith String List Bool.
From Verif Require Import Outcome CInt Spec Shape ShapeSpec ShapeFacts2 Prefilled PrefilledSpec NamedSize NamedSizeSpec NamedStrideSpec
  Names NamesSpec NamesFacts.
Import ListNotations.
Open Scope Z_scope.
Open Scope string_scope.

(** Two axes are equal exactly when they are the same axis with the same content. *)
Theorem axes_equal_iff : forall a b, Forall sane_desc [a; b] ->
  axis_eq a b = true <->
  aid a = aid b /\
  match acont a, acont b with
  | CStatic v, CStatic w => cval v = cval w
  | c, d => c = d
  end.
Proof. exact axis_eq_iff_l. Qed.
Print Assumptions axes_equal_iff.
Example axes_equal_ex :
  let ax n c := {| aid := AName n; acont := CStatic c |} in
  Forall sane_desc [ax "width" (int 3); ax "width" (CI U8 3)] /\ axis_eq (ax "width" (int 3)) (ax "width" (CI U8 3)) = true /\
  axis_eq (ax "width" (int 3)) (ax "width" (int 4)) = false /\ axis_eq (ax "width" (int 3)) (ax "height" (int 3)) = false.
Proof. cbn zeta. split; [repeat constructor; cbv; discriminate|]. repeat split; reflexivity. Qed.

Theorem axes_equal_negative_refuted :
  exists a b v w, aid a = aid b /\ acont a = CStatic v /\ acont b = CStatic w /\ wfc v /\ wfc w /\ cval v <> cval w /\
    axis_eq a b = true.
Proof.
  exists {| aid := AName "width"; acont := CStatic (int (-1)) |},
         {| aid := AName "width"; acont := CStatic (CI U32 4294967295) |}.
  do 2 eexists. split; [reflexivity|]. split; [reflexivity|]. split; [reflexivity|].
  split; [split; cbv; discriminate|]. split; [split; cbv; discriminate|]. split; [cbv; discriminate|reflexivity].
Qed.
Print Assumptions axes_equal_negative_refuted.

(** Axes with sizes combined from left to right: the size is the product; the axis is the one with the last name, or
    else the one with the smallest number. *)
Theorem combined_axes : forall l a v, legal (v :: map snd l) ->
  let axis (x : axis_id * cint) := {| aid := fst x; acont := CStatic (snd x) |} in
  exists d w, kfold_right axis_compress (map axis l) (axis (a, v)) = Ok d /\
    acont d = CStatic w /\ cval w = prod (vals (v :: map snd l)) /\
    match last_name (a :: map fst l) with
    | Some s => aid d = AName s
    | None => exists z, aid d = AIdx z /\ smallest (a :: map fst l) z
    end.
Proof. exact merged_axes_l. Qed.
Print Assumptions combined_axes.

Example combined_ex :
  legal [int 2; int 3; int 5] /\
  last_name [AIdx 1; AName "width"; AIdx 0] = Some "width" /\ last_name [AIdx 1; AIdx (-2); AIdx 0] = None /\
  smallest [AIdx 1; AIdx (-2); AIdx 0] (-2).
Proof.
  split; [by_check|]. split; [reflexivity|]. split; [reflexivity|]. split; [right; left; reflexivity|].
  intros y [[= <-]|[[= <-]|[[= <-]|[]]]]; discriminate.
Qed.

(** compress<N>(shape): the values of C08; unless N is the order, none of the axes has a name any more; an extent is
    known at compile time when all those it is made of are. *)
Theorem compress_loses_names : forall dbg p vs n, wfp p -> to_values p = Ok vs -> legal vs -> (1 <= n <= length vs)%nat ->
  exists q ws, pcompress dbg n p = Ok q /\ wfp q /\ to_values q = Ok ws /\
    vals ws = merge_axes (length vs - n + 1) (vals vs) /\
    (n = length vs -> q = p) /\
    ((n < length vs)%nat ->
       map aid (pdesc q) = unnamed_axes n /\
       (forall d, nth_error (pdesc q) 0 = Some d -> (known d <-> Forall known (firstn (length vs - n + 1) (pdesc p)))) /\
       (forall k d e, (0 < k)%nat -> nth_error (pdesc q) k = Some d ->
          nth_error (pdesc p) (length vs - n + k) = Some e -> (known d <-> known e))).
Proof. exact compress_loses_names_l. Qed.
Print Assumptions compress_loses_names.

Theorem compressed_axes_not_found : forall dbg p vs n q a, wfp p -> to_values p = Ok vs -> legal vs ->
  (1 <= n < length vs)%nat -> pcompress dbg n p = Ok q -> user_axis a -> pget_axis q a = UB.
Proof. exact compressed_names_l. Qed.
Print Assumptions compressed_axes_not_found.

Definition nm (s : string) (c : content) := (Some (AName s), c).
Definition ex_image : prefilled :=
  {| pdesc := normalize [nm "depth" (CStatic (int 2)); nm "height" CJoker; nm "width" (CStatic (CI U8 5))]; pstore := [int 3] |}.
Example compress_names_ex :
  wfp ex_image /\ to_values ex_image = Ok [int 2; int 3; CI U8 5] /\ legal [int 2; int 3; CI U8 5] /\
  exists q, pcompress true 2 ex_image = Ok q /\ to_values q = Ok [int 6; CI U8 5] /\
    pget_axis ex_image (AName "width") = Ok (CI U8 5) /\ pget_axis q (AName "width") = UB /\
    pdesc q = normalize [(None, CType I32); (None, CStatic (CI U8 5))].
Proof.
  split; [split; [reflexivity|repeat constructor; cbv; discriminate]|]. split; [reflexivity|]. split; [by_check|].
  eexists. split; [reflexivity|]. repeat split; reflexivity.
Qed.

(** Equality of shapes does not look at the names, nor at what is known at compile time. *)
Theorem shape_equality_ignores_names : forall dbg p q vs ws, wfp p -> to_values p = Ok vs -> legal vs -> vs <> [] ->
  wfp q -> to_values q = Ok ws -> legal ws -> ws <> [] ->
  exists b, pshape_eq dbg p q = Ok b /\
    (length vs = length ws -> (b = true <-> vals vs = vals ws)) /\
    forall dbg' p' q', wfp p' -> wfp q' -> to_values p' = Ok vs -> to_values q' = Ok ws -> pshape_eq dbg' p' q' = Ok b.
Proof. exact shape_equality_names_l. Qed.
Print Assumptions shape_equality_ignores_names.

Definition ex_wh (a b : string) : prefilled := {| pdesc := normalize [nm a CJoker; nm b CJoker]; pstore := [int 3; int 4] |}.
Example shape_equality_ex : wfp (ex_wh "width" "height") /\ to_values (ex_wh "width" "height") = Ok [int 3; int 4] /\
  legal [int 3; int 4] /\ pshape_eq true (ex_wh "width" "height") (ex_wh "width" "depth") = Ok true /\
  pshape_eq true ex_image (ex_wh "width" "height") = Ok false.
Proof.
  split; [split; [reflexivity|repeat constructor; cbv; discriminate]|]. split; [reflexivity|]. split; [by_check|]. split; reflexivity.
Qed.
Theorem equal_shapes_not_convertible_refuted :
  exists p q, wfp p /\ wfp q /\ pshape_eq true p q = Ok true /\
    pget_axis p (AName "width") = Ok (int 3) /\ pget_axis q (AName "width") = Ok (int 4) /\
    shape_convert false (pdesc p) q = UB /\ shape_convert false (pdesc q) p = UB.
Proof.
  exists (ex_wh "width" "height"), (ex_wh "height" "width").
  split; [split; [reflexivity|repeat constructor; cbv; discriminate]|].
  split; [split; [reflexivity|repeat constructor; cbv; discriminate]|]. repeat split; reflexivity.
Qed.
Print Assumptions equal_shapes_not_convertible_refuted.

(** A conversion to the same or a larger order: every axis of the source reads the same under its name. *)
Theorem converted_axes_read_the_same : forall dbg dst src p a, wfp src -> distinct_axes dst ->
  (length (pdesc src) <= length dst)%nat -> shape_convert dbg dst src = Ok p -> In a (map aid (pdesc src)) ->
  exists d v, In d dst /\ aid d = a /\ pget_axis src a = Ok v /\
    pget_axis p a = Ok (match acont d with CStatic c => c | _ => conv (axis_type d) v end) /\
    (dbg = true -> forall c, acont d = CStatic c -> sane c -> sane v -> cval v = cval c).
Proof. exact conversion_names_l. Qed.
Print Assumptions converted_axes_read_the_same.

Theorem added_axes_read_one : forall dbg dst src p d, wfp src -> distinct_axes dst ->
  (length (pdesc src) <= length dst)%nat -> shape_convert dbg dst src = Ok p ->
  In d (firstn (length dst - length (pdesc src)) dst) -> runtime d ->
  pget_axis p (aid d) = Ok (conv (axis_type d) (int 1)).
Proof. exact conversion_new_axes_l. Qed.
Print Assumptions added_axes_read_one.

Definition ex_dst := normalize [nm "depth" CJoker; nm "width" (CType U8); nm "height" (CStatic (int 4))].
Example converted_names_ex :
  let src := ex_wh "width" "height" in
  wfp src /\ distinct_axes ex_dst /\
  exists p, shape_convert true ex_dst src = Ok p /\ to_values p = Ok [int 1; CI U8 3; int 4] /\
    In (AName "width") (map aid (pdesc src)).
Proof.
  split; [split; [reflexivity|repeat constructor; cbv; discriminate]|].
  split; [repeat constructor; cbn; intuition discriminate|]. eexists. split; [reflexivity|]. split; [reflexivity|left; reflexivity].
Qed.

(** Other axes, or the same in another order: does not compile. *)
Theorem other_axes_do_not_convert : forall dbg dst src, length dst = length (pdesc src) ->
  map aid dst <> map aid (pdesc src) -> shape_convert dbg dst src = UB.
Proof. exact conversion_same_axes_l. Qed.
Print Assumptions other_axes_do_not_convert.

(** To fewer axes, if they have names: the constructor claims to exist, but its body does not compile. *)
Theorem named_axes_do_not_narrow : forall dbg dst src, all_runtime dst -> (length dst < length (pdesc src))%nat ->
  map aid dst <> unnamed_axes (length dst) ->
  is_contructible_from dst (pdesc src) = true /\ shape_convert dbg dst src = UB.
Proof. exact narrowing_names_l. Qed.
Print Assumptions named_axes_do_not_narrow.

Example narrow_ex :
  let one a := normalize [(a, CJoker)] in
  all_runtime (one (Some (AName "width"))) /\ map aid (one (Some (AName "width"))) <> unnamed_axes 1 /\
  exists p, shape_convert true (one None) (ex_wh "width" "height") = Ok p /\ to_values p = Ok [int 12].
Proof.
  split; [repeat constructor; intros c; discriminate|]. split; [discriminate|]. eexists. split; reflexivity.
Qed.
Example other_axes_ex : length (pdesc (ex_wh "width" "height")) = length (pdesc (ex_wh "width" "depth")) /\
  map aid (pdesc (ex_wh "width" "height")) <> map aid (pdesc (ex_wh "width" "depth")) /\
  shape_convert false (pdesc (ex_wh "width" "height")) (ex_wh "width" "depth") = UB.
Proof. split; [reflexivity|]. split; [discriminate|reflexivity]. Qed.
