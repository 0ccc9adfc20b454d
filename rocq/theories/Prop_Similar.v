(** C58: shapes accepted where a given shape is expected. *)
From Coq Require Import ZArith String List Bool.
From Verif Require Import Outcome CInt Prefilled PrefilledSpec PrefilledFacts SimilarFacts.
Import ListNotations.
Open Scope Z_scope.
Open Scope string_scope.

Theorem similar_shapes_iff : forall a b, Forall sane_desc a -> Forall sane_desc b ->
  (is_similar a b = true <-> length a = length b /\
   forall i x y c, nth_error a i = Some x -> nth_error b i = Some y -> acont x = CStatic c ->
     exists c', acont y = CStatic c' /\ cval c' = cval c).
Proof. exact similar_iff_l. Qed.
Print Assumptions similar_shapes_iff.

Theorem similar_shapes_reflexive : forall a, Forall sane_desc a -> is_similar a a = true.
Proof. exact similar_refl_l. Qed.
Print Assumptions similar_shapes_reflexive.

Theorem similar_shapes_transitive : forall a b c, Forall sane_desc a -> Forall sane_desc b -> Forall sane_desc c ->
  is_similar a b = true -> is_similar b c = true -> is_similar a c = true.
Proof. exact similar_trans_l. Qed.
Print Assumptions similar_shapes_transitive.

(** Not symmetric: a compile-time extent is accepted for a run-time one, not the reverse. *)
Theorem similar_shapes_symmetric_refuted : exists a b, Forall sane_desc a /\ Forall sane_desc b /\
  is_similar a b = true /\ is_similar b a = false.
Proof.
  exists [{| aid := AIdx 0; acont := CJoker |}], [{| aid := AIdx 0; acont := CStatic (int 3) |}].
  split; [repeat constructor|]. split; [repeat constructor; cbv; discriminate|]. split; reflexivity.
Qed.
Print Assumptions similar_shapes_symmetric_refuted.

(** An accepted shape converts without assertion failure, and keeps every extent its axis can hold. *)
Theorem similar_shapes_convert : forall dbg ds src, wfp src -> Forall sane_desc ds -> Forall sane_desc (pdesc src) ->
  (forall vs, to_values src = Ok vs -> Forall sane vs) -> is_similar ds (pdesc src) = true ->
  exists p, pconvert dbg ds src = Ok p /\ wfp p /\
    forall i d v, nth_error ds i = Some d -> pget src i = Ok v ->
      exists w, pget p i = Ok w /\ (in_ty (axis_type d) (cval v) -> cval w = cval v).
Proof. exact similar_converts_l. Qed.
Print Assumptions similar_shapes_convert.

Definition ex_want := normalize [(None, CJoker); (None, CStatic (int 3)); (None, CType I8)].
Definition ex_have : prefilled :=
  {| pdesc := normalize [(None, CType U16); (None, CStatic (CI U8 3)); (None, CStatic (int 7))]; pstore := [CI U16 9] |}.

Example similar_ex : wfp ex_have /\ Forall sane_desc ex_want /\ Forall sane_desc (pdesc ex_have) /\
  (forall vs, to_values ex_have = Ok vs -> Forall sane vs) /\ is_similar ex_want (pdesc ex_have) = true /\
  is_similar (pdesc ex_have) ex_want = false /\
  exists p, pconvert true ex_want ex_have = Ok p /\ to_values p = Ok [int 9; int 3; CI I8 7].
Proof.
  split; [split; [reflexivity|repeat constructor; cbv; discriminate]|].
  split; [repeat constructor; cbv; discriminate|]. split; [repeat constructor; cbv; discriminate|].
  split; [intros vs [= <-]; repeat constructor; cbv; discriminate|]. split; [reflexivity|]. split; [reflexivity|].
  eexists. split; reflexivity.
Qed.
Definition ex_fixed : prefilled :=
  {| pdesc := normalize [(None, CStatic (CI U16 9)); (None, CStatic (CI I64 3)); (None, CStatic (CI U8 7))]; pstore := [] |}.
(** Three shapes, each accepted for the one before it. *)
Example similar_chain : Forall sane_desc ex_want /\ Forall sane_desc (pdesc ex_have) /\ Forall sane_desc (pdesc ex_fixed) /\
  is_similar ex_want (pdesc ex_have) = true /\ is_similar (pdesc ex_have) (pdesc ex_fixed) = true /\
  is_similar ex_want (pdesc ex_fixed) = true /\ is_similar (pdesc ex_fixed) (pdesc ex_have) = false /\
  is_similar (pdesc ex_have) (pdesc ex_have) = true.
Proof.
  split; [repeat constructor; cbv; discriminate|]. split; [repeat constructor; cbv; discriminate|].
  split; [repeat constructor; cbv; discriminate|]. repeat split; reflexivity.
Qed.
(** An axis of a type too small for the extent is accepted by the theorem of conversion, which says nothing of its value. *)
Example similar_iff_ex : length ex_want = length (pdesc ex_have) /\
  (forall i x y c, nth_error ex_want i = Some x -> nth_error (pdesc ex_have) i = Some y -> acont x = CStatic c ->
     exists c', acont y = CStatic c' /\ cval c' = cval c).
Proof. apply similar_shapes_iff; [apply similar_ex|apply similar_ex|reflexivity]. Qed.

(** An extent its axis cannot hold is changed, although the shape is accepted. *)
Theorem similar_narrow_axis_refuted :
  exists ds src p v w, wfp src /\ is_similar ds (pdesc src) = true /\ is_equivalent ds (pdesc src) = true /\
    pconvert true ds src = Ok p /\ pget src 0 = Ok v /\ pget p 0 = Ok w /\ cval w <> cval v.
Proof.
  exists (normalize [(None, CType I8)]), {| pdesc := normalize [(None, CJoker)]; pstore := [int 300] |}.
  do 3 eexists. split; [split; [reflexivity|repeat constructor; cbv; discriminate]|].
  do 4 (split; [reflexivity|]). split; [reflexivity|cbv; discriminate].
Qed.
Print Assumptions similar_narrow_axis_refuted.

(** Names are not compared: a compile-time height x width shape is accepted where width x height is expected,
    and the two are exchanged. *)
Theorem similar_ignores_names_refuted :
  exists ds src p a v w, wfp src /\ is_fully_static ds = true /\ distinct_axes ds /\ distinct_axes (pdesc src) /\
    is_similar ds (pdesc src) = true /\ pconvert true ds src = Ok p /\
    pget_axis src a = Ok v /\ pget_axis p a = Ok w /\ cval w <> cval v.
Proof.
  exists [{| aid := AName "width"; acont := CStatic (int 2) |}; {| aid := AName "height"; acont := CStatic (int 5) |}],
         {| pdesc := [{| aid := AName "height"; acont := CStatic (int 2) |};
                      {| aid := AName "width"; acont := CStatic (int 5) |}]; pstore := [] |}.
  eexists. exists (AName "width"), (int 5), (int 2).
  split; [split; [reflexivity|constructor]|]. split; [reflexivity|].
  split; [repeat constructor; cbn; intuition discriminate|]. split; [repeat constructor; cbn; intuition discriminate|].
  split; [reflexivity|]. split; [reflexivity|]. split; [reflexivity|]. split; [reflexivity|]. cbv. discriminate.
Qed.
Print Assumptions similar_ignores_names_refuted.
