(** Property C15, continued: what as_array reads for every shape. *)
From Coq Require Import ZArith List Bool Lia.
From Verif Require Import Outcome CInt CIntFacts Spec ShapeSpec Shape ShapeFacts2 Prefilled PrefilledSpec PrefilledFacts PrefilledFacts3
  AsArraySpec AsArrayFacts.
Import ListNotations.
Open Scope Z_scope.

(** The array has the leftmost of the widest extent types; each entry is the only value of this type that equals the extent modulo the
    width of the type. The array holds the extents if and only if all of them are values of this type. *)
Theorem as_array_exact_iff : forall p vs t, to_values p = Ok vs -> first_widest t (map cty vs) ->
  exists a, as_array p = Ok a /\
    Forall2 (fun x v => cty x = t /\ in_ty t (cval x) /\ (2 ^ width t | cval x - cval v)) a vs /\
    (vals a = vals vs <-> Forall (fun v => in_ty t (cval v)) vs).
Proof. exact as_array_reads_l. Qed.
Print Assumptions as_array_exact_iff.

(** An extent too large for this type is one of an unsigned type of the same width, and it is read as a negative number. *)
Theorem as_array_negative : forall p vs t a v,
  to_values p = Ok vs -> first_widest t (map cty vs) -> wfs vs -> as_array p = Ok a ->
  In v vs -> 0 <= cval v -> tmax t < cval v ->
  is_signed t = true /\ is_signed (cty v) = false /\ width (cty v) = width t /\ In (CI t (cval v - 2 ^ width t)) a /\
  cval v - 2 ^ width t < 0.
Proof. exact as_array_signed_l. Qed.
Print Assumptions as_array_negative.

(** {std::int16_t(3), std::int8_t(5), std::uint16_t(40000)}: read as {3, 5, -25536}. With the unsigned extent first it reads well. *)
Definition mixed_arr : prefilled :=
  {| pdesc := normalize [(None, CType I16); (None, CType I8); (None, CType U16)]; pstore := [CI I16 3; CI I8 5; CI U16 40000] |}.
Example mixed_arr_ex : to_values mixed_arr = Ok [CI I16 3; CI I8 5; CI U16 40000] /\
  first_widest I16 (map cty [CI I16 3; CI I8 5; CI U16 40000]) /\
  wfs [CI I16 3; CI I8 5; CI U16 40000] /\
  as_array mixed_arr = Ok [CI I16 3; CI I16 5; CI I16 (-25536)] /\ tmax I16 < 40000.
Proof.
  split; [reflexivity|]. split; [exists [], [I8; U16]; repeat constructor; cbn; lia|].
  split; [repeat constructor; unfold wfc, in_ty; cbn; lia|]. split; [reflexivity|cbn; lia].
Qed.
Definition mixed_arr' : prefilled :=
  {| pdesc := normalize [(None, CType I8); (None, CType U16); (None, CType I16)]; pstore := [CI I8 5; CI U16 40000; CI I16 3] |}.
Example mixed_arr_ex' : first_widest U16 (map cty [CI I8 5; CI U16 40000; CI I16 3]) /\
  as_array mixed_arr' = Ok [CI U16 5; CI U16 40000; CI U16 3].
Proof. split; [exists [I8], [I16]; repeat constructor; cbn; lia|reflexivity]. Qed.
