(** Property C86: stream insertion in streams of any format. *)
From Coq Require Import ZArith Ascii String List Bool Lia.
From Verif Require Import Outcome CInt CIntFacts Spec SpecFacts ShapeSpec Shape Prefilled PrefilledSpec Memory Container ContainerSpec
  AlgoSpec NamedSize Names EndRatio Output OutputSpec SliceText Prop_Output Stream StreamSpec StreamFacts StreamFacts2 StreamFacts3.
Import ListNotations.
Open Scope Z_scope.

(** In the default format: the texts of C51, C53 and C78. *)
Theorem default_format : forall s,
  (forall p x, print_prefilled p = Ok x -> exists ps, shape_pieces p = Ok ps /\ inserts (s, plain_fmt) ps = ((s ++ x)%string, plain_fmt)) /\
  (forall l, inserts (s, plain_fmt) (position_pieces l) = ((s ++ print_position l)%string, plain_fmt)) /\
  (forall n d, inserts (s, plain_fmt) (ratio_pieces n d) = ((s ++ print_ratio n d)%string, plain_fmt)) /\
  (forall t, inserts (s, plain_fmt) (end_pieces t) = ((s ++ print_end t)%string, plain_fmt)) /\
  (forall k x, print_slicer k = Ok x -> exists ps, slicer_pieces k = Ok ps /\ inserts (s, plain_fmt) ps = ((s ++ x)%string, plain_fmt)).
Proof.
  exact (fun s => conj (shape_plain_l s) (conj (position_plain_l s) (conj (ratio_plain_l s) (conj (end_plain_l s) (slicer_plain_l s))))).
Qed.
Print Assumptions default_format.

(** The width is for what is inserted first, the rest is as without width, and the other settings are kept. *)
Theorem shapes_in_formats : forall f s p ps, shape_pieces p = Ok ps -> exists rest,
  inserts (s, used f) ps = ((s ++ "[" ++ rest)%string, used f) /\
  inserts (s, f) ps = ((s ++ widened f "[" ++ rest)%string, used f).
Proof. exact shape_formats_l. Qed.
Print Assumptions shapes_in_formats.

Theorem positions_in_formats : forall f s l, exists rest,
  inserts (s, used f) (position_pieces l) = ((s ++ "position<" ++ rest)%string, used f) /\
  inserts (s, f) (position_pieces l) = ((s ++ widened f "position<" ++ rest)%string, used f).
Proof. exact position_formats_l. Qed.
Print Assumptions positions_in_formats.

Theorem axes_in_formats : forall tyname f s a, exists rest,
  inserts (s, used f) (axis_pieces tyname a) = ((s ++ axis_first (aid a) ++ rest)%string, used f) /\
  inserts (s, f) (axis_pieces tyname a) = ((s ++ widened f (axis_first (aid a)) ++ rest)%string, used f).
Proof. exact axis_formats_l. Qed.
Print Assumptions axes_in_formats.

(** Containers: no element sees the width; the text is that of C51 with the elements in the given format. *)
Theorem containers_in_formats : forall (T : Type) (ins : fmt -> T -> string) label (m : mem T) c s f x,
  can_read m c c -> legal (c_shape c) -> c_shape c <> [] -> print (ins (used f)) label m c = Ok x ->
  exists rest, x = (first_text label ++ rest)%string /\
    stream_container ins label m c (s, f) = Ok ((s ++ widened f (first_text label) ++ rest)%string, used f).
Proof. exact @container_l. Qed.
Print Assumptions containers_in_formats.

(** Ratios, ends and slicers: the width fills up the word or number that comes first. *)
Theorem first_of_ratios_ends_slicers : forall f s ps,
  (exists n d, ps = ratio_pieces n d) \/ (exists t, ps = end_pieces t) \/ (exists k, slicer_pieces k = Ok ps) ->
  exists x y rest g, filled f x y /\
    inserts (s, used f) ps = ((s ++ x ++ rest)%string, g) /\ inserts (s, f) ps = ((s ++ y ++ rest)%string, g).
Proof. exact first_filled_l. Qed.
Print Assumptions first_of_ratios_ends_slicers.

(** Ratios keep the settings; an end with an offset, alone or in a slicer, clears showpos. *)
Theorem ratios_keep_format : forall f s n d, snd (inserts (s, f) (ratio_pieces n d)) = used f.
Proof. exact ratio_formats_l. Qed.
Print Assumptions ratios_keep_format.

Theorem ends_clear_showpos : forall f s t, wfc (nint (t_off t)) ->
  snd (inserts (s, f) (end_pieces t)) = if cval (nint (t_off t)) =? 0 then used f else with_pos (used f) false.
Proof. exact end_formats_l. Qed.
Print Assumptions ends_clear_showpos.

Theorem slicers_clear_showpos : forall f o s ps, slicer_pieces s = Ok ps ->
  let g := snd (inserts (o, f) ps) in
  (g = used f \/ g = with_pos (used f) false) /\
  (forall e t, ts_begin s = Some (TEnd e) \/ ts_stop s = Some (TEnd e) -> tbuild e = Ok t -> wfc (nint (t_off t)) ->
     cval (nint (t_off t)) <> 0 -> g = with_pos (used f) false) /\
  ((forall e, ts_begin s <> Some (TEnd e)) -> (forall e, ts_stop s <> Some (TEnd e)) -> (forall e, ts_len s <> Some (TEnd e)) -> g = used f).
Proof. exact slicer_formats_l. Qed.
Print Assumptions slicers_clear_showpos.

(** In any format, texts tell shapes, strides and positions. *)
Theorem shapes_told : forall f s p q vs ws ps qs,
  wfp p -> wfp q -> to_values p = Ok vs -> to_values q = Ok ws -> wfs vs -> wfs ws ->
  (f_base f <> BDec -> length vs = length ws -> Forall2 comparable vs ws) ->
  shape_pieces p = Ok ps -> shape_pieces q = Ok qs ->
  (inserts (s, f) ps = inserts (s, f) qs <->
   map is_dynamic (pdesc p) = map is_dynamic (pdesc q) /\ map cval vs = map cval ws /\
   (f_base f = BDec -> f_pos f = true -> signs vs = signs ws)).
Proof. exact shape_tells_l. Qed.
Print Assumptions shapes_told.

Theorem positions_told : forall f s a b, Forall (in_ty I32) a -> Forall (in_ty I32) b ->
  in_ty U64 (Z.of_nat (length a)) -> in_ty U64 (Z.of_nat (length b)) ->
  inserts (s, f) (position_pieces a) = inserts (s, f) (position_pieces b) -> a = b.
Proof. exact position_tells_l. Qed.
Print Assumptions positions_told.

(** Without showpos and width, axes have the same text when and only when they are equal. *)
Theorem axes_told : forall tyname f s a b, type_names tyname -> plain_name (aid a) -> plain_name (aid b) ->
  Forall sane_desc [a; b] -> f_pos f = false ->
  (inserts (s, used f) (axis_pieces tyname a) = inserts (s, used f) (axis_pieces tyname b) <-> axis_eq a b = true).
Proof. exact axis_tells_l. Qed.
Print Assumptions axes_told.

(** Octal and hexadecimal digits. *)
Theorem based_integers : forall f s t z, t <> I8 -> t <> U8 -> f_base f <> BDec -> f_showbase f = false -> exists ds,
  insert (s, used f) (PInt t z) = ((s ++ ds)%string, used f) /\
  read_digits (match f_base f with BOct => 8 | _ => 16 end) ds 0 = z mod 2 ^ CInt.width t.
Proof. exact based_l. Qed.
Print Assumptions based_integers.

Definition hex : fmt := Fmt false BHex false false ARight " " 0.
Definition showpos : fmt := Fmt true BDec false false ARight " " 0.
Definition setw (f : fmt) (n : nat) : fmt := with_width f n.

(** Strides of several types in hexadecimal. *)
Theorem hexadecimal_strides_refuted : exists p q vs ws ps qs, wfp p /\ wfp q /\
  to_values p = Ok vs /\ to_values q = Ok ws /\ wfs vs /\ wfs ws /\ shape_pieces p = Ok ps /\ shape_pieces q = Ok qs /\
  map cval vs <> map cval ws /\ inserts (""%string, hex) ps = inserts (""%string, hex) qs.
Proof.
  exists {| pdesc := [{| aid := AIdx 0; acont := CJoker |}]; pstore := [int (-1)] |},
         {| pdesc := [{| aid := AIdx 0; acont := CType U32 |}]; pstore := [CI U32 4294967295] |}.
  do 4 eexists.
  split; [split; [reflexivity|constructor; [split; cbv; discriminate|constructor]]|].
  split; [split; [reflexivity|constructor; [split; cbv; discriminate|constructor]]|].
  split; [reflexivity|]. split; [reflexivity|].
  split; [constructor; [split; cbv; discriminate|constructor]|].
  split; [constructor; [split; cbv; discriminate|constructor]|].
  split; [reflexivity|]. split; [reflexivity|]. split; [discriminate|vm_compute; reflexivity].
Qed.
Print Assumptions hexadecimal_strides_refuted.

(** Ends in hexadecimal: end - 1 and end + 4294967295L, both "endffffffff". *)
Theorem hexadecimal_ends_refuted : exists d e t u x y, tbuild d = Ok t /\ tbuild e = Ok u /\
  inserts (""%string, hex) (end_pieces t) = ("endffffffff"%string, hex) /\
  inserts (""%string, hex) (end_pieces u) = ("endffffffff"%string, hex) /\
  end_value (plain d) (int 5) = Ok x /\ end_value (plain e) (int 5) = Ok y /\ cval x = 4 /\ cval y = 4294967300.
Proof.
  exists (TESub TEEnd (Nm false (int 1))), (TEAdd TEEnd (Nm false (CI I64 4294967295))). do 4 eexists.
  split; [reflexivity|]. split; [reflexivity|]. split; [vm_compute; reflexivity|]. split; [vm_compute; reflexivity|].
  split; [reflexivity|]. split; [reflexivity|]. split; vm_compute; reflexivity.
Qed.
Print Assumptions hexadecimal_ends_refuted.

(** With showpos, equal shapes and equal axes can have different texts; with some names, different axes the same. *)
Theorem showpos_tells_types_refuted : exists a b x y, axis_eq a b = true /\ forall tyname,
  inserts (""%string, showpos) (axis_pieces tyname a) = (x, showpos) /\
  inserts (""%string, showpos) (axis_pieces tyname b) = (y, showpos) /\ x <> y.
Proof.
  exists {| aid := AName "width"; acont := CStatic (int 3) |}, {| aid := AName "width"; acont := CStatic (CI U32 3) |},
    "width[+3]"%string, "width[3]"%string.
  split; [reflexivity|]. intros tyname. split; [reflexivity|]. split; [reflexivity|discriminate].
Qed.
Print Assumptions showpos_tells_types_refuted.

Theorem axis_names_mistaken_refuted : exists a b x, axis_eq a b = false /\ forall tyname,
  inserts (""%string, plain_fmt) (axis_pieces tyname a) = (x, plain_fmt) /\
  inserts (""%string, plain_fmt) (axis_pieces tyname b) = (x, plain_fmt).
Proof.
  exists {| aid := AIdx 0; acont := CJoker |}, {| aid := AName "along<0>"; acont := CJoker |}, "along<0>[_]"%string.
  split; [reflexivity|]. intros tyname. split; reflexivity.
Qed.
Print Assumptions axis_names_mistaken_refuted.

(** Two insertions of the same slicer differ: the first one cleared showpos. Within one text, the offset of the first
    bound already removes the sign of the second one. *)
Theorem slicer_texts_change_refuted : exists s ps s' ps', slicer_pieces s = Ok ps /\ slicer_pieces s' = Ok ps' /\
  inserts (""%string, showpos) ps = ("+2:end-1"%string, plain_fmt) /\
  inserts (""%string, plain_fmt) ps = ("2:end-1"%string, plain_fmt) /\
  inserts (""%string, showpos) ps' = ("end-3:2:5"%string, plain_fmt).
Proof.
  exists (Ts (Some (TInt (Nm false (int 2)))) None (Some (TEnd (TESub TEEnd (Nm false (int 1))))) None).
  eexists. exists (Ts (Some (TEnd (TESub TEEnd (Nm false (int 3))))) (Some (Nm false (int 2))) (Some (TInt (Nm false (int 5)))) None).
  eexists. split; [reflexivity|]. split; [reflexivity|]. split; [vm_compute; reflexivity|]. split; vm_compute; reflexivity.
Qed.
Print Assumptions slicer_texts_change_refuted.

(** Examples. *)
Definition xp : prefilled := {| pdesc := [{| aid := AIdx 0; acont := CJoker |}; {| aid := AIdx 1; acont := CStatic (int 255) |}]; pstore := [int 16] |}.
Example xp_wf : wfp xp. Proof. split; [reflexivity|]. constructor; [split; cbv; discriminate|constructor]. Qed.
Example xp_values : to_values xp = Ok [int 16; int 255]. Proof. reflexivity. Qed.
Example xp_wfs : wfs [int 16; int 255]. Proof. repeat constructor; cbv; discriminate. Qed.
Example xp_hex : exists ps, shape_pieces xp = Ok ps /\
  inserts (""%string, setw (Fmt false BHex true true ARight "*" 0) 4) ps = ("***[ 0X10 0XFF_c ]"%string, Fmt false BHex true true ARight "*" 0).
Proof. eexists. split; [reflexivity|vm_compute; reflexivity]. Qed.
Example xp_oct : exists ps, shape_pieces xp = Ok ps /\
  inserts (""%string, setw (Fmt false BOct true false ALeft "*" 0) 4) ps = ("[*** 020 0377_c ]"%string, Fmt false BOct true false ALeft "*" 0).
Proof. eexists. split; [reflexivity|vm_compute; reflexivity]. Qed.
Example xp_comparable : Forall2 comparable [int 16; int 255] [int 16; int 255].
Proof. repeat constructor. Qed.
Example x_position : inserts (""%string, setw showpos 12) (position_pieces [3; -4]) = ("   position<2>(+3, -4)"%string, showpos).
Proof. vm_compute. reflexivity. Qed.
Example x_position_in : Forall (in_ty I32) [3; -4] /\ in_ty U64 (Z.of_nat (length [3; -4])).
Proof. split; [repeat constructor; cbv; discriminate|cbv; split; discriminate]. Qed.
Definition cpp_name (t : ity) : string :=
  match t with
  | I8 => "signed char" | U8 => "unsigned char" | I16 => "short" | U16 => "unsigned short" | I32 => "int" | U32 => "unsigned int"
  | I64 => "long" | U64 => "unsigned long"
  end.
Example cpp_names : type_names cpp_name.
Proof.
  split; [intros [] []; try reflexivity; discriminate|].
  intros t. exists (match t with I8 | U8 | U16 | U32 | U64 | I32 | I64 => "n" | I16 => "o" end)%char.
  split; [destruct t; cbv; tauto|]. destruct t; cbv; intros H; repeat (destruct H as [H|H]; [discriminate|]); contradiction.
Qed.
Example x_axis : inserts (""%string, setw hex 7) (axis_pieces cpp_name {| aid := AName "width"; acont := CStatic (int 31) |}) = ("  width[1f]"%string, hex).
Proof. vm_compute. reflexivity. Qed.
Example x_axis_type : inserts (""%string, setw hex 7) (axis_pieces cpp_name {| aid := AIdx (-11); acont := CType U16 |}) =
  ("implicit<a>[unsigned short]"%string, hex).
Proof. vm_compute. reflexivity. Qed.
Example x_axis_names : plain_name (AName "width") /\ plain_name (AIdx (-11)).
Proof. split; [cbn; repeat split; discriminate|cbv; split; discriminate]. Qed.
(** The table of Prop_Output, elements in hexadecimal, after setw. *)
Definition hex_ins (f : fmt) (z : Z) : string := num_text f I32 z.
Example xt_stream : stream_container hex_ins None xm xt (""%string, setw hex 2) = Ok ("  [ 1 2 3 ]
[ 4 5 6 ]

[ 7 8 9 ]
[ a b c ]
"%string, hex).
Proof.
  destruct (containers_in_formats Z hex_ins None xm xt "" (setw hex 2) _ xt_read ltac:(apply xt_default) ltac:(discriminate)
    ltac:(rewrite (print_text Z _ None xm xt xf xt_read); [reflexivity|apply xt_default|discriminate|vm_compute; discriminate|exact xt_values]))
    as (rest & E & ->).
  cbn [first_text append] in E. rewrite <- E. vm_compute. reflexivity.
Qed.
Example xt_labelled : exists rest, stream_container hex_ins (Some "data"%string) xm xt (""%string, setw hex 6) = Ok ((append "  data:" rest), hex).
Proof.
  destruct (containers_in_formats Z hex_ins (Some "data"%string) xm xt "" (setw hex 6) _ xt_read ltac:(apply xt_default) ltac:(discriminate)
    ltac:(rewrite (print_text Z _ (Some "data"%string) xm xt xf xt_read); [reflexivity|apply xt_default|discriminate|vm_compute; discriminate|exact xt_values]))
    as (rest & E & ->).
  vm_compute in E. injection E as <-. eexists. vm_compute. reflexivity.
Qed.
(** Ratios and slicers after setw, adjusted on both sides and after the sign. *)
Example x_ratio_right : inserts (""%string, setw showpos 6) (ratio_pieces (Nm false (int (-12))) (Nm false (int 5))) = ("   -12/+5"%string, showpos).
Proof. vm_compute. reflexivity. Qed.
Example x_ratio_internal : inserts (""%string, Fmt false BHex true false AInternal "0" 8) (ratio_pieces (Nm false (int 255)) (Nm true (int 16))) =
  ("0x0000ff/0x10_c"%string, Fmt false BHex true false AInternal "0" 0).
Proof. vm_compute. reflexivity. Qed.
Example x_slicer_left : exists ps,
  slicer_pieces (Ts (Some (TInt (Nm false (int 2)))) None (Some (TEnd (TESub TEEnd (Nm false (int 1))))) None) = Ok ps /\
  inserts (""%string, Fmt false BDec false false ALeft "*" 4) ps = ("2***:end-1"%string, Fmt false BDec false false ALeft "*" 0).
Proof. eexists. split; [reflexivity|vm_compute; reflexivity]. Qed.
