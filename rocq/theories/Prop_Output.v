(** Properties C51 and C53: stream insertion. *)
From Coq Require Import ZArith Ascii String List Bool Lia.
From Verif Require Import Outcome CInt CIntFacts Spec SpecFacts ShapeSpec Shape ShapeFacts ShapeFacts2 Prefilled PrefilledSpec
  Memory MemFacts Container ContainerSpec ContainerFacts ContainerFacts2 ContainerFacts3 AlgoSpec AlgoFacts4
  Output OutputSpec OutputFacts OutputFacts2.
Import ListNotations.
Open Scope Z_scope.

(** C51 *)
Theorem print_text : forall (T : Type) (show : T -> string) label (m : mem T) c (f : list Z -> T),
  can_read m c c -> legal (c_shape c) -> c_shape c <> [] -> prod (dims c) <> 0 ->
  (forall is_, in_box (dims c) is_ -> value m c is_ (f is_)) ->
  print show label m c = Ok (heading label ++ text (indent label) (dims c) (fun is_ => show (f is_)))%string.
Proof. exact @print_l. Qed.
Print Assumptions print_text.

Theorem print_empty : forall (T : Type) (show : T -> string) label (m : mem T) c,
  wf_container c -> legal (c_shape c) -> c_shape c <> [] -> prod (dims c) = 0 ->
  print show label m c = Ok (heading label ++ indent label ++ "[ ]")%string.
Proof. exact @print_empty_l. Qed.
Print Assumptions print_empty.

(** The elements can be read back from the text. *)
Theorem print_faithful : forall (T : Type) (show : T -> string) label (m m' : mem T) c c' f g s,
  (forall v, free " " (show v)) -> (forall v w, show v = show w -> v = w) ->
  can_read m c c -> can_read m' c' c' -> dims c = dims c' -> legal (c_shape c) -> legal (c_shape c') ->
  c_shape c <> [] -> c_shape c' <> [] -> prod (dims c) <> 0 ->
  (forall is_, in_box (dims c) is_ -> value m c is_ (f is_)) -> (forall is_, in_box (dims c') is_ -> value m' c' is_ (g is_)) ->
  print show label m c = Ok s -> print show label m' c' = Ok s ->
  forall is_, in_box (dims c) is_ -> f is_ = g is_.
Proof. exact @print_faithful_l. Qed.
Print Assumptions print_faithful.

(** A 2x2x3 table and a labelled reversed view. *)
Definition xm : mem Z := [Some (map Some [1; 2; 3; 4; 5; 6; 7; 8; 9; 10; 11; 12])].
Definition xt : container := Cn KGen [int 2; int 2; int 3] [int 6; int 3; int 1] (Ptr 0 0).
Definition xv : container := Cn K1S [int 4] [CI I32 (-3)] (Ptr 0 9).
Definition xf (is_ : list Z) : Z := match is_ with [i; j; k] => 1 + 6 * i + 3 * j + k | _ => 0 end.
Example xt_default : default_layout xt. Proof. by_default false. Qed.
Example xt_readable : readable xm xt. Proof. by_box. Qed.
Example xt_read : can_read xm xt xt. Proof. exact (default_can_read xm xt xt xt_default eq_refl xt_readable). Qed.
Example xt_values : forall is_, in_box (dims xt) is_ -> value xm xt is_ (xf is_).
Proof.
  intros is_ B. apply box_In in B. vm_compute in B.
  repeat (destruct B as [<-|B]; [reflexivity|]); contradiction.
Qed.
Example xt_print : print dec None xm xt = Ok ("[ 1 2 3 ]
[ 4 5 6 ]

[ 7 8 9 ]
[ 10 11 12 ]
")%string.
Proof.
  rewrite (print_text Z dec None xm xt xf xt_read); [reflexivity|apply xt_default|discriminate|vm_compute; discriminate|exact xt_values].
Qed.
Example xv_addressable : addressable xv [I32].
Proof.
  split; [|split].
  - split; [by_check|]. split; [by_check|]. split; [|reflexivity].
    eexists. split; [reflexivity|]. split; [by_check|reflexivity].
  - right. split; [|repeat constructor]. eexists. split; [reflexivity|]. repeat constructor.
  - left. intros is_ B; apply box_In in B; vm_compute in B.
    repeat (destruct B as [<-|B]; [vm_compute; discriminate|]); contradiction.
Qed.
Example xv_read : can_read xm xv xv.
Proof. split; [exact xv_addressable|]. split; [intros is_ B; exact B|]. by_box. Qed.
Example xv_print : print dec (Some "v"%string) xm xv = Ok ("v:
  [ 10 7 4 1 ]
")%string.
Proof.
  rewrite (print_text Z dec _ xm xv (fun is_ => match is_ with [i] => 10 - 3 * i | _ => 0 end) xv_read);
    [reflexivity|by_check|discriminate|vm_compute; discriminate|].
  intros is_ B. apply box_In in B. vm_compute in B. repeat (destruct B as [<-|B]; [reflexivity|]); contradiction.
Qed.
Example empty_print : print dec (Some "e"%string) xm (Cn K2 [int 3; int 0] [] Null) = Ok ("e:
  [ ]")%string.
Proof.
  apply print_empty; [|by_check|discriminate|reflexivity].
  exact (proj1 (default_wf (Cn K2 [int 3; int 0] [] Null) ltac:(by_default false))).
Qed.
Example dec_readable : (forall v, free " " (dec v)) /\ (forall v w, dec v = dec w -> v = w).
Proof. split; [intros; apply free_dec; not_digit|exact dec_inj]. Qed.
Example print_faithful_ex : forall is_, in_box (dims xt) is_ -> xf is_ = xf is_.
Proof.
  exact (print_faithful Z dec None xm xm xt xt xf xf _ (proj1 dec_readable) (proj2 dec_readable) xt_read xt_read eq_refl
    (proj1 xt_default) (proj1 xt_default) ltac:(discriminate) ltac:(discriminate) ltac:(vm_compute; discriminate)
    xt_values xt_values xt_print xt_print).
Qed.

(** C53 *)
Theorem shape_text : forall p q, wfp p -> wfp q ->
  exists vs ws s, to_values p = Ok vs /\ to_values q = Ok ws /\ print_prefilled p = Ok s /\
    (print_prefilled q = Ok s <-> map is_dynamic (pdesc p) = map is_dynamic (pdesc q) /\ map cval vs = map cval ws).
Proof. exact prefilled_text_l. Qed.
Print Assumptions shape_text.

Theorem position_letter : forall l,
  print_position l = ("position<" ++ dec (Z.of_nat (length l)) ++ ">(" ++ String.concat ", " (map dec l) ++ ")")%string.
Proof. exact position_letter_l. Qed.
Print Assumptions position_letter.

Theorem position_text : forall a b, print_position a = print_position b -> a = b.
Proof. exact position_text_l. Qed.
Print Assumptions position_text.

Definition xs : prefilled := {| pdesc := [{| aid := implicit 1; acont := CStatic (int 3) |}; {| aid := implicit 0; acont := CType I8 |}];
                                pstore := [CI I8 65] |}.
Example xs_wf : wfp xs. Proof. split; [reflexivity|]. repeat constructor; vm_compute; discriminate. Qed.
Example xs_text : print_prefilled xs = Ok "[ 3_c 65 ]"%string. Proof. vm_compute. reflexivity. Qed.
Example position_ex : print_position [0; 1; -2] = "position<3>(0, 1, -2)"%string. Proof. vm_compute. reflexivity. Qed.
