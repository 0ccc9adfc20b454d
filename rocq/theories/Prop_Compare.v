(** C64: elements and values of different integer types. *)
From Coq Require Import ZArith List Bool Lia.
From Verif Require Import Outcome CInt CIntFacts Spec SpecFacts ShapeSpec Shape ShapeFacts ShapeFacts2
  ForEach ForEachSpec ForEachFacts Memory MemFacts Container ContainerSpec ContainerFacts ContainerFacts2
  ContainerFacts3 Algo AlgoSpec AlgoFacts AlgoFacts2 AlgoFacts3 AlgoFacts4 Sums SumsSpec SumsFacts CompareFacts.
Import ListNotations.
Open Scope Z_scope.

Theorem count_by_value : forall c t m vs x,
  can_read m c c -> values m c c vs -> prod (dims c) < 2 ^ 64 -> typed t vs -> wfc x ->
  comparable t (cty x) (map cval vs) [cval x] ->
  count ceqb c x m = Ok (Z.of_nat (length (filter (fun v => cval v =? cval x) vs)), m).
Proof. exact count_by_value_l. Qed.
Print Assumptions count_by_value.

(** In all cases, what is counted are the elements equal to the value modulo the width of the common type. *)
Theorem count_modulo : forall c t m vs x,
  can_read m c c -> values m c c vs -> prod (dims c) < 2 ^ 64 -> typed t vs ->
  count ceqb c x m =
  Ok (Z.of_nat (length (filter (fun v => cval v mod modulus (common t (cty x)) =? cval x mod modulus (common t (cty x))) vs)), m).
Proof. exact count_mod_l. Qed.
Print Assumptions count_modulo.

Theorem find_by_value : forall c t m vs x,
  can_read m c c -> values m c c vs -> Forall (fun n => n <= 2147483648) (dims c) -> typed t vs -> wfc x ->
  comparable t (cty x) (map cval vs) [cval x] ->
  exists r, find ceqb c x m = Ok (r, m) /\ first_at m c (fun v => cval v = cval x) r.
Proof. exact find_by_value_l. Qed.
Print Assumptions find_by_value.

Theorem find_first_of_by_value : forall c cv t u m vs ws,
  can_read m c c -> values m c c vs -> can_read m cv cv -> values m cv cv ws ->
  Forall (fun n => n <= 2147483648) (dims c) -> typed t vs -> typed u ws ->
  comparable u t (map cval ws) (map cval vs) ->
  exists r, find_first_of ceqb c cv m = Ok (r, m) /\ first_at m c (fun v => In (cval v) (map cval ws)) r.
Proof. exact find_first_of_by_value_l. Qed.
Print Assumptions find_first_of_by_value.

(** The new value is converted to the type of the elements. *)
Theorem replace_by_value : forall c t m vs x y,
  can_write m c c -> can_read m c c -> values m c c vs -> typed t vs -> wfc x ->
  comparable t (cty x) (map cval vs) [cval x] ->
  exists m', replace_int t c x y m = Ok m' /\
    (forall is_ v, in_box (dims c) is_ -> value m c is_ v ->
       value m' c is_ (if cval v =? cval x then CI t (cast t (cval y)) else v)) /\
    frame c c m m'.
Proof. exact replace_by_value_l. Qed.
Print Assumptions replace_by_value.

(** So are copied values. *)
Theorem copy_converts : forall t out in_ m,
  can_write m out out -> can_read m out in_ -> no_cross_alias out in_ out ->
  exists m', copy_int t out in_ m = Ok m' /\
    (forall is_ v, in_box (dims out) is_ -> value m in_ is_ v -> value m' out is_ (CI t (cast t (cval v)))) /\
    frame out out m m'.
Proof. exact copy_converts_l. Qed.
Print Assumptions copy_converts.

(** A table of ints and one of unsigned ints. *)
Definition ka : container := Cn K1 [int 3] [] (Ptr 0 0).
Definition kb : container := Cn K1 [int 3] [] (Ptr 1 0).
Definition kvs : list cint := [CI I32 5; CI I32 (-1); CI I32 300].
Definition kws : list cint := [CI U32 7; CI U32 300; CI U32 4294967295].
Definition km : mem cint := [Some (map Some kvs); Some (map Some kws)].
Example ka_default : default_layout ka. Proof. by_default false. Qed.
Example kb_default : default_layout kb. Proof. by_default false. Qed.
Example ka_readable : readable km ka. Proof. by_box. Qed.
Example kb_readable : readable km kb. Proof. by_box. Qed.
Example ka_read : can_read km ka ka. Proof. exact (default_can_read km ka ka ka_default eq_refl ka_readable). Qed.
Example kb_read : can_read km kb kb. Proof. exact (default_can_read km kb kb kb_default eq_refl kb_readable). Qed.
Example ka_write : can_write km ka ka.
Proof. exact (default_can_write km ka ka ka_default eq_refl (readable_writable _ _ ka_readable)). Qed.
Example ka_values : values km ka ka kvs. Proof. repeat (constructor; [reflexivity|]); constructor. Qed.
Example kb_values : values km kb kb kws. Proof. repeat (constructor; [reflexivity|]); constructor. Qed.
Example k_typed : typed I32 kvs /\ typed U32 kws.
Proof. split; repeat (constructor; [split; [reflexivity|unfold wfc, in_ty; cbn; lia]|]); constructor. Qed.
(** A signed common type; and an unsigned one, on values that are not negative. *)
Example k_comparable : comparable I32 U8 (map cval kvs) [255] /\ comparable U32 I64 (map cval kws) [-1] /\
  comparable U32 I32 (map cval kws) [300].
Proof.
  split; [left; reflexivity|]. split; [left; reflexivity|]. right.
  split; repeat (constructor; [cbn; lia|]); constructor.
Qed.
Example compare_ex :
  (count ceqb ka (CI U8 255) km, count ceqb kb (CI I64 (-1)) km, find ceqb kb (CI I16 300) km,
   replace_int I32 ka (CI I8 (-1)) (CI I64 4294967302) km)
  = (Ok (0, km), Ok (0, km), Ok (Some [int 1], km), Ok [Some (map Some [CI I32 5; CI I32 6; CI I32 300]); Some (map Some kws)]).
Proof. vm_compute. reflexivity. Qed.

(** ** What goes wrong: the element -1 is found, counted and replaced as 4294967295u. *)
Theorem negative_elements_refuted : exists c m vs x, can_read m c c /\ can_write m c c /\ values m c c vs /\ typed I32 vs /\
  wfc x /\ cty x = U32 /\ (forall v, In v vs -> cval v <> cval x) /\
  count ceqb c x m = Ok (1, m) /\
  find ceqb c x m = Ok (Some [int 1], m) /\
  (exists m' v, replace_int I32 c x (int 0) m = Ok m' /\ value m c [1] v /\ cval v = -1 /\ value m' c [1] (int 0)).
Proof.
  exists ka, km, kvs, (CI U32 4294967295). split; [exact ka_read|]. split; [exact ka_write|]. split; [exact ka_values|].
  split; [exact (proj1 k_typed)|]. split; [unfold wfc, in_ty; cbn; lia|]. split; [reflexivity|].
  split; [cbn; intros v [<-|[<-|[<-|[]]]]; discriminate|]. split; [vm_compute; reflexivity|].
  split; [vm_compute; reflexivity|].
  exists [Some (map Some [CI I32 5; CI I32 0; CI I32 300]); Some (map Some kws)], (CI I32 (-1)).
  repeat split; vm_compute; reflexivity.
Qed.
Print Assumptions negative_elements_refuted.

Theorem find_first_of_signs_refuted : exists c cv m vs ws pos, can_read m c c /\ can_read m cv cv /\
  values m c c vs /\ values m cv cv ws /\ typed I32 vs /\ typed U32 ws /\
  find_first_of ceqb c cv m = Ok (Some pos, m) /\
  (exists v, value m c (vals pos) v /\ forall w, In w ws -> cval w <> cval v).
Proof.
  exists ka, kb, km, kvs, kws, [int 1]. split; [exact ka_read|]. split; [exact kb_read|]. split; [exact ka_values|].
  split; [exact kb_values|]. split; [exact (proj1 k_typed)|]. split; [exact (proj2 k_typed)|].
  split; [vm_compute; reflexivity|]. exists (CI I32 (-1)). split; [reflexivity|].
  cbn. intros w [<-|[<-|[<-|[]]]]; discriminate.
Qed.
Print Assumptions find_first_of_signs_refuted.
