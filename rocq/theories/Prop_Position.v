(** Property C88: positions found by searches as coordinates; C42: extents of unsigned types. *)
From Coq Require Import ZArith List Bool Lia.
From Verif Require Import Outcome CInt CIntFacts Spec SpecFacts ShapeSpec Shape ShapeFacts ShapeFacts2
  Memory MemFacts Container ContainerSpec ContainerFacts ContainerFacts3 Algo AlgoSpec
  ReverseFacts Position PositionSpec PositionFacts Prop_Algo.
Import ListNotations.
Open Scope Z_scope.

(** C88 *)
Theorem position_equality : forall p q, ints p -> ints q -> length p = length q ->
  exists b, pos_eq p q = Ok b /\ (b = true <-> p = q).
Proof. exact pos_eq_l. Qed.
Print Assumptions position_equality.
Example position_equality_ex : ints [int 1; int (-2)] /\ ints [int 1; int 0] /\
  (pos_eq [int 1; int (-2)] [int 1; int (-2)], pos_eq [int 1; int 0] [int 1; int (-2)], pos_eq [int 0; int 1] [int 1; int 1]) =
  (Ok true, Ok false, Ok false).
Proof. repeat split; repeat constructor; cbv; discriminate. Qed.

Theorem found_element_is_read : forall (T : Type) c (f : T -> bool) m,
  can_read m c c -> Forall (fun n => n <= 2147483648) (dims c) ->
  exists r, find_if c f m = Ok (r, m) /\
    match r with
    | Some p => ints p /\ in_box (dims c) (vals p) /\ (exists v, get m c p = Ok v /\ f v = true) /\
        forall q v, ints q -> in_box (dims c) (vals q) -> get m c q = Ok v -> f v = true -> q = p \/ lex (vals p) (vals q)
    | None => forall q v, ints q -> in_box (dims c) (vals q) -> get m c q = Ok v -> f v = false
    end.
Proof. exact @find_read_l. Qed.
Print Assumptions found_element_is_read.

Theorem find_and_replace : forall (T : Type) n c (f : T -> bool) x m vs, can_read m c c -> can_write m c c ->
  Forall (fun n => n <= 2147483648) (dims c) -> f x = false -> values m c c vs -> (length (filter f vs) < n)%nat ->
  exists m', replace_found n c f x m = Ok m' /\ values m' c c (map (fun v => if f v then x else v) vs) /\ frame c c m m'.
Proof. exact @replace_found_l. Qed.
Print Assumptions find_and_replace.

Theorem find_and_replace_forever : forall (T : Type) n c (f : T -> bool) x m, can_read m c c -> can_write m c c ->
  Forall (fun n => n <= 2147483648) (dims c) -> f x = true ->
  (exists is_ v, in_box (dims c) is_ /\ value m c is_ v /\ f v = true) -> replace_found n c f x m = NoFuel.
Proof. exact @replace_found_forever. Qed.
Print Assumptions find_and_replace_forever.
Example xv_searched : can_read xm xv xv /\ can_write xm xv xv /\ Forall (fun n => n <= 2147483648) (dims xv) /\
  values xm xv xv [40; 60; 10; 30] /\ (length (filter (fun v => 20 <? v) [40; 60; 10; 30]) < 4)%nat.
Proof.
  split; [split; [exact xv_addressable|split; [intros is_ B; exact B|by_box]]|].
  split; [exact xv_write|]. split; [repeat constructor; cbv; discriminate|].
  split; [exact reduce_values_ex|cbv; lia].
Qed.
Example found_ex : find_if xv (fun v => v <? 40) xm = Ok (Some [int 1; int 0], xm) /\ get xm xv [int 1; int 0] = Ok 10.
Proof. split; vm_compute; reflexivity. Qed.
Example find_and_replace_ex : replace_found 4 xv (fun v => 20 <? v) 5 xm =
  Ok [Some (map Some [1; 2; 3; 4; 5; 6]); Some (map Some [10; 20; 5; 5; 50; 5])].
Proof. vm_compute. reflexivity. Qed.

(** The variables of a search are converted to int: past 2^31 the position designates no element. *)
Theorem find_far_wraps : forall (T : Type) (f : T -> bool) (m : mem T) n b o k v,
  wfc (CI I64 n) -> 0 <= k < n -> 2147483648 <= k < 4294967296 ->
  (forall i, 0 <= i < n -> exists w, peek m (Ptr b (o + i)) = Some w) ->
  peek m (Ptr b (o + k)) = Some v -> f v = true ->
  (forall i w, 0 <= i < k -> peek m (Ptr b (o + i)) = Some w -> f w = false) ->
  find_if (Cn K1 [CI I64 n] [] (Ptr b o)) f m = Ok (Some [int (k - 4294967296)], m).
Proof. exact @find_wraps_l. Qed.
Print Assumptions find_far_wraps.

Theorem find_far_refuted : exists (m : mem Z) n p,
  (forall i, 0 <= i < n -> exists w, get m (Cn K1 [CI I64 n] [] (Ptr 0 0)) [CI I64 i] = Ok w) /\
  find_if (Cn K1 [CI I64 n] [] (Ptr 0 0)) (fun v => v =? 1) m = Ok (Some p, m) /\
  get m (Cn K1 [CI I64 n] [] (Ptr 0 0)) p = UB.
Proof. exact find_wraps_refuted_l. Qed.
Print Assumptions find_far_refuted.

(** The narrowing rule of C++ on the array of find.hpp 48. *)
Theorem strict_find_compiles : forall (T : Type) c (f : T -> bool) m,
  can_read m c c -> Forall (fun n => n <= 2147483648) (dims c) ->
  (exists r, strict_find_if c f m = Ok r) <-> Forall (fun n => is_signed (cty n) = false) (c_shape c).
Proof. exact @strict_find_l. Qed.
Print Assumptions strict_find_compiles.

Theorem strict_find_last_compiles : forall (T : Type) ss c (f : T -> bool) m, default_layout c -> readable m c ->
  (Exists (fun n => is_signed (cty n) = true) (c_shape c) -> forall r, strict_find_last_if ss c f m <> Ok r) /\
  (Forall (fun n => cty n = U8 \/ cty n = U16 \/ cty n = U64) (c_shape c) ->
   exists r, strict_find_last_if ss c f m = Ok (r, m) /\ last_at m c (fun v => f v = true) r).
Proof. exact @strict_find_last_l. Qed.
Print Assumptions strict_find_last_compiles.

(** C42 *)
Theorem reverse_typed : forall ss c, default_layout c -> no_u32 c ->
  exists rc, reverse ss c = Ok rc /\ c_shape rc = c_shape c /\
    forall is_, coord_of c is_ -> Forall (fun i => cty i <> U32) is_ ->
      address rc is_ = Ok (elem c (mirror_coord (dims c) (vals is_))).
Proof. exact reverse_typed_l. Qed.
Print Assumptions reverse_typed.

Theorem find_last_typed : forall (T : Type) ss c (f : T -> bool) m, default_layout c -> no_u32 c -> readable m c ->
  exists r, find_last_if ss c f m = Ok (r, m) /\ last_at m c (fun v => f v = true) r.
Proof. exact @find_last_if_typed. Qed.
Print Assumptions find_last_typed.

Theorem found_last_is_read : forall (T : Type) ss c (f : T -> bool) m, default_layout c -> no_u32 c -> readable m c ->
  exists r, find_last_if ss c f m = Ok (r, m) /\
    match r with
    | Some p => (exists v, get m c p = Ok v /\ f v = true) /\
        forall q v, coord_of c q -> get m c q = Ok v -> f v = true -> vals q = vals p \/ lex (vals q) (vals p)
    | None => forall q v, coord_of c q -> get m c q = Ok v -> f v = false
    end.
Proof. exact @find_last_read_l. Qed.
Print Assumptions found_last_is_read.

Definition px (t u : ity) : container := Cn K2 [CI t 2; CI u 3] [] (Ptr 0 1).
Definition pm : mem Z := [Some (map Some [9; 1; 2; 3; 4; 5; 6; 9])].
Example px_default : default_layout (px U64 U64) /\ no_u32 (px U64 U64) /\ readable pm (px U64 U64) /\
  default_layout (px U8 U16) /\ no_u32 (px U8 U16) /\ readable pm (px U8 U16) /\ default_layout (px I32 U64) /\ no_u32 (px I32 U64).
Proof.
  assert (D : forall t u, In (t, u) [(U64, U64); (U8, U16); (I32, U64)] -> default_layout (px t u) /\ no_u32 (px t u) /\ readable pm (px t u)).
  { intros t u [E|[E|[E|[]]]]; injection E as <- <-;
      (split; [by_default false|
       split; [repeat constructor; discriminate|by_box]]). }
  destruct (D U64 U64) as (? & ? & ?); [cbn; tauto|]. destruct (D U8 U16) as (? & ? & ?); [cbn; tauto|].
  destruct (D I32 U64) as (? & ? & _); [cbn; tauto|]. tauto.
Qed.
Example find_last_typed_ex :
  (find_last_if false (px U64 U64) (fun v => v <? 5) pm, find_last_if false (px U8 U16) (fun v => v <? 3) pm,
   find_last_if false (px I32 U64) (fun v => v <? 6) pm, find_last_if false (px U64 U64) (fun v => v =? 9) pm) =
  (Ok (Some [int 1; int 0], pm), Ok (Some [int 0; int 1], pm), Ok (Some [int 1; int 1], pm), Ok (None, pm)).
Proof. vm_compute. reflexivity. Qed.
Example strict_find_ex :
  (strict_find_if (px U64 U64) (fun v => 4 <? v) pm, strict_find_last_if false (px U64 U64) (fun v => v <? 4) pm,
   strict_find_if (px I32 U64) (fun v => 4 <? v) pm, strict_find_last_if false (px I32 U64) (fun v => v <? 4) pm) =
  (Ok (Some [int 1; int 1], pm), Ok (Some [int 0; int 2], pm), UB, UB).
Proof. vm_compute. reflexivity. Qed.

(** With an extent of type unsigned int the reversed view reads 2^32 elements after the last one as soon as the
    last element does not satisfy the condition. *)
Theorem find_last_u32_fails : forall (T : Type) ss c (f : T -> bool) m v, default_layout c ->
  Exists (fun n => cty n = U32) (c_shape c) -> Forall (fun n => cty n <> I64 /\ cty n <> U64) (c_shape c) ->
  readable m c -> 2 <= prod (dims c) ->
  (forall b cs, nth_error m b = Some (Some cs) -> Z.of_nat (length cs) <= 4294967296) ->
  value m c (map (fun n => n - 1) (dims c)) v -> f v = false ->
  find_last_if ss c f m = UB.
Proof. exact @find_last_if_u32. Qed.
Print Assumptions find_last_u32_fails.
Example find_last_u32_ex : find_last_if false (px U32 U32) (fun v => v <? 6) pm = UB /\
  find_last_if false (px U32 U32) (fun v => v =? 6) pm = Ok (Some [int 1; int 2], pm).
Proof. split; [lazy; reflexivity|vm_compute; reflexivity]. Qed.
