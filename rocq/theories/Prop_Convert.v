(** Property C73: tables that convert the elements of their source. *)
From Coq Require Import ZArith QArith Qabs List Bool Lia.
From Coq Require Import Floats.SpecFloat.
From Verif Require Import Outcome CInt CIntFacts Spec SpecFacts ShapeSpec Shape ShapeFacts ShapeFacts2 Memory MemFacts Container ContainerSpec
  ContainerFacts ContainerFacts3 AlgoSpec Source SourceSpec SourceFacts IeeeSpec Mixed Convert ConvertSpec ConvertFacts.
Import ListNotations.
Open Scope Z_scope.

(** C73 *)
Theorem converted_table : forall to (m : mem number) dbg st sh s vs, legal sh -> sh <> [] ->
  holds m (storage s) vs -> prod (vals sh) <= Z.of_nat (length vs) ->
  Forall (convertible to) (firstn (Z.to_nat (prod (vals sh))) vs) ->
  exists m' t ws, table_as to m dbg (Some (st, sh)) s = Ok (m', t) /\ default_layout t /\ c_shape t = sh /\
    values m' t t ws /\ Forall2 (converted to) (firstn (Z.to_nat (prod (vals sh))) vs) ws /\ extends m m' /\
    forall is_, in_box (vals sh) is_ -> ~ valid m (elem t is_).
Proof. exact table_as_l. Qed.
Print Assumptions converted_table.

Theorem converted_range : forall to (m : mem number) dbg p vs, holds m p vs -> Z.of_nat (length vs) <= 2147483647 ->
  Forall (convertible to) vs ->
  exists m' t ws, table_as to m dbg None (SRange p (Z.of_nat (length vs))) = Ok (m', t) /\ default_layout t /\
    dims t = [Z.of_nat (length vs)] /\ values m' t t ws /\ Forall2 (converted to) vs ws /\ extends m m'.
Proof. exact range_table_as_l. Qed.
Print Assumptions converted_range.

(** Numbers the type can represent are kept. *)
Theorem converted_table_exact : forall to (m : mem number) dbg st sh s vs, legal sh -> sh <> [] ->
  holds m (storage s) vs -> prod (vals sh) <= Z.of_nat (length vs) ->
  Forall (fun v => exists q, number_value v = Some q /\ representable to q) (firstn (Z.to_nat (prod (vals sh))) vs) ->
  exists m' t ws, table_as to m dbg (Some (st, sh)) s = Ok (m', t) /\ values m' t t ws /\
    Forall2 (fun v w => exists q p, number_value v = Some q /\ number_value w = Some p /\ (p == q)%Q)
      (firstn (Z.to_nat (prod (vals sh))) vs) ws.
Proof. exact table_as_exact_l. Qed.
Print Assumptions converted_table_exact.

(** Increasing sources give increasing tables, but for integers converted to integers. *)
Theorem converted_table_sorted : forall to (m : mem number) dbg st sh s vs, legal sh -> sh <> [] ->
  holds m (storage s) vs -> prod (vals sh) <= Z.of_nat (length vs) ->
  Forall (convertible to) (firstn (Z.to_nat (prod (vals sh))) vs) ->
  (forall t z, to = AInt t -> ~ In (NInt z) vs) -> increasing vs ->
  exists m' t ws, table_as to m dbg (Some (st, sh)) s = Ok (m', t) /\ values m' t t ws /\
    length ws = Z.to_nat (prod (vals sh)) /\ increasing ws.
Proof. exact table_as_sorted_l. Qed.
Print Assumptions converted_table_sorted.

(** One element that does not fit the integer type, or is not a number. *)
Theorem conversion_out_of_range : forall t (m : mem number) dbg st sh s vs x, legal sh -> sh <> [] ->
  holds m (storage s) vs -> prod (vals sh) <= Z.of_nat (length vs) ->
  In (NFloat x) (firstn (Z.to_nat (prod (vals sh))) vs) ->
  (~ exists q z, float_value x = Some q /\ toward_zero q z /\ in_ty t z) ->
  table_as (AInt t) m dbg (Some (st, sh)) s = UB.
Proof. exact table_as_ub_l. Qed.
Print Assumptions conversion_out_of_range.

Theorem conversion_overruns_short_source : forall to (m : mem number) dbg st sh s k, legal sh -> sh <> [] ->
  known m (storage s) -> 0 <= k < prod (vals sh) -> peek m (padd (storage s) k) = None ->
  table_as to m dbg (Some (st, sh)) s = UB.
Proof. exact table_as_overrun_l. Qed.
Print Assumptions conversion_overruns_short_source.

(** The elements of a table of order 1, as read through it. *)
Definition shown (r : outcome (mem number * container)) (n : nat) : outcome (list number) :=
  ' (m, t) <- r ;; mapM (fun i => get m t [int (Z.of_nat i)]) (seq 0 n).

Definition ints (zs : list Z) : mem number := [Some (map (fun z => Some (NInt z)) zs)].
Definition floats (xs : list spec_float) : mem number := [Some (map (fun x => Some (NFloat x)) xs)].

Theorem integer_order_refuted : exists zs ws,
  shown (table_as (AInt U8) (ints zs) true None (SRange (Ptr 0%nat 0) 3)) 3 = Ok ws /\
  increasing (map NInt zs) /\ length zs = 3%nat /\ ~ increasing ws /\
  zs = [-1; 7; 300] /\ ws = [NInt 255; NInt 7; NInt 44].
Proof.
  exists [-1; 7; 300], [NInt 255; NInt 7; NInt 44]. split; [vm_compute; reflexivity|]. split; [|split; [reflexivity|split; [|split; reflexivity]]].
  - intros i j v w p q L Hv Hw Vv Vw.
    destruct i as [|[|[|[|]]]], j as [|[|[|[|]]]]; try lia; try discriminate; injection Hv as <-; injection Hw as <-;
      injection Vv as <-; injection Vw as <-; unfold Qle; cbn; lia.
  - intros H. specialize (H 0%nat 1%nat (NInt 255) (NInt 7) 255%Q 7%Q ltac:(lia) eq_refl eq_refl eq_refl eq_refl). vm_compute in H. auto.
Qed.
Print Assumptions integer_order_refuted.

(** 2^200, a double, as a float; and 0.1, a double, as a float: another number. *)
Definition d200 : spec_float := S754_finite false 4503599627370496 148.
Definition d01 : spec_float := S754_finite false 7205759403792794 (-56).
Theorem float_overflow_refuted : exists x y q p,
  finite_number 53 1024 x /\ finite_number 53 1024 y /\ float_value y = Some q /\
  exists ws, shown (table_as (AFloat Float) (floats [x; y]) true None (SRange (Ptr 0%nat 0) 2)) 2 = Ok ws /\
    nth_error ws 0 = Some (NFloat (S754_infinity false)) /\
    exists w, nth_error ws 1 = Some w /\ number_value w = Some p /\ ~ (p == q)%Q.
Proof.
  exists d200, d01, (7205759403792794 # 72057594037927936), (13421773 # 134217728).
  split; [split; [reflexivity|exact I]|]. split; [split; [reflexivity|exact I]|]. split; [vm_compute; reflexivity|].
  eexists. split; [vm_compute; reflexivity|]. split; [reflexivity|]. eexists. split; [reflexivity|]. split; [vm_compute; reflexivity|].
  vm_compute. discriminate.
Qed.
Print Assumptions float_overflow_refuted.

(** ** The hypotheses are met *)
Example ex_sh : shape := [int 2; int 2].
Example ex_legal : legal ex_sh /\ ex_sh <> [].
Proof. split; [by_check|discriminate]. Qed.

(** 2.5, -2.5, 255.75, 0 and 300 as unsigned char: the last one is not read. *)
Definition fs : list spec_float := [S754_finite false 5 (-1); S754_finite true 1 (-1); S754_finite false 1023 (-2); S754_zero false; S754_finite false 300 0].
Lemma fs_holds : holds (floats fs) (Ptr 0%nat 0) (map NFloat fs).
Proof. intros [|[|[|[|[|k]]]]] v H; try (destruct k; discriminate H); injection H as <-; reflexivity. Qed.
Example fs_convertible : Forall (convertible (AInt U8)) (firstn (Z.to_nat (prod (vals ex_sh))) (map NFloat fs)).
Proof.
  change (firstn (Z.to_nat (prod (vals ex_sh))) (map NFloat fs)) with (map NFloat (firstn 4 fs)). repeat constructor; cbn [convertible].
  - exists (5 # 2), 2. vm_compute. intuition discriminate.
  - exists (-1 # 2), 0. vm_compute. intuition discriminate.
  - exists (1023 # 4), 255. vm_compute. intuition discriminate.
  - exists 0%Q, 0. vm_compute. intuition discriminate.
Qed.
Example fs_table : exists m' t ws, table_as (AInt U8) (floats fs) true (Some (false, ex_sh)) (SPtr (Ptr 0%nat 0)) = Ok (m', t) /\
  values m' t t ws /\ Forall2 (converted (AInt U8)) (map NFloat (firstn 4 fs)) ws /\ ws = [NInt 2; NInt 0; NInt 255; NInt 0].
Proof.
  destruct (converted_table (AInt U8) (floats fs) true false ex_sh (SPtr (Ptr 0%nat 0)) (map NFloat fs) (proj1 ex_legal) (proj2 ex_legal) fs_holds
    ltac:(vm_compute; discriminate) fs_convertible) as (m' & t & ws & E & _ & _ & V & F & _).
  exists m', t, ws. split; [exact E|]. split; [exact V|]. split; [exact F|].
  assert (K : forall q y z, toward_zero q y -> toward_zero q z -> y = z) by exact toward_zero_unique.
  change (firstn (Z.to_nat (prod (vals ex_sh))) (map NFloat fs)) with (map NFloat (firstn 4 fs)) in F.
  inversion F as [|? w1 ? ? F1 G1]; subst. inversion G1 as [|? w2 ? ? F2 G2]; subst. inversion G2 as [|? w3 ? ? F3 G3]; subst.
  inversion G3 as [|? w4 ? ? F4 G4]; subst. inversion G4; subst.
  destruct w1 as [y1|], w2 as [y2|], w3 as [y3|], w4 as [y4|]; try contradiction.
  destruct F1 as (_ & q1 & V1 & T1). destruct F2 as (_ & q2 & V2 & T2). destruct F3 as (_ & q3 & V3 & T3). destruct F4 as (_ & q4 & V4 & T4).
  vm_compute in V1, V2, V3, V4. injection V1 as <-. injection V2 as <-. injection V3 as <-. injection V4 as <-.
  rewrite (K _ y1 2 T1), (K _ y2 0 T2), (K _ y3 255 T3), (K _ y4 0 T4); [reflexivity|vm_compute; intuition discriminate..].
Qed.

(** 300 does not fit. *)
Example fs_ub : table_as (AInt U8) (floats fs) true (Some (false, [int 5])) (SPtr (Ptr 0%nat 0)) = UB.
Proof.
  apply (conversion_out_of_range U8 (floats fs) true false [int 5] (SPtr (Ptr 0%nat 0)) (map NFloat fs) (S754_finite false 300 0)).
  - by_check.
  - discriminate.
  - exact fs_holds.
  - vm_compute. discriminate.
  - vm_compute. auto 10.
  - intros (q & z & V & T & R). vm_compute in V. injection V as <-.
    assert (T3 : toward_zero 300 300) by (vm_compute; intuition discriminate).
    rewrite (toward_zero_unique 300 z 300 T T3) in R. vm_compute in R. intuition.
Qed.
Example short_ub : table_as (AFloat Float) (floats fs) true (Some (false, [int 6])) (SPtr (Ptr 0%nat 0)) = UB.
Proof.
  apply (conversion_overruns_short_source (AFloat Float) (floats fs) true false [int 6] (SPtr (Ptr 0%nat 0)) 5).
  - by_check.
  - discriminate.
  - vm_compute. lia.
  - vm_compute. intuition discriminate.
  - reflexivity.
Qed.

(** Small integers as floats: the same numbers, in the same order; integers of one byte as ints. *)
Example small_kept : Forall (fun v => exists q, number_value v = Some q /\ representable (AFloat Float) q) (map NInt [-3; 0; 5; 16777216]).
Proof.
  repeat constructor; (eexists; split; [reflexivity|]).
  - exists (NFloat (S754_finite true 12582912 (-22))). eexists. split; [split; [reflexivity|exact I]|]. split; reflexivity.
  - exists (NFloat (S754_zero false)). eexists. split; [split; [reflexivity|exact I]|]. split; reflexivity.
  - exists (NFloat (S754_finite false 10485760 (-21))). eexists. split; [split; [reflexivity|exact I]|]. split; reflexivity.
  - exists (NFloat (S754_finite false 8388608 1)). eexists. split; [split; [reflexivity|exact I]|]. split; reflexivity.
Qed.
Lemma ints_holds zs : holds (ints zs) (Ptr 0%nat 0) (map NInt zs).
Proof.
  intros k v H. unfold peek, cell, ints. cbn [padd nth_error]. rewrite Z.add_0_l.
  rewrite nth_error_map in H. destruct (nth_error zs k) as [z|] eqn:E; [|discriminate]. injection H as <-.
  destruct (Z.leb_spec 0 (Z.of_nat k)); [|lia]. rewrite Nat2Z.id, nth_error_map, E. reflexivity.
Qed.
Example small_table : exists m' t ws,
  table_as (AFloat Float) (ints [-3; 0; 5; 16777216]) true (Some (false, ex_sh)) (SPtr (Ptr 0%nat 0)) = Ok (m', t) /\ values m' t t ws /\
  Forall2 (fun v w => exists q p, number_value v = Some q /\ number_value w = Some p /\ (p == q)%Q) (map NInt [-3; 0; 5; 16777216]) ws.
Proof.
  exact (converted_table_exact (AFloat Float) (ints [-3; 0; 5; 16777216]) true false ex_sh (SPtr (Ptr 0%nat 0)) _ (proj1 ex_legal) (proj2 ex_legal)
    (ints_holds _) ltac:(vm_compute; discriminate) small_kept).
Qed.

(** 16777217 and 16777219 are not floats: they become 16777216 and 16777220. *)
Lemma in_float z : Z.abs z <= 1073741824 -> in_range (AFloat Float) (inject_Z z).
Proof.
  intros H. exists (NFloat (S754_finite false 8388608 7)), 1073741824%Q. split; [split; [reflexivity|exact I]|]. split; [reflexivity|].
  change (inject_Z (Z.abs z) <= inject_Z 1073741824)%Q. rewrite <- Zle_Qle. exact H.
Qed.
Example sorted_table : exists m' t ws,
  table_as (AFloat Float) (ints [16777217; 16777218; 16777219]) true (Some (false, [int 3])) (SPtr (Ptr 0%nat 0)) = Ok (m', t) /\ values m' t t ws /\
  length ws = 3%nat /\ increasing ws.
Proof.
  apply (converted_table_sorted (AFloat Float) (ints [16777217; 16777218; 16777219]) true false [int 3] (SPtr (Ptr 0%nat 0)) (map NInt [16777217; 16777218; 16777219])).
  - by_check.
  - discriminate.
  - apply ints_holds.
  - vm_compute. discriminate.
  - change (Z.to_nat (prod (vals [int 3]))) with 3%nat. cbn [firstn map]. repeat constructor; (eexists; split; [reflexivity|apply in_float; lia]).
  - discriminate.
  - intros i j v w p q L Hv Hw Vv Vw.
    destruct i as [|[|[|[|]]]], j as [|[|[|[|]]]]; try lia; try discriminate; injection Hv as <-; injection Hw as <-;
      injection Vv as <-; injection Vw as <-; unfold Qle; cbn; lia.
Qed.
Example range_table : exists m' t ws,
  table_as (AInt I8) (ints [5; 200; -129]) true None (SRange (Ptr 0%nat 0) 3) = Ok (m', t) /\ default_layout t /\
  dims t = [3] /\ values m' t t ws /\ Forall2 (converted (AInt I8)) (map NInt [5; 200; -129]) ws /\ extends (ints [5; 200; -129]) m'.
Proof.
  apply (converted_range (AInt I8) (ints [5; 200; -129]) true (Ptr 0%nat 0) (map NInt [5; 200; -129]) (ints_holds _)); [cbn; lia|].
  repeat constructor.
Qed.
