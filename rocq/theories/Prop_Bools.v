(** C102: elements of type bool. *)
From Coq Require Import ZArith QArith List Bool Lia.
From Coq Require Import Floats.SpecFloat.
From Verif Require Import Outcome CInt CIntFacts Spec SpecFacts ShapeSpec Shape ShapeFacts ShapeFacts2 ForEach ForEachSpec ForEachFacts
  Memory MemFacts Container ContainerSpec ContainerFacts ContainerFacts2 ContainerFacts3 Source SourceSpec SourceFacts ViewFacts
  Algo AlgoSpec AlgoFacts AlgoFacts2 AlgoFacts3 AlgoFacts4 Sums SumsSpec SumsFacts
  Mixed Convert ConvertSpec FloatSums FloatCompare Bools BoolsSpec BoolsFacts BoolsFacts2.
Import ListNotations.
Open Scope Z_scope.

(** reduce(in) of bools, and reduce(in, +, init) with a bool: whether one of them is true. *)
Theorem bool_reduce : forall c m bs, can_read m c c -> bools m c bs ->
  (exists r, ssum TBool c m = Ok (SBool r, m) /\ (r = true <-> In true bs)) /\
  (forall a, exists r, ssum_from c (SBool a) m = Ok (SBool r, m) /\ (r = true <-> a = true \/ In true bs)).
Proof. exact (fun c m bs CR V => conj (bool_sum_l c m bs CR V) (fun a => bool_sum_from_l c m bs a CR V)). Qed.
Print Assumptions bool_reduce.

(** reduce(in, +, init) with an integer counts the true elements, in the type of init. *)
Theorem bool_total : forall c m bs t z, can_read m c c -> bools m c bs -> in_ty t z ->
  (in_ty t (z + trues bs) -> ssum_from c (SI (CI t z)) m = Ok (SI (CI t (z + trues bs)), m)) /\
  (is_signed t = false \/ width t < 32 -> ssum_from c (SI (CI t z)) m = Ok (SI (CI t (cast t (z + trues bs))), m)) /\
  (is_signed t = true -> 32 <= width t -> ~ in_ty t (z + trues bs) -> ssum_from c (SI (CI t z)) m = UB).
Proof. exact bool_counts_l. Qed.
Print Assumptions bool_total.

(** transform_reduce of two containers of bools: the number of positions where both are true, as an int; with an
    integer the same added to it; with a bool whether there is such a position. *)
Theorem bool_products : forall c1 c2 m bs cs, can_read m c1 c1 -> can_read m c1 c2 -> bools m c1 bs -> values m c1 c2 (map SBool cs) ->
  (both_true bs cs <= 2147483647 -> bool_dot c1 c2 m = Ok (SI (int (both_true bs cs)), m)) /\
  (forall t z, in_ty t z -> in_ty t (z + both_true bs cs) -> sdot_from c1 c2 (SI (CI t z)) m = Ok (SI (CI t (z + both_true bs cs)), m)) /\
  (forall a, exists r, sdot_from c1 c2 (SBool a) m = Ok (SBool r, m) /\
     (r = true <-> a = true \/ exists k, nth_error bs k = Some true /\ nth_error cs k = Some true)).
Proof.
  exact (fun c1 c2 m bs cs A B C D => conj (bool_dot_int_l c1 c2 m bs cs A B C D)
    (conj (fun t z => bool_dot_l c1 c2 m bs cs t z A B C D) (fun a => bool_dot_or_l c1 c2 m bs cs a A B C D))).
Qed.
Print Assumptions bool_products.

(** inner_product: the same for containers of the same shape, an assertion otherwise. *)
Theorem bool_inner_product : forall dbg c1 c2 m init, legal (c_shape c1) -> legal (c_shape c2) -> c_shape c1 <> [] -> length (c_shape c1) = length (c_shape c2) ->
  (dims c1 = dims c2 -> sinner_from dbg c1 c2 init m = sdot_from c1 c2 init m /\ bool_inner dbg c1 c2 m = bool_dot c1 c2 m) /\
  (dims c1 <> dims c2 -> sinner_from true c1 c2 init m = Abort /\ sinner_from false c1 c2 init m = sdot_from c1 c2 init m).
Proof. exact bool_inner_l. Qed.
Print Assumptions bool_inner_product.

(** Scans with a bool: from the first true element on, every output is true. *)
Theorem bool_inclusive_scan : forall in_ out m bs a, can_read m in_ in_ -> can_write m in_ out -> no_cross_alias in_ in_ out -> bools m in_ bs ->
  exists m', sinclusive TBool in_ out (SBool a) m = Ok m' /\
    (forall is_, in_box (dims in_) is_ -> exists r, value m' out is_ (SBool r) /\
       (r = true <-> a = true \/ In true (firstn (S (Z.to_nat (rank (dims in_) is_))) bs))) /\ frame in_ out m m'.
Proof. exact bool_inclusive_l. Qed.
Print Assumptions bool_inclusive_scan.
Theorem bool_exclusive_scan : forall in_ out m bs a, can_read m in_ in_ -> can_write m in_ out -> no_alias in_ in_ out -> bools m in_ bs ->
  exists m', sexclusive TBool in_ out (SBool a) m = Ok m' /\
    (forall is_, in_box (dims in_) is_ -> exists r, value m' out is_ (SBool r) /\
       (r = true <-> a = true \/ In true (firstn (Z.to_nat (rank (dims in_) is_)) bs))) /\ frame in_ out m m'.
Proof. exact bool_exclusive_l. Qed.
Print Assumptions bool_exclusive_scan.
(** Scans with an integer into integers: the numbers of true elements so far, converted. *)
Theorem bool_inclusive_counts : forall in_ out m bs t z ot, can_read m in_ in_ -> can_write m in_ out -> no_cross_alias in_ in_ out -> bools m in_ bs ->
  in_ty t z -> in_ty t (z + trues bs) ->
  exists m', sinclusive (TArith (AInt ot)) in_ out (SI (CI t z)) m = Ok m' /\
    (forall is_, in_box (dims in_) is_ ->
       value m' out is_ (SI (CI ot (cast ot (z + trues (firstn (S (Z.to_nat (rank (dims in_) is_))) bs)))))) /\ frame in_ out m m'.
Proof. exact count_inclusive_l. Qed.
Print Assumptions bool_inclusive_counts.
Theorem bool_exclusive_counts : forall in_ out m bs t z ot, can_read m in_ in_ -> can_write m in_ out -> no_alias in_ in_ out -> bools m in_ bs ->
  in_ty t z -> in_ty t (z + trues bs) ->
  exists m', sexclusive (TArith (AInt ot)) in_ out (SI (CI t z)) m = Ok m' /\
    (forall is_, in_box (dims in_) is_ ->
       value m' out is_ (SI (CI ot (cast ot (z + trues (firstn (Z.to_nat (rank (dims in_) is_)) bs)))))) /\ frame in_ out m m'.
Proof. exact count_exclusive_l. Qed.
Print Assumptions bool_exclusive_counts.

(** Assignments to elements of type bool store whether the value is not zero; never undefined. *)
Theorem bool_transform : forall f out c0 cs m, can_write m out out ->
  Forall (can_read m out) (c0 :: cs) -> Forall (fun i => no_cross_alias out i out) (c0 :: cs) ->
  exists m', stransform TBool f out c0 cs m = Ok m' /\
    (forall is_ vs, in_box (dims out) is_ -> Forall2 (fun c v => value m c is_ v) (c0 :: cs) vs ->
       exists w, value m' out is_ w /\ bool_for (f vs) w) /\ frame out out m m'.
Proof. exact bool_transform_l. Qed.
Print Assumptions bool_transform.
Theorem bool_copy : forall out in_ m, can_write m out out -> can_read m out in_ -> no_cross_alias out in_ out ->
  exists m', scopy TBool out in_ m = Ok m' /\
    (forall is_ v, in_box (dims out) is_ -> value m in_ is_ v -> exists w, value m' out is_ w /\ bool_for v w) /\ frame out out m m'.
Proof. exact bool_copy_l. Qed.
Print Assumptions bool_copy.
Theorem bool_copy_if : forall f out in_ m, can_write m out out -> can_read m out in_ -> no_cross_alias out in_ out ->
  exists m', scopy_if TBool f out in_ m = Ok m' /\
    (forall is_ v, in_box (dims out) is_ -> value m in_ is_ v ->
       if f v then exists w, value m' out is_ w /\ bool_for v w else cell m' (elem out is_) = cell m (elem out is_)) /\ frame out out m m'.
Proof. exact bool_copy_if_l. Qed.
Print Assumptions bool_copy_if.
Theorem bool_fill : forall out v m, can_write m out out ->
  exists m', sfill TBool out v m = Ok m' /\
    (forall is_, in_box (dims out) is_ -> exists w, value m' out is_ w /\ bool_for v w) /\ frame out out m m'.
Proof. exact bool_fill_l. Qed.
Print Assumptions bool_fill.
Theorem bool_generate : forall f out m, can_write m out out ->
  exists m', sgenerate TBool f out m = Ok m' /\
    (forall tis, wfs tis -> map cty tis = ctypes out -> in_box (dims out) (vals tis) ->
       exists w, value m' out (vals tis) w /\ bool_for (f tis) w) /\ frame out out m m'.
Proof. exact bool_generate_l. Qed.
Print Assumptions bool_generate.
Theorem bool_replace_if : forall out f v m, can_write m out out -> can_read m out out ->
  exists m', sreplace_if TBool out f v m = Ok m' /\
    (forall is_ x, in_box (dims out) is_ -> value m out is_ x ->
       exists w, value m' out is_ w /\ if f x then bool_for v w else w = x) /\ frame out out m m'.
Proof. exact bool_replace_if_l. Qed.
Print Assumptions bool_replace_if.
(** replace(out, old, new) with an integer or a bool: only 0 and 1 are ever equal to an element. *)
Theorem bool_replace : forall out old z new m, can_write m out out -> can_read m out out -> is_int old z ->
  exists m', sreplace TBool out old new m = Ok m' /\
    (forall is_ b, in_box (dims out) is_ -> value m out is_ (SBool b) ->
       exists w, value m' out is_ w /\ (Z.b2z b = z -> bool_for new w) /\ (Z.b2z b <> z -> w = SBool b)) /\ frame out out m m'.
Proof. exact sreplace_bool_l. Qed.
Print Assumptions bool_replace.

(** bools copied to an arithmetic type are zeros and ones, and the same bools again when copied back. *)
Theorem bools_as_numbers : forall a out in_ m, can_write m out out -> can_read m out in_ -> no_cross_alias out in_ out ->
  (forall is_ v, in_box (dims out) is_ -> value m in_ is_ v -> is_bool v) ->
  exists m', scopy (TArith a) out in_ m = Ok m' /\
    (forall is_ b, in_box (dims out) is_ -> value m in_ is_ (SBool b) -> exists w, value m' out is_ w /\ stands_for a b w) /\ frame out out m m'.
Proof. exact copy_bools_stands. Qed.
Print Assumptions bools_as_numbers.
Theorem bools_and_back : forall a out1 out2 in_ m, can_write m out1 out1 -> can_read m out1 in_ -> no_cross_alias out1 in_ out1 ->
  dims out1 = dims out2 -> (forall is_ v, in_box (dims out1) is_ -> value m in_ is_ v -> is_bool v) ->
  (forall m1, scopy (TArith a) out1 in_ m = Ok m1 -> can_write m1 out2 out2 /\ can_read m1 out2 out1 /\ no_cross_alias out2 out1 out2) ->
  exists m1 m2, scopy (TArith a) out1 in_ m = Ok m1 /\ scopy TBool out2 out1 m1 = Ok m2 /\
    forall is_ b, in_box (dims out1) is_ -> value m in_ is_ (SBool b) -> value m2 out2 is_ (SBool b).
Proof. exact bools_round_l. Qed.
Print Assumptions bools_and_back.

(** count and find: a bool is compared as the integer 0 or 1. *)
Theorem bool_count : forall c m bs b, can_read m c c -> bools m c bs -> prod (dims c) < 2 ^ 64 ->
  scount c (SBool b) m = Ok (Z.of_nat (count_occ bool_dec bs b), m).
Proof. exact bool_count_l. Qed.
Print Assumptions bool_count.
Theorem bool_count_mixed : forall c m vs zs v z, can_read m c c -> values m c c vs -> prod (dims c) < 2 ^ 64 -> Forall2 is_int vs zs -> is_int v z ->
  is_bool v \/ Forall is_bool vs -> scount c v m = Ok (Z.of_nat (length (filter (fun x => x =? z) zs)), m).
Proof. exact scount_l. Qed.
Print Assumptions bool_count_mixed.
Theorem bool_find : forall c v z m, can_read m c c -> Forall (fun n => n <= 2147483648) (dims c) -> is_int v z ->
  (forall is_ e, in_box (dims c) is_ -> value m c is_ e -> (exists x, is_int e x) /\ (is_bool v \/ is_bool e)) ->
  exists r, sfind c v m = Ok (r, m) /\ first_at m c (fun e => is_int e z) r.
Proof. exact sfind_l. Qed.
Print Assumptions bool_find.

(** iota(out, v) with an integer: false where the count passes through zero, true elsewhere. *)
Theorem bool_iota : forall out t z m, can_write m out out -> in_ty t z -> in_ty t (z + prod (dims out)) ->
  exists m', siota TBool out (SI (CI t z)) m = Ok m' /\
    (forall is_, in_box (dims out) is_ -> exists r, value m' out is_ (SBool r) /\ (r = true <-> z + rank (dims out) is_ <> 0)) /\
    frame out out m m'.
Proof. exact bool_iota_l. Qed.
Print Assumptions bool_iota.
(** iota(out, b, step) with a bool: it stays with a step of 0, alternates with -1, is true from the second element on
    with any other. *)
Theorem bool_iota_step : forall out b step st m, can_write m out out -> promoted step = Ok st -> wfc st -> in_ty (CInt.common I32 (cty st)) (cval st + 1) ->
  exists m', siota_step TBool out (SBool b) step m = Ok m' /\
    (forall is_, in_box (dims out) is_ -> value m' out is_ (SBool (bool_after b (cval st) (Z.to_nat (rank (dims out) is_))))) /\
    frame out out m m'.
Proof. exact bool_iota_step_l. Qed.
Print Assumptions bool_iota_step.

(** table{source = s, of_size(...), as<bool>} and a table of numbers from bools. *)
Theorem table_of_bool : forall m dbg st sh s vs, legal sh -> sh <> [] -> holds m (storage s) vs -> prod (vals sh) <= Z.of_nat (length vs) ->
  exists m' t bs, stable_as TBool m dbg (Some (st, sh)) s = Ok (m', t) /\ default_layout t /\ c_shape t = sh /\
    bools m' t bs /\ Forall2 (fun v b => bool_for v (SBool b)) (firstn (Z.to_nat (prod (vals sh))) vs) bs /\ extends m m'.
Proof. exact table_of_bool_l. Qed.
Print Assumptions table_of_bool.
Theorem table_from_bools : forall a m dbg st sh s bs, legal sh -> sh <> [] -> holds m (storage s) (map SBool bs) -> prod (vals sh) <= Z.of_nat (length bs) ->
  exists m' t ws, stable_as (TArith a) m dbg (Some (st, sh)) s = Ok (m', t) /\ default_layout t /\ c_shape t = sh /\
    values m' t t ws /\ Forall2 (stands_for a) (firstn (Z.to_nat (prod (vals sh))) bs) ws /\ extends m m'.
Proof. exact table_from_bools_l. Qed.
Print Assumptions table_from_bools.

(** Three containers of 2 x 2 elements: bools, other bools, and 0, 2.5, NaN and -1. *)
Definition ba : container := Cn K2 [int 2; int 2] [] (Ptr 0%nat 0).
Definition bb : container := Cn K2 [int 2; int 2] [] (Ptr 1%nat 0).
Definition bc : container := Cn K2 [int 2; int 2] [] (Ptr 2%nat 0).
Definition bs1 : list bool := [false; true; true; false].
Definition bs2 : list bool := [false; true; false; true].
Definition mixed_values : list scalar :=
  [SNum (AInt I32) (NInt 0); SNum (AFloat Double) (NFloat (S754_finite false 5 (-1))); SNum (AFloat Double) (NFloat S754_nan); SNum (AInt I8) (NInt (-1))].
Definition bm : mem scalar := map (fun l => Some (map (@Some scalar) l)) [map SBool bs1; map SBool bs2; mixed_values].
Example ba_default : default_layout ba. Proof. by_default false. Qed.
Example bb_default : default_layout bb. Proof. by_default false. Qed.
Example bc_default : default_layout bc. Proof. by_default false. Qed.
Example ba_read : can_read bm ba ba. Proof. apply default_can_read; [exact ba_default|reflexivity|by_box]. Qed.
Example bb_read : can_read bm ba bb. Proof. apply default_can_read; [exact bb_default|reflexivity|by_box]. Qed.
Example bc_read : can_read bm bb bc. Proof. apply default_can_read; [exact bc_default|reflexivity|by_box]. Qed.
Example ba_write : can_write bm ba ba. Proof. apply default_can_write; [exact ba_default|reflexivity|]. apply readable_writable. by_box. Qed.
Example bb_write : can_write bm ba bb. Proof. apply default_can_write; [exact bb_default|reflexivity|]. apply readable_writable. by_box. Qed.
Example bb_write_bb : can_write bm bb bb. Proof. apply default_can_write; [exact bb_default|reflexivity|]. apply readable_writable. by_box. Qed.
Example bab_no_alias : no_alias ba ba bb. Proof. apply (other_block_no_alias ba ba bb 0 0 1 0); try reflexivity. discriminate. Qed.
Example bcb_no_alias : no_alias bb bc bb. Proof. apply (other_block_no_alias bb bc bb 2 0 1 0); try reflexivity. discriminate. Qed.
Example ba_bools : bools bm ba bs1. Proof. repeat (constructor; [reflexivity|]); constructor. Qed.
Example bb_bools : values bm ba bb (map SBool bs2). Proof. repeat (constructor; [reflexivity|]); constructor. Qed.
Example bool_sums_ex :
  (ssum TBool ba bm, ssum_from ba (SI (CI I8 5)) bm, ssum_from ba (SI (CI I8 127)) bm, bool_dot ba bb bm, bool_inner true ba bb bm,
   sdot_from ba bb (SBool false) bm, scount ba (SBool false) bm, scount ba (SI (int 2)) bm, scount ba (SI (CI U64 1)) bm)
  = (Ok (SBool true, bm), Ok (SI (CI I8 7), bm), Ok (SI (CI I8 (-127)), bm), Ok (SI (int 1), bm), Ok (SI (int 1), bm),
     Ok (SBool true, bm), Ok (2, bm), Ok (0, bm), Ok (2, bm)).
Proof. vm_compute. reflexivity. Qed.
Definition stored (c : container) (m : outcome (mem scalar)) : option (option (list (option scalar))) :=
  match m with Ok m => match c_data c with Ptr b _ => nth_error m b | Null => None end | _ => None end.
Example bool_stores_ex :
  (stored bb (sinclusive TBool ba bb (SBool false) bm), stored bb (sexclusive TBool ba bb (SBool false) bm),
   stored bb (sinclusive (TArith (AInt U8)) ba bb (SI (int 254)) bm), stored bb (scopy TBool bb bc bm),
   stored bb (siota TBool bb (SI (int (-2))) bm), stored bb (siota_step TBool bb (SBool false) (SI (int (-1))) bm),
   stored bb (siota_step TBool bb (SBool false) (SI (int 2)) bm), stored bb (sreplace TBool bb (SI (int 0)) (SI (int 7)) bm))
  = (Some (Some (map (fun b => Some (SBool b)) [false; true; true; true])), Some (Some (map (fun b => Some (SBool b)) [false; false; true; true])),
     Some (Some (map (fun z => Some (SI (CI U8 z))) [254; 255; 0; 0])), Some (Some (map (fun b => Some (SBool b)) [false; true; true; true])),
     Some (Some (map (fun b => Some (SBool b)) [true; true; false; true])), Some (Some (map (fun b => Some (SBool b)) [false; true; false; true])),
     Some (Some (map (fun b => Some (SBool b)) [false; true; true; true])), Some (Some (map (fun b => Some (SBool b)) [true; true; true; true]))).
Proof. vm_compute. reflexivity. Qed.
Example ba_all : forall is_ v, in_box (dims bb) is_ -> value bm ba is_ v -> is_bool v.
Proof.
  assert (H : forall is_, in_box [2; 2] is_ -> forall v, value bm ba is_ v -> is_bool v).
  { apply (box_forall [2; 2] (fun is_ => forall v, value bm ba is_ v -> is_bool v)); [repeat constructor; lia|]. repeat (constructor; [intros v H; unfold value in H; vm_compute in H; injection H as <-; eexists; reflexivity|]). constructor. }
  intros is_ v B. exact (H is_ B v).
Qed.
Example and_back_ex : exists m1 m2, scopy (TArith (AFloat Float)) bb ba bm = Ok m1 /\ scopy TBool bc bb m1 = Ok m2 /\
  forall is_ b, in_box (dims bb) is_ -> value bm ba is_ (SBool b) -> value m2 bc is_ (SBool b).
Proof.
  apply bools_and_back; [exact bb_write_bb| | |reflexivity|exact ba_all|].
  - apply default_can_read; [exact ba_default|reflexivity|by_box].
  - apply no_alias_cross, (other_block_no_alias bb ba bb 0 0 1 0); try reflexivity. discriminate.
  - intros m1 E. vm_compute in E. injection E as <-. split; [|split].
    + apply default_can_write; [exact bc_default|reflexivity|]. apply readable_writable. by_box.
    + apply default_can_read; [exact bb_default|reflexivity|by_box].
    + apply no_alias_cross, (other_block_no_alias bc bb bc 1 0 2 0); try reflexivity. discriminate.
Qed.
Example bool_table_ex : match stable_as TBool bm true (Some (false, [int 4])) (SPtr (Ptr 2%nat 0)) with
  | Ok (m, t) => stored t (Ok m) | _ => None end = Some (Some (map (fun b => Some (SBool b)) [false; true; true; true])).
Proof. vm_compute. reflexivity. Qed.
Example mixed_holds : holds bm (Ptr 2%nat 0) mixed_values.
Proof. intros [|[|[|[|k]]]] v H; try (destruct k; discriminate H); injection H as <-; reflexivity. Qed.

(** ** What goes wrong *)

(** reduce(in) does not count: two true elements give true, which is 1 as an integer. *)
Theorem bool_sum_counts_refuted : exists c m bs, can_read m c c /\ bools m c bs /\ trues bs = 2 /\
  ssum TBool c m = Ok (SBool true, m) /\ number_of (SBool true) = NInt 1.
Proof. exists ba, bm, bs1. split; [exact ba_read|]. split; [exact ba_bools|]. split; [vm_compute; reflexivity|]. split; vm_compute; reflexivity. Qed.
Print Assumptions bool_sum_counts_refuted.

(** A bool as init of a sum of integers: not whether one of them is nonzero, nor whether the sum is; undefined for INT_MAX
    after true. *)
Definition ic : container := Cn K1 [int 2] [] (Ptr 0%nat 0).
Definition im (x y : Z) : mem scalar := [Some [Some (SI (int x)); Some (SI (int y))]].
Example ic_default : default_layout ic. Proof. by_default false. Qed.
Theorem bool_init_refuted :
  (exists c m x y, can_read m c c /\ values m c c [SI (int x); SI (int y)] /\ x <> 0 /\ y <> 0 /\ ssum_from c (SBool false) m = Ok (SBool false, m)) /\
  (exists c m x y, can_read m c c /\ values m c c [SI (int x); SI (int y)] /\ x + y = 0 /\ ssum_from c (SBool false) m = Ok (SBool true, m)) /\
  (exists c m x y, can_read m c c /\ values m c c [SI (int x); SI (int y)] /\ in_ty I32 x /\ in_ty I32 y /\ in_ty I32 (x + y) /\ ssum_from c (SBool true) m = UB).
Proof.
  split; [|split].
  - exists ic, (im 3 (-1)), 3, (-1). split; [apply default_can_read; [exact ic_default|reflexivity|by_box]|].
    split; [repeat (constructor; [reflexivity|]); constructor|]. split; [lia|]. split; [lia|]. vm_compute. reflexivity.
  - exists ic, (im (-3) 3), (-3), 3. split; [apply default_can_read; [exact ic_default|reflexivity|by_box]|].
    split; [repeat (constructor; [reflexivity|]); constructor|]. split; [lia|]. vm_compute. reflexivity.
  - exists ic, (im 0 2147483647), 0, 2147483647. split; [apply default_can_read; [exact ic_default|reflexivity|by_box]|].
    split; [repeat (constructor; [reflexivity|]); constructor|]. split; [unfold in_ty; cbn; lia|]. split; [unfold in_ty; cbn; lia|].
    split; [unfold in_ty; cbn; lia|]. vm_compute. reflexivity.
Qed.
Print Assumptions bool_init_refuted.

(** count(in, true) of integers is not the number of elements that are true as bools. *)
Theorem count_true_refuted : exists c m, can_read m c c /\ values m c c [SI (int 2); SI (int 1)] /\
  scount c (SBool true) m = Ok (1, m) /\ count_if c truth m = Ok (2, m).
Proof.
  exists ic, (im 2 1). split; [apply default_can_read; [exact ic_default|reflexivity|by_box]|].
  split; [repeat (constructor; [reflexivity|]); constructor|]. split; vm_compute; reflexivity.
Qed.
Print Assumptions count_true_refuted.

(** iota(out, true, INT_MAX) is undefined. *)
Theorem bool_iota_step_refuted : exists out m, can_write m out out /\ siota_step TBool out (SBool true) (SI (int 2147483647)) m = UB.
Proof. exists ba, bm. split; [exact ba_write|]. vm_compute. reflexivity. Qed.
Print Assumptions bool_iota_step_refuted.
