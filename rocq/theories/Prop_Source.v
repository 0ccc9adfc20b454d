(** Property C55: containers built on a data source, and default-constructed containers. *)
From Coq Require Import ZArith List Bool Lia.
From Verif Require Import Outcome CInt CIntFacts Spec SpecFacts ShapeSpec Shape ShapeFacts ShapeFacts2 Prefilled Literals
  LiteralsSpec LiteralsFacts Memory MemFacts Container ContainerSpec ContainerFacts ContainerFacts3 AlgoSpec Source SourceSpec
  SourceFacts.
Import ListNotations.
Open Scope Z_scope.

(** A view on a range without a size option has one axis, of the length of the range, and its elements
    are those of the range. *)
Theorem view_on_range : forall dbg p n, 0 <= n <= 2147483647 ->
  exists v, view_on dbg None (SRange p n) = Ok v /\ dims v = [n] /\ default_layout v /\
    forall k, 0 <= k < n -> elem v [k] = padd p k.
Proof. exact range_view_l. Qed.
Print Assumptions view_on_range.

(** A view on a C array has the extents of the array and its elements are those of the array. *)
Theorem view_on_c_array : forall dbg p a, only_c a -> a <> Elem -> fine_extents a ->
  posprod (extents a) <= 2147483647 ->
  exists v, view_on dbg None (SArray p a) = Ok v /\ dims v = extents a /\
    forall is_, wfs is_ -> in_box (extents a) (vals is_) ->
      address v is_ = Ok (padd p (mem_offset a (vals is_))).
Proof. exact carray_view_l. Qed.
Print Assumptions view_on_c_array.

(** A table takes the first elements of its source, in order. *)
Theorem table_from_range : forall (T : Type) (m : mem T) dbg p vs, holds m p vs ->
  Z.of_nat (length vs) <= 2147483647 ->
  exists m' t, table_from m dbg None (SRange p (Z.of_nat (length vs))) = Ok (m', t) /\ default_layout t /\
    dims t = [Z.of_nat (length vs)] /\ values m' t t vs /\ extends m m'.
Proof. exact @range_table_l. Qed.
Print Assumptions table_from_range.

Theorem table_from_sized_source : forall (T : Type) (m : mem T) dbg st sh s vs, legal sh -> sh <> [] ->
  holds m (storage s) vs -> prod (vals sh) <= Z.of_nat (length vs) ->
  exists m' t, table_from m dbg (Some (st, sh)) s = Ok (m', t) /\ default_layout t /\ c_shape t = sh /\
    values m' t t (firstn (Z.to_nat (prod (vals sh))) vs) /\ extends m m' /\
    forall is_, in_box (vals sh) is_ -> ~ valid m (elem t is_).
Proof. exact @table_sized_l. Qed.
Print Assumptions table_from_sized_source.

(** The length of the source is never checked. *)
Theorem table_overruns_short_source : forall (T : Type) (m : mem T) dbg st sh s k, legal sh -> sh <> [] ->
  known m (storage s) -> 0 <= k < prod (vals sh) -> peek m (padd (storage s) k) = None ->
  table_from m dbg (Some (st, sh)) s = UB.
Proof. exact @table_overrun_l. Qed.
Print Assumptions table_overruns_short_source.

(** Ranges of 2^31 elements and more: the number of elements is wrong, and a table of 2^32 elements and
    more is allocated too small. *)
Theorem view_on_long_range : forall dbg p n, 2147483648 <= n < 18446744073709551616 ->
  exists v r, view_on dbg None (SRange p n) = Ok v /\ c_size v = Ok (CI U64 n) /\ c_numel v = Ok r /\
    cval r <> n /\ cval r = cast I32 n.
Proof. exact range_too_long_l. Qed.
Print Assumptions view_on_long_range.

Theorem table_from_long_range_too_small : forall (T : Type) (m : mem T) dbg p n,
  4294967296 <= n < 18446744073709551616 -> n mod 4294967296 < 2147483648 ->
  (forall k, 0 <= k < n -> exists v, peek m (padd p k) = Some v) ->
  exists m' t i, table_from m dbg None (SRange p n) = Ok (m', t) /\ c_size t = Ok (CI U64 n) /\
    wfc i /\ 0 <= cval i < n /\ get m' t [i] = UB.
Proof. exact @long_range_table_l. Qed.
Print Assumptions table_from_long_range_too_small.

(** A pointer without a size gives empty containers. *)
Theorem pointer_source_is_empty : forall (T : Type) (m : mem T) dbg p,
  (exists v, view_on dbg None (SPtr p) = Ok v /\ dims v = [0] /\ c_empty v = Ok true) /\
  (exists t, table_from m dbg None (SPtr p) = Ok (m, t) /\ dims t = [0] /\ c_empty t = Ok true).
Proof. exact @ptr_default_l. Qed.
Print Assumptions pointer_source_is_empty.

(** Default-constructed containers: empty as soon as one extent is a run-time one; otherwise a view
    without data, or a table of elements that are not initialised. *)
Theorem default_container_is_empty : forall (T : Type) (m : mem T) ds sh, to_values (pdefault ds) = Ok sh ->
  legal sh -> sh <> [] -> is_fully_static ds = false ->
  exists c, default_view ds = Ok c /\ default_table m ds = Ok (m, c) /\ c_shape c = sh /\
    c_data c = Null /\ c_empty c = Ok true /\ forall is_, ~ in_box (dims c) is_.
Proof. exact @default_empty_l. Qed.
Print Assumptions default_container_is_empty.

Theorem default_static_view_dangles : forall (T : Type) (m : mem T) ds sh, to_values (pdefault ds) = Ok sh ->
  legal sh -> sh <> [] -> is_fully_static ds = true ->
  exists c, default_view ds = Ok c /\ default_layout c /\ c_shape c = sh /\
    forall is_, coord_of c is_ -> get m c is_ = UB.
Proof. exact @default_static_view_l. Qed.
Print Assumptions default_static_view_dangles.

Theorem default_static_table_uninitialised : forall (T : Type) (m : mem T) ds sh,
  to_values (pdefault ds) = Ok sh -> legal sh -> sh <> [] -> is_fully_static ds = true ->
  exists m' c, default_table m ds = Ok (m', c) /\ default_layout c /\ c_shape c = sh /\ extends m m' /\
    writable m' c /\ (forall is_, in_box (dims c) is_ -> ~ valid m (elem c is_)) /\
    forall is_, coord_of c is_ -> get m' c is_ = UB.
Proof. exact @default_static_table_l. Qed.
Print Assumptions default_static_table_uninitialised.

(** Instances. *)
Definition src6 : mem Z := [Some (map Some [10; 20; 30; 40; 50; 60])].

Example source_holds : holds src6 (Ptr 0 0) [10; 20; 30; 40; 50; 60].
Proof. intros k v H. do 6 (destruct k as [|k]; [injection H as <-; reflexivity|]). destruct k; discriminate. Qed.

Example source_runs :
  (exists m t, table_from src6 true None (SRange (Ptr 0 0) 6) = Ok (m, t) /\ get m t [int 4] = Ok 50) /\
  (exists m t, table_from src6 true (Some (false, [int 2; int 2])) (SRange (Ptr 0 0) 6) = Ok (m, t) /\
     get m t [int 1; int 0] = Ok 30) /\
  table_from src6 true (Some (false, [int 2; int 4])) (SRange (Ptr 0 0) 6) = UB /\
  table_from src6 true (Some (true, [int 7])) (SPtr (Ptr 0 0)) = UB.
Proof.
  split; [do 2 eexists; split; reflexivity|]. split; [do 2 eexists; split; reflexivity|].
  split; reflexivity.
Qed.

Example short_source : legal [int 2; int 4] /\ known src6 (Ptr 0 0) /\ peek src6 (padd (Ptr 0 0) 6) = None.
Proof. split; [by_check|]. split; [simpl; lia|reflexivity]. Qed.

(** T[2][3]. *)
Example c_array_source : let a := CArray (CArray Elem 3) 2 in
  only_c a /\ fine_extents a /\ posprod (extents a) <= 2147483647 /\
  exists v, view_on true None (SArray (Ptr 0 0) a) = Ok v /\ dims v = [2; 3] /\ get src6 v [int 1; int 0] = Ok 40.
Proof.
  split; [exact I|]. split; [repeat constructor; unfold bad_width; lia|]. split; [vm_compute; discriminate|].
  eexists. split; [reflexivity|]. split; reflexivity.
Qed.

(** A source of 2^32+1 elements: the table holds one. *)
Example long_source : let n := 4294967297 in let m := [Some (repeat (Some 7) (Z.to_nat n))] in
  n mod 4294967296 < 2147483648 /\ forall k, 0 <= k < n -> exists v, peek m (padd (Ptr 0 0) k) = Some v.
Proof.
  intros n m. split; [reflexivity|]. intros k Hk. exists 7. unfold peek, cell, padd, m. cbn [nth_error].
  destruct (Z.leb_spec 0 (0 + k)); [|lia]. rewrite nth_error_repeat by (apply Z2Nat.inj_lt; lia). reflexivity.
Qed.

(** shape of a static 3 and a run-time int, and of static 2 and 3. *)
Example default_types : let ds := normalize [(None, CStatic (int 3)); (None, CJoker)] in
  let fs := normalize [(None, CStatic (int 2)); (None, CStatic (int 3))] in
  is_fully_static ds = false /\ to_values (pdefault ds) = Ok [int 3; int 0] /\ legal [int 3; int 0] /\
  is_fully_static fs = true /\ to_values (pdefault fs) = Ok [int 2; int 3] /\ legal [int 2; int 3] /\
  exists m c, default_table src6 fs = Ok (m, c) /\ dims c = [2; 3] /\ get m c [int 1; int 1] = UB /\
    exists m', put m c [int 1; int 1] 5 = Ok m' /\ get m' c [int 1; int 1] = Ok 5.
Proof.
  split; [reflexivity|]. split; [reflexivity|]. split; [by_check|]. split; [reflexivity|]. split; [reflexivity|].
  split; [by_check|]. do 2 eexists. split; [reflexivity|]. split; [reflexivity|]. split; [reflexivity|].
  eexists. split; reflexivity.
Qed.
