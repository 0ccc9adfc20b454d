(** Property C80: containers built from options. *)
From Coq Require Import ZArith List Bool Lia Permutation String.
From Verif Require Import Outcome CInt CIntFacts Spec SpecFacts ShapeSpec Shape ShapeFacts ShapeFacts2 Literals
  Memory MemFacts Container ContainerSpec Source SourceSpec Label Mixed Convert ConvertSpec Settings SettingsSpec SettingsFacts.
Import ListNotations.
Open Scope Z_scope.

Theorem options_in_any_order : forall m dbg o o', distinct o -> Permutation o o' ->
  build_view dbg o = build_view dbg o' /\ build_table m dbg o = build_table m dbg o'.
Proof. exact (fun m dbg o o' D P => conj (build_view_order dbg o o' D P) (build_table_order m dbg o o' D P)). Qed.
Print Assumptions options_in_any_order.

Theorem view_from_options : forall dbg o t s st sh, distinct o -> In (OSource t s) o -> real_source s -> no_type o -> size_is o st sh ->
  legal sh -> sh <> [] ->
  exists b, build_view dbg o = Ok b /\ b_type b = t /\ c_shape (b_cont b) = sh /\ c_data (b_cont b) = storage s /\ b_block b = Shallow /\
    described o b /\ (no_strides o -> default_layout (b_cont b)).
Proof. exact view_options_l. Qed.
Print Assumptions view_from_options.

Theorem view_without_source_has_no_elements : forall dbg o t st sh, distinct o -> In (OType t) o -> no_source o -> size_is o st sh ->
  legal sh -> sh <> [] ->
  exists b, build_view dbg o = Ok b /\ b_type b = t /\ c_shape (b_cont b) = sh /\ described o b /\
    forall T (m : mem T) is_ v, get m (b_cont b) is_ <> Ok v.
Proof. exact view_null_l. Qed.
Print Assumptions view_without_source_has_no_elements.

Theorem view_needs_source_or_type : forall dbg o, distinct o ->
  (forall t t' s, In (OType t) o -> In (OSource t' s) o -> build_view dbg o = UB) /\
  (no_type o -> no_source o -> build_view dbg o = UB).
Proof. exact (fun dbg o D => conj (fun t t' s => view_both_l dbg o t t' s D) (view_neither_l dbg o)). Qed.
Print Assumptions view_needs_source_or_type.

Theorem table_from_options : forall m dbg o t s st sh vs, distinct o -> In (OSource t s) o -> real_source s -> no_type o -> size_is o st sh ->
  legal sh -> sh <> [] -> holds m (storage s) vs -> prod (vals sh) <= Z.of_nat (List.length vs) ->
  exists m' b, build_table m dbg o = Ok (m', b) /\ b_type b = t /\ c_shape (b_cont b) = sh /\ block_is o st (b_block b) /\ described o b /\
    holds m' (c_data (b_cont b)) (firstn (Z.to_nat (prod (vals sh))) vs) /\ extends m m' /\
    (forall k, ~ valid m (padd (c_data (b_cont b)) k)) /\ (no_strides o -> default_layout (b_cont b)).
Proof. exact table_source_l. Qed.
Print Assumptions table_from_options.

Theorem table_from_options_typed : forall m dbg o to t s st sh vs, distinct o -> In (OType to) o -> In (OSource t s) o -> real_source s ->
  size_is o st sh -> legal sh -> sh <> [] -> holds m (storage s) vs -> prod (vals sh) <= Z.of_nat (List.length vs) ->
  Forall (convertible to) (firstn (Z.to_nat (prod (vals sh))) vs) ->
  exists m' b ws, build_table m dbg o = Ok (m', b) /\ b_type b = to /\ c_shape (b_cont b) = sh /\ block_is o st (b_block b) /\ described o b /\
    holds m' (c_data (b_cont b)) ws /\ Forall2 (converted to) (firstn (Z.to_nat (prod (vals sh))) vs) ws /\ extends m m' /\
    (forall k, ~ valid m (padd (c_data (b_cont b)) k)) /\ (no_strides o -> default_layout (b_cont b)).
Proof. exact table_typed_l. Qed.
Print Assumptions table_from_options_typed.

Theorem table_from_options_blank : forall m dbg o t st sh, distinct o -> In (OType t) o -> no_source o -> size_is o st sh -> legal sh -> sh <> [] ->
  exists m' b, build_table m dbg o = Ok (m', b) /\ b_type b = t /\ c_shape (b_cont b) = sh /\ block_is o st (b_block b) /\ described o b /\
    extends m m' /\ (forall k, 0 <= k < prod (vals sh) -> cell m' (padd (c_data (b_cont b)) k) = Some None) /\
    (forall k, ~ valid m (padd (c_data (b_cont b)) k)) /\ (no_strides o -> default_layout (b_cont b)).
Proof. exact table_blank_l. Qed.
Print Assumptions table_from_options_blank.

Theorem other_options_are_neutral : forall m dbg x o, about_elements x = false ->
  (b <- build_view dbg (x :: o) ;; Ok (b_type b, b_cont b)) = (b <- build_view dbg o ;; Ok (b_type b, b_cont b)) /\
  (' (m', b) <- build_table m dbg (x :: o) ;; Ok (m', b_type b, b_cont b)) =
  (' (m', b) <- build_table m dbg o ;; Ok (m', b_type b, b_cont b)).
Proof. exact (fun m dbg x o N => conj (view_neutral_l dbg x o N) (table_neutral_l m dbg x o N)). Qed.
Print Assumptions other_options_are_neutral.

(** The default strides are computed, and may overflow, even if others are given. *)
Theorem strides_do_not_avoid_overflow : forall dbg o st sd a b c, distinct o -> (forall t s, In (OSource t s) o -> real_source s) ->
  In (OStrides st sd) o -> In (OSize false [int a; int b; int c]) o ->
  0 < b <= 2147483647 -> 0 < c <= 2147483647 -> 2147483647 < b * c -> build_view dbg o = UB.
Proof. exact strides_overflow_l. Qed.
Print Assumptions strides_do_not_avoid_overflow.

Theorem merged_options : forall a b, distinct a -> distinct b -> distinct (merge a b) /\
  forall x, In x (merge a b) <-> In x a \/ (In x b /\ forall y, In y a -> keyword y <> keyword x).
Proof. exact (fun a b A B => conj (merge_distinct a b A B) (merge_in a b)). Qed.
Print Assumptions merged_options.

(** What the properties about particular calls (C26, C55, C68, C73) say holds for any order of the options. *)
Theorem known_calls_are_built : forall m dbg t to st st' lab l c sh s given, real_source s ->
  let sz := match given with Some (b, x) => [OSize b x] | None => [] end in
  relabel st (L lab c) l = (b <- build_view dbg (merge [OLabel l] (settings_of t st c)) ;; Ok (L (b_label b) (b_cont b))) /\
  reshape_view st' c sh = (b <- build_view dbg (merge [OSize st' sh] (settings_of t st c)) ;; Ok (b_cont b)) /\
  view_of st c = (b <- build_view dbg (settings_of t st c) ;; Ok (b_cont b)) /\
  table_of m st c = (' (m', b) <- build_table m dbg (settings_of t st c) ;; Ok (m', b_cont b)) /\
  view_on dbg given s = (b <- build_view dbg (OSource t s :: sz) ;; Ok (b_cont b)) /\
  table_as to m dbg given s = (' (m', b) <- build_table m dbg (OType to :: OSource t s :: sz) ;; Ok (m', b_cont b)).
Proof.
  exact (fun m dbg t to st st' lab l c sh s given R =>
    conj (relabel_built_l dbg t st lab c l) (conj (reshape_built_l dbg t st st' c sh) (conj (view_of_built_l dbg t st c)
    (conj (table_of_built_l m dbg t st c) (conj (view_on_built_l dbg t s given R) (table_as_built_l m dbg to t s given R)))))).
Qed.
Print Assumptions known_calls_are_built.

(** Instances. *)
Definition i32 : atype := AInt I32.
Definition om : mem number := [Some (map Some (map NInt [1; 2; 3; 4; 5; 6]))].
Definition o1 : options :=
  [OSource i32 (SRange (Ptr 0 0) 6); OSize false [int 2; int 3]; OLabel (Literal, "a"%string); OAlloc 3; OUnreachable].
Definition o2 : options := [OUnreachable; OAlloc 3; OLabel (Literal, "a"%string); OSize false [int 2; int 3]; OSource i32 (SRange (Ptr 0 0) 6)].
Example o1_distinct : distinct o1 /\ Permutation o1 o2 /\ no_type o1 /\ no_strides o1 /\ size_is o1 false [int 2; int 3].
Proof.
  split; [repeat constructor; cbn; intuition discriminate|]. split; [exact (Permutation_rev o1)|].
  split; [intros t H; cbn in H; intuition discriminate|]. split; [intros t s H; cbn in H; intuition discriminate|].
  apply size_given. cbn. auto.
Qed.
Example o1_view : build_view true o2 = Ok (Built i32 (Some (Literal, "a"%string)) false Shallow (Cn K2 [int 2; int 3] [] (Ptr 0 0))).
Proof. vm_compute. reflexivity. Qed.
Example o1_table : build_table om true o2 =
  Ok (om ++ [Some (map Some (map NInt [1; 2; 3; 4; 5; 6]))],
      Built i32 (Some (Literal, "a"%string)) false (Heap 3) (Cn K2 [int 2; int 3] [] (Ptr 1 0))).
Proof. vm_compute. reflexivity. Qed.
Example o1_legal : legal [int 2; int 3] /\ holds om (Ptr 0 0) (map NInt [1; 2; 3; 4; 5; 6]) /\ prod (vals [int 2; int 3]) = 6.
Proof.
  split; [by_check|]. split; [|reflexivity]. intros k v. do 6 (destruct k as [|k]; [cbn; intros E; injection E as <-; reflexivity|]).
  destruct k; discriminate.
Qed.
Example sized_by_source : size_is [OSource i32 (SRange (Ptr 0 0) 6)] false [CI U64 6] /\
  build_view true [OSource i32 (SRange (Ptr 0 0) 6)] = Ok (Built i32 None true Shallow (Cn K1 [CI U64 6] [] (Ptr 0 0))).
Proof. split; [eapply size_of_range; [intros st sh [H|[]]; discriminate|left; reflexivity]|vm_compute; reflexivity]. Qed.
Example blank_ex : build_table om true [OSize true [int 2]; OAlloc 3; OType (AInt U8)] =
  Ok (om ++ [Some [None; None]], Built (AInt U8) None true Stack (Cn KStatic [int 2] [int 1] (Ptr 1 0))).
Proof. vm_compute. reflexivity. Qed.
Example null_ex : build_view true [OSize false [int 2]; OType (AInt U8)] = Ok (Built (AInt U8) None true Shallow (Cn K1 [int 2] [] Null)).
Proof. vm_compute. reflexivity. Qed.
Example typed_ex : build_table om true [OType (AInt U8); OSource i32 (SPtr (Ptr 0 4)); OStrides false [int 0]; OSize false [int 2]] =
  Ok (om ++ [Some (map Some (map NInt [5; 6]))], Built (AInt U8) None true (Heap 0) (Cn K1S [int 2] [int 0] (Ptr 1 0))).
Proof. vm_compute. reflexivity. Qed.
(** One element seen as 1 x 65536 x 65536 elements. *)
Example overflow_ex : build_view true [OSource i32 (SPtr (Ptr 0 0)); OSize false [int 1; int 65536; int 65536]; OStrides false [int 0; int 0; int 0]] = UB.
Proof.
  apply (strides_overflow_l _ _ false [int 0; int 0; int 0] 1 65536 65536); try lia.
  - repeat constructor; cbn; intuition discriminate.
  - intros t s H. cbn in H. destruct H as [H|H]; [injection H as <- <-; constructor|intuition discriminate].
  - cbn. auto.
  - cbn. auto.
Qed.
