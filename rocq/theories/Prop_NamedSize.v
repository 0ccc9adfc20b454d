(** C57: sizes given with named axes. *)
From Coq Require Import ZArith String List Bool Permutation.
From Verif Require Import Outcome CInt Prefilled PrefilledSpec NamedSize NamedSizeSpec NamedSizeFacts.
Import ListNotations.
Open Scope Z_scope.
Open Scope string_scope.

Theorem named_sizes_read_back : forall dbg l es, Forall2 given_size l es -> NoDup (names l) ->
  exists p, of_size_args dbg l = Ok p /\ wfp p /\ to_values p = Ok (map size_of es) /\
    forall a c e, In (ANamed a c e) l -> pget_axis p a = Ok (size_of e).
Proof.
  intros dbg l es HG HN. destruct (of_size_args_l dbg l es HG HN) as (p & E & W & _ & V & R).
  exact (ex_intro _ p (conj E (conj W (conj V R)))).
Qed.
Print Assumptions named_sizes_read_back.

Theorem named_sizes_any_order : forall dbg l l', Permutation l l' ->
  Forall (fun a => exists e, given_size a e) l -> NoDup (names l) ->
  exists p p', of_size_args dbg l = Ok p /\ of_size_args dbg l' = Ok p' /\
    forall a, In a (names l) -> exists v, pget_axis p a = Ok v /\ pget_axis p' a = Ok v.
Proof. exact of_size_any_order_l. Qed.
Print Assumptions named_sizes_any_order.

Definition ex_sizes := [APos (EInt (int 7)); ANamed (AName "height") CJoker (EConst (int 3));
                        ANamed (AName "width") CJoker (EInt (CI U8 5))].
Definition ex_swapped := [ANamed (AName "width") CJoker (EInt (CI U8 5)); APos (EInt (int 7));
                          ANamed (AName "height") CJoker (EConst (int 3))].

Example named_sizes_ex :
  Forall2 given_size ex_sizes [EInt (int 7); EConst (int 3); EInt (CI U8 5)] /\
  NoDup (names ex_sizes) /\ Permutation ex_sizes ex_swapped /\
  (exists p, of_size_args true ex_sizes = Ok p /\ to_values p = Ok [int 7; int 3; CI U8 5] /\
             pget_axis p (AName "width") = Ok (CI U8 5)) /\
  (exists p, of_size_args true ex_swapped = Ok p /\ to_values p = Ok [CI U8 5; int 7; int 3] /\
             pget_axis p (AName "width") = Ok (CI U8 5)).
Proof.
  split; [repeat constructor; cbv; discriminate|].
  split; [repeat constructor; cbn; intuition discriminate|].
  split; [apply Permutation_sym, (Permutation_middle [APos (EInt (int 7)); ANamed (AName "height") CJoker (EConst (int 3))] [])|].
  split; (eexists; split; [reflexivity|split; reflexivity]).
Qed.

(** An axis given without [=]: its size is 0, also when it is written with a number. *)
Theorem bare_axis_size_is_zero : forall dbg l, existsb is_named l = false -> NoDup (names l) ->
  Forall user_axis (names l) ->
  exists p, of_size_args dbg l = Ok p /\ wfp p /\
    forall a c, In (AAxis a c) l -> exists t, pget_axis p a = Ok (CI t 0) /\
      t = match c with CJoker => I32 | CType t => t | CStatic v => cty v end.
Proof. exact bare_axis_l. Qed.
Print Assumptions bare_axis_size_is_zero.

Example bare_axis_ex :
  let l := [AAxis (AName "height") (CType U16); AAxis (AName "width") (CStatic (int 5))] in
  existsb is_named l = false /\ NoDup (names l) /\ Forall user_axis (names l) /\
  exists p, of_size_args true l = Ok p /\ to_values p = Ok [CI U16 0; int 0].
Proof.
  split; [reflexivity|]. split; [repeat constructor; cbn; intuition discriminate|].
  split; [repeat constructor|]. eexists. split; reflexivity.
Qed.

(** Constants given to axes written with a type: the constant is converted to that type, unnoticed. *)
Theorem typed_axis_converts_constant : forall dbg (l : list (axis_id * content * cint)),
  NoDup (map (fun x => fst (fst x)) l) -> Forall user_axis (map (fun x => fst (fst x)) l) -> l <> [] ->
  exists p, of_size_args dbg (map (fun x => ANamed (fst (fst x)) (snd (fst x)) (EConst (snd x))) l) = Ok p /\
    forall a c v, In (a, c, v) l ->
      pget_axis p a = Ok match c with CJoker => v | CType t => conv t v | CStatic w => conv (cty w) v end.
Proof. exact static_named_l. Qed.
Print Assumptions typed_axis_converts_constant.

Theorem typed_axis_constant_changes_refuted :
  exists a t v p w, wfc v /\ of_size_args true [ANamed a (CType t) (EConst v)] = Ok p /\
    pget_axis p a = Ok w /\ cval w <> cval v.
Proof.
  exists (AName "width"), I8, (int 300). do 2 eexists. split; [split; cbv; discriminate|].
  split; [reflexivity|]. split; [reflexivity|cbv; discriminate].
Qed.
Print Assumptions typed_axis_constant_changes_refuted.

(** [width[5] = _] is a compile-time extent of 0. *)
Theorem numbered_axis_joker_is_zero_refuted :
  exists a v p w, of_size_args true [ANamed a (CStatic v) EJoker] = Ok p /\
    pget_axis p a = Ok w /\ cval w = 0 /\ cval v = 5.
Proof.
  exists (AName "width"), (int 5). do 2 eexists. split; [reflexivity|]. split; [reflexivity|split; reflexivity].
Qed.
Print Assumptions numbered_axis_joker_is_zero_refuted.

(** An axis without value next to an option does not compile. *)
Theorem bare_axis_with_options_rejected : forall dbg l a c x d e,
  In (AAxis a c) l -> In (ANamed x d e) l -> of_size_args dbg l = UB.
Proof. exact bare_axis_with_options_l. Qed.
Print Assumptions bare_axis_with_options_rejected.
Example bare_axis_with_option_ex :
  of_size_args true [AAxis (AName "width") CJoker; ANamed (AName "height") CJoker (EInt (int 2))] = UB.
Proof. reflexivity. Qed.

(** A run-time number for an axis written with a type or a number does not compile, whatever else is given. *)
Theorem typed_axis_rejects_number : forall dbg l a c v,
  In (ANamed a c (EInt v)) l -> c <> CJoker -> of_size_args dbg l = UB.
Proof. exact typed_axis_number_l. Qed.
Print Assumptions typed_axis_rejects_number.

Definition ex_numbered (c : content) := [ANamed (AName "height") c (EInt (int 7)); APos (EConst (int 2))].
Example typed_axis_number_ex :
  List.In (ANamed (AName "height") (CType U8) (EInt (int 7))) (ex_numbered (CType U8)) /\
  exists p, of_size_args true (ex_numbered CJoker) = Ok p /\ to_values p = Ok [int 7; int 2].
Proof. split; [left; reflexivity|]. eexists. split; reflexivity. Qed.

Example typed_axis_ex :
  let l := [(AName "height", CType U8, int 200); (AName "width", CJoker, int 5)] in
  NoDup (map (fun x => fst (fst x)) l) /\ Forall user_axis (map (fun x => fst (fst x)) l) /\
  exists p, of_size_args true (map (fun x => ANamed (fst (fst x)) (snd (fst x)) (EConst (snd x))) l) = Ok p /\
    to_values p = Ok [CI U8 200; int 5].
Proof.
  split; [repeat constructor; cbn; intuition discriminate|]. split; [repeat constructor|].
  eexists. split; reflexivity.
Qed.

(** of_size(d...) and of_size<T>(d...): every extent with its own type, or as a T; jokers are 0. *)
Theorem sizes_keep_types : forall dbg es, Forall wf_extent es ->
  exists p, of_size dbg es = Ok p /\ wfp p /\ to_values p = Ok (map size_of es) /\
    map is_dynamic (pdesc p) = map (fun e => match e with EConst _ => false | _ => true end) es.
Proof. exact sized_l. Qed.
Print Assumptions sizes_keep_types.

Theorem sizes_of_one_type : forall dbg t es,
  exists p, of_size_as dbg t es = Ok p /\ wfp p /\ to_values p = Ok (map (fun e => conv t (size_of e)) es) /\
    map is_dynamic (pdesc p) = map (fun e => match e with EConst _ => false | _ => true end) es.
Proof. exact sized_as_l. Qed.
Print Assumptions sizes_of_one_type.

Example sizes_types_ex : let es := [EInt (CI U8 200); EJoker; EConst (CI I64 3)] in Forall wf_extent es /\
  (exists p, of_size true es = Ok p /\ to_values p = Ok [CI U8 200; int 0; CI I64 3]) /\
  (exists p, of_size_as true U16 es = Ok p /\ to_values p = Ok [CI U16 200; CI U16 0; CI U16 3]) /\
  (exists p, of_size_as true I8 es = Ok p /\ to_values p = Ok [CI I8 (-56); CI I8 0; CI I8 3]).
Proof.
  split; [repeat constructor; cbv; discriminate|]. split; [eexists; split; reflexivity|]. split; eexists; split; reflexivity.
Qed.
