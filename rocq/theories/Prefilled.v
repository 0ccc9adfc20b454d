(** kwk::__::prefilled: mixed compile-time / run-time storage of extents
    (include/kwk/detail/sequence/prefilled.hpp), the base of kwk::shape and kwk::stride. *)
From Coq Require Import ZArith String List Bool.
From Verif Require Import Outcome CInt Shape.
Import ListNotations.
Open Scope Z_scope.

(** ** Descriptors *)

(** axis_<ID,...>::identifier, include/kwk/settings/axis.hpp 24-33: an integer or a string. *)
Inductive axis_id := AIdx (z : Z) | AName (s : string).

Definition axis_id_eqb (a b : axis_id) : bool :=
  match a, b with
  | AIdx x, AIdx y => x =? y
  | AName s, AName t => String.eqb s t
  | _, _ => false
  end.

(** Content of an axis (settings/axis.hpp 24-34, 106): joker, kwk::as<T> (run-time), or an integral
    compile-time value. *)
Inductive content :=
| CJoker
| CType (t : ity)
| CStatic (c : cint).

Record desc := { aid : axis_id; acont : content }.

(** axis_::is_dynamic, axis.hpp 34: content is not integral. *)
Definition is_dynamic (d : desc) : bool :=
  match acont d with CStatic _ => false | _ => true end.

(** implicit<N> = axis_<-N-1>, axis.hpp 119-120. *)
Definition implicit (n : Z) : axis_id := AIdx (- n - 1).

(** stored_t, detail/sequence/helpers.hpp 116-120: joker is stored as std::int32_t. *)
Definition stored_t (c : content) : ity :=
  match c with CJoker => I32 | CType t => t | CStatic c => cty c end.

(** normalize_extents, helpers.hpp 64-85: extents that are not axes become implicit<size-1-I>. *)
Fixpoint normalize_from (i sz : Z) (l : list (option axis_id * content)) : list desc :=
  match l with
  | [] => []
  | (o, c) :: l' =>
      {| aid := match o with Some a => a | None => implicit (sz - 1 - i) end; acont := c |}
      :: normalize_from (i + 1) sz l'
  end.
Definition normalize (l : list (option axis_id * content)) : list desc :=
  normalize_from 0 (Z.of_nat (length l)) l.

(** ** map_descriptor, helpers.hpp 23-59 *)
Record mapping := { count : Z; curr : Z; index : list Z; stored : list nat }.

(** One step of [check]: index[pos] = -1 for a compile-time extent, otherwise
    stored[stored_pos++] = pos, index[pos] = curr++, count++. Arrays are lists filled from the left;
    pos is the length of [index]. *)
Definition map_step (m : mapping) (d : desc) : mapping :=
  if is_dynamic d
  then {| count := count m + 1; curr := curr m + 1;
          index := index m ++ [curr m]; stored := stored m ++ [length (index m)] |}
  else {| count := count m; curr := curr m; index := index m ++ [-1]; stored := stored m |}.

Definition map_descriptor (ds : list desc) : mapping :=
  fold_left map_step ds {| count := 0; curr := 0; index := []; stored := [] |}.

(** ** Storage and access *)
Record prefilled := { pdesc : list desc; pstore : list cint }.

(** prefilled_base::make_storage, prefilled.hpp 32-46: one value-initialised slot per run-time axis,
    of the type of the axis at stored[N]; [None] (a stored position without axis) cannot occur. *)
Definition make_storage (ds : list desc) : list cint :=
  map (fun p => match nth_error ds p with
                | Some d => CI (stored_t (acont d)) 0
                | None => CI I32 0
                end) (stored (map_descriptor ds)).

(** prefilled::contains(i), prefilled.hpp 74: setup.index[i] != -1. Reading past the array is [UB]. *)
Definition pcontains (ds : list desc) (i : nat) : outcome bool :=
  match nth_error (index (map_descriptor ds)) i with
  | Some k => Ok (negb (k =? -1))
  | None => UB
  end.

(** prefilled::__get<N>, prefilled.hpp 214-240. *)
Definition pget (p : prefilled) (n : nat) : outcome cint :=
  match nth_error (pdesc p) n, nth_error (index (map_descriptor (pdesc p))) n with
  | Some d, Some k =>
      if k =? -1
      then match acont d with CStatic c => Ok c | _ => UB end
      else match nth_error (pstore p) (Z.to_nat k) with Some v => Ok v | None => UB end
  | _, _ => UB
  end.

Fixpoint replace_nth {A} (n : nat) (x : A) (l : list A) : list A :=
  match l, n with
  | [], _ => []
  | _ :: l', O => x :: l'
  | y :: l', S n' => y :: replace_nth n' x l'
  end.

(** __get<N>() = v: conversion to the type of the slot. Assigning to a compile-time axis does not
    compile: [UB]. *)
Definition pset (p : prefilled) (n : nat) (v : cint) : outcome prefilled :=
  match nth_error (index (map_descriptor (pdesc p))) n with
  | Some k =>
      if k =? -1 then UB
      else match nth_error (pstore p) (Z.to_nat k) with
           | Some old =>
               Ok {| pdesc := pdesc p;
                     pstore := replace_nth (Z.to_nat k) (conv (cty old) v) (pstore p) |}
           | None => UB
           end
  | None => UB
  end.

(** static_size, dynamic_size, is_fully_static, is_fully_dynamic: prefilled.hpp 28-30, 65-68. *)
Definition static_size (ds : list desc) : nat := length ds.
Definition dynamic_size (ds : list desc) : Z := count (map_descriptor ds).
Definition is_fully_static (ds : list desc) : bool := dynamic_size ds =? 0.
Definition is_fully_dynamic (ds : list desc) : bool := dynamic_size ds =? Z.of_nat (length ds).

(** kumi::to_tuple: all values in axis order; this is the [shape] of Shape.v. *)
Definition to_values (p : prefilled) : outcome shape :=
  mapM (pget p) (seq 0 (length (pdesc p))).

(** ** Construction *)

(** A value given for an axis: joker, run-time integer, compile-time constant. Axes and
    kwk::as<T> used as values are not modelled. *)
Inductive extent := EJoker | EInt (c : cint) | EConst (c : cint).

(** as_dimension, include/kwk/utility/traits/as_dimension.hpp 71-91. *)
Definition as_dimension (e : extent) (def : cint) : cint :=
  match e with EJoker => def | EInt c => c | EConst c => c end.

(** v == _ and v == __get<I>(): utility/joker.hpp 23-25. *)
Definition ext_is_joker (e : extent) : bool := match e with EJoker => true | _ => false end.
Definition ext_eqb (e : extent) (c : cint) : bool :=
  match e with EJoker => false | EInt v => ceqb v c | EConst v => ceqb v c end.

(** Default constructor, prefilled.hpp 77. *)
Definition pdefault (ds : list desc) : prefilled := {| pdesc := ds; pstore := make_storage ds |}.

(** Body of the positional __construct for axis [i], prefilled.hpp 84-98. *)
Definition construct_axis (dbg : bool) (def : cint) (i : nat) (v : extent) (p : prefilled)
  : outcome prefilled :=
  b <- pcontains (pdesc p) i ;;
  if b then pset p i (as_dimension v def)
  else
    _ <- kassert dbg (if ext_is_joker v then Ok true
                      else g <- pget p i ;; Ok (ext_eqb v g)) ;;
    Ok p.

Fixpoint construct_from (dbg : bool) (def : cint) (i : nat) (vs : list extent) (p : prefilled)
  : outcome prefilled :=
  match vs with
  | [] => Ok p
  | v :: vs' => p' <- construct_axis dbg def i v p ;; construct_from dbg def (S i) vs' p'
  end.

(** Positional constructors, prefilled.hpp 132-137 (as many values as axes) and 139-146 (fewer: the
    missing outer values are the run-time int 1). More values do not compile. *)
Definition pconstruct (dbg : bool) (ds : list desc) (def : cint) (vs : list extent)
  : outcome prefilled :=
  if (length vs <=? length ds)%nat
  then construct_from dbg def 0 (repeat (EInt (int 1)) (length ds - length vs) ++ vs) (pdefault ds)
  else UB.

(** __find_axis, prefilled.hpp 313-317: first descriptor of the same kind, or the size. *)
Definition find_axis (ds : list desc) (a : axis_id) : nat :=
  locate (fun d => axis_id_eqb (aid d) a) ds.

(** Named access, prefilled.hpp 319-331. *)
Definition pget_axis (p : prefilled) (a : axis_id) : outcome cint := pget p (find_axis (pdesc p) a).

(** Body of the named __construct for one option, prefilled.hpp 110-125. *)
Definition construct_named_one (dbg : bool) (def : cint) (p : prefilled) (o : axis_id * extent)
  : outcome prefilled := construct_axis dbg def (find_axis (pdesc p) (fst o)) (snd o) p.

(** Named __construct, prefilled.hpp 103-129 with the constructor 148-153: does nothing when fully
    static. *)
Definition pconstruct_named (dbg : bool) (ds : list desc) (def : cint) (os : list (axis_id * extent))
  : outcome prefilled :=
  if is_fully_static ds then Ok (pdefault ds)
  else kfold_right (construct_named_one dbg def) os (pdefault ds).

(** Constructor from another prefilled of the same size, prefilled.hpp 188-204. *)
Fixpoint convert_from (dbg : bool) (i : nat) (vs : list cint) (p : prefilled) : outcome prefilled :=
  match vs with
  | [] => Ok p
  | v :: vs' =>
      b <- pcontains (pdesc p) i ;;
      p' <- (if b then pset p i v
             else _ <- kassert dbg (g <- pget p i ;; Ok (ceqb v g)) ;; Ok p) ;;
      convert_from dbg (S i) vs' p'
  end.
Definition pconvert (dbg : bool) (ds : list desc) (src : prefilled) : outcome prefilled :=
  if (length (pdesc src) =? length ds)%nat
  then vs <- to_values src ;; convert_from dbg 0 vs (pdefault ds)
  else UB.

(** Run-time access operator[](i), prefilled.hpp 272-310 (const and non-const): after the two
    assertions it indexes the storage with the axis number itself. The precondition that all slots
    have the same type (static_assert 275) is not checked here. [i] is the size_t value. *)
Definition pindex (dbg : bool) (p : prefilled) (i : nat) : outcome cint :=
  if is_fully_static (pdesc p) then UB (* does not compile *)
  else
    _ <- kassert dbg (Ok (i <? length (pdesc p))%nat) ;;
    _ <- kassert dbg (pcontains (pdesc p) i) ;;
    match pstore p with
    | [x] => Ok x
    | l => match nth_error l i with Some x => Ok x | None => UB end
    end.

(** ** Shape construction *)

(** to_descriptor, include/kwk/utility/traits/to_descriptor.hpp 74-89. *)
Definition to_descriptor (e : extent) : content :=
  match e with EJoker => CJoker | EInt c => CType (cty c) | EConst c => CStatic c end.

(** of_size(d...), utility/container/shape.hpp 338-342: shape<to_descriptor(D)...>{d...}; shapes are
    constructed with default value 0 (shape.hpp 172-174). *)
Definition of_size (dbg : bool) (es : list extent) : outcome prefilled :=
  pconstruct dbg (normalize (map (fun e => (None, to_descriptor e)) es)) (int 0) es.

(** force_type<T>, helpers.hpp 91-111, and of_size<T>(d...), shape.hpp 349-353. *)
Definition force_type (t : ity) (e : extent) : extent :=
  match e with
  | EInt c => EInt (conv t c)
  | EConst c => EConst (conv t c)
  | EJoker => EInt (CI t 0)
  end.
Definition of_size_as (dbg : bool) (t : ity) (es : list extent) : outcome prefilled :=
  of_size dbg (map (force_type t) es).

(** largest_type, utility/fixed.hpp 47-56: sizeof(T0)<sizeof(T1) ? T1 : T0, from the left. *)
Definition larger (t u : ity) : ity := if width t <? width u then u else t.
Definition largest_type (ts : list ity) : ity :=
  match ts with [] => I32 | t :: ts' => fold_left larger ts' t end.

(** as_array, prefilled.hpp 357-366. *)
Definition as_array (p : prefilled) : outcome (list cint) :=
  vs <- to_values p ;; Ok (map (conv (largest_type (map cty vs))) vs).

(** ** Checks between two shapes *)

(** __checker, prefilled.hpp 412-418. *)
Definition checker (e f : desc) (def acc : bool) : bool :=
  match acont e, acont f with
  | CStatic x, CStatic y => acc && ceqb x y
  | CStatic _, _ => def
  | _, _ => acc
  end.

(** is_equivalent, prefilled.hpp 369-374 and axis.hpp 45. *)
Fixpoint is_equivalent (a b : list desc) : bool :=
  match a, b with
  | [], [] => true
  | x :: a', y :: b' => axis_id_eqb (aid x) (aid y) && is_equivalent a' b'
  | _, _ => false
  end.

(** is_compatible, prefilled.hpp 377-393: fold_left of __checker(e,f,acc,acc) over the zipped
    descriptors. *)
Definition is_compatible (a b : list desc) : bool :=
  if (length a =? length b)%nat
  then fold_right (fun ef acc => checker (fst ef) (snd ef) acc acc) true (combine a b)
  else false.

(** is_similar, prefilled.hpp 395-410: __checker(e,f,false,acc). *)
Definition is_similar (a b : list desc) : bool :=
  if (length a =? length b)%nat
  then fold_right (fun ef acc => checker (fst ef) (snd ef) false acc) true (combine a b)
  else false.

(** is_contructible_from<Dst,Src>, detail/sequence/shape_constraints.hpp 27-42; split<N> keeps the
    last N descriptors (prefilled.hpp 348-354). *)
Definition is_contructible_from (dst src : list desc) : bool :=
  if (length dst =? length src)%nat then is_equivalent dst src && is_compatible dst src
  else if (length src <? length dst)%nat
       then let d := skipn (length dst - length src) dst in is_equivalent d src && is_compatible d src
       else is_fully_dynamic dst.

(** basic_shape_checks::construct, shape_constraints.hpp 44-67: same order: member-wise conversion;
    larger order: Dst{1...,d...}; smaller order: dst = compress<N>(src), the assignment of a shape of the same
    order (shape.hpp 209-215), which compiles if the axes of dst are those of the compressed shape: the implicit
    ones, of_size being given values only (382-394). As the requires clause wants dst without compile-time
    extents, nothing else is compared. The values of the compressed shape are given to the conversion
    directly. *)
Definition implicit_axes (n : nat) : list axis_id :=
  map aid (normalize (repeat (None, CJoker) n)).
Fixpoint same_axes (a b : list axis_id) : bool :=
  match a, b with
  | [], [] => true
  | x :: a', y :: b' => axis_id_eqb x y && same_axes a' b'
  | _, _ => false
  end.
Definition shape_construct (dbg : bool) (dst : list desc) (src : prefilled) : outcome prefilled :=
  let n := length dst in
  let m := length (pdesc src) in
  if (n =? m)%nat then pconvert dbg dst src
  else if (m <? n)%nat
       then vs <- to_values src ;;
            pconstruct dbg dst (int 0) (repeat (EInt (int 1)) (n - m) ++ map EInt vs)
       else if same_axes (map aid dst) (implicit_axes n)
            then vs <- to_values src ;; cs <- compress n vs ;; convert_from dbg 0 cs (pdefault dst)
            else UB.

(** The constructor from another shape and the assignment, shape.hpp 187-199, 209-215: the call does not compile
    unless the requires clause holds. *)
Definition shape_convert (dbg : bool) (dst : list desc) (src : prefilled) : outcome prefilled :=
  if is_contructible_from dst (pdesc src) then shape_construct dbg dst src else UB.

(** fit_constraints(self, other), shape_constraints.hpp 69-84. *)
Fixpoint fit_axes (ods : list desc) (ovs svs : list cint) : bool :=
  match ods, ovs, svs with
  | d :: ods', o :: ovs', s :: svs' =>
      (is_dynamic d || ceqb o s) && fit_axes ods' ovs' svs'
  | _, _, _ => true
  end.
Definition fit_constraints (self other : prefilled) : outcome bool :=
  if is_fully_dynamic (pdesc other) then Ok true
  else if negb (length (pdesc other) =? length (pdesc self))%nat then Ok false
  else if is_fully_static (pdesc other) && is_fully_static (pdesc self)
       then Ok (is_compatible (pdesc other) (pdesc self))
       else ovs <- to_values other ;; svs <- to_values self ;;
            Ok (fit_axes (pdesc other) ovs svs).

(** duplicate_axis, prefilled.hpp 445-451 with all_unique, include/kwk/detail/traits.hpp 25-45 (two
    axes are duplicates when they have the same kind). *)
Fixpoint has_duplicate (ds : list desc) : bool :=
  match ds with
  | [] => false
  | d :: ds' => existsb (fun e => axis_id_eqb (aid d) (aid e)) ds' || has_duplicate ds'
  end.
