(** Extents of user types: the customisation points kwk::as_dimension (include/kwk/utility/traits/as_dimension.hpp
    16-33, 66) and kwk::to_descriptor (utility/traits/to_descriptor.hpp 16-32, 69), called through
    utility/invoke/tag_invoke.hpp 23-33, 48 and utility/invoke/protocol.hpp 71-80, 110-117, in the constructors of
    detail/sequence/prefilled.hpp 84-153 and in of_size and with_strides (utility/container/shape.hpp 330-353,
    stride.hpp 151-166). *)
From Coq Require Import ZArith String List Bool.
From Verif Require Import Outcome CInt Prefilled NamedSize.
Import ListNotations.
Open Scope Z_scope.

(** What a program says about a type [X] of its own:
    - is it convertible to std::size_t (concepts/extent.hpp 35; without that it is no extent);
    - what its tag_invoke for kwk::tags::to_descriptor returns for X{}, if it has one: an axis or none, and a
      content (kwk::_, as<T> or a number);
    - its tag_invoke for kwk::tags::as_dimension, if it has one, given the object and the default value;
    - its comparison with the number of a compile-time axis, if it has one (through its own == or its conversion)
      and can be inserted into a stream.
    tag_invoke is looked up by argument dependent lookup: the user's function is found if there is one, and
    kwk::tags::tag_invoke (protocol.hpp 73-79) forwards to as_dimension_ and to_descriptor_, of which no overload
    takes an [X] (no integer, constant, axis, option or joker). Types that are one of these as well are not
    modelled. *)
Record custom (X : Type) := Custom
{ x_size : bool
; x_desc : option (option axis_id * content)
; x_dim  : option (X -> cint -> cint)
; x_eq   : option (X -> cint -> bool)
}.
Arguments Custom {X} _ _ _ _.
Arguments x_size {X} _.
Arguments x_desc {X} _.
Arguments x_dim {X} _.
Arguments x_eq {X} _.

(** A value given for an axis: one of the library's, or an object of the type. *)
Inductive xextent (X : Type) := Std (e : extent) | Own (x : X).
Arguments Std {X} _.
Arguments Own {X} _.

Section Extents.
Context {X : Type} (c : custom X).

(** as_dimension(v, def), as_dimension.hpp 20-31: the deleted overload 29-31 is UB. *)
Definition xdimension (v : xextent X) (def : cint) : outcome cint :=
  match v with
  | Std e => Ok (as_dimension e def)
  | Own x => match x_dim c with Some f => Ok (f x def) | None => UB end
  end.

(** (v == _) || v == __get<I>(), prefilled.hpp 92: kwk::_ is equal to no object (utility/joker.hpp 25). *)
Definition xagrees (v : xextent X) (g : cint) : outcome bool :=
  match v with
  | Std e => Ok (if ext_is_joker e then true else ext_eqb e g)
  | Own x => match x_eq c with Some q => Ok (q x g) | None => UB end
  end.

(** Body of __construct for one axis, prefilled.hpp 84-98 and 110-125. *)
Definition xconstruct_axis (dbg : bool) (def : cint) (i : nat) (v : xextent X) (p : prefilled) : outcome prefilled :=
  b <- pcontains (pdesc p) i ;;
  if b then d <- xdimension v def ;; pset p i d
  else _ <- kassert dbg (g <- pget p i ;; xagrees v g) ;; Ok p.

Fixpoint xconstruct_from (dbg : bool) (def : cint) (i : nat) (vs : list (xextent X)) (p : prefilled)
  : outcome prefilled :=
  match vs with
  | [] => Ok p
  | v :: vs' => p' <- xconstruct_axis dbg def i v p ;; xconstruct_from dbg def (S i) vs' p'
  end.

(** Does the body compile for that axis: an object given for a run-time axis needs as_dimension; one given for a
    compile-time axis is only looked at by the assertion (detail/assert.hpp: nothing without assertions). *)
Definition xcompiles (dbg : bool) (d : desc) (v : xextent X) : bool :=
  match v with
  | Std _ => true
  | Own _ => if is_dynamic d then match x_dim c with Some _ => true | None => false end
             else negb dbg || match x_eq c with Some _ => true | None => false end
  end.
Definition is_own (v : xextent X) : bool := match v with Own _ => true | Std _ => false end.

(** Positional constructors, prefilled.hpp 132-146; UB: does not compile (the concept numeric_extent, too many
    values, or the body). *)
Definition xconstruct (dbg : bool) (ds : list desc) (def : cint) (vs : list (xextent X)) : outcome prefilled :=
  let ws := repeat (Std (EInt (int 1))) (length ds - length vs) ++ vs in
  if (length vs <=? length ds)%nat && (x_size c || negb (existsb is_own vs)) &&
     forallb (fun p => xcompiles dbg (fst p) (snd p)) (combine ds ws)
  then xconstruct_from dbg def 0 ws (pdefault ds)
  else UB.

(** Named constructor, prefilled.hpp 103-129, 148-153: the value of an option need not be convertible to size_t
    (concepts/extent.hpp 27); nothing is looked at when all axes are compile-time ones. *)
Definition xnamed_compiles (dbg : bool) (ds : list desc) (o : axis_id * xextent X) : bool :=
  match nth_error ds (find_axis ds (fst o)) with Some d => xcompiles dbg d (snd o) | None => false end.
Definition xconstruct_named (dbg : bool) (ds : list desc) (def : cint) (os : list (axis_id * xextent X))
  : outcome prefilled :=
  if is_fully_static ds then Ok (pdefault ds)
  else if forallb (xnamed_compiles dbg ds) os
       then kfold_right (fun p o => xconstruct_axis dbg def (find_axis (pdesc p) (fst o)) (snd o) p) os (pdefault ds)
       else UB.

(** to_descriptor(T{}), to_descriptor.hpp 20-31, 74-89: the object of which the descriptor is asked is the
    value-initialised one. *)
Definition xdescriptor (v : xextent X) : option (option axis_id * content) :=
  match v with
  | Std e => Some (None, to_descriptor e)
  | Own _ => x_desc c
  end.
Fixpoint xdescriptors (vs : list (xextent X)) : option (list (option axis_id * content)) :=
  match vs with
  | [] => Some []
  | v :: vs' => match xdescriptor v, xdescriptors vs' with
                | Some d, Some ds => Some (d :: ds)
                | _, _ => None
                end
  end.

(** shape{d...} and stride{d...} without options; shape.hpp 330-342 with 172-174, stride.hpp 104-106, 151-166. *)
Definition xbuild (dbg : bool) (def : cint) (vs : list (xextent X)) : outcome prefilled :=
  match xdescriptors vs with
  | Some l => xconstruct dbg (normalize l) def vs
  | None => UB
  end.
Definition xof_size (dbg : bool) (vs : list (xextent X)) : outcome prefilled := xbuild dbg (int 0) vs.
Definition xwith_strides (dbg : bool) (vs : list (xextent X)) : outcome prefilled := xbuild dbg (int 1) vs.

(** force_type<T>, detail/sequence/helpers.hpp 91-111: other types are returned as they are; of_size<T>,
    shape.hpp 349-353. *)
Definition xforce_type (t : ity) (v : xextent X) : xextent X :=
  match v with Std e => Std (force_type t e) | Own x => Own x end.
Definition xof_size_as (dbg : bool) (t : ity) (vs : list (xextent X)) : outcome prefilled :=
  xof_size dbg (map (xforce_type t) vs).

(** to_descriptor_ of an option, to_descriptor.hpp 91-106: for a value that is neither a joker, nor an integer, nor
    a constant no branch returns a value, so that shape{axis = x} and of_size(axis = x) do not compile. *)
Definition xoption_descriptor (key : content) (v : xextent X) : option content :=
  match v with
  | Std e => Some (arg_content (ANamed (AIdx 0) key e))
  | Own _ => None
  end.
Fixpoint xnamed_descriptors (os : list (axis_id * content * xextent X)) : option (list (option axis_id * content)) :=
  match os with
  | [] => Some []
  | (a, k, v) :: os' => match xoption_descriptor k v, xnamed_descriptors os' with
                        | Some d, Some ds => Some ((Some a, d) :: ds)
                        | _, _ => None
                        end
  end.
Definition xof_size_named (dbg : bool) (os : list (axis_id * content * xextent X)) : outcome prefilled :=
  match xnamed_descriptors os with
  | Some l => xconstruct_named dbg (normalize l) (int 0) (map (fun o => (fst (fst o), snd o)) os)
  | None => UB
  end.
End Extents.
