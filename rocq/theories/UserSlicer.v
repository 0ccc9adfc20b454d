(** Slicers of types of the user: classes with some of the members reindex, reshape and restride
    (include/kwk/utility/slicer.hpp 178-247, include/kwk/concepts/slicer.hpp 16-51,
    include/kwk/utility/traits/reachable.hpp 15-39; test/unit/utility/slicer/api.cpp 10-33 has one). *)
From Coq Require Import ZArith List Bool.
From Verif Require Import Outcome CInt Shape EndRatio Memory Container Slicer.
Import ListNotations.
Open Scope Z_scope.

(** A type of the user and an object of it. The members get the shape (or strides) whose axes are already merged to
    the number of slicers, and the number of the axis; they are functions without effects that end and return integers
    known at run time (simplified: they may return constants in C++, except reindex). [u_convertible]:
    convertible to std::ptrdiff_t. [u_has_step]: the static member has_step, if there is one; [u_interval]: there is a
    type kwk_is_interval. The type is no joker, no [end] expression and no integer. *)
Record user := {
  u_index : option (shape -> nat -> cint);
  u_convertible : bool;
  u_count : option (shape -> nat -> cint);
  u_stride : option (stride -> nat -> cint);
  u_has_step : option bool;
  u_interval : bool
}.
Inductive xslc := Lib (sl : slc) | User (u : user).

(** reindex, slicer.hpp 181-204. Of the overloads with a template parameter for the slicer, one needs the member, the
    other that the slicer converts to std::ptrdiff_t, in which case it is returned as it is: linear_index does not take
    it (linear_index.hpp 29). Neither is more constrained than the other: with both the call is ambiguous. *)
Definition xreindex (c : shape) (k : nat) (sl : xslc) : outcome cint :=
  match sl with
  | Lib sl => match nth_error c k with Some n => reindex1 n sl | None => UB end
  | User u => match u_index u, u_convertible u with
              | Some f, false => Ok (f c k)
              | _, _ => UB
              end
  end.

(** reshape, slicer.hpp 209-220. *)
Definition xreshape (c : shape) (k : nat) (sl : xslc) : outcome cint :=
  match sl with
  | Lib sl => match nth_error c k with Some n => reshape1 n sl | None => UB end
  | User u => Ok (match u_count u with Some f => f c k | None => int 1 end)
  end.

(** restride, slicer.hpp 225-230. *)
Definition xrestride (st : stride) (k : nat) (sl : xslc) : outcome cint :=
  match sl with
  | Lib sl => match nth_error st k with Some d => restride1 d sl | None => UB end
  | User u => match u_stride u with
              | Some f => Ok (f st k)
              | None => match nth_error st k with Some d => Ok d | None => UB end
              end
  end.

(** kumi::map_index over the slicers. *)
Fixpoint map_index {X Y} (f : nat -> X -> outcome Y) (k : nat) (l : list X) : outcome (list Y) :=
  match l with
  | [] => Ok []
  | x :: l => y <- f k x ;; ys <- map_index f (S k) l ;; Ok (y :: ys)
  end.

(** origin, slicer.hpp 236-247. *)
Definition xconst_index (sl : xslc) : bool := match sl with Lib sl => const_index sl | User _ => false end.
Definition xorigin (dbg : bool) (s : shape) (sls : list xslc) : outcome cint :=
  c <- compress (length sls) s ;;
  if existsb xconst_index sls then UB
  else
    is_ <- map_index (xreindex c) 0 sls ;;
    linear_index dbg c is_.

(** shape::operator()(slice...), shape.hpp 305-315; stride::operator()(slice...), stride.hpp 139-148. *)
Definition xslice_shape (s : shape) (sls : list xslc) : outcome shape :=
  c <- compress (length sls) s ;; map_index (xreshape c) 0 sls.
Definition xslice_stride (st : stride) (sls : list xslc) : outcome stride := map_index (xrestride st) 0 sls.

(** container::operator()(slice...), container.hpp 140-151. *)
Definition xindex (sl : xslc) : bool := match sl with Lib sl => is_index sl | User _ => false end.
Definition xslice_container (dbg st_shape st_stride : bool) (c : container) (sls : list xslc) : outcome container :=
  if forallb xindex sls then UB
  else
    st <- get_stride c ;;
    o <- xorigin dbg (c_shape c) sls ;;
    sh <- xslice_shape (c_shape c) sls ;;
    st' <- xslice_stride (compress_stride (length sls) st) sls ;;
    make_view st_shape st_stride sh (Some st') (padd (c_data c) (cast I64 (cval o))).

(** is_contiguous (concepts/slicer.hpp 16-21) of a type of the user: what has_step says, false without it. *)
Definition xunit (sl : xslc) : bool :=
  match sl with
  | Lib sl => unit_slicer sl
  | User u => match u_has_step u with Some b => negb b | None => false end
  end.
Definition xunit_interval (sl : xslc) : bool :=
  match sl with Lib sl => unit_interval sl | User u => u_interval u && xunit (User u) end.

(** preserve_reachability, reachable.hpp 15-39. *)
Fixpoint xpreserve (sls : list xslc) : bool :=
  match sls with
  | [s] => xunit s
  | [Lib SAll; Lib SAll] => true
  | [Lib (SIdx _); s] | [Lib (SEnd _); s] => xunit s
  | [s; Lib SAll] => xunit_interval s
  | s :: t :: u :: rest => xunit s && xunit t && xunit u && xpreserve rest
  | _ => false
  end.
