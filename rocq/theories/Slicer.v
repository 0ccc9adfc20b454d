(** Slicers: what each slicer does to an axis, and the slicing of containers. *)
From Coq Require Import ZArith List Bool.
From Verif Require Import Outcome CInt Shape EndRatio Memory Container.
Import ListNotations.
Open Scope Z_scope.

(** A bound or a length of a slice: an integer (of any type, static or not) or an [end] expression
    (include/kwk/utility/end.hpp). Slicing a container when the first index on an axis is static does not compile,
    see [origin]; which ones are static is in SliceKinds.v, here they are taken to be run-time ones. *)
Inductive bound := BInt (c : cint) | BEnd (e : eexpr).

(** What may be given to operator() to slice a container: the joker [_], an [end] expression, an integer,
    an integral constant (fixed<i>; a class type convertible to an integer), or a slicer object
    (include/kwk/utility/slicer.hpp 50-64) whose members are absent when they are the joker. *)
Inductive slc :=
| SAll
| SEnd (e : eexpr)
| SIdx (i : cint)
| SConst (i : cint)
| SSlice (begin : option bound) (step : option cint) (stop : option bound) (len : option bound).

(** fix_extremum, slicer.hpp 88-93: the value of a bound on an axis of size [count]. *)
Definition fix_extremum (count : cint) (b : option bound) (def : cint) : outcome cint :=
  match b with
  | Some (BEnd e) => end_value e count
  | Some (BInt c) => Ok c
  | None => Ok def
  end.

(** reindex, slicer.hpp 66-80 (slicers) and 181-204 (others): first index selected on an axis of size
    [count]. *)
Definition reindex1 (count : cint) (sl : slc) : outcome cint :=
  match sl with
  | SAll => Ok (int 0)
  | SEnd e => end_value e count
  | SIdx i | SConst i => Ok i
  | SSlice (Some b) _ _ _ => fix_extremum count (Some b) (int 0)
  | SSlice None (Some s) _ _ =>
      if clt (int 0) s then Ok (conv (common I32 (cty count)) (int 0)) else csub count (int 1)
  | SSlice None None _ _ => Ok (int 0)
  end.

(** The lambda [fix] of slicer.hpp 103: (v % w != 0) + v / w, with w the absolute value of n. The
    conditional expression n<0 ? -n : n has the promoted type of n. *)
Definition fix_count (v n : cint) : outcome cint :=
  w <- (if clt n (int 0) then cneg n else Ok (conv (promote (cty n)) n)) ;;
  r <- cmod v w ;;
  q <- cdiv v w ;;
  cadd (int (if ceqb r (int 0) then 0 else 1)) q.

(** The lambda [eval] of slicer.hpp 101-109. When both operands are static constants the same value is
    computed at compile time (a compile-time division by zero does not compile; it is [UB] here). *)
Definition eval_count (s b : cint) : outcome cint :=
  if ceqb s (int 0) then Ok (conv (common I32 (common (cty s) (cty b))) (int 0)) else fix_count s b.

(** reshape, slicer.hpp 82-131 (slicers) and 209-220 (others): number of indexes selected. 1_c is a
    std::uint8_t constant. *)
Definition reshape1 (count : cint) (sl : slc) : outcome cint :=
  match sl with
  | SAll => Ok count
  | SEnd _ | SIdx _ | SConst _ => Ok (int 1)
  | SSlice _ _ _ (Some l) => fix_extremum count (Some l) count
  | SSlice None s None None => eval_count count (match s with Some s => s | None => int 1 end)
  | SSlice bg s en None =>
      b <- fix_extremum count bg (int 0) ;;
      e <- fix_extremum count en count ;;
      match s with
      | Some s =>
          let t := common I32 (common (common (cty e) (cty b)) (cty s)) in
          if cle (int 0) s then d <- csub e b ;; x <- eval_count d s ;; Ok (conv t x)
          else d <- cadd b (CI U8 1) ;; x <- eval_count d s ;; Ok (conv t x)
      | None => d <- csub e b ;; eval_count d (int 1)
      end
  end.

(** restride, slicer.hpp 133-144 and 225-230: the new stride of an axis of stride [original]. *)
Definition restride1 (original : cint) (sl : slc) : outcome cint :=
  match sl with
  | SSlice _ (Some s) _ _ => cmul s original
  | _ => Ok original
  end.

(** A function of an axis and its slicer, on all axes (kumi::map_index). *)
Fixpoint mapM2 {A B C} (f : A -> B -> outcome C) (l : list A) (m : list B) : outcome (list C) :=
  match l, m with
  | [], [] => Ok []
  | a :: l, b :: m => x <- f a b ;; xs <- mapM2 f l m ;; Ok (x :: xs)
  | _, _ => UB
  end.

(** origin(shape, slice...), slicer.hpp 236-247, with the assertion of linear_index. linear_index takes indexes of
    integral types only (include/kwk/utility/linear_index.hpp 29-30), and reindex leaves an integral constant as it is
    (slicer.hpp 200-204): with one the call does not compile. *)
Definition const_index (sl : slc) : bool := match sl with SConst _ => true | _ => false end.
Definition origin (dbg : bool) (s : shape) (sls : list slc) : outcome cint :=
  c <- compress (length sls) s ;;
  if existsb const_index sls then UB
  else
    is_ <- mapM2 reindex1 c sls ;;
    linear_index dbg c is_.

(** shape::operator()(slice...), include/kwk/utility/container/shape.hpp 305-315. The extents keep the
    types computed by reshape (utility/traits/to_descriptor.hpp 74-80). *)
Definition slice_shape (s : shape) (sls : list slc) : outcome shape :=
  c <- compress (length sls) s ;; mapM2 reshape1 c sls.

(** stride::operator()(slice...), include/kwk/utility/container/stride.hpp 139-148, on strides already
    reduced to the number of slicers. *)
Definition slice_stride (st : stride) (sls : list slc) : outcome stride := mapM2 restride1 st sls.

(** container::operator()(slice...), include/kwk/container/container.hpp 140-151: a view of the sliced
    shape and strides on the data moved by origin. [st_shape], [st_stride]: what is sliced out is known
    at compile time. Not all the slicers may be of integral types (142): that is the access to an element if there is
    an index for every axis (container.hpp 128-138), and does not compile otherwise. *)
Definition is_index (sl : slc) : bool := match sl with SIdx _ => true | _ => false end.
Definition slice_container (dbg st_shape st_stride : bool) (c : container) (sls : list slc)
  : outcome container :=
  if forallb is_index sls then UB
  else
    st <- get_stride c ;;
    o <- origin dbg (c_shape c) sls ;;
    sh <- slice_shape (c_shape c) sls ;;
    st' <- slice_stride (compress_stride (length sls) st) sls ;;
    make_view st_shape st_stride sh (Some st') (padd (c_data c) (cast I64 (cval o))).

(** The slice constructors, slicer.hpp 252-272. *)
Definition between (b : cint) (e : bound) : slc := SSlice (Some (BInt b)) None (Some e) None.
Definition at_ (i : cint) : slc := SSlice (Some (BInt i)) None (Some (BInt i)) None.
Definition every (s : cint) : slc := SSlice None (Some s) None None.
Definition first (n : cint) : slc := SSlice None None None (Some (BInt n)).
Definition drop_first (n : cint) : slc := SSlice (Some (BInt n)) None None None.
Definition last (n : cint) : slc := SSlice (Some (BEnd (ESub EEnd n))) None None (Some (BInt n)).
Definition drop_last (n : cint) : slc := SSlice None None (Some (BEnd (ESub EEnd n))) None.

(** Slicers by kind, include/kwk/concepts/slicer.hpp 16-51: unit_slicer (joker, [end] expression,
    std::integral, slicer without step) and unit_interval_slicer (slicer without step). The concept slicer looks at
    the result of origin: asking for an integral constant does not compile, which is false here. *)
Definition unit_interval (sl : slc) : bool :=
  match sl with SSlice _ None _ _ => true | _ => false end.
Definition unit_slicer (sl : slc) : bool :=
  match sl with SAll | SEnd _ | SIdx _ => true | SConst _ => false | _ => unit_interval sl end.

(** preserve_reachability, include/kwk/utility/traits/reachable.hpp 15-39. *)
Fixpoint preserve_reachability (sls : list slc) : bool :=
  match sls with
  | [s] => unit_slicer s
  | [SAll; SAll] => true
  | [SIdx _; s] | [SEnd _; s] => unit_slicer s
  | [s; SAll] => unit_interval s
  | s :: t :: u :: rest => unit_slicer s && unit_slicer t && unit_slicer u && preserve_reachability rest
  | _ => false
  end.
