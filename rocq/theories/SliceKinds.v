(** What is known at compile time about a slice: slicers, shapes and strides with the kinds of their integers. *)
From Coq Require Import ZArith List Bool.
From Verif Require Import Outcome CInt Shape Prefilled NamedSize NamedStride EndRatio Memory Container Slicer SliceText Names.
Import ListNotations.
Open Scope Z_scope.

(** What may be given to operator() to slice, as [slc], with the kinds of the integers: an index is an integer or a
    constant. *)
Inductive kslc := KAll | KEnd (e : texpr) | KIdx (i : knum) | KSl (s : tslicer).
Definition plain_slc (sl : kslc) : slc :=
  match sl with
  | KAll => SAll
  | KEnd e => SEnd (plain e)
  | KIdx i => if is_fixed i then SConst (nint i) else SIdx (nint i)
  | KSl s => plain_slicer s
  end.

(** end_t::size(n), include/kwk/utility/end.hpp 49. *)
Definition ksize (t : tend) (n : knum) : outcome knum :=
  x <- nop cmul n (t_fac t) ;; y <- nop cadd x (t_off t) ;; nop cdiv y (t_div t).

(** fix_extremum, include/kwk/utility/slicer.hpp 88-93. *)
Definition kfix (count : knum) (b : option tbound) (def : knum) : outcome knum :=
  match b with
  | Some (TEnd e) => t <- tbuild e ;; ksize t count
  | Some (TInt a) => Ok a
  | None => Ok def
  end.

(** eval, slicer.hpp 101-109: a constant when both arguments are; in that case an undefined division does not
    compile, it is [UB] as at run time. *)
Definition keval (s b : knum) : outcome knum :=
  c <- eval_count (nint s) (nint b) ;; Ok (Nm (is_fixed s && is_fixed b) c).

(** An expression on constants is evaluated when the function is compiled, whether it is reached or not. *)
Definition compiled {A} (fixed : bool) (r : outcome A) : outcome unit :=
  if fixed then _ <- r ;; Ok tt else Ok tt.

(** (s>=0) ? eval(e-b, s) : eval(b+1_c, s), slicer.hpp 120. Two constants that are not the same constant are of
    different types: the conditional expression converts them to integers. *)
Definition same_constant (a b : knum) : bool :=
  is_fixed a && is_fixed b && ity_eqb (cty (nint a)) (cty (nint b)) && (cval (nint a) =? cval (nint b)).
Definition kchoose (b e s : knum) : outcome knum :=
  let one := Nm true (CI U8 1) in
  let up := d <- nop csub e b ;; keval d s in
  let down := d <- nop cadd b one ;; keval d s in
  let eb := is_fixed e && is_fixed b in
  _ <- compiled eb (csub (nint e) (nint b)) ;;
  _ <- compiled (is_fixed b) (cadd (nint b) (CI U8 1)) ;;
  _ <- compiled (eb && is_fixed s) up ;;
  _ <- compiled (is_fixed b && is_fixed s) down ;;
  let t := common I32 (common (common (cty (nint e)) (cty (nint b))) (cty (nint s))) in
  x <- (if cle (int 0) (nint s) then up else down) ;;
  if eb && is_fixed s then u <- up ;; v <- down ;; Ok (Nm (same_constant u v) (conv t (nint x)))
  else Ok (Nm false (conv t (nint x))).

(** reshape, slicer.hpp 82-131 and 209-220. *)
Definition kreshape1 (count : knum) (sl : kslc) : outcome knum :=
  match sl with
  | KAll => Ok count
  | KEnd _ | KIdx _ => Ok (Nm true (int 1))
  | KSl s =>
      match ts_len s, ts_begin s, ts_stop s with
      | Some l, _, _ => kfix count (Some l) count
      | None, None, None => keval count (factor s)
      | None, bg, en =>
          b <- kfix count bg (Nm true (int 0)) ;;
          e <- kfix count en count ;;
          match ts_step s with
          | Some st => kchoose b e st
          | None => d <- nop csub e b ;; keval d (Nm true (int 1))
          end
      end
  end.

(** reindex, slicer.hpp 66-80 and 181-204. Without a first bound it is 0 or step > 0 ? 0 : count - 1, an integer
    whatever the kinds of step and count: count - 1 is one, as 1 is. *)
Definition kreindex1 (count : knum) (sl : kslc) : outcome knum :=
  match sl with
  | KAll => Ok (Nm false (int 0))
  | KEnd e => t <- tbuild e ;; ksize t count
  | KIdx i => Ok i
  | KSl s =>
      match ts_begin s with
      | Some b => kfix count (Some b) count
      | None => c <- reindex1 (nint count) (plain_slc sl) ;; Ok (Nm false c)
      end
  end.

(** restride, slicer.hpp 133-144 and 225-230. *)
Definition krestride1 (original : knum) (sl : kslc) : outcome knum :=
  match sl with
  | KSl s => match ts_step s with Some k => nop cmul k original | None => Ok original end
  | _ => Ok original
  end.

(** get<N>(shape) as an integer or a constant ([pextent]), and back. *)
Definition knum_of (e : extent) : outcome knum :=
  match e with EInt v => Ok (Nm false v) | EConst v => Ok (Nm true v) | _ => UB end.
Definition extent_of (k : knum) : extent := if is_fixed k then EConst (nint k) else EInt (nint k).
Definition pnums (p : prefilled) : outcome (list knum) :=
  es <- mapM (pextent p) (seq 0 (length (pdesc p))) ;; mapM knum_of es.

(** shape::operator()(slice...), include/kwk/utility/container/shape.hpp 305-315. *)
Definition pslice_shape (dbg : bool) (p : prefilled) (sls : list kslc) : outcome prefilled :=
  c <- pcompress dbg (length sls) p ;;
  ns <- pnums c ;;
  rs <- mapM2 kreshape1 ns sls ;;
  of_size_args dbg (map (fun k => APos (extent_of k)) rs).

(** stride::operator()(slice...), include/kwk/utility/container/stride.hpp 139-148, after
    compress<sizeof...(slice)>(stride), container.hpp 145. *)
Definition pslice_stride (dbg : bool) (r : prefilled) (sls : list kslc) : outcome prefilled :=
  c <- pcompress_stride dbg (length sls) r ;;
  ns <- pnums c ;;
  rs <- mapM2 krestride1 ns sls ;;
  with_strides_args dbg (map (fun k => APos (extent_of k)) rs).

(** container::operator()(slice...), include/kwk/container/container.hpp 140-151, on a container whose shape and
    strides are described by [p] and [r]. origin (slicer.hpp 236-247) hands the first indexes to linear_index, which
    takes std::integral ones only (include/kwk/utility/linear_index.hpp 29-30): it does not compile if one of them
    is a constant. *)
Definition pslice_container (dbg : bool) (c : container) (p r : prefilled) (sls : list kslc)
  : outcome (container * prefilled * prefilled) :=
  q <- pslice_shape dbg p sls ;;
  s <- pslice_stride dbg r sls ;;
  p' <- pcompress dbg (length sls) p ;;
  ns <- pnums p' ;;
  is_ <- mapM2 kreindex1 ns sls ;;
  if existsb is_fixed is_ then UB
  else
    v <- slice_container dbg (is_fully_static (pdesc q)) (is_fully_static (pdesc s)) c (map plain_slc sls) ;;
    Ok (v, q, s).

(** between, at, every, first, drop_first, last and drop_last, slicer.hpp 263-272: they take std::integral arguments
    (between also an [end] expression on the right), never constants. *)
Definition kint (c : cint) : knum := Nm false c.
Definition kbetween (b : cint) (e : tbound) : kslc := KSl (Ts (Some (TInt (kint b))) None (Some e) None).
Definition kat (i : cint) : kslc := KSl (Ts (Some (TInt (kint i))) None (Some (TInt (kint i))) None).
Definition kevery (s : cint) : kslc := KSl (Ts None (Some (kint s)) None None).
Definition kfirst (n : cint) : kslc := KSl (Ts None None None (Some (TInt (kint n)))).
Definition kdrop_first (n : cint) : kslc := KSl (Ts (Some (TInt (kint n))) None None None).
Definition klast (n : cint) : kslc := KSl (Ts (Some (TEnd (TESub TEEnd (kint n)))) None None (Some (TInt (kint n)))).
Definition kdrop_last (n : cint) : kslc := KSl (Ts None None (Some (TEnd (TESub TEEnd (kint n)))) None).
