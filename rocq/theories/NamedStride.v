(** Strides with their descriptors: include/kwk/utility/container/stride.hpp. *)
From Coq Require Import ZArith String List Bool.
From Verif Require Import Outcome CInt Shape Prefilled NamedSize.
Import ListNotations.
Open Scope Z_scope.

(** stride::is_unit, lines 75-79: the innermost value is known at compile time and equal to 1. *)
Definition is_unit (ds : list desc) : bool :=
  match rev ds with
  | d :: _ => match acont d with CStatic v => ceqb v (int 1) | _ => false end
  | [] => false
  end.

(** get<n>(s): an integer, or a constant<N> if the value is known at compile time (prefilled.hpp 213-225). *)
Definition pextent (p : prefilled) (n : nat) : outcome extent :=
  b <- pcontains (pdesc p) n ;; v <- pget p n ;; Ok (if b then EInt v else EConst v).

(** m * front(a): two constants give a constant (utility/fixed.hpp 96-97), otherwise they are converted to
    their value. An overflow in the product of two constants does not compile; it is [UB] as the others. *)
Definition ext_mul (a b : extent) : outcome extent :=
  match a, b with
  | EConst x, EConst y => z <- cmul x y ;; Ok (EConst z)
  | EConst x, EInt y | EInt x, EConst y | EInt x, EInt y => z <- cmul x y ;; Ok (EInt z)
  | _, _ => UB
  end.
Definition ext_front (l : list extent) : outcome extent :=
  match l with x :: _ => Ok x | [] => UB end.

(** as_stride(shape), lines 173-189, on shapes with their descriptors ([Shape.as_stride] gives the values
    only): stride{ (s.axis<I>() = get<I>(t))... }; axis<I>() is the axis without content (prefilled.hpp
    207-211). *)
Definition pas_stride (dbg : bool) (p : prefilled) : outcome prefilled :=
  es <- mapM (pextent p) (seq 0 (length (pdesc p))) ;;
  t <- match es with
       | [] => UB
       | [_] => Ok [EConst (int 1)]
       | _ :: es' => kfold_left (fun a m => f <- ext_front a ;; x <- ext_mul m f ;; Ok (x :: a)) es' [EConst (int 1)]
       end ;;
  with_strides_args dbg (map (fun ae => ANamed (fst ae) CJoker (snd ae)) (combine (map aid (pdesc p)) t)).

(** compress<N>(stride), lines 191-196: with_strides of the last N values, without their axes. *)
Definition pcompress_stride (dbg : bool) (n : nat) (p : prefilled) : outcome prefilled :=
  es <- mapM (pextent p) (seq 0 (length (pdesc p))) ;;
  with_strides_args dbg (map APos (skipn (length (pdesc p) - n) es)).
