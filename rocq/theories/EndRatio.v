(** kwk::ratio and the [end] expressions used as bounds of slices. *)
From Coq Require Import ZArith List Bool.
From Verif Require Import Outcome CInt.
Import ListNotations.
Open Scope Z_scope.

(** struct ratio, include/kwk/utility/ratio.hpp 16-28. Members may be run-time integers or constants;
    both are typed values here. *)
Record ratio := Rt { num : cint; denum : cint }.

(** ratio.hpp 30-31 *)
Definition rneg (r : ratio) : outcome ratio := n <- cneg (num r) ;; Ok (Rt n (denum r)).

(** ratio.hpp 33-39 *)
Definition radd (a b : ratio) : outcome ratio :=
  x <- cmul (num a) (denum b) ;; y <- cmul (num b) (denum a) ;; n <- cadd x y ;;
  d <- cmul (denum a) (denum b) ;; Ok (Rt n d).

(** ratio.hpp 41-47 *)
Definition rsub (a b : ratio) : outcome ratio :=
  x <- cmul (num a) (denum b) ;; y <- cmul (num b) (denum a) ;; n <- csub x y ;;
  d <- cmul (denum a) (denum b) ;; Ok (Rt n d).

(** ratio.hpp 49-53 *)
Definition rmul (a b : ratio) : outcome ratio :=
  n <- cmul (num a) (num b) ;; d <- cmul (denum a) (denum b) ;; Ok (Rt n d).

(** ratio.hpp 55-65 (both operand orders) *)
Definition rscale (a : ratio) (c : cint) : outcome ratio :=
  n <- cmul (num a) c ;; Ok (Rt n (denum a)).

(** ratio.hpp 67-71 *)
Definition rdiv (a b : ratio) : outcome ratio :=
  n <- cmul (num a) (denum b) ;; d <- cmul (denum a) (num b) ;; Ok (Rt n d).

(** ratio.hpp 73-77 *)
Definition rdivc (a : ratio) (c : cint) : outcome ratio :=
  d <- cmul (denum a) c ;; Ok (Rt (num a) d).

(** ratio.hpp 79-83 and 85-89 *)
Definition req (a b : ratio) : outcome bool :=
  x <- cmul (num a) (denum b) ;; y <- cmul (denum a) (num b) ;; Ok (ceqb x y).
Definition rneq (a b : ratio) : outcome bool := e <- req a b ;; Ok (negb e).

(** struct end_t, include/kwk/utility/end.hpp 26-50. *)
Record end_t := En { shift : cint; frac : ratio }.

(** end.hpp 49: (n * factor() + offset()) / divisor() *)
Definition end_size (e : end_t) (n : cint) : outcome cint :=
  x <- cmul n (num (frac e)) ;; y <- cadd x (shift e) ;; cdiv y (denum (frac e)).

(** end.hpp 55-65: end + o and o + end *)
Definition end_add (e : end_t) (o : cint) : outcome end_t :=
  x <- cmul o (denum (frac e)) ;; s <- cadd (shift e) x ;; Ok (En s (frac e)).

(** end.hpp 67-72: end - o *)
Definition end_sub (e : end_t) (o : cint) : outcome end_t :=
  x <- cmul o (denum (frac e)) ;; s <- csub (shift e) x ;; Ok (En s (frac e)).

(** end.hpp 74-78: o - end *)
Definition sub_end (o : cint) (e : end_t) : outcome end_t :=
  x <- cmul o (denum (frac e)) ;; s <- csub x (shift e) ;; f <- rneg (frac e) ;; Ok (En s f).

(** end.hpp 80-90: end * o and o * end *)
Definition end_mul (e : end_t) (o : cint) : outcome end_t :=
  s <- cmul (shift e) o ;; f <- rscale (frac e) o ;; Ok (En s f).

(** end.hpp 92-96 *)
Definition end_div (e : end_t) (o : cint) : outcome end_t :=
  f <- rdivc (frac e) o ;; Ok (En (shift e) f).

(** end.hpp 99 *)
Definition kend : end_t := En (int 0) (Rt (int 1) (int 1)).

(** The C++ expressions that type-check: [end] combined with integers by the operators above. *)
Inductive eexpr :=
| EEnd
| EAdd (e : eexpr) (o : cint)
| EAddL (o : cint) (e : eexpr)
| ESub (e : eexpr) (o : cint)
| ESubL (o : cint) (e : eexpr)
| EMul (e : eexpr) (o : cint)
| EMulL (o : cint) (e : eexpr)
| EDiv (e : eexpr) (o : cint).

(** Evaluation of such an expression: one operator call per node. *)
Fixpoint build (e : eexpr) : outcome end_t :=
  match e with
  | EEnd => Ok kend
  | EAdd e o => x <- build e ;; end_add x o
  | EAddL o e => x <- build e ;; end_add x o
  | ESub e o => x <- build e ;; end_sub x o
  | ESubL o e => x <- build e ;; sub_end o x
  | EMul e o => x <- build e ;; end_mul x o
  | EMulL o e => x <- build e ;; end_mul x o
  | EDiv e o => x <- build e ;; end_div x o
  end.

(** The bound denoted by an expression on an axis of size [n] (slicer.hpp 66-131 calls size(count)). *)
Definition end_value (e : eexpr) (n : cint) : outcome cint := x <- build e ;; end_size x n.
