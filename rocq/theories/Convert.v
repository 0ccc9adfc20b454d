(** Tables with an element type of their own and a source of another type: table{source = s, as<T>}. *)
From Coq Require Import ZArith List Bool.
From Coq Require Import Floats.SpecFloat.
From Verif Require Import Outcome CInt Shape Memory Container Source Interp Mixed.
Import ListNotations.
Open Scope Z_scope.

(** Arithmetic types (not bool), and values of them. *)
Inductive atype := AInt (t : ity) | AFloat (f : ftype).
Inductive number := NInt (z : Z) | NFloat (x : spec_float).

(** Implicit conversions to an arithmetic type ([conv.integral], [conv.fpint], [conv.double]): integers
    modulo 2^width; a floating-point number to an integer drops the fraction, undefined when the result does
    not fit or for infinities and NaN; to a floating-point type: to nearest even (IEC 60559, overflow gives an
    infinity). *)
Definition convert (to : atype) (v : number) : outcome number :=
  match to, v with
  | AInt t, NInt z => Ok (NInt (cast t z))
  | AInt t, NFloat x => match sf_trunc x with
                        | Some z => if in_tyb t z then Ok (NInt z) else UB
                        | None => UB
                        end
  | AFloat f, NInt z => Ok (NFloat (of_int (arith_of f) z))
  | AFloat f, NFloat x => Ok (NFloat (to_ftype f x))
  end.

(** std::copy(src, src+n, dst) to elements of another type: each assignment converts. *)
Fixpoint copy_converted (to : atype) (m : mem number) (src dst : ptr) (n : nat) : outcome (mem number) :=
  match n with
  | O => Ok m
  | S n' =>
      v <- load m src ;; w <- convert to v ;; m' <- store m dst w ;;
      copy_converted to m' (padd src 1) (padd dst 1) n'
  end.

(** heap_block.hpp 39-52 and 60-63, stack_block.hpp 29-41, with the element type of the option:
    container/settings/type.hpp 36-42 prefers it to the type of the source. *)
Definition new_block_as (to : atype) (m : mem number) (n : Z) (src : ptr) : outcome (mem number * ptr) :=
  let '(m1, data) := if n =? 0 then (m, Null) else alloc m n in
  m2 <- copy_converted to m1 src data (Z.to_nat n) ;; Ok (m2, data).

(** table{source = s, as<T>} and table{source = s, size = sh, as<T>}, table.hpp 55-66, as [table_from].
    (view{source = s, as<T>} does not compile: type.hpp 21-25.) *)
Definition table_as (to : atype) (m : mem number) (dbg : bool) (given : option (bool * shape)) (s : source)
  : outcome (mem number * container) :=
  ' (st, sh) <- pick_size dbg given s ;;
  n <- numel sh ;;
  ' (m1, data) <- new_block_as to m (cval n) (storage s) ;;
  ' (k, sd) <- make_accessor st st sh None ;;
  Ok (m1, Cn k sh sd data).
