(** Stream insertion of containers, shapes, strides and positions. *)
From Coq Require Import ZArith Ascii String DecimalString DecimalZ List Bool.
From Verif Require Import Outcome CInt Shape Prefilled Memory Container ForEach Algo.
Import ListNotations.
Open Scope Z_scope.

(** End of line. *)
Definition nl : string := String "010"%char EmptyString.

(** The body of the loop of operator<<, include/kwk/container/container.hpp 95-111. [show]: the text
    inserted for an element; [spaces]: the text of line 87; the state is the text written so far. The
    stream has the default format; Stream.v: any format. *)
Definition print_elem {T} (show : T -> string) (spaces : string) (shp : shape) (p : ptr) (idx : list cint)
    (sm : string * mem T) : outcome (string * mem T) :=
  let '(os, m) := sm in
  let order := length shp in
  let brk := if (3 <=? order)%nat
             then match skipn (order - 2) idx, nth_error idx (order - 3) with
                  | [a; b], Some k => (ceqb a (int 0) && ceqb b (int 0)) && clt (int 0) k
                  | _, _ => false
                  end
             else false in
  let os := if brk then (os ++ nl)%string else os in
  let b := last idx (int 0) in
  let os := if ceqb b (int 0) then (os ++ spaces ++ "[ ")%string else os in
  e <- load m p ;;
  let os := (os ++ show e ++ " ")%string in
  n <- csub (last shp (int 0)) (int 1) ;;
  Ok (if ceqb b n then (os ++ "]" ++ nl)%string else os, m).

(** operator<<, container.hpp 85-114: the text appended to the stream. *)
Definition print {T} (show : T -> string) (label : option string) (m : mem T) (c : container) : outcome string :=
  let spaces := match label with Some _ => "  "%string | None => ""%string end in
  let os := match label with Some l => (l ++ ":" ++ nl)%string | None => ""%string end in
  e <- c_empty c ;;
  if e then Ok (os ++ spaces ++ "[ ]")%string
  else sm <- for_each_index (print_elem show spaces (c_shape c)) c (os, m) ;; Ok (fst sm).

(** Insertion of an integer in a stream with the default flags: its decimal text. *)
Definition dec (z : Z) : string := NilZero.string_of_int (Z.to_int z).

(** operator<< of shape and stride, include/kwk/utility/container/shape.hpp 318-323 and stride.hpp 110-115:
    +get<i>(s) is the promoted value of a run-time extent, or the compile-time constant itself, whose
    operator<< adds a suffix (include/kwk/utility/fixed.hpp 79-88). *)
Definition show_extent (d : desc) (v : cint) : string :=
  (dec (cval v) ++ (if is_dynamic d then "" else "_c"))%string.
Fixpoint show_extents (ds : list desc) (vs : list cint) : string :=
  match ds, vs with
  | d :: ds, v :: vs => (" " ++ show_extent d v ++ show_extents ds vs)%string
  | _, _ => ""%string
  end.
Definition print_prefilled (p : prefilled) : outcome string :=
  vs <- to_values p ;; Ok ("[" ++ show_extents (pdesc p) vs ++ " ]")%string.

(** operator<< of position, include/kwk/utility/position.hpp 43-53. *)
Fixpoint show_indexes (l : list Z) : string :=
  match l with
  | [] => ""%string
  | [i] => dec i
  | i :: l => (dec i ++ ", " ++ show_indexes l)%string
  end.
Definition print_position (l : list Z) : string :=
  ("position<" ++ dec (Z.of_nat (length l)) ++ ">(" ++ show_indexes l ++ ")")%string.
