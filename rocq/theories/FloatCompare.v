(** Comparisons of elements and values of any arithmetic types: CompareFacts.v has integers only. *)
From Coq Require Import ZArith List Bool.
From Coq Require Import Floats.SpecFloat.
From Verif Require Import Outcome CInt Shape Memory Container ForEach Algo Search Interp Mixed Convert FloatSums.
Import ListNotations.
Open Scope Z_scope.

(** a == b and a < b for operands of types [t] and [u] ([expr.rel], [expr.eq]): both are converted to the type of
    the usual arithmetic conversions and compared there; nothing is equal to, less or greater than NaN.
    Simplified: [None] also for numbers that are not of an arithmetic type at all (an integer type holding a
    floating-point number), which no table has. *)
Definition compare_in (t : atype) (a b : number) : option comparison :=
  match t with
  | AInt i => match a, b with NInt x, NInt y => Some (Z.compare (cast i x) (cast i y)) | _, _ => None end
  | AFloat f => match convert (AFloat f) a, convert (AFloat f) b with
                | Ok (NFloat x), Ok (NFloat y) => SFcompare x y
                | _, _ => None
                end
  end.
Definition equal_number (t u : atype) (a b : number) : bool :=
  match compare_in (usual t u) a b with Some Eq => true | _ => false end.
Definition less_number (t u : atype) (a b : number) : bool :=
  match compare_in (usual t u) a b with Some Lt => true | _ => false end.

(** With elements of type [t] and a value of type [u]. count, include/kwk/algorithm/algos/predicates.hpp 63-73:
    e == value. find and find_last, find.hpp 72-84 and 173-185: e == value. find_first_of(out, in), 100-117:
    x == e, with x from the container of values. *)
Definition ncount (t u : atype) (in_ : container) (value : number) (m : mem number) :=
  count (equal_number t u) in_ value m.
Definition nfind (t u : atype) (c : container) (value : number) (m : mem number) :=
  find (equal_number t u) c value m.
Definition nfind_last (t u : atype) (st : bool) (c : container) (value : number) (m : mem number) :=
  find_last (equal_number t u) st c value m.
Definition nfind_first_of (t u : atype) (c values : container) (m : mem number) :=
  find_first_of (equal_number u t) c values m.
(** replace(out, old_value, new_value), replace.hpp 16-38: if(o == old_value) o = new_value, which converts the
    new value each time it is assigned. *)
Definition nreplace (t u : atype) (out : container) (old_value new_value : number) (m : mem number)
  : outcome (mem number) :=
  run_map (map_containers
    (fun ps sm => match ps with
                  | [o] => v <- load (snd sm) o ;;
                           if equal_number t u v old_value then w <- convert t new_value ;; assign o w sm else Ok sm
                  | _ => UB
                  end) out [] (tt, m)).
(** lower_bound, upper_bound and binary_search without a callable, binary_search.hpp 65-74, 110-120 and 146-155:
    func = [](auto e, auto i){ return e<i; } with an element and the value, in either order (the type of the
    conversions is the same in both orders). *)
Definition nlower_bound (dbg : bool) (t u : atype) (c : container) (value : number) (m : mem number) :=
  lower_bound dbg (less_number t u) c value m.
Definition nupper_bound (dbg : bool) (t u : atype) (c : container) (value : number) (m : mem number) :=
  upper_bound dbg (less_number t u) c value m.
Definition nbinary_search (dbg : bool) (t u : atype) (c : container) (value : number) (m : mem number) :=
  binary_search dbg (less_number t u) c value m.
