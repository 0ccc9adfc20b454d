(** Compile-time integer literals and the sizes of static arrays. *)
From Coq Require Import ZArith List Bool.
From Verif Require Import CInt.
Import ListNotations.
Open Scope Z_scope.

(** std::bit_width *)
Definition bit_width (v : Z) : Z := if v =? 0 then 0 else Z.log2 v + 1.

(** clamp<Value>(), include/kwk/utility/fixed.hpp 62-68, for a Value of type unsigned long long or
    std::size_t (the two types it is used with: fixed.hpp 120, detail/range.hpp 33 and 41). *)
Definition clamp (v : Z) : cint :=
  if bit_width v <=? 8 then CI U8 (cast U8 v)
  else if bit_width v <=? 19 then CI U16 (cast U16 v)
  else if bit_width v <=? 32 then CI U32 (cast U32 v)
  else CI U64 v.

(** b10<c...>(), fixed.hpp 70-75: ((value = value * 10 + (c - '0')), ...) on unsigned long long.
    Characters are given by their codes. *)
Fixpoint b10_from (value : Z) (cs : list Z) : Z :=
  match cs with
  | [] => value
  | c :: cs' => b10_from (cast U64 (cast U64 (value * 10) + cast U64 (c - 48))) cs'
  end.
Definition b10 (cs : list Z) : Z := b10_from 0 cs.

(** operator"" _c, fixed.hpp 118-121: fixed<clamp<b10<c...>()>()>. *)
Definition literal_c (cs : list Z) : cint := clamp (b10 cs).

(** Static array types: std::array<T,N> and T[N]; anything else is an element. *)
Inductive arr :=
| Elem
| StdArray (t : arr) (n : Z)
| CArray (t : arr) (n : Z).

(** array_traits<T>::sizes, include/kwk/detail/range.hpp 21-43; it is the shape given by
    default_shape(array_source), include/kwk/settings/source/array_source.hpp 36-37 (of_size of a
    tuple of constants keeps them). *)
Fixpoint array_sizes (a : arr) : list cint :=
  match a with
  | Elem => []
  | StdArray t n => array_sizes t ++ [clamp n]
  | CArray t n => clamp n :: array_sizes t
  end.
