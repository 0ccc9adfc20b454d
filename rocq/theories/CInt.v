(** C++ integer types and typed integer values (LP64, two's complement, C++20 conversions). *)
From Coq Require Import ZArith List Bool.
From Verif Require Import Outcome.
Import ListNotations.
Open Scope Z_scope.

(** std::int8_t ... std::uint64_t. [char], [bool] and the distinction between long and long long
    are not modelled. *)
Inductive ity := I8 | U8 | I16 | U16 | I32 | U32 | I64 | U64.

Definition is_signed (t : ity) : bool :=
  match t with I8 | I16 | I32 | I64 => true | _ => false end.

(** sizeof(T) * 8 *)
Definition width (t : ity) : Z :=
  match t with I8 | U8 => 8 | I16 | U16 => 16 | I32 | U32 => 32 | I64 | U64 => 64 end.

(** 2^width *)
Definition modulus (t : ity) : Z :=
  match t with
  | I8 | U8 => 256
  | I16 | U16 => 65536
  | I32 | U32 => 4294967296
  | I64 | U64 => 18446744073709551616
  end.

Definition tmin (t : ity) : Z :=
  match t with
  | I8 => -128
  | I16 => -32768
  | I32 => -2147483648
  | I64 => -9223372036854775808
  | _ => 0
  end.

Definition tmax (t : ity) : Z :=
  match t with
  | I8 => 127
  | U8 => 255
  | I16 => 32767
  | U16 => 65535
  | I32 => 2147483647
  | U32 => 4294967295
  | I64 => 9223372036854775807
  | U64 => 18446744073709551615
  end.

Definition in_ty (t : ity) (z : Z) : Prop := tmin t <= z <= tmax t.
Definition in_tyb (t : ity) (z : Z) : bool := (tmin t <=? z) && (z <=? tmax t).

(** static_cast<T>(z): conversion modulo 2^width ([conv.integral]). *)
Definition cast (t : ity) (z : Z) : Z :=
  let r := z mod modulus t in
  if r <=? tmax t then r else r - modulus t.

(** Integral promotion ([conv.prom]). *)
Definition promote (t : ity) : ity :=
  match t with I8 | U8 | I16 | U16 => I32 | t => t end.

(** Usual arithmetic conversions ([expr.arith.conv]), on LP64. *)
Definition common (t u : ity) : ity :=
  match promote t, promote u with
  | U64, _ | _, U64 => U64
  | I64, _ | _, I64 => I64
  | U32, _ | _, U32 => U32
  | _, _ => I32
  end.

(** A typed integer value. Compile-time constants ([constant<N>], utility/fixed.hpp 78-100) are the
    same values: their operators compute [constant<N op M>], with the usual conversions. *)
Record cint := CI { cty : ity; cval : Z }.

Definition wfc (c : cint) : Prop := in_ty (cty c) (cval c).

Definition int (z : Z) : cint := CI I32 z.

(** Binary arithmetic: both operands are converted to the common type; signed overflow is undefined,
    unsigned results wrap. *)
Definition arith (f : Z -> Z -> Z) (a b : cint) : outcome cint :=
  let t := common (cty a) (cty b) in
  let r := f (cast t (cval a)) (cast t (cval b)) in
  if is_signed t
  then (if in_tyb t r then Ok (CI t r) else UB)
  else Ok (CI t (cast t r)).

Definition cadd := arith Z.add.
Definition csub := arith Z.sub.
Definition cmul := arith Z.mul.

(** [a / b]: truncated; division by zero and unrepresentable quotients are undefined. *)
Definition cdiv (a b : cint) : outcome cint :=
  let t := common (cty a) (cty b) in
  let x := cast t (cval a) in
  let y := cast t (cval b) in
  if y =? 0 then UB
  else if in_tyb t (Z.quot x y) then Ok (CI t (Z.quot x y)) else UB.

(** [a % b]: undefined whenever [a / b] is. *)
Definition cmod (a b : cint) : outcome cint :=
  let t := common (cty a) (cty b) in
  let x := cast t (cval a) in
  let y := cast t (cval b) in
  if y =? 0 then UB
  else if in_tyb t (Z.quot x y) then Ok (CI t (Z.rem x y)) else UB.

(** [-a] on the promoted type. *)
Definition cneg (a : cint) : outcome cint :=
  let t := promote (cty a) in
  let r := - cast t (cval a) in
  if is_signed t
  then (if in_tyb t r then Ok (CI t r) else UB)
  else Ok (CI t (cast t r)).

(** [a < b], [a == b]: compared after conversion to the common type. *)
Definition clt (a b : cint) : bool :=
  let t := common (cty a) (cty b) in cast t (cval a) <? cast t (cval b).
Definition ceqb (a b : cint) : bool :=
  let t := common (cty a) (cty b) in cast t (cval a) =? cast t (cval b).
Definition cle (a b : cint) : bool :=
  let t := common (cty a) (cty b) in cast t (cval a) <=? cast t (cval b).

(** [static_cast<T>(a)] and initialisation of a T variable from [a]. *)
Definition conv (t : ity) (a : cint) : cint := CI t (cast t (cval a)).

(** [++i] on a variable of type T: computed in the promoted type, converted back to T. *)
Definition cincr (i : cint) : outcome cint :=
  r <- cadd i (int 1) ;; Ok (conv (cty i) r).
