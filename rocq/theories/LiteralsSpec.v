(** What a decimal literal and a nested array mean, independently of the library. *)
From Coq Require Import ZArith List.
From Verif Require Import Literals.
Import ListNotations.
Open Scope Z_scope.

(** Value of a list of decimal digits, most significant first: sum of d_k * 10^k. *)
Fixpoint decimal (ds : list Z) : Z :=
  match ds with
  | [] => 0
  | d :: ds' => d * 10 ^ Z.of_nat (length ds') + decimal ds'
  end.

Definition digit (d : Z) : Prop := 0 <= d <= 9.

(** The characters of a list of digits: '0' is 48. *)
Definition chars (ds : list Z) : list Z := map (fun d => 48 + d) ds.

(** The values for which the type selection of the library picks too small a type. *)
Definition bad_width (v : Z) : Prop := 65536 <= v <= 524287.

(** Extents of a nested array type, outermost first: a[i] has type [t] when [a : t[n]]. *)
Fixpoint extents (a : arr) : list Z :=
  match a with
  | Elem => []
  | StdArray t n | CArray t n => n :: extents t
  end.

(** Number of scalars of an array type, and offset, counted in scalars, of a[i0][i1]... *)
Fixpoint scalars (a : arr) : Z :=
  match a with
  | Elem => 1
  | StdArray t n | CArray t n => n * scalars t
  end.
Fixpoint mem_offset (a : arr) (is_ : list Z) : Z :=
  match a, is_ with
  | StdArray t _, i :: is_' | CArray t _, i :: is_' => i * scalars t + mem_offset t is_'
  | _, _ => 0
  end.

Fixpoint only_c (a : arr) : Prop :=
  match a with Elem => True | StdArray _ _ => False | CArray t _ => only_c t end.
Fixpoint only_std (a : arr) : Prop :=
  match a with Elem => True | StdArray t _ => only_std t | CArray _ _ => False end.
