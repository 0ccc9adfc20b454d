(** Small specification vocabulary, independent from the model of the library. Everything is on
    mathematical integers; a multi-dimensional size or coordinate is a list, outermost axis first. *)
From Coq Require Import ZArith List.
Import ListNotations.
Open Scope Z_scope.

(** Product of a list. *)
Definition prod (l : list Z) : Z := fold_right Z.mul 1 l.

(** Product of a list where zeros count as ones. *)
Definition posprod (l : list Z) : Z := fold_right (fun n a => Z.max 1 n * a) 1 l.

(** A coordinate inside a box: [0 <= i_k < n_k] on every axis. *)
Inductive in_box : list Z -> list Z -> Prop :=
| in_box_nil : in_box [] []
| in_box_cons n ns i is_ : 0 <= i < n -> in_box ns is_ -> in_box (n :: ns) (i :: is_).

(** Row-major rank of a coordinate, in Horner form: ((i0*n1 + i1)*n2 + i2)*n3 + ... *)
Fixpoint rank_from (acc : Z) (ns is_ : list Z) : Z :=
  match ns, is_ with
  | n :: ns', i :: is_' => rank_from (acc * n + i) ns' is_'
  | _, _ => acc
  end.
Definition rank (ns is_ : list Z) : Z := rank_from 0 ns is_.

(** Lexicographic order on coordinates of the same length. *)
Inductive lex : list Z -> list Z -> Prop :=
| lex_head i j is_ js : i < j -> length is_ = length js -> lex (i :: is_) (j :: js)
| lex_tail i is_ js : lex is_ js -> lex (i :: is_) (i :: js).

(** Sum of pointwise products. *)
Fixpoint dot (a b : list Z) : Z :=
  match a, b with
  | x :: a', y :: b' => x * y + dot a' b'
  | _, _ => 0
  end.

(** [ceil_div n d] = least q with q*d >= n, for d > 0. *)
Definition ceil_div (n d : Z) : Z := - ((- n) / d).

(** All coordinates of a box in lexicographic order. *)
Fixpoint zrange (start : Z) (n : nat) : list Z :=
  match n with
  | O => []
  | S n' => start :: zrange (start + 1) n'
  end.
Fixpoint box (ns : list Z) : list (list Z) :=
  match ns with
  | [] => [[]]
  | n :: ns' => flat_map (fun i => map (cons i) (box ns')) (zrange 0 (Z.to_nat n))
  end.

Arguments prod : simpl never.
Arguments posprod : simpl never.
Arguments rank : simpl never.
Arguments ceil_div : simpl never.

(** The first [k] axes of a size merged into one. *)
Definition merge_axes (k : nat) (ns : list Z) : list Z := prod (firstn k ns) :: skipn k ns.

(** The corresponding coordinate: the first [k] coordinates replaced by their own rank. *)
Definition merge_coord (k : nat) (ns is_ : list Z) : list Z :=
  rank (firstn k ns) (firstn k is_) :: skipn k is_.

(** Number of leading ones. *)
Fixpoint leading_ones (ns : list Z) : nat :=
  match ns with
  | n :: ns' => if Z.eqb n 1 then S (leading_ones ns') else O
  | [] => O
  end.
