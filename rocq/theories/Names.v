(** Axes and their names: comparison and combination of axes, and the operations on shapes that keep or lose the
    names of the axes. *)
From Coq Require Import ZArith String List Bool.
From Verif Require Import Outcome CInt Shape Prefilled NamedSize NamedStride.
Import ListNotations.
Open Scope Z_scope.

(** The value of an axis compared to another, include/kwk/settings/axis.hpp 109-118: utility/joker.hpp 23-25 for
    jokers, settings/type.hpp 30-31 for types. Two types are equal when they are the same type. *)
Definition ity_eqb (t u : ity) : bool :=
  match t, u with
  | I8, I8 | I16, I16 | I32, I32 | I64, I64 | U8, U8 | U16, U16 | U32, U32 | U64, U64 => true
  | _, _ => false
  end.
Definition content_eq (a b : content) : bool :=
  match a, b with
  | CJoker, CJoker => true
  | CType t, CType u => ity_eqb t u
  | CStatic v, CStatic w => ceqb v w
  | _, _ => false
  end.

(** operator==(axis_, axis_), axis.hpp 109-118: both overloads. *)
Definition axis_eq (a b : desc) : bool := axis_id_eqb (aid a) (aid b) && content_eq (acont a) (acont b).

(** The product of two contents, joker.hpp 27-29. A product with a type that is not with a joker does not
    compile. *)
Definition content_mul (a b : content) : outcome content :=
  match a, b with
  | CJoker, _ | _, CJoker => Ok CJoker
  | CStatic v, CStatic w => x <- cmul v w ;; Ok (CStatic x)
  | _, _ => UB
  end.

(** compress(axis_, axis_), axis.hpp 87-99. *)
Definition merged_id (a b : axis_id) : axis_id :=
  match a, b with
  | AIdx i, AIdx m => AIdx (Z.min m i)
  | AName s, AIdx _ => AName s
  | _, AName t => AName t
  end.
Definition axis_compress (a b : desc) : outcome desc :=
  v <- content_mul (acont a) (acont b) ;; Ok {| aid := merged_id (aid a) (aid b); acont := v |}.

(** compress<N>(shape), utility/container/shape.hpp 382-394, with the descriptors ([Shape.compress] gives the
    values only). of_size is given the values without their axes. *)
Definition pcompress (dbg : bool) (n : nat) (p : prefilled) : outcome prefilled :=
  let sz := length (pdesc p) in
  if ((0 <? n) && (n <=? sz))%nat then
    if (n =? sz)%nat then Ok p
    else
      es <- mapM (pextent p) (seq 0 sz) ;;
      match firstn (sz - n + 1) es with
      | [] => UB
      | h :: hs => v <- kfold_right ext_mul hs h ;; of_size_args dbg (map APos (v :: skipn (sz - n + 1) es))
      end
  else UB.

(** operator==(shape, shape), shape.hpp 218-228. *)
Definition pshape_eq (dbg : bool) (p q : prefilled) : outcome bool :=
  let sz := Nat.min (length (pdesc p)) (length (pdesc q)) in
  a <- pcompress dbg sz p ;; b <- pcompress dbg sz q ;;
  va <- to_values a ;; vb <- to_values b ;; Ok (all_eqb va vb).
