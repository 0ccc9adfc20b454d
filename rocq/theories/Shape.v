(** kwk::shape and kwk::stride seen as lists of typed values, outermost axis first.
    Which axes are compile-time constants is abstracted here (see Prefilled.v for storage); the
    values and their C++ types are kept. *)
From Coq Require Import ZArith List Bool.
From Verif Require Import Outcome CInt.
Import ListNotations.
Open Scope Z_scope.

Definition shape := list cint.
Definition stride := list cint.

(** shape::order, include/kwk/utility/container/shape.hpp 260. *)
Definition order (s : shape) : nat := length s.

(** shape::numel, shape.hpp 284-288: fold_left(a*b, *this, fixed<1>) returned as std::int32_t. *)
Definition numel (s : shape) : outcome cint :=
  match s with
  | [] => Ok (int 0)
  | _ => r <- kfold_left cmul s (int 1) ;; Ok (conv I32 r)
  end.

(** kumi::locate: first position satisfying p, or the size. *)
Fixpoint locate {A} (p : A -> bool) (l : list A) : nat :=
  match l with
  | [] => O
  | x :: xs => if p x then O else S (locate p xs)
  end.

(** shape::nbdims, shape.hpp 268-276: static_order - locate(m != 1). *)
Definition nbdims (s : shape) : Z :=
  match s with
  | [] => 0
  | _ => Z.of_nat (length s) - Z.of_nat (locate (fun m => negb (ceqb m (int 1))) s)
  end.

(** shape::contains, shape.hpp 240-245: ((p < static_cast<Coords>(m)) && ... && true). The number of
    coordinates must be the order (requires clause): other calls do not compile and are modelled by
    [false]. *)
Fixpoint contains (s : shape) (p : list cint) : bool :=
  match s, p with
  | [], [] => true
  | m :: s', i :: p' => clt i (conv (cty i) m) && contains s' p'
  | _, _ => false
  end.

(** compress<N>(shape), shape.hpp 382-394. The requires clause 0 < N <= order is the guard; outside
    of it the call does not compile, modelled by [UB] so that nothing can rely on it. *)
Definition compress (n : nat) (s : shape) : outcome shape :=
  let sz := length s in
  if ((0 <? n) && (n <=? sz))%nat then
    if (n =? sz)%nat then Ok s
    else
      let head := firstn (sz - n + 1) s in
      let tail := skipn (sz - n + 1) s in
      match head with
      | [] => UB
      | h :: hs => v <- kfold_right cmul hs h ;; Ok (v :: tail)
      end
  else UB.

Fixpoint all_eqb (a b : list cint) : bool :=
  match a, b with
  | x :: a', y :: b' => ceqb x y && all_eqb a' b'
  | _, _ => true
  end.

(** operator==(shape,shape), shape.hpp 218-228: both are compressed to the smaller order and compared
    extent by extent. (Order 0 does not compile because of compress<0>.) *)
Definition shape_eq (a b : shape) : outcome bool :=
  let sz := Nat.min (length a) (length b) in
  a' <- compress sz a ;; b' <- compress sz b ;; Ok (all_eqb a' b').

(** kumi::front *)
Definition front (l : list cint) : outcome cint :=
  match l with x :: _ => Ok x | [] => UB end.

(** as_stride, include/kwk/utility/container/stride.hpp 173-189:
    order 1 gives {fixed<1>}; otherwise fold_left(push_front(a, m*front(a)), pop_front(s), {fixed<1>}).
    Order 0 does not compile; modelled by [UB]. *)
Definition as_stride (s : shape) : outcome stride :=
  match s with
  | [] => UB
  | [_] => Ok [int 1]
  | _ :: s' => kfold_left (fun a m => f <- front a ;; x <- cmul m f ;; Ok (x :: a)) s' [int 1]
  end.

(** The left fold (acc + ... + (get<i>(stride)*is)) of stride::linearize. *)
Fixpoint linearize_from (acc : cint) (st : stride) (is_ : list cint) : outcome cint :=
  match st, is_ with
  | [], [] => Ok acc
  | s :: st', i :: is_' =>
      p <- cmul s i ;; a <- cadd acc p ;; linearize_from a st' is_'
  | _, _ => UB
  end.

(** stride::linearize, stride.hpp 129-137: (0 + ... + (get<i>( *this) * is)). *)
Definition linearize (st : stride) (is_ : list cint) : outcome cint :=
  linearize_from (int 0) st is_.

(** linear_index(shape, indexes...), include/kwk/utility/linear_index.hpp 29-37 (and its tuple and
    range overloads 47-51, 61-72, which forward to it). *)
Definition linear_index (dbg : bool) (s : shape) (is_ : list cint) : outcome cint :=
  _ <- kassert dbg (Ok (contains s is_)) ;;
  st <- as_stride s ;;
  linearize st is_.

(** The inner coordinates of [coordinates]: static_cast<Idx>((idx / strd_k) % shp_k). *)
Fixpoint coords_inner (idx : cint) (st : stride) (s : shape) : outcome (list cint) :=
  match st, s with
  | [], [] => Ok []
  | d :: st', n :: s' =>
      q <- cdiv idx d ;; r <- cmod q n ;;
      rest <- coords_inner idx st' s' ;; Ok (conv (cty idx) r :: rest)
  | _, _ => UB
  end.

(** coordinates(idx, shape), include/kwk/utility/coordinates.hpp 31-55. *)
Definition coordinates (dbg : bool) (idx : cint) (s : shape) : outcome (list cint) :=
  _ <- kassert dbg (n <- numel s ;; Ok (clt idx n)) ;;
  st <- as_stride s ;;
  match st, s with
  | d :: st', _ :: s' =>
      q <- cdiv idx d ;; rest <- coords_inner idx st' s' ;; Ok (conv (cty idx) q :: rest)
  | _, _ => UB
  end.

(** compress<N>(stride), stride.hpp 191-196: the last N strides. *)
Definition compress_stride (n : nat) (st : stride) : stride := skipn (length st - n) st.

(** operator==(stride,stride), stride.hpp 121-126 (same order required). *)
Definition stride_eq (a b : stride) : bool := Nat.eqb (length a) (length b) && all_eqb a b.

(** Default constructor of an all-run-time stride, stride.hpp 94: value-initialises the storage
    (detail/sequence/prefilled.hpp 77), i.e. zeros; the documentation (stride.hpp 92) says ones. *)
Definition stride_default (n : nat) : stride := repeat (int 0) n.
