(** Evaluation contexts. Every algorithm of Algo.v has an overload whose first argument is a context; the
    overload without it passes kwk::cpu. The algorithm only calls the context's [map] and [map_index]. *)
From Coq Require Import ZArith List Bool.
From Verif Require Import Outcome CInt Shape Memory Container ForEach Algo.
Import ListNotations.
Open Scope Z_scope.

(** A context is what its map(f, shape) does: include/kwk/context/base.hpp 15-38 leaves it to the derived
    class. The members in, out and inout (base.hpp 24-26) give their argument back. Simplification: the
    callable runs to completion before the next call starts, so contexts with data races are not
    represented. *)
Record context := Cx
  { visit : forall S : Type, list cint -> (list cint -> S -> outcome S) -> S -> outcome S }.

(** kwk::cpu, include/kwk/context/cpu/context.hpp 16-22 and 39. *)
Definition cpu : context := Cx (@for_each).

(** map on containers and map_index, cpu/context.hpp 24-36, on top of the context's map on shapes. *)
Definition map_containers_on {T S} (cx : context) (f : list ptr -> S * mem T -> outcome (S * mem T))
    (c0 : container) (cs : list container) (sm : S * mem T) : outcome (S * mem T) :=
  visit cx (S * mem T) (c_shape c0)
    (fun is_ sm => ps <- mapM (fun c => ref (snd sm) c is_) (c0 :: cs) ;; f ps sm) sm.
Definition map_index_on {T S} (cx : context) (f : ptr -> list cint -> S * mem T -> outcome (S * mem T))
    (c : container) (sm : S * mem T) : outcome (S * mem T) :=
  visit cx (S * mem T) (c_shape c) (fun is_ sm => p <- ref (snd sm) c is_ ;; f p is_ sm) sm.

(** transform(ctx, f, out, c0, cs...), include/kwk/algorithm/algos/transform.hpp 18-24. *)
Definition transform_on {T} (cx : context) (f : list T -> T) (out c0 : container) (cs : list container)
    (m : mem T) : outcome (mem T) :=
  run_map (map_containers_on cx
    (fun ps sm => match ps with
                  | o :: ins => vs <- mapM (load (snd sm)) ins ;; assign o (f vs) sm
                  | [] => UB
                  end) out (c0 :: cs) (tt, m)).

(** copy(ctx, out, in) and copy_if(ctx, f, out, in), include/kwk/algorithm/algos/copy.hpp 22-25, 35-39. *)
Definition copy_on {T} (cx : context) (out in_ : container) (m : mem T) : outcome (mem T) :=
  run_map (map_containers_on cx
    (fun ps sm => match ps with
                  | [o; i] => v <- load (snd sm) i ;; assign o v sm
                  | _ => UB
                  end) out [in_] (tt, m)).
Definition copy_if_on {T} (cx : context) (f : T -> bool) (out in_ : container) (m : mem T)
  : outcome (mem T) :=
  run_map (map_containers_on cx
    (fun ps sm => match ps with
                  | [o; i] => v <- load (snd sm) i ;; if f v then assign o v sm else Ok sm
                  | _ => UB
                  end) out [in_] (tt, m)).

(** fill(ctx, out, value), generate(ctx, f, out) and iota(ctx, out, value),
    include/kwk/algorithm/algos/generator.hpp 20-23, 33-37, 47-52. *)
Definition fill_on {T} (cx : context) (out : container) (v : T) (m : mem T) : outcome (mem T) :=
  run_map (map_containers_on cx
    (fun ps sm => match ps with [o] => assign o v sm | _ => UB end) out [] (tt, m)).
Definition generate_on {T} (cx : context) (f : list cint -> T) (out : container) (m : mem T)
  : outcome (mem T) :=
  run_map (map_index_on cx (fun o is_ sm => assign o (f is_) sm) out (tt, m)).
Definition iota_on (cx : context) {et : ity} (out : container) (value : cint) (m : mem cint)
  : outcome (mem cint) :=
  r <- map_containers_on cx
    (fun ps sm => match ps with
                  | [o] => m' <- store (snd sm) o (conv et (fst sm)) ;;
                           v' <- cincr (fst sm) ;; Ok (v', m')
                  | _ => UB
                  end) out [] (value, m) ;;
  Ok (snd r).

(** replace_if(ctx, out, f, new_value) and replace(ctx, out, old_value, new_value),
    include/kwk/algorithm/algos/replace.hpp 17-20, 29-32. *)
Definition replace_if_on {T} (cx : context) (out : container) (f : T -> bool) (new_value : T) (m : mem T)
  : outcome (mem T) :=
  run_map (map_containers_on cx
    (fun ps sm => match ps with
                  | [o] => v <- load (snd sm) o ;; if f v then assign o new_value sm else Ok sm
                  | _ => UB
                  end) out [] (tt, m)).
Definition replace_on {T} (cx : context) (eqb : T -> T -> bool) (out : container) (old_value new_value : T)
    (m : mem T) : outcome (mem T) :=
  replace_if_on cx out (fun x => eqb x old_value) new_value m.

(** reduce(ctx, in, f, init), include/kwk/algorithm/algos/reduce.hpp 29-36. *)
Definition reduce_on {T A} (cx : context) (in_ : container) (f : A -> T -> A) (init : A) (m : mem T)
  : outcome (A * mem T) :=
  map_containers_on cx
    (fun ps sm => match ps with
                  | [i] => v <- load (snd sm) i ;; Ok (f (fst sm) v, snd sm)
                  | _ => UB
                  end) in_ [] (init, m).

(** all_of, any_of, none_of, count, count_if with a context,
    include/kwk/algorithm/algos/predicates.hpp 28-31, 40-43, 52-55, 64-67, 76-79. *)
Definition all_of_on {T} (cx : context) (in_ : container) (f : T -> bool) (m : mem T)
  : outcome (bool * mem T) := reduce_on cx in_ (fun a e => a && f e) true m.
Definition any_of_on {T} (cx : context) (in_ : container) (f : T -> bool) (m : mem T)
  : outcome (bool * mem T) := reduce_on cx in_ (fun a e => a || f e) false m.
Definition none_of_on {T} (cx : context) (in_ : container) (f : T -> bool) (m : mem T)
  : outcome (bool * mem T) := bm <- any_of_on cx in_ f m ;; Ok (negb (fst bm), snd bm).
Definition count_if_on {T} (cx : context) (in_ : container) (f : T -> bool) (m : mem T)
  : outcome (Z * mem T) := reduce_on cx in_ (fun a e => size_add a (f e)) 0 m.
Definition count_on {T} (cx : context) (eqb : T -> T -> bool) (in_ : container) (value : T) (m : mem T)
  : outcome (Z * mem T) := reduce_on cx in_ (fun a e => size_add a (eqb e value)) 0 m.

(** transform_reduce(ctx, in1, in2, init, R, T) and inner_product(ctx, in1, in2, init, f1, f2),
    include/kwk/algorithm/algos/numeric.hpp 29-34, 92-101. *)
Definition transform_reduce_on {T A B} (cx : context) (in1 in2 : container) (init : A) (R : A -> B -> A)
    (f : T -> T -> B) (m : mem T) : outcome (A * mem T) :=
  map_containers_on cx
    (fun ps sm => match ps with
                  | [i1; i2] => v1 <- load (snd sm) i1 ;; v2 <- load (snd sm) i2 ;;
                                Ok (R (fst sm) (f v1 v2), snd sm)
                  | _ => UB
                  end) in1 [in2] (init, m).
Definition inner_product_on {T A B} (cx : context) (dbg : bool) (in1 in2 : container) (init : A)
    (f1 : A -> B -> A) (f2 : T -> T -> B) (m : mem T) : outcome (A * mem T) :=
  _ <- kassert dbg (shape_eq (c_shape in1) (c_shape in2)) ;;
  transform_reduce_on cx in1 in2 init f1 f2 m.

(** transform_inclusive_scan and transform_exclusive_scan with a context, numeric.hpp 181-187, 143-148. *)
Definition transform_inclusive_scan_on {T B} (cx : context) (in_ out : container) (init : T)
    (f1 : T -> B -> T) (f2 : T -> B) (m : mem T) : outcome (mem T) :=
  r <- map_containers_on cx
    (fun ps sm => match ps with
                  | [i; o] => v <- load (snd sm) i ;; let sum := f1 (fst sm) (f2 v) in
                              m' <- store (snd sm) o sum ;; Ok (sum, m')
                  | _ => UB
                  end) in_ [out] (init, m) ;;
  Ok (snd r).
Definition transform_exclusive_scan_on {T B} (cx : context) (in_ out : container) (init : T)
    (f1 : T -> B -> T) (f2 : T -> B) (m : mem T) : outcome (mem T) :=
  r <- map_containers_on cx
    (fun ps sm => match ps with
                  | [i; o] => m' <- store (snd sm) o (fst sm) ;; v <- load m' i ;;
                              Ok (f1 (fst sm) (f2 v), m')
                  | _ => UB
                  end) in_ [out] (init, m) ;;
  Ok (snd r).

(** find_first_of(ctx, out, in), include/kwk/algorithm/algos/find.hpp 102-110: find_if does not use its
    context (34-36), the any_of of the predicate does. *)
Definition find_first_of_on {T} (cx : context) (eqb : T -> T -> bool) (c values : container) (m : mem T)
  : outcome (option (list cint) * mem T) :=
  r <- for_until (c_shape c)
    (fun is_ pm =>
       p <- ref (snd pm) c is_ ;; e <- load (snd pm) p ;;
       bm <- any_of_on cx values (fun x => eqb x e) (snd pm) ;;
       if fst bm then Ok (true, (map (fun i => conv I32 (conv U64 i)) is_, snd bm))
       else Ok (false, (fst pm, snd bm)))
    ([], m) ;;
  Ok (if fst r then Some (fst (snd r)) else None, snd (snd r)).
