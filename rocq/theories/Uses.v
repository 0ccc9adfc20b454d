(** The algorithms with callables that use containers themselves: a lookup table, the neighbours of an element, a
    histogram. A callable is a function of its arguments and of the whole memory, which it may read and change, through
    any container; a call may abort or be undefined. Simplified: it takes its arguments by value, i.e. the elements it is
    given are read before the call; it makes and destroys no tables (then the cells stay the same). *)
From Coq Require Import ZArith List Bool.
From Verif Require Import Outcome CInt Shape Memory Container ForEach Algo.
Import ListNotations.
Open Scope Z_scope.

Section Uses.
Context {T : Type}.

(** generate, include/kwk/algorithm/algos/generator.hpp 32-43: o = f(is...), the call before the assignment. *)
Definition generate_use (f : list cint -> mem T -> outcome (T * mem T)) (out : container) (m : mem T) : outcome (mem T) :=
  run_map (map_index (fun o is_ sm => r <- f is_ (snd sm) ;; assign o (fst r) (tt, snd r)) out (tt, m)).

(** transform, include/kwk/algorithm/algos/transform.hpp 16-32: o = f(i0, in...). *)
Definition transform_use (f : list T -> mem T -> outcome (T * mem T)) (out c0 : container) (cs : list container)
    (m : mem T) : outcome (mem T) :=
  run_map (map_containers
    (fun ps sm => match ps with
                  | o :: ins => vs <- mapM (load (snd sm)) ins ;; r <- f vs (snd sm) ;; assign o (fst r) (tt, snd r)
                  | [] => UB
                  end) out (c0 :: cs) (tt, m)).

(** copy_if, include/kwk/algorithm/algos/copy.hpp 34-45: if(f(i)) o = i; the element is read again after the call. *)
Definition copy_if_use (f : T -> mem T -> outcome (bool * mem T)) (out in_ : container) (m : mem T) : outcome (mem T) :=
  run_map (map_containers
    (fun ps sm => match ps with
                  | [o; i] => v <- load (snd sm) i ;; r <- f v (snd sm) ;;
                              if fst r then v' <- load (snd r) i ;; assign o v' (tt, snd r) else Ok (tt, snd r)
                  | _ => UB
                  end) out [in_] (tt, m)).

(** replace_if, include/kwk/algorithm/algos/replace.hpp 16-26: if(f(o)) o = new_value. *)
Definition replace_if_use (out : container) (f : T -> mem T -> outcome (bool * mem T)) (new_value : T) (m : mem T)
  : outcome (mem T) :=
  run_map (map_containers
    (fun ps sm => match ps with
                  | [o] => v <- load (snd sm) o ;; r <- f v (snd sm) ;;
                           if fst r then assign o new_value (tt, snd r) else Ok (tt, snd r)
                  | _ => UB
                  end) out [] (tt, m)).

(** reduce, include/kwk/algorithm/algos/reduce.hpp 29-42: init = f(init, i). *)
Definition reduce_use {A} (in_ : container) (f : A -> T -> mem T -> outcome (A * mem T)) (init : A) (m : mem T)
  : outcome (A * mem T) :=
  map_containers
    (fun ps am => match ps with
                  | [i] => v <- load (snd am) i ;; f (fst am) v (snd am)
                  | _ => UB
                  end) in_ [] (init, m).

(** for_each, include/kwk/algorithm/algos/for_each.hpp 55-85: f(c0(is...), cs(is...)...). *)
Definition for_each_use (f : list T -> mem T -> outcome (mem T)) (c0 : container) (cs : list container) (m : mem T)
  : outcome (mem T) :=
  run_map (for_each_containers
    (fun ps sm => vs <- mapM (load (snd sm)) ps ;; m' <- f vs (snd sm) ;; Ok (tt, m')) c0 cs (tt, m)).

(** find_if, include/kwk/algorithm/algos/find.hpp 35-70. *)
Definition find_if_use (c : container) (f : T -> mem T -> outcome (bool * mem T)) (m : mem T)
  : outcome (option (list cint) * mem T) :=
  r <- for_until (c_shape c)
    (fun is_ pm =>
       p <- ref (snd pm) c is_ ;; v <- load (snd pm) p ;; r <- f v (snd pm) ;;
       if fst r then Ok (true, (map (fun i => conv I32 (conv U64 i)) is_, snd r)) else Ok (false, (fst pm, snd r)))
    ([], m) ;;
  Ok (if fst r then Some (fst (snd r)) else None, snd (snd r)).
End Uses.
