(** Loops over a shape, or over a container with its coordinates, whose callables use containers. As in Uses.v a callable is
    a function of its arguments and of the whole memory; the element it is given is read before the call; it makes and
    destroys no tables. *)
From Coq Require Import ZArith List Bool.
From Verif Require Import Outcome CInt Shape Memory Container ForEach Algo.
Import ListNotations.
Open Scope Z_scope.

(** for_each(f, shp), include/kwk/algorithm/algos/for_each.hpp 24-28 and 48-52, by cpu_context::map,
    include/kwk/context/cpu/context.hpp 18-22: f(is...) for all coordinates. *)
Definition shape_loop {T} (f : list cint -> mem T -> outcome (mem T)) (s : shape) (m : mem T) : outcome (mem T) :=
  for_each s f m.

(** for_each_index(f, c), algos/for_each.hpp 104-118: f(c(is...), is...). *)
Definition index_loop {T} (f : T -> list cint -> mem T -> outcome (mem T)) (c : container) (m : mem T) : outcome (mem T) :=
  run_map (for_each_index (fun p is_ sm => v <- load (snd sm) p ;; m' <- f v is_ (snd sm) ;; Ok (tt, m')) c (tt, m)).
