(** The accesses to elements a call makes, in the order in which it makes them: the calls of Threads.v run alone,
    as [alone], with a list of what they read and write. *)
From Coq Require Import ZArith List Bool.
From Verif Require Import Outcome CInt Memory Threads.
Import ListNotations.

(** An element is read, and this is its value; or it is given a value. *)
Inductive access (T : Type) := Sees (p : ptr) (v : T) | Sets (p : ptr) (v : T).
Arguments Sees {T}. Arguments Sets {T}.

(** The algorithms as in Threads.v (include/kwk/algorithm/algos/transform.hpp 16-32, copy.hpp 21-45, generator.hpp
    19-43, replace.hpp 16-26, reduce.hpp 29-66, numeric.hpp 28-39, 91-101, 142-192, find.hpp 35-70 and 121-171,
    binary_search.hpp 29-139, for_each.hpp 55-118). What is counted is the value an element is asked for or given once
    per use of the reference to it; the copies of that value that the callable, the parameters it has and the
    compiler make are not. *)
Fixpoint logged {T A} (x : act T A) (m : mem T) : outcome (list (access T) * (A * mem T)) :=
  match x with
  | Stop o => a <- o ;; Ok ([], (a, m))
  | Mk p k => if validb m p then logged k m else UB
  | Ld p k => v <- load m p ;; r <- logged (k v) m ;; Ok (Sees p v :: fst r, snd r)
  | St p v k => m' <- store m p v ;; r <- logged k m' ;; Ok (Sets p v :: fst r, snd r)
  end.
