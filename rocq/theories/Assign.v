(** Algorithms that assign to elements of an arithmetic type of their own: Algo.v has one type for all elements
    and values, so that an assignment copies. *)
From Coq Require Import ZArith List Bool.
From Coq Require Import Floats.SpecFloat.
From Verif Require Import Outcome CInt Shape Memory Container ForEach Algo Interp Mixed Convert.
Import ListNotations.
Open Scope Z_scope.

(** o = v, with an element of type [t] and a value of any arithmetic type: [expr.ass] converts. *)
Definition nassign (t : atype) (o : ptr) (v : number) (sm : unit * mem number) : outcome (unit * mem number) :=
  w <- convert t v ;; assign o w sm.

(** transform(f, out, c0, cs...), include/kwk/algorithm/algos/transform.hpp 16-32: o = f(i0, in...). The elements
    of the inputs and what [f] gives may be of any arithmetic types. *)
Definition ntransform (t : atype) (f : list number -> number) (out c0 : container) (cs : list container) (m : mem number)
  : outcome (mem number) :=
  run_map (map_containers
    (fun ps sm => match ps with
                  | o :: ins => vs <- mapM (load (snd sm)) ins ;; nassign t o (f vs) sm
                  | [] => UB
                  end) out (c0 :: cs) (tt, m)).

(** copy(out, in), include/kwk/algorithm/algos/copy.hpp 21-31: transform with [](auto i) { return i; }, which gives
    an object of the type of the elements of in. *)
Definition ncopy (t : atype) (out in_ : container) (m : mem number) : outcome (mem number) :=
  ntransform t (fun vs => hd (NInt 0) vs) out in_ [] m.

(** copy_if(f, out, in), copy.hpp 34-45: if(f(i)) o = i. *)
Definition ncopy_if (t : atype) (f : number -> bool) (out in_ : container) (m : mem number) : outcome (mem number) :=
  run_map (map_containers
    (fun ps sm => match ps with
                  | [o; i] => v <- load (snd sm) i ;; if f v then nassign t o v sm else Ok sm
                  | _ => UB
                  end) out [in_] (tt, m)).

(** fill(out, value), include/kwk/algorithm/algos/generator.hpp 19-29: o = value. *)
Definition nfill (t : atype) (out : container) (v : number) (m : mem number) : outcome (mem number) :=
  run_map (map_containers
    (fun ps sm => match ps with [o] => nassign t o v sm | _ => UB end) out [] (tt, m)).

(** generate(f, out), generator.hpp 32-43: o = f(is...). *)
Definition ngenerate (t : atype) (f : list cint -> number) (out : container) (m : mem number) : outcome (mem number) :=
  run_map (map_index (fun o is_ sm => nassign t o (f is_) sm) out (tt, m)).

(** replace_if(out, f, new_value), include/kwk/algorithm/algos/replace.hpp 16-26: if(f(o)) o = new_value. *)
Definition nreplace_if (t : atype) (out : container) (f : number -> bool) (new_value : number) (m : mem number)
  : outcome (mem number) :=
  run_map (map_containers
    (fun ps sm => match ps with
                  | [o] => v <- load (snd sm) o ;; if f v then nassign t o new_value sm else Ok sm
                  | _ => UB
                  end) out [] (tt, m)).
