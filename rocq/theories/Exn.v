(** The algorithms with callables that throw. Nothing in the library catches an exception or is noexcept on
    the way (context/cpu/context.hpp, detail/algorithm/for_each.hpp, algorithm/algos): it leaves the loops at
    once, with the elements as they are then.

    A body returns whether an exception leaves it, besides its state; a callable returns nothing ([None]) when
    it throws. Callables have a state [Q] as in Calls.v, with the same simplification. *)
From Coq Require Import ZArith List Bool.
From Verif Require Import Outcome CInt Shape Memory Container ForEach Algo.
Import ListNotations.
Open Scope Z_scope.

(** The loop of include/kwk/detail/algorithm/for_each.hpp 31-32, as [ForEach.loop]. *)
Fixpoint loop_exn {S : Type} (fuel : nat) (m i : cint) (body : cint -> S -> outcome (bool * S)) (s : S)
  : outcome (bool * S) :=
  match fuel with
  | O => NoFuel
  | Datatypes.S fuel' =>
      if clt i m then
        r <- body i s ;;
        if fst r then Ok r else i' <- cincr i ;; loop_exn fuel' m i' body (snd r)
      else Ok (false, s)
  end.

(** __::for_each(f, ds), for_each.hpp 24-40, as [ForEach.for_each]. *)
Definition for_each_exn {S : Type} (ds : list cint) (f : list cint -> S -> outcome (bool * S)) (s : S)
  : outcome (bool * S) :=
  pile (fun acc m => fun is_ s => loop_exn (fuel_of m) m (CI (cty m) 0) (fun i => acc (is_ ++ [i])) s)
       ds f [] s.

(** cpu_context::map and map_index, include/kwk/context/cpu/context.hpp 24-36. *)
Definition map_exn {T S} (f : list ptr -> S * mem T -> outcome (bool * (S * mem T)))
    (c0 : container) (cs : list container) (sm : S * mem T) : outcome (bool * (S * mem T)) :=
  for_each_exn (c_shape c0)
    (fun is_ sm => ps <- mapM (fun c => ref (snd sm) c is_) (c0 :: cs) ;; f ps sm) sm.
Definition map_index_exn {T S} (f : ptr -> list cint -> S * mem T -> outcome (bool * (S * mem T)))
    (c : container) (sm : S * mem T) : outcome (bool * (S * mem T)) :=
  for_each_exn (c_shape c) (fun is_ sm => p <- ref (snd sm) c is_ ;; f p is_ sm) sm.

Section Exn.
Context {T Q : Type}.

(** [o = v], without exception. *)
Definition put_exn {S} (o : ptr) (v : T) (s : S) (m : mem T) : outcome (bool * (S * mem T)) :=
  m' <- store m o v ;; Ok (false, (s, m')).

(** transform, include/kwk/algorithm/algos/transform.hpp 16-32: o = f(i0, in...). *)
Definition transform_exn (f : list T -> Q -> outcome (option T * Q)) (out c0 : container) (cs : list container)
    (q : Q) (m : mem T) : outcome (bool * (Q * mem T)) :=
  map_exn
    (fun ps qm => match ps with
                  | o :: ins => vs <- mapM (load (snd qm)) ins ;; r <- f vs (fst qm) ;;
                                match fst r with
                                | Some v => put_exn o v (snd r) (snd qm)
                                | None => Ok (true, (snd r, snd qm))
                                end
                  | [] => UB
                  end) out (c0 :: cs) (q, m).

(** copy_if, include/kwk/algorithm/algos/copy.hpp 34-45: if(f(i)) o = i. *)
Definition copy_if_exn (f : T -> Q -> outcome (option bool * Q)) (out in_ : container) (q : Q) (m : mem T)
  : outcome (bool * (Q * mem T)) :=
  map_exn
    (fun ps qm => match ps with
                  | [o; i] => v <- load (snd qm) i ;; r <- f v (fst qm) ;;
                              match fst r with
                              | Some true => v' <- load (snd qm) i ;; put_exn o v' (snd r) (snd qm)
                              | Some false => Ok (false, (snd r, snd qm))
                              | None => Ok (true, (snd r, snd qm))
                              end
                  | _ => UB
                  end) out [in_] (q, m).

(** generate, include/kwk/algorithm/algos/generator.hpp 32-43: o = f(is...). *)
Definition generate_exn (f : list cint -> Q -> outcome (option T * Q)) (out : container) (q : Q) (m : mem T)
  : outcome (bool * (Q * mem T)) :=
  map_index_exn (fun o is_ qm => r <- f is_ (fst qm) ;;
                   match fst r with
                   | Some v => put_exn o v (snd r) (snd qm)
                   | None => Ok (true, (snd r, snd qm))
                   end) out (q, m).

(** replace_if, include/kwk/algorithm/algos/replace.hpp 16-26: if(f(o)) o = new_value. *)
Definition replace_if_exn (out : container) (f : T -> Q -> outcome (option bool * Q)) (new_value : T)
    (q : Q) (m : mem T) : outcome (bool * (Q * mem T)) :=
  map_exn
    (fun ps qm => match ps with
                  | [o] => v <- load (snd qm) o ;; r <- f v (fst qm) ;;
                           match fst r with
                           | Some true => put_exn o new_value (snd r) (snd qm)
                           | Some false => Ok (false, (snd r, snd qm))
                           | None => Ok (true, (snd r, snd qm))
                           end
                  | _ => UB
                  end) out [] (q, m).

(** for_each, include/kwk/algorithm/algos/for_each.hpp 55-60, with a callable that takes its argument by
    reference and leaves a value there, also when it throws. *)
Definition for_each_elems_exn (f : T -> Q -> outcome ((T * bool) * Q)) (c : container) (q : Q) (m : mem T)
  : outcome (bool * (Q * mem T)) :=
  map_exn
    (fun ps qm => match ps with
                  | [o] => v <- load (snd qm) o ;; r <- f v (fst qm) ;;
                           m' <- store (snd qm) o (fst (fst r)) ;; Ok (snd (fst r), (snd r, m'))
                  | _ => UB
                  end) c [] (q, m).

(** reduce, include/kwk/algorithm/algos/reduce.hpp 29-42: init = f(init, i), on a copy of the argument. *)
Definition reduce_exn {A} (in_ : container) (f : A -> T -> Q -> outcome (option A * Q)) (init : A)
    (q : Q) (m : mem T) : outcome (bool * ((A * Q) * mem T)) :=
  map_exn
    (fun ps am => match ps with
                  | [i] => v <- load (snd am) i ;; r <- f (fst (fst am)) v (snd (fst am)) ;;
                           match fst r with
                           | Some a => Ok (false, ((a, snd r), snd am))
                           | None => Ok (true, ((fst (fst am), snd r), snd am))
                           end
                  | _ => UB
                  end) in_ [] ((init, q), m).

(** transform_exclusive_scan, numeric.hpp 142-153: o = sum; sum = f1(sum, f2(i)). *)
Definition exclusive_scan_exn {B} (in_ out : container) (init : T)
    (f1 : T -> B -> Q -> outcome (option T * Q)) (f2 : T -> Q -> outcome (option B * Q))
    (q : Q) (m : mem T) : outcome (bool * ((T * Q) * mem T)) :=
  map_exn
    (fun ps sm =>
       match ps with
       | [i; o] =>
           let sum := fst (fst sm) in
           m' <- store (snd sm) o sum ;; v <- load m' i ;; d <- f2 v (snd (fst sm)) ;;
           match fst d with
           | None => Ok (true, ((sum, snd d), m'))
           | Some x => r <- f1 sum x (snd d) ;;
                       match fst r with
                       | None => Ok (true, ((sum, snd r), m'))
                       | Some s => Ok (false, ((s, snd r), m'))
                       end
           end
       | _ => UB
       end) in_ [out] ((init, q), m).

(** transform_inclusive_scan, numeric.hpp 180-192: sum = f1(sum, f2(i)); o = sum. *)
Definition inclusive_scan_exn {B} (in_ out : container) (init : T)
    (f1 : T -> B -> Q -> outcome (option T * Q)) (f2 : T -> Q -> outcome (option B * Q))
    (q : Q) (m : mem T) : outcome (bool * ((T * Q) * mem T)) :=
  map_exn
    (fun ps sm =>
       match ps with
       | [i; o] =>
           let sum := fst (fst sm) in
           v <- load (snd sm) i ;; d <- f2 v (snd (fst sm)) ;;
           match fst d with
           | None => Ok (true, ((sum, snd d), snd sm))
           | Some x => r <- f1 sum x (snd d) ;;
                       match fst r with
                       | None => Ok (true, ((sum, snd r), snd sm))
                       | Some s => put_exn o s (s, snd r) (snd sm)
                       end
           end
       | _ => UB
       end) in_ [out] ((init, q), m).
End Exn.
