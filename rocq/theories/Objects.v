(** The algorithms with function objects that keep their state in themselves (a class with data members, a
    lambda with captures by copy): which object is called decides where the state ends up.

    The function objects in existence are a list of states; an object is its position. A parameter taken by
    value is a copy, a forwarding reference is the argument itself. Simplified: an argument is an lvalue
    (temporaries are not seen afterwards), nothing is destroyed (copies remain in the list), and two copies
    made in a row of an object that is not called in between are one. Calls that do not compile are [UB]. *)
From Coq Require Import ZArith List Bool.
From Verif Require Import Outcome CInt Shape Memory Container ForEach Algo Search Calls.
Import ListNotations.
Open Scope Z_scope.

Section Objects.
Context {T Q : Type}.

Definition objects := list Q.
Fixpoint set_object (os : objects) (i : nat) (q : Q) : objects :=
  match os, i with
  | [], _ => []
  | _ :: os', O => q :: os'
  | x :: os', S i' => x :: set_object os' i' q
  end.

(** The call operator of a class: not const, it may change the object, or const. *)
Inductive operator (A R : Type) :=
| Changing (f : A -> Q -> outcome (R * Q))
| Constant (f : A -> Q -> outcome R).
Arguments Changing {A R}. Arguments Constant {A R}.

Definition call {A R} (f : operator A R) (a : A) (q : Q) : outcome (R * Q) :=
  match f with Changing g => g a q | Constant g => r <- g a q ;; Ok (r, q) end.

(** A call of an object that is not const. *)
Definition invoke {A R} (f : operator A R) (i : nat) (a : A) (os : objects) : outcome (R * objects) :=
  match nth_error os i with
  | Some q => r <- call f a q ;; Ok (fst r, set_object os i (snd r))
  | None => UB
  end.

(** A call of an object captured by copy in a lambda that is not mutable: it is const there, and an operator
    that is not const does not compile, whether it would be reached or not. *)
Definition is_const {A R} (f : operator A R) : outcome unit :=
  match f with Constant _ => Ok tt | Changing _ => UB end.

Definition copy_object (i : nat) (os : objects) : outcome (objects * nat) :=
  match nth_error os i with Some q => Ok (os ++ [q], length os) | None => UB end.

(** transform(ctx, f, out, c0, cs...) and transform(f, out, c0, cs...), include/kwk/algorithm/algos/transform.hpp
    16-32: Func&& f, captured by reference. *)
Definition transform_obj (f : operator (list T) T) (i : nat) (out c0 : container) (cs : list container)
    (os : objects) (m : mem T) : outcome (objects * mem T) :=
  transform_call (invoke f i) out c0 cs os m.

(** for_each(ctx, f, c0, cs...) and for_each(f, c0, cs...), include/kwk/algorithm/algos/for_each.hpp 55-85: Func&& f,
    captured by reference; [return f] copies it. Simplified: the callable reads the elements it is given and
    may assign to the first one. *)
Definition for_each_obj (f : operator (list T) (option T)) (i : nat) (c0 : container) (cs : list container)
    (os : objects) (m : mem T) : outcome ((objects * mem T) * nat) :=
  ' (os1, m1) <- for_each_containers
    (fun ps om => match ps with
                  | o :: _ => vs <- mapM (load (snd om)) ps ;; r <- invoke f i vs (fst om) ;;
                              match fst r with
                              | Some v => put o v (snd r) (snd om)
                              | None => Ok (snd r, snd om)
                              end
                  | [] => UB
                  end) c0 cs (os, m) ;;
  ' (os2, j) <- copy_object i os1 ;; Ok ((os2, m1), j).

(** for_each(ctx, f, shp), for_each.hpp 25-29: ctx.map (context.hpp 17-21) and __::for_each
    (detail/algorithm/for_each.hpp 24-40) take it by value; the latter returns what it called. *)
Definition for_each_shape_on (f : operator (list cint) unit) (i : nat) (sh : shape) (os : objects)
  : outcome (objects * nat) :=
  ' (os1, j) <- copy_object i os ;;
  os2 <- for_each sh (fun is_ os => r <- invoke f j is_ os ;; Ok (snd r)) os1 ;;
  copy_object j os2.
(** for_each(f, shp), for_each.hpp 49-53: no return statement. *)
Definition for_each_shape_obj (f : operator (list cint) unit) (i : nat) (sh : shape) (os : objects)
  : outcome objects :=
  ' (os1, _) <- for_each_shape_on f i sh os ;; Ok os1.

(** for_each_index(ctx, f, c), for_each.hpp 104-112: Func&& f; the lambda refers to it. *)
Definition for_each_index_on (f : operator (T * list cint) (option T)) (i : nat) (c : container)
    (os : objects) (m : mem T) : outcome ((objects * mem T) * nat) :=
  ' (os1, m1) <- for_each_index
    (fun o is_ om => v <- load (snd om) o ;; r <- invoke f i (v, is_) (fst om) ;;
                     match fst r with
                     | Some v' => put o v' (snd r) (snd om)
                     | None => Ok (snd r, snd om)
                     end) c (os, m) ;;
  ' (os2, j) <- copy_object i os1 ;; Ok ((os2, m1), j).
(** for_each_index(f, c), for_each.hpp 114-118: Func f. *)
Definition for_each_index_obj (f : operator (T * list cint) (option T)) (i : nat) (c : container)
    (os : objects) (m : mem T) : outcome ((objects * mem T) * nat) :=
  ' (os1, j) <- copy_object i os ;; for_each_index_on f j c os1 m.

(** reduce, reduce.hpp 29-42: Func f, captured by reference. *)
Definition reduce_obj {A} (in_ : container) (f : operator (A * T) A) (i : nat) (init : A)
    (os : objects) (m : mem T) : outcome ((A * objects) * mem T) :=
  ' (os1, j) <- copy_object i os ;; reduce_call in_ (fun a v => invoke f j (a, v)) init os1 m.

(** transform_reduce and inner_product, numeric.hpp 28-39 and 91-113: by value, captured by reference. *)
Definition transform_reduce_obj {A B} (in1 in2 : container) (init : A) (R : operator (A * B) A) (i : nat)
    (F : operator (T * T) B) (k : nat) (os : objects) (m : mem T) : outcome ((A * objects) * mem T) :=
  ' (os1, i1) <- copy_object i os ;; ' (os2, k1) <- copy_object k os1 ;;
  transform_reduce_call in1 in2 init (fun a b => invoke R i1 (a, b)) (fun v w => invoke F k1 (v, w)) os2 m.
Definition inner_product_obj {A B} (dbg : bool) (in1 in2 : container) (init : A) (R : operator (A * B) A) (i : nat)
    (F : operator (T * T) B) (k : nat) (os : objects) (m : mem T) : outcome ((A * objects) * mem T) :=
  ' (os1, i1) <- copy_object i os ;; ' (os2, k1) <- copy_object k os1 ;;
  inner_product_call dbg in1 in2 init (fun a b => invoke R i1 (a, b)) (fun v w => invoke F k1 (v, w)) os2 m.

(** The scans, numeric.hpp 142-153 and 180-192: likewise. *)
Definition exclusive_scan_obj {B} (in_ out : container) (init : T) (f1 : operator (T * B) T) (i : nat)
    (f2 : operator T B) (k : nat) (os : objects) (m : mem T) : outcome ((T * objects) * mem T) :=
  ' (os1, i1) <- copy_object i os ;; ' (os2, k1) <- copy_object k os1 ;;
  exclusive_scan_call in_ out init (fun a b => invoke f1 i1 (a, b)) (invoke f2 k1) os2 m.
Definition inclusive_scan_obj {B} (in_ out : container) (init : T) (f1 : operator (T * B) T) (i : nat)
    (f2 : operator T B) (k : nat) (os : objects) (m : mem T) : outcome ((T * objects) * mem T) :=
  ' (os1, i1) <- copy_object i os ;; ' (os2, k1) <- copy_object k os1 ;;
  inclusive_scan_call in_ out init (fun a b => invoke f1 i1 (a, b)) (invoke f2 k1) os2 m.

(** find_if and find_last_if, find.hpp 35-70 and 121-171: by value, captured by reference. *)
Definition find_if_obj (c : container) (f : operator T bool) (i : nat) (os : objects) (m : mem T)
  : outcome (option (list cint) * objects) :=
  ' (os1, j) <- copy_object i os ;; find_if_call c (invoke f j) os1 m.
Definition find_last_if_obj (st : bool) (c : container) (f : operator T bool) (i : nat) (os : objects) (m : mem T)
  : outcome (option (list cint) * objects) :=
  ' (os1, j) <- copy_object i os ;; find_last_if_call st c (invoke f j) os1 m.

(** lower_bound and upper_bound, binary_search.hpp 29-64 and 77-109: by value. binary_search 123-145: by value,
    and lower_bound gets a copy of that. *)
Definition lower_bound_obj (dbg : bool) (f : operator (T * T) bool) (i : nat) (c : container) (x : T)
    (os : objects) (m : mem T) : outcome (option (list cint) * objects) :=
  ' (os1, j) <- copy_object i os ;; lower_bound_call dbg (fun a b => invoke f j (a, b)) c x os1 m.
Definition upper_bound_obj (dbg : bool) (f : operator (T * T) bool) (i : nat) (c : container) (x : T)
    (os : objects) (m : mem T) : outcome (option (list cint) * objects) :=
  ' (os1, j) <- copy_object i os ;; upper_bound_call dbg (fun a b => invoke f j (a, b)) c x os1 m.
Definition binary_search_obj (dbg : bool) (f : operator (T * T) bool) (i : nat) (c : container) (x : T)
    (os : objects) (m : mem T) : outcome (bool * objects) :=
  ' (os1, j) <- copy_object i os ;;
  ' (first, os2) <- lower_bound_obj dbg f j c x os1 m ;;
  match first with
  | None => Ok (false, os2)
  | Some pos => e <- get m c pos ;; r <- invoke f j (x, e) os2 ;; Ok (negb (fst r), snd r)
  end.

(** The algorithms that capture the object by copy in a lambda: generate (generator.hpp 32-43), copy_if (copy.hpp
    34-45), replace_if (replace.hpp 16-26), all_of, any_of, none_of, count_if (predicates.hpp 27-85), find_if_not and
    find_last_if_not (find.hpp 86-98 and 187-199). *)
Definition generate_obj (f : operator (list cint) T) (i : nat) (out : container) (os : objects) (m : mem T)
  : outcome (objects * mem T) :=
  _ <- is_const f ;; ' (os1, j) <- copy_object i os ;; generate_call (invoke f j) out os1 m.
Definition copy_if_obj (f : operator T bool) (i : nat) (out in_ : container) (os : objects) (m : mem T)
  : outcome (objects * mem T) :=
  _ <- is_const f ;; ' (os1, j) <- copy_object i os ;; copy_if_call (invoke f j) out in_ os1 m.
Definition replace_if_obj (out : container) (f : operator T bool) (i : nat) (x : T) (os : objects) (m : mem T)
  : outcome (objects * mem T) :=
  _ <- is_const f ;; ' (os1, j) <- copy_object i os ;; replace_if_call out (invoke f j) x os1 m.
Definition all_of_obj (c : container) (f : operator T bool) (i : nat) (os : objects) (m : mem T)
  : outcome ((bool * objects) * mem T) :=
  _ <- is_const f ;; ' (os1, j) <- copy_object i os ;; all_of_call c (invoke f j) os1 m.
Definition any_of_obj (c : container) (f : operator T bool) (i : nat) (os : objects) (m : mem T)
  : outcome ((bool * objects) * mem T) :=
  _ <- is_const f ;; ' (os1, j) <- copy_object i os ;; any_of_call c (invoke f j) os1 m.
Definition none_of_obj (c : container) (f : operator T bool) (i : nat) (os : objects) (m : mem T)
  : outcome ((bool * objects) * mem T) :=
  _ <- is_const f ;; ' (os1, j) <- copy_object i os ;; none_of_call c (invoke f j) os1 m.
Definition count_if_obj (c : container) (f : operator T bool) (i : nat) (os : objects) (m : mem T)
  : outcome ((Z * objects) * mem T) :=
  _ <- is_const f ;; ' (os1, j) <- copy_object i os ;; count_if_call c (invoke f j) os1 m.
Definition find_if_not_obj (c : container) (f : operator T bool) (i : nat) (os : objects) (m : mem T)
  : outcome (option (list cint) * objects) :=
  _ <- is_const f ;; ' (os1, j) <- copy_object i os ;; find_if_not_call c (invoke f j) os1 m.
Definition find_last_if_not_obj (st : bool) (c : container) (f : operator T bool) (i : nat) (os : objects) (m : mem T)
  : outcome (option (list cint) * objects) :=
  _ <- is_const f ;; ' (os1, j) <- copy_object i os ;; find_last_if_not_call st c (invoke f j) os1 m.
End Objects.
Arguments Changing {Q A R}. Arguments Constant {Q A R}.
Arguments operator : clear implicits.
