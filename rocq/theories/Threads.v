(** Calls of the library made by several threads: the same functions as in [Algo], [Search] and [Container],
    as sequences of accesses to the elements, and threads that take turns after every access. *)
From Coq Require Import ZArith List Bool.
From Verif Require Import Outcome CInt Shape Memory Container ForEach Algo Search Program.
Import ListNotations.
Open Scope Z_scope.

(** What a thread has still to do: nothing more, it ended in some way; or form the reference to an element, read
    an element, or write one, and then go on. The library has no other state that two threads could share:
    all its objects with static storage are constexpr, kwk::cpu (include/kwk/context/cpu/context.hpp 39) among them. *)
Inductive act (T A : Type) :=
| Stop (o : outcome A)
| Mk (p : ptr) (k : act T A)
| Ld (p : ptr) (k : T -> act T A)
| St (p : ptr) (v : T) (k : act T A).
Arguments Stop {T A}. Arguments Mk {T A}. Arguments Ld {T A}. Arguments St {T A}.

Definition ret {T A} (a : A) : act T A := Stop (Ok a).
Fixpoint abind {T A B} (x : act T A) (f : A -> act T B) : act T B :=
  match x with
  | Stop (Ok a) => f a
  | Stop Abort => Stop Abort
  | Stop UB => Stop UB
  | Stop NoFuel => Stop NoFuel
  | Mk p k => Mk p (abind k f)
  | Ld p k => Ld p (fun v => abind (k v) f)
  | St p v k => St p v (abind k f)
  end.
Notation "x <~ e ;; f" := (abind e (fun x => f)) (at level 61, e at next level, right associativity).

(** All of it without interruption. *)
Fixpoint alone {T A} (x : act T A) (m : mem T) : outcome (A * mem T) :=
  match x with
  | Stop o => a <- o ;; Ok (a, m)
  | Mk p k => if validb m p then alone k m else UB
  | Ld p k => v <- load m p ;; alone (k v) m
  | St p v k => m' <- store m p v ;; alone k m'
  end.

Definition aload {T} (p : ptr) : act T T := Ld p ret.
Definition astore {T} (p : ptr) (v : T) : act T unit := St p v (ret tt).

(** c(is...), [Container.ref], and reading and writing through it. *)
Definition aref {T} (c : container) (is_ : list cint) : act T ptr :=
  p <~ Stop (address c is_) ;; Mk p (ret p).
Definition aget {T} (c : container) (is_ : list cint) : act T T := p <~ aref c is_ ;; aload p.
Definition aput {T} (c : container) (is_ : list cint) (v : T) : act T unit := p <~ aref c is_ ;; astore p v.

Fixpoint amapM {T A B} (f : A -> act T B) (l : list A) : act T (list B) :=
  match l with
  | [] => ret []
  | x :: xs => y <~ f x ;; ys <~ amapM f xs ;; ret (y :: ys)
  end.

(** __::for_each and __::for_until, include/kwk/detail/algorithm/for_each.hpp 24-40, for_until.hpp 19-36. *)
Fixpoint aloop {T S} (fuel : nat) (m i : cint) (body : cint -> S -> act T S) (s : S) : act T S :=
  match fuel with
  | O => Stop NoFuel
  | Datatypes.S fuel' =>
      if clt i m then s' <~ body i s ;; i' <~ Stop (cincr i) ;; aloop fuel' m i' body s' else ret s
  end.
Definition afor_each {T S} (ds : list cint) (f : list cint -> S -> act T S) (s : S) : act T S :=
  pile (fun acc m => fun is_ s => aloop (fuel_of m) m (CI (cty m) 0) (fun i => acc (is_ ++ [i])) s) ds f [] s.
Fixpoint aloop_until {T S} (fuel : nat) (m i : cint) (body : cint -> bool * S -> act T (bool * S)) (s : bool * S)
  : act T (bool * S) :=
  match fuel with
  | O => Stop NoFuel
  | Datatypes.S fuel' =>
      if negb (fst s) && clt i m then s' <~ body i s ;; i' <~ Stop (cincr i) ;; aloop_until fuel' m i' body s'
      else ret s
  end.
Definition afor_until {T S} (ds : list cint) (f : list cint -> S -> act T (bool * S)) (s : S) : act T (bool * S) :=
  pile (fun acc m => fun is_ s => aloop_until (fuel_of m) m (CI (cty m) 0) (fun i => acc (is_ ++ [i])) s)
       ds (fun is_ fs => f is_ (snd fs)) [] (false, s).

(** cpu_context::map and map_index, include/kwk/context/cpu/context.hpp 24-36. *)
Definition amap {T S} (f : list ptr -> S -> act T S) (c0 : container) (cs : list container) (s : S) : act T S :=
  afor_each (c_shape c0) (fun is_ s => ps <~ amapM (fun c => aref c is_) (c0 :: cs) ;; f ps s) s.
Definition amap_index {T S} (f : ptr -> list cint -> S -> act T S) (c : container) (s : S) : act T S :=
  afor_each (c_shape c) (fun is_ s => p <~ aref c is_ ;; f p is_ s) s.

(** for_each and for_each_index, include/kwk/algorithm/algos/for_each.hpp 55-118, with callables that read and write
    the elements they get. *)
Fixpoint acall {S T} (e : elem_fun S T) (ps : list ptr) : act T S :=
  match e with
  | Done s => ret s
  | Rd i k => match nth_error ps i with Some p => Ld p (fun v => acall (k v) ps) | None => Stop UB end
  | Wr i v k => match nth_error ps i with Some p => St p v (acall k ps) | None => Stop UB end
  end.
Definition a_for_each {S T} (f : S -> elem_fun S T) (c0 : container) (cs : list container) (s : S) : act T S :=
  amap (fun ps s => acall (f s) ps) c0 cs s.
Definition a_for_each_index {S T} (f : S -> list Z -> elem_fun S T) (c : container) (s : S) : act T S :=
  amap_index (fun p is_ s => acall (f s (map cval is_)) [p]) c s.

(** The algorithms, as in [Algo] (include/kwk/algorithm/algos/transform.hpp 16-32, copy.hpp 21-45, generator.hpp 19-43,
    replace.hpp 16-26, reduce.hpp 29-66, numeric.hpp 28-39, 91-101, 142-192, find.hpp 35-70 and 121-171). Each use of
    the reference to an element is one access: copy_if reads a value it copies twice. *)
Definition a_transform {T} (f : list T -> T) (out c0 : container) (cs : list container) : act T unit :=
  amap (fun ps _ => match ps with
                    | o :: ins => vs <~ amapM aload ins ;; astore o (f vs)
                    | [] => Stop UB
                    end) out (c0 :: cs) tt.
Definition a_copy {T} (out in_ : container) : act T unit :=
  amap (fun ps _ => match ps with [o; i] => v <~ aload i ;; astore o v | _ => Stop UB end) out [in_] tt.
Definition a_copy_if {T} (f : T -> bool) (out in_ : container) : act T unit :=
  amap (fun ps _ => match ps with
                    | [o; i] => v <~ aload i ;; if f v then w <~ aload i ;; astore o w else ret tt
                    | _ => Stop UB
                    end) out [in_] tt.
Definition a_fill {T} (out : container) (v : T) : act T unit :=
  amap (fun ps _ => match ps with [o] => astore o v | _ => Stop UB end) out [] tt.
Definition a_generate {T} (f : list cint -> T) (out : container) : act T unit :=
  amap_index (fun o is_ _ => astore o (f is_)) out tt.
Definition a_iota {et : ity} (out : container) (value : cint) : act cint unit :=
  _ <~ amap (fun ps s => match ps with
                         | [o] => _ <~ astore o (conv et s) ;; Stop (cincr s)
                         | _ => Stop UB
                         end) out [] value ;; ret tt.
Definition a_iota_step {et : ity} (out : container) (value step : cint) : act cint unit :=
  _ <~ amap (fun ps s => match ps with
                         | [o] => _ <~ astore o (conv et s) ;; t <~ Stop (cadd s step) ;; ret (conv (cty s) t)
                         | _ => Stop UB
                         end) out [] value ;; ret tt.
Definition a_replace_if {T} (out : container) (f : T -> bool) (new_value : T) : act T unit :=
  amap (fun ps _ => match ps with
                    | [o] => v <~ aload o ;; if f v then astore o new_value else ret tt
                    | _ => Stop UB
                    end) out [] tt.
Definition a_reduce {T A} (in_ : container) (f : A -> T -> A) (init : A) : act T A :=
  amap (fun ps s => match ps with [i] => v <~ aload i ;; ret (f s v) | _ => Stop UB end) in_ [] init.
Definition a_transform_reduce {T A B} (in1 in2 : container) (init : A) (R : A -> B -> A) (f : T -> T -> B) : act T A :=
  amap (fun ps s => match ps with
                    | [i1; i2] => v1 <~ aload i1 ;; v2 <~ aload i2 ;; ret (R s (f v1 v2))
                    | _ => Stop UB
                    end) in1 [in2] init.
Definition a_inner_product {T A B} (dbg : bool) (in1 in2 : container) (init : A) (f1 : A -> B -> A) (f2 : T -> T -> B)
  : act T A :=
  _ <~ Stop (kassert dbg (shape_eq (c_shape in1) (c_shape in2))) ;; a_transform_reduce in1 in2 init f1 f2.
Definition a_exclusive_scan {T B} (in_ out : container) (init : T) (f1 : T -> B -> T) (f2 : T -> B) : act T unit :=
  _ <~ amap (fun ps s => match ps with
                         | [i; o] => _ <~ astore o s ;; v <~ aload i ;; ret (f1 s (f2 v))
                         | _ => Stop UB
                         end) in_ [out] init ;; ret tt.
Definition a_inclusive_scan {T B} (in_ out : container) (init : T) (f1 : T -> B -> T) (f2 : T -> B) : act T unit :=
  _ <~ amap (fun ps s => match ps with
                         | [i; o] => v <~ aload i ;; _ <~ astore o (f1 s (f2 v)) ;; ret (f1 s (f2 v))
                         | _ => Stop UB
                         end) in_ [out] init ;; ret tt.
Definition a_find_if {T} (c : container) (f : T -> bool) : act T (option (list cint)) :=
  r <~ afor_until (c_shape c)
    (fun is_ pos => p <~ aref c is_ ;; v <~ aload p ;;
       if f v then ret (true, map (fun i => conv I32 (conv U64 i)) is_) else ret (false, pos)) [] ;;
  ret (if fst r then Some (snd r) else None).
Definition a_find_first_of {T} (eqb : T -> T -> bool) (c values : container) : act T (option (list cint)) :=
  r <~ afor_until (c_shape c)
    (fun is_ pos => p <~ aref c is_ ;; e <~ aload p ;;
       b <~ a_reduce values (fun a x => a || eqb x e) false ;;
       if b then ret (true, map (fun i => conv I32 (conv U64 i)) is_) else ret (false, pos)) [] ;;
  ret (if fst r then Some (snd r) else None).
Definition a_find_last_if {T} (st : bool) (c : container) (f : T -> bool) : act T (option (list cint)) :=
  rc <~ Stop (reverse st c) ;;
  r <~ a_find_if rc f ;;
  match r with
  | None => ret None
  | Some pos =>
      ps <~ Stop (mapM (fun np => a <- csub (fst np) (int 1) ;; b <- csub a (snd np) ;; Ok (conv I32 b))
                       (combine (c_shape c) pos)) ;;
      ret (Some ps)
  end.

(** lower_bound, upper_bound and binary_search, include/kwk/algorithm/algos/binary_search.hpp 29-139. *)
Fixpoint abisect {T} (dbg : bool) (cond : T -> bool) (c : container) (fuel : nat) (count first it : cint)
  : act T (cint * cint) :=
  if clt (int 0) count then
    match fuel with
    | O => Stop NoFuel
    | Datatypes.S fuel' =>
        step <~ Stop (cdiv count (int 2)) ;;
        it' <~ Stop (cadd first step) ;;
        pos <~ Stop (coordinates dbg it' (c_shape c)) ;;
        e <~ aget c pos ;;
        if cond e then
          it'' <~ Stop (cincr it') ;;
          s1 <~ Stop (cadd step (int 1)) ;; count' <~ Stop (csub count s1) ;;
          abisect dbg cond c fuel' count' it'' it''
        else abisect dbg cond c fuel' step first it'
    end
  else ret (first, it).
Definition a_lower_bound {T} (dbg : bool) (func : T -> T -> bool) (c : container) (value : T) : act T (option (list cint)) :=
  n <~ Stop (c_numel c) ;;
  if ceqb n (int 0) then ret None
  else r <~ abisect dbg (fun e => func e value) c (bisect_fuel n) n (int 0) (int 0) ;; Stop (bound_result dbg c n r).
Definition a_upper_bound {T} (dbg : bool) (func : T -> T -> bool) (c : container) (value : T) : act T (option (list cint)) :=
  n <~ Stop (c_numel c) ;;
  r <~ abisect dbg (fun e => negb (func value e)) c (bisect_fuel n) n (int 0) (int 0) ;; Stop (bound_result dbg c n r).
Definition a_binary_search {T} (dbg : bool) (func : T -> T -> bool) (c : container) (value : T) : act T bool :=
  first <~ a_lower_bound dbg func c value ;;
  match first with
  | None => ret false
  | Some pos => e <~ aget c pos ;; ret (negb (func value e))
  end.

(** Threads taking turns: one of them does its next access, the others wait. [None]: it has ended. *)
Definition advance {T A} (x : act T A) (m : mem T) : option (outcome (act T A * mem T)) :=
  match x with
  | Stop _ => None
  | Mk p k => Some (if validb m p then Ok (k, m) else UB)
  | Ld p k => Some (v <- load m p ;; Ok (k v, m))
  | St p v k => Some (m' <- store m p v ;; Ok (k, m'))
  end.
Definition state (T A : Type) := (list (act T A) * mem T)%type.
Inductive turn {T A} : state T A -> state T A -> Prop :=
| turn_of i ths m x x' m' : nth_error ths i = Some x -> advance x m = Some (Ok (x', m')) ->
    turn (ths, m) (set_nth ths i x', m').
Inductive turns {T A} : nat -> state T A -> state T A -> Prop :=
| turns_none s : turns 0 s s
| turns_more n s s' s'' : turns n s s' -> turn s' s'' -> turns (Datatypes.S n) s s''.
