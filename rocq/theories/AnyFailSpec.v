(** Specification vocabulary of C100. *)
From Coq Require Import ZArith List Bool.
From Verif Require Import Outcome Memory Alloc AllocSpec AnyFail.
Import ListNotations.
Open Scope Z_scope.

(** Operations that make an allocator. *)
Definition makes {A R} (o : aop A R) : bool :=
  match o with AFrom _ _ | ACopy _ _ | ACopyAssign _ _ | AAssign _ _ => true | _ => false end.
Definition fails (f : fault) : bool := match f with FNone => false | _ => true end.

(** The operations on values (as in C30), with failures: an operation that fails to make its allocator throws and has no
    other effect; the allocators say what allocate and deallocate do. [None]: undefined. *)
Definition made {A R} (e : nat -> option (option A)) (v : nat) (a : A) (f : fault) : (nat -> option (option A)) * fresult R :=
  if fails f then (e, Threw) else (set e v (Some (Some a)), Returned []).
Definition fvalue_step {A R} (fc : falloc_class A R) (e : nat -> option (option A)) (o : aop A R) (f : fault)
  : option ((nat -> option (option A)) * fresult R) :=
  match o with
  | ADefault v => match e v with None => Some (set e v (Some None), Returned []) | _ => None end
  | AFrom v a => match e v with None => Some (made e v a f) | _ => None end
  | ACopy v w => match e v, e w with None, Some (Some a) => Some (made e v a f) | _, _ => None end
  | AMove v w =>
      match e v, e w with None, Some x => Some (set (set e w (Some None)) v (Some x), Returned []) | _, _ => None end
  | ACopyAssign v w => match e v, e w with Some _, Some (Some a) => Some (made e v a f) | _, _ => None end
  | AMoveAssign v w =>
      match e v, e w with
      | Some _, Some x => Some (if Nat.eqb v w then e else set (set e w (Some None)) v (Some x), Returned [])
      | _, _ => None
      end
  | AAssign v a => match e v with Some _ => Some (made e v a f) | _ => None end
  | ASwap v w =>
      match e v, e w with Some x, Some y => Some (set (set e v (Some y)) w (Some x), Returned []) | _, _ => None end
  | AAllocate v n =>
      match e v with
      | Some (Some a) => Some (set e v (Some (Some (fst (fc_allocate fc a n)))),
                               match snd (fc_allocate fc a n) with Some r => Returned [r] | None => Threw end)
      | _ => None
      end
  | ADeallocate v r =>
      match e v with
      | Some (Some a) => Some (set e v (Some (Some (fst (fc_deallocate fc a r)))),
                               if snd (fc_deallocate fc a r) then Threw else Returned [])
      | _ => None
      end
  | ADestroy v => match e v with Some _ => Some (set e v None, Returned []) | _ => None end
  end.

Fixpoint fvalue_runs {A R} (fc : falloc_class A R) (e : nat -> option (option A)) (os : list (aop A R * fault))
  : option ((nat -> option (option A)) * list (fresult R)) :=
  match os with
  | [] => Some (e, [])
  | (o, f) :: os' =>
      match fvalue_step fc e o f with
      | None => None
      | Some (e1, r1) => match fvalue_runs fc e1 os' with None => None | Some (e2, rs) => Some (e2, r1 :: rs) end
      end
  end.

(** The variables hold the given values, each in an object and in storage of its own; no other object lives, no other
    storage is left. *)
Definition fholds {A} (s : fstate A) (e : nat -> option (option A)) : Prop :=
  (forall v, match e v, f_vars s v with
             | None, None | Some None, Some None => True
             | Some (Some a), Some (Some b) =>
                 exists i, nth_error (f_mem s) b = Some (Some (Some i)) /\ nth_error (f_objs s) i = Some (Some a)
             | _, _ => False
             end) /\
  (forall v w b, f_vars s v = Some (Some b) -> f_vars s w = Some (Some b) -> v = w) /\
  (forall b c i, nth_error (f_mem s) b = Some (Some (Some i)) -> nth_error (f_mem s) c = Some (Some (Some i)) -> b = c) /\
  (forall b x, nth_error (f_mem s) b = Some (Some x) -> exists v, f_vars s v = Some (Some b)) /\
  (forall i a, nth_error (f_objs s) i = Some (Some a) -> exists b, nth_error (f_mem s) b = Some (Some (Some i))).

(** [s'] is [s] but for objects that have ended and storage that was released meanwhile. *)
Definition untouched {A} (s s' : fstate A) : Prop :=
  (forall v, f_vars s' v = f_vars s v) /\
  (exists n, f_objs s' = f_objs s ++ repeat None n) /\ (exists n, f_mem s' = f_mem s ++ repeat None n).
