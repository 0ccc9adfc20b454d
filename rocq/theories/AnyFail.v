(** any_allocator when allocations fail and allocators throw, include/kwk/utility/memory/any_allocator.hpp: the
    operations of [Alloc.v] followed down to the allocator objects made and destroyed. *)
From Coq Require Import ZArith List Bool.
From Verif Require Import Outcome Memory Alloc.
Import ListNotations.
Open Scope Z_scope.

(** An allocator type whose allocate may throw ([None]) and whose deallocate may throw ([true]); either may have changed
    the object before (concepts/allocator.hpp 22-26). *)
Record falloc_class (A R : Type) := FC {
  fc_allocate : A -> Z -> A * option R;
  fc_deallocate : A -> R -> A * bool
}.
Arguments FC {A R}. Arguments fc_allocate {A R}. Arguments fc_deallocate {A R}.

(** What goes wrong in std::make_unique<model_t<T>>(x), lines 47 and 78: operator new, the initialisation of the parameter
    of model_t(base_type t) (a copy, or a move of an rvalue), that of its member (a move), line 43. *)
Inductive fault := FNone | FNew | FParam | FMember.

(** Allocator objects, in the order of their construction; an object whose life has ended is [None]. The storage of the
    objects model_t: [None] is released, [Some None] has no object (yet), [Some (Some i)] a model_t whose member is [i].
    The variables hold the pointer of their unique_ptr (line 97). Destructors of allocators do not throw. *)
Record fstate (A : Type) := FS {
  f_objs : list (option A);
  f_mem : list (option (option nat));
  f_vars : vars any
}.
Arguments FS {A}. Arguments f_objs {A}. Arguments f_mem {A}. Arguments f_vars {A}.

Definition make_obj {A} (s : fstate A) (a : A) : fstate A * nat :=
  (FS (f_objs s ++ [Some a]) (f_mem s) (f_vars s), length (f_objs s)).
Definition end_obj {A} (s : fstate A) (i : nat) : outcome (fstate A) :=
  match nth_error (f_objs s) i with
  | Some (Some _) => Ok (FS (set_nth (f_objs s) i None) (f_mem s) (f_vars s))
  | _ => UB
  end.
Definition set_mem {A} (s : fstate A) (b : nat) (x : option (option nat)) : fstate A :=
  FS (f_objs s) (set_nth (f_mem s) b x) (f_vars s).
(** operator new and delete: only storage without object is released. *)
Definition new_mem {A} (s : fstate A) : fstate A * nat :=
  (FS (f_objs s) (f_mem s ++ [Some None]) (f_vars s), length (f_mem s)).
Definition free_mem {A} (s : fstate A) (b : nat) : outcome (fstate A) :=
  match nth_error (f_mem s) b with
  | Some (Some None) => Ok (set_mem s b None)
  | _ => UB
  end.
Definition set_var {A} (s : fstate A) (v : nat) (p : option any) : fstate A := FS (f_objs s) (f_mem s) (bindv (f_vars s) v p).

(** std::make_unique<model_t<T>>(x), [a] being the value of x: the storage is released when the constructor throws, the
    parameter ends when the constructor is left, in either way. [None]: an exception. *)
Definition construct {A} (s : fstate A) (a : A) (f : fault) : outcome (fstate A * option nat) :=
  match f with
  | FNew => Ok (s, None)
  | _ =>
      let '(s1, b) := new_mem s in
      match f with
      | FParam => s2 <- free_mem s1 b ;; Ok (s2, None)
      | _ =>
          let '(s2, t) := make_obj s1 a in
          match f with
          | FMember => s3 <- end_obj s2 t ;; s4 <- free_mem s3 b ;; Ok (s4, None)
          | _ =>
              let '(s3, o) := make_obj s2 a in
              let s4 := set_mem s3 b (Some (Some o)) in
              s5 <- end_obj s4 t ;; Ok (s5, Some b)
          end
      end
  end.

(** Dereferencing the pointer of an any_allocator: the number and the value of the allocator held. *)
Definition held {A} (s : fstate A) (p : any) : outcome (nat * A) :=
  match p with
  | None => UB
  | Some b =>
      match nth_error (f_mem s) b with
      | Some (Some (Some i)) => match nth_error (f_objs s) i with Some (Some a) => Ok (i, a) | _ => UB end
      | _ => UB
      end
  end.

(** ~unique_ptr. *)
Definition fdelete {A} (s : fstate A) (p : any) : outcome (fstate A) :=
  match p with
  | None => Ok s
  | Some b =>
      ' (i, _) <- held s p ;;
      s1 <- end_obj s i ;; free_mem (set_mem s1 b (Some None)) b
  end.

(** What a call gives: the pointers returned by allocate, or an exception (that the program catches). *)
Inductive fresult (R : Type) := Returned (rs : list R) | Threw.
Arguments Returned {R}. Arguments Threw {R}.

(** swap(that) and the end of that, 70-72 and 84-86; nothing of it happens when [that] could not be made. *)
Definition fswap_in {A R} (s : fstate A) (v : nat) (that : option nat) : outcome (fstate A * fresult R) :=
  old <- var (f_vars s) v ;;
  match that with
  | None => Ok (s, Threw)
  | Some b => s1 <- fdelete (set_var s v (Some (Some b))) old ;; Ok (s1, Returned [])
  end.

(** One operation ([aop]: see Alloc.v for the lines), with what goes wrong when it makes an object. *)
Definition fstep {A R} (fc : falloc_class A R) (s : fstate A) (o : aop A R) (f : fault) : outcome (fstate A * fresult R) :=
  let e := f_vars s in
  match o with
  | ADefault v => _ <- fresh e v ;; Ok (set_var s v (Some None), Returned [])
  | AFrom v a =>
      _ <- fresh e v ;; ' (s1, r) <- construct s a f ;;
      match r with None => Ok (s1, Threw) | Some b => Ok (set_var s1 v (Some (Some b)), Returned []) end
  | ACopy v w =>
      _ <- fresh e v ;; src <- var e w ;; ' (_, a) <- held s src ;; ' (s1, r) <- construct s a f ;;
      match r with None => Ok (s1, Threw) | Some b => Ok (set_var s1 v (Some (Some b)), Returned []) end
  | AMove v w =>
      _ <- fresh e v ;; p <- var e w ;; Ok (set_var (set_var s w (Some None)) v (Some p), Returned [])
  | ACopyAssign v w =>
      src <- var e w ;; ' (_, a) <- held s src ;; ' (s1, r) <- construct s a f ;; fswap_in s1 v r
  | AMoveAssign v w =>
      p <- var e w ;; let s1 := set_var s w (Some None) in
      old <- var (f_vars s1) v ;; s2 <- fdelete (set_var s1 v (Some p)) old ;; Ok (s2, Returned [])
  | AAssign v a => ' (s1, r) <- construct s a f ;; fswap_in s1 v r
  | ASwap v w =>
      p <- var e v ;; q <- var e w ;; Ok (set_var (set_var s v (Some q)) w (Some p), Returned [])
  | AAllocate v n =>
      p <- var e v ;; ' (i, a) <- held s p ;;
      let '(a', r) := fc_allocate fc a n in
      Ok (FS (set_nth (f_objs s) i (Some a')) (f_mem s) e, match r with Some r => Returned [r] | None => Threw end)
  | ADeallocate v r =>
      p <- var e v ;; ' (i, a) <- held s p ;;
      let '(a', t) := fc_deallocate fc a r in
      Ok (FS (set_nth (f_objs s) i (Some a')) (f_mem s) e, if t : bool then Threw else Returned [])
  | ADestroy v => p <- var e v ;; s1 <- fdelete s p ;; Ok (set_var s1 v None, Returned [])
  end.

(** A program that catches every exception and goes on. *)
Fixpoint fruns {A R} (fc : falloc_class A R) (s : fstate A) (os : list (aop A R * fault)) : outcome (fstate A * list (fresult R)) :=
  match os with
  | [] => Ok (s, [])
  | (o, f) :: os' => ' (s1, r1) <- fstep fc s o f ;; ' (s2, rs) <- fruns fc s1 os' ;; Ok (s2, r1 :: rs)
  end.

Definition finit {A} : fstate A := FS [] [] (fun _ => None).
