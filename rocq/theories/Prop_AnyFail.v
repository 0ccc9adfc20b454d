(** Property C100: any_allocator with failing allocations and allocators that throw. *)
From Coq Require Import ZArith List Bool Lia.
From Verif Require Import Outcome Memory Alloc AllocSpec AnyFail AnyFailSpec AnyFailFacts.
Import ListNotations.
Open Scope Z_scope.

(** Every program that catches the exceptions behaves as one on values, in which an operation that fails to make its
    allocator has no effect; at any time each value is in an object of its own and nothing else is left. *)
Theorem any_values_with_failures : forall (A R : Type) (fc : falloc_class A R) os,
  match fvalue_runs fc (fun _ => None) os with
  | Some (e, rs) => exists s, fruns fc finit os = Ok (s, rs) /\ fholds s e
  | None => fruns fc finit os = UB
  end.
Proof. exact @any_fail_l. Qed.
Print Assumptions any_values_with_failures.

(** An allocator that counts, and throws for more than 100 bytes after having counted. *)
Definition xcount : falloc_class Z Z := FC (fun a n => (a + n, if n <=? 100 then Some a else None)) (fun a r => (a - 1, r =? 0)).
Example failures_ex : exists s, fruns xcount finit
    [(AFrom 0 5, FMember); (AFrom 0 5, FNone); (ACopy 1 0, FParam); (AAllocate 0 20, FNone); (ACopy 1 0, FNone);
     (AAllocate 0 200, FNone); (AAssign 1 7, FNew); (ACopyAssign 1 0, FMember); (AAllocate 1 1, FNone);
     (ACopyAssign 1 1, FNone); (ADeallocate 1 0, FNone); (AMove 2 0, FNone); (ADestroy 0, FNew)]
  = Ok (s, [Threw; Returned []; Threw; Returned [5]; Returned []; Threw; Threw; Threw; Returned [25]; Returned []; Threw; Returned []; Returned []]) /\
  f_objs s = [None; None; Some 225; None; None; None; None; Some 25] /\
  f_mem s = [None; Some (Some 2%nat); None; None; None; Some (Some 7%nat)] /\
  f_vars s 1%nat = Some (Some 5%nat) /\ f_vars s 2%nat = Some (Some 1%nat).
Proof. eexists. split; [vm_compute; reflexivity|]. split; [vm_compute; reflexivity|]. split; [vm_compute; reflexivity|]. split; vm_compute; reflexivity. Qed.

(** Strong guarantee: an operation left by an exception has changed no variable and no allocator. *)
Theorem any_strong_guarantee : forall (A R : Type) (fc : falloc_class A R) s o f s', makes o = true ->
  fstep fc s o f = Ok (s', Threw) -> untouched s s'.
Proof. exact @any_strong_l. Qed.
Print Assumptions any_strong_guarantee.
Example strong_ex : exists s s', fruns xcount finit [(AFrom 0 5, FNone); (AFrom 1 6, FNone)] = Ok (s, [Returned []; Returned []]) /\
  fstep xcount s (ACopyAssign 0 1) FMember = Ok (s', Threw) /\ held s' (Some O) = Ok (1%nat, 5).
Proof.
  exists (FS [None; Some 5; None; Some 6] [Some (Some 1%nat); Some (Some 3%nat)] (bindv (bindv (fun _ => None) 0 (Some (Some O))) 1 (Some (Some 1%nat)))).
  eexists. split; [vm_compute; reflexivity|]. split; [vm_compute; reflexivity|]. vm_compute. reflexivity.
Qed.

(** When the variables are gone every allocator object has ended and all storage was released. *)
Theorem any_nothing_left : forall (A R : Type) (fc : falloc_class A R) os s rs, fruns fc finit os = Ok (s, rs) ->
  (forall v, f_vars s v = None) ->
  (forall i, nth_error (f_objs s) i <> None -> nth_error (f_objs s) i = Some None) /\
  (forall b, nth_error (f_mem s) b <> None -> nth_error (f_mem s) b = Some None).
Proof. exact @any_nothing_left_l. Qed.
Print Assumptions any_nothing_left.
Example nothing_left_ex : exists s rs, fruns xcount finit
    [(AFrom 0 5, FNone); (ACopy 1 0, FMember); (AAssign 0 6, FNone); (ADestroy 0, FNone)] = Ok (s, rs) /\
  f_objs s = [None; None; None; None; None] /\ f_mem s = [None; None; None].
Proof. eexists. eexists. split; [vm_compute; reflexivity|]. split; vm_compute; reflexivity. Qed.

(** Making or copying makes two objects (the parameter of model_t and its member), of which one is left; moves, swaps and
    destructions make none. Exceptions come from making an allocator and from the allocators themselves only. *)
Theorem any_objects_made : forall (A R : Type) (fc : falloc_class A R) s o f s' r, fstep fc s o f = Ok (s', r) ->
  (forall rs, r = Returned rs -> length (f_objs s') = (length (f_objs s) + if makes o then 2 else 0)%nat) /\
  (r = Threw -> makes o = true /\ fails f = true \/ (exists v n, o = AAllocate v n) \/ exists v x, o = ADeallocate v x).
Proof. exact @any_made_l. Qed.
Print Assumptions any_objects_made.
