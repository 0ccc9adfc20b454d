(** Specification vocabulary for ownership. *)
From Coq Require Import ZArith List Bool.
From Verif Require Import Outcome Memory Alloc.
Import ListNotations.
Open Scope Z_scope.

(** * any_allocator as a value: each variable holds an allocator of its own, or nothing. [None] as a result
    stands for undefined behaviour. *)
Definition set {X} (e : nat -> option X) (v : nat) (x : option X) : nat -> option X :=
  fun w => if Nat.eqb w v then x else e w.

Definition value_step {A R} (ac : alloc_class A R) (e : nat -> option (option A)) (o : aop A R)
  : option ((nat -> option (option A)) * list R) :=
  match o with
  | ADefault v => match e v with None => Some (set e v (Some None), []) | _ => None end
  | AFrom v a => match e v with None => Some (set e v (Some (Some a)), []) | _ => None end
  | ACopy v w =>
      match e v, e w with None, Some (Some a) => Some (set e v (Some (Some a)), []) | _, _ => None end
  | AMove v w =>
      match e v, e w with None, Some x => Some (set (set e w (Some None)) v (Some x), []) | _, _ => None end
  | ACopyAssign v w =>
      match e v, e w with Some _, Some (Some a) => Some (set e v (Some (Some a)), []) | _, _ => None end
  | AMoveAssign v w =>
      match e v, e w with
      | Some _, Some x => Some (if Nat.eqb v w then e else set (set e w (Some None)) v (Some x), [])
      | _, _ => None
      end
  | AAssign v a => match e v with Some _ => Some (set e v (Some (Some a)), []) | _ => None end
  | ASwap v w =>
      match e v, e w with Some x, Some y => Some (set (set e v (Some y)) w (Some x), []) | _, _ => None end
  | AAllocate v n =>
      match e v with
      | Some (Some a) => Some (set e v (Some (Some (fst (ac_allocate ac a n)))), [snd (ac_allocate ac a n)])
      | _ => None
      end
  | ADeallocate v r =>
      match e v with Some (Some a) => Some (set e v (Some (Some (ac_deallocate ac a r))), []) | _ => None end
  | ADestroy v => match e v with Some _ => Some (set e v None, []) | _ => None end
  end.

Fixpoint value_runs {A R} (ac : alloc_class A R) (e : nat -> option (option A)) (os : list (aop A R))
  : option ((nat -> option (option A)) * list R) :=
  match os with
  | [] => Some (e, [])
  | o :: os' =>
      match value_step ac e o with
      | None => None
      | Some (e1, r1) => match value_runs ac e1 os' with None => None | Some (e2, r2) => Some (e2, r1 ++ r2) end
      end
  end.

(** The variables hold the given values, each in an object of its own, and no other object is left. *)
Definition holds {A} (s : astate A) (e : nat -> option (option A)) : Prop :=
  (forall v, match e v, a_vars s v with
             | None, None | Some None, Some None => True
             | Some (Some a), Some (Some n) => nth_error (a_heap s) n = Some (Some a)
             | _, _ => False
             end) /\
  (forall v w n, a_vars s v = Some (Some n) -> a_vars s w = Some (Some n) -> v = w) /\
  (forall n a, nth_error (a_heap s) n = Some (Some a) -> exists v, a_vars s v = Some (Some n)).

(** * Histories of heap tables. *)

(** Every release is that of a block allocated before, by the same allocator, and not released yet; every
    read is inside of a block allocated before and not released yet. *)
Definition well_released (tr : list event) : Prop :=
  (forall tr1 k b tr2, tr = tr1 ++ Free k b :: tr2 ->
     (exists n, In (Alloc k b n) tr1) /\ (forall k', ~ In (Free k' b) tr1)) /\
  (forall tr1 b n tr2, tr = tr1 ++ Read b n :: tr2 ->
     (exists k n', In (Alloc k b n') tr1 /\ n <= n') /\ (forall k', ~ In (Free k' b) tr1)) /\
  (forall tr1 k b n tr2, tr = tr1 ++ Alloc k b n :: tr2 -> forall k' n', ~ In (Alloc k' b n') tr1).

(** Each live table that has memory owns a block that is not released, large enough, together with the
    allocator that provided it; no two tables own the same block. *)
Definition well_owned (s : hstate) : Prop :=
  (forall v t b, h_tabs s v = Some t -> hb_ptr (ht_blk t) = Some b ->
     exists k n, hb_alloc (ht_blk t) = Some k /\ In (Alloc k b n) (h_trace s) /\ ht_size t <= n /\
       forall k', ~ In (Free k' b) (h_trace s)) /\
  (forall v w t u b, h_tabs s v = Some t -> h_tabs s w = Some u ->
     hb_ptr (ht_blk t) = Some b -> hb_ptr (ht_blk u) = Some b -> v = w).

(** Every block that is not released belongs to a live table. *)
Definition no_leak (s : hstate) : Prop :=
  forall k b n, In (Alloc k b n) (h_trace s) ->
    In (Free k b) (h_trace s) \/ exists v t, h_tabs s v = Some t /\ hb_ptr (ht_blk t) = Some b.

(** A table whose elements were moved away (and which had some). *)
Definition hollow (t : htable) : Prop := ht_size t <> 0 /\ hb_ptr (ht_blk t) = None.

(** What a program may do: construct variables that do not exist, use those that do, and not copy from a
    hollow table. *)
Definition allowed (s : hstate) (o : hop) : Prop :=
  let absent v := h_tabs s v = None in
  let present v := h_tabs s v <> None in
  match o with
  | TDefault v => absent v
  | TNew v _ n => absent v /\ 0 <= n
  | TCopy v w => absent v /\ exists t, h_tabs s w = Some t /\ ~ hollow t
  | TCopyAssign v w => present v /\ exists t, h_tabs s w = Some t /\ ~ hollow t
  | TMove v w => absent v /\ present w
  | TMoveAssign v w | TSwap v w => present v /\ present w
  | TDestroy v => present v
  end.

(** What a program sees of its tables: the number of elements each one reports, and whether they were moved
    away. A table left by a move still reports its elements. *)
Definition size_step (e : nat -> option (Z * bool)) (o : hop) : option (nat -> option (Z * bool)) :=
  let make v x := match e v with Some _ => None | None => Some (set e v (Some x)) end in
  match o with
  | TDefault v => make v (0, false)
  | TNew v _ n => if n <? 0 then None else make v (n, false)
  | TCopy v w => match e w with Some (n, false) => make v (n, false) | _ => None end
  | TMove v w => match e v, e w with
                 | None, Some (n, m) => Some (set (set e w (Some (n, negb (n =? 0)))) v (Some (n, m)))
                 | _, _ => None
                 end
  | TCopyAssign v w => match e v, e w with
                       | Some _, Some (n, false) => Some (set e v (Some (n, false)))
                       | _, _ => None
                       end
  | TMoveAssign v w => match e v, e w with
                       | Some _, Some (n, m) => Some (set (set e w (Some (n, negb (n =? 0)))) v (Some (n, m)))
                       | _, _ => None
                       end
  | TSwap v w => match e v, e w with
                 | Some x, Some y => Some (set (set e v (Some y)) w (Some x))
                 | _, _ => None
                 end
  | TDestroy v => match e v with Some _ => Some (set e v None) | None => None end
  end.
Fixpoint size_runs (e : nat -> option (Z * bool)) (os : list hop) : option (nat -> option (Z * bool)) :=
  match os with
  | [] => Some e
  | o :: os' => match size_step e o with Some e' => size_runs e' os' | None => None end
  end.
Definition sees (s : hstate) (e : nat -> option (Z * bool)) : Prop :=
  forall v, e v = match h_tabs s v with
                  | Some t => Some (ht_size t, match hb_ptr (ht_blk t) with
                                               | None => negb (ht_size t =? 0)
                                               | Some _ => false
                                               end)
                  | None => None
                  end.
