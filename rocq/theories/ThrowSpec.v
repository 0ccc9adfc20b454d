(** Specification vocabulary for tables of objects that throw. *)
From Coq Require Import List Bool.
From Verif Require Import Outcome Alloc AllocSpec Lifetime LifetimeSpec Throw FailSpec.
Import ListNotations.

(** The first operation that throws, of those planned from the number [t] on. *)
Fixpoint first_throw (fails : ekind -> nat -> bool) (plan : list ekind) (t : nat) : option nat :=
  match plan with
  | [] => None
  | k :: plan' => if fails k t then Some 0 else option_map S (first_throw fails plan' (S t))
  end.

(** [l] when the first [k] elements have been treated by [f] and the next one by [g]. *)
Definition until {A} (f g : A -> A) (k : nat) (l : list A) : list A :=
  map f (firstn k l) ++ match skipn k l with x :: r => g x :: r | [] => [] end.
(** [old] when its first [k] elements have been replaced by those of [new] and the next one is left by [g]. *)
Definition half {A} (g : A -> A -> A) (k : nat) (new old : list A) : list A :=
  firstn k new ++ match skipn k new, skipn k old with x :: _, y :: r => g y x :: r | _, _ => [] end.

Section Values.
  Context {T : Type} (fails : ekind -> nat -> bool) (tc : tclass T) (n : nat).
  Notation env := (nat -> option (list T)).

  (** The operations of elements done by an operation on a table, in order. A source of [m] elements. *)
  Definition plan_new : list ekind := repeat KDefault n.
  Definition plan_from (m : nat) : list ekind := repeat KDefault n ++ repeat KCopy (Nat.min n m).
  Definition plan_move : list ekind := repeat KMove n.
  Definition plan_swap : list ekind := repeat KMove (3 * n).

  (** What becomes of an operation with a plan. *)
  Definition planned (plan : list ekind) (t : nat) (all : verdict env) (some : nat -> verdict env) : verdict (env * nat * bool) :=
    match first_throw fails plan t with
    | None => match all with Goes e => Goes (e, t + length plan, false) | Ends => Ends | Undefined => Undefined end
    | Some k => match some k with Goes e => Goes (e, t + k + 1, true) | Ends => Ends | Undefined => Undefined end
    end.

  (** Tables as values, each variable a list of [n] elements of its own, when operations of elements throw. *)
  Definition xtable_step (e : env) (t : nat) (o : xop T) : verdict (env * nat * bool) :=
    let after o := match table_step (t_class tc) n e o with Some e' => Goes e' | None => Undefined end in
    match o with
    | XNew v =>
        match e v with
        | None => planned plan_new t (after (SDefault v)) (fun _ => Goes e)
        | Some _ => Undefined
        end
    | XOp (SDefault v as o) =>
        match e v with
        | None => planned plan_new t (after o) (fun _ => Ends)
        | Some _ => Undefined
        end
    | XOp (SFrom v xs as o) =>
        match e v with
        | None => planned (plan_from (length xs)) t (after o) (fun _ => Goes e)
        | Some _ => Undefined
        end
    | XOp (SCopy v w as o) =>
        match e v, e w with
        | None, Some _ => planned (plan_from n) t (after o) (fun _ => Goes e)
        | _, _ => Undefined
        end
    | XOp (SMove v w as o) =>
        match e v, e w with
        | None, Some l =>
            planned plan_move t (after o) (fun k => Goes (set e w (Some (until (e_moved (t_class tc)) (t_left tc) k l))))
        | _, _ => Undefined
        end
    | XOp (SCopyAssign v w as o) =>
        match e v, e w with
        | Some _, Some _ =>
            planned (plan_from n ++ plan_swap) t (after o)
              (fun k => if Nat.ltb k (length (plan_from n)) then Goes e else Ends)
        | _, _ => Undefined
        end
    | XOp (SMoveAssign v w as o) =>
        match e v, e w with
        | Some l0, Some l =>
            planned plan_move t (after o) (fun k => Goes (
              if Nat.eqb v w then set e v (Some (until (e_self (t_class tc)) (t_self tc) k l))
              else set (set e w (Some (until (e_moved (t_class tc)) (t_left tc) k l))) v (Some (half (t_broken tc) k l l0))))
        | _, _ => Undefined
        end
    | XOp (SSwap v w as o) =>
        match e v, e w with
        | Some _, Some _ => planned plan_swap t (after o) (fun _ => Ends)
        | _, _ => Undefined
        end
    | XOp (SWrite v i x as o) =>
        match e v with
        | Some l =>
            if Nat.ltb i (length l)
            then planned [KCopy] t (after o) (fun _ => Goes (set e v (Some (firstn i l ++
                   match skipn i l with y :: r => t_broken tc y x :: r | [] => [] end))))
            else Undefined
        | None => Undefined
        end
    | XOp (SDestroy v as o) => planned [] t (after o) (fun _ => Undefined)
    end.

  Fixpoint xtable_runs (e : env) (t : nat) (os : list (xop T)) : verdict (env * nat * list bool) :=
    match os with
    | [] => Goes (e, t, [])
    | o :: os' =>
        match xtable_step e t o with
        | Goes (e1, t1, x) =>
            match xtable_runs e1 t1 os' with Goes (e2, t2, xs) => Goes (e2, t2, x :: xs) | Ends => Ends | Undefined => Undefined end
        | Ends => Ends
        | Undefined => Undefined
        end
    end.
End Values.

(** The operations that keep to all or nothing. *)
Definition all_or_nothing {T} (o : xop T) : bool :=
  match o with XOp (SMove _ _ | SMoveAssign _ _ | SWrite _ _ _) => false | _ => true end.
(** The operations that end the program rather than throw when a move throws. *)
Definition default_construction {T} (o : xop T) : bool := match o with XOp (SDefault _) => true | _ => false end.

(** Every table is where it was, with the values it had. *)
Definition as_before {T} (s s' : sstate T) : Prop :=
  s_vars s' = s_vars s /\
  forall v b, s_vars s v = Some b -> nth_error (s_slots s') b = nth_error (s_slots s) b.
