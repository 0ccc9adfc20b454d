(** Specification vocabulary for callables with effects: what a list of calls, made one after the other,
    does. Nothing here mentions containers or loops over coordinates. *)
From Coq Require Import ZArith List Bool.
From Verif Require Import Outcome CInt Spec ShapeSpec Memory Container ContainerSpec AlgoSpec.
Import ListNotations.
Open Scope Z_scope.

(** Two executions fail in the same way, or both succeed with results related by [P]. *)
Definition agrees {A B} (x : outcome A) (y : outcome B) (P : A -> B -> Prop) : Prop :=
  match x, y with
  | Ok a, Ok b => P a b
  | Abort, Abort | UB, UB | NoFuel, NoFuel => True
  | _, _ => False
  end.

Section CallSpec.
Context {Q : Type}.

(** f(v1), f(v2), ...: all the answers. *)
Fixpoint map_calls {A B} (f : A -> Q -> outcome (B * Q)) (vs : list A) (q : Q) : outcome (list B * Q) :=
  match vs with
  | [] => Ok ([], q)
  | v :: vs' => ' (b, q1) <- f v q ;; ' (bs, q2) <- map_calls f vs' q1 ;; Ok (b :: bs, q2)
  end.

(** a = f(a, v1), a = f(a, v2), ... *)
Fixpoint fold_calls {A V} (f : A -> V -> Q -> outcome (A * Q)) (vs : list V) (a : A) (q : Q) : outcome (A * Q) :=
  match vs with
  | [] => Ok (a, q)
  | v :: vs' => ' (a1, q1) <- f a v q ;; fold_calls f vs' a1 q1
  end.

(** f(v1), f(v2), ... until the answer [stop]; whether it came. *)
Fixpoint ask_until {A} (stop : bool) (f : A -> Q -> outcome (bool * Q)) (vs : list A) (q : Q) : outcome (bool * Q) :=
  match vs with
  | [] => Ok (false, q)
  | v :: vs' => ' (b, q1) <- f v q ;; if Bool.eqb b stop then Ok (true, q1) else ask_until stop f vs' q1
  end.

(** f(v1), f(v2), ... until the answer true: how many answers came before it. *)
Fixpoint ask_first {A} (f : A -> Q -> outcome (bool * Q)) (vs : list A) (q : Q) : outcome (option nat * Q) :=
  match vs with
  | [] => Ok (None, q)
  | v :: vs' => ' (b, q1) <- f v q ;;
      if b then Ok (Some O, q1) else ' (k, q2) <- ask_first f vs' q1 ;; Ok (option_map S k, q2)
  end.

(** d = f2(v1), s = f1(s, d), d = f2(v2), s = f1(s, d), ...: the successive values of s. *)
Fixpoint scan_calls {A D V} (f1 : A -> D -> Q -> outcome (A * Q)) (f2 : V -> Q -> outcome (D * Q)) (vs : list V)
    (s : A) (q : Q) : outcome (list A * Q) :=
  match vs with
  | [] => Ok ([], q)
  | v :: vs' => ' (d, q1) <- f2 v q ;; ' (s1, q2) <- f1 s d q1 ;;
                ' (ss, q3) <- scan_calls f1 f2 vs' s1 q2 ;; Ok (s1 :: ss, q3)
  end.
End CallSpec.

(** The values of several containers at every coordinate of [c0], in row-major order. *)
Definition arguments {T} (m : mem T) (c0 : container) (cs : list container) (rows : list (list T)) : Prop :=
  Forall2 (fun is_ vs => Forall2 (fun c v => value m c is_ v) cs vs) (box (dims c0)) rows.

(** What was written to [o] at the coordinates of [c0], in row-major order; [None]: nothing. *)
Definition written {T} (m : mem T) (c0 o : container) (ws : list (option T)) (m' : mem T) : Prop :=
  Forall2 (fun is_ w => match w with
                        | Some v => value m' o is_ v
                        | None => cell m' (elem o is_) = cell m (elem o is_)
                        end) (box (dims c0)) ws.

(** The number of answers true. *)
Definition yes (bs : list bool) : Z := Z.of_nat (length (filter (fun b => b) bs)).

(** A position, made of ints, at index [k] of a list of coordinates; no position for no index. *)
Definition found_at (ns : list cint) (l : list (list Z)) (k : option nat) (r : option (list cint)) : Prop :=
  match k, r with
  | Some k, Some pos => map cty pos = map (fun _ => I32) ns /\ wfs pos /\ nth_error l k = Some (vals pos)
  | None, None => True
  | _, _ => False
  end.

(** [k] calls lead from one state to another. *)
Inductive called {Q} (call : Q -> Q -> Prop) : Z -> Q -> Q -> Prop :=
| called_none q : called call 0 q q
| called_more k q q1 q2 : call q q1 -> called call k q1 q2 -> called call (k + 1) q q2.
