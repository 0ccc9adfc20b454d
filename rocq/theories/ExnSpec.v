(** Specification vocabulary for callables that throw: a list of calls made one after the other, up to the
    first exception. *)
From Coq Require Import ZArith List Bool.
From Verif Require Import Outcome.
Import ListNotations.

Section ExnSpec.
Context {Q : Type}.

(** f(v1), f(v2), ...: the answers before the exception, and whether there is one. *)
Fixpoint calls_throw {A B} (f : A -> Q -> outcome (option B * Q)) (vs : list A) (q : Q)
  : outcome ((list B * bool) * Q) :=
  match vs with
  | [] => Ok (([], false), q)
  | v :: vs' =>
      ' (r, q1) <- f v q ;;
      match r with
      | None => Ok (([], true), q1)
      | Some b => ' (bx, q2) <- calls_throw f vs' q1 ;; Ok ((b :: fst bx, snd bx), q2)
      end
  end.

(** The same for calls that always leave something, also when they throw. *)
Fixpoint leaves_throw {A B} (f : A -> Q -> outcome ((B * bool) * Q)) (vs : list A) (q : Q)
  : outcome ((list B * bool) * Q) :=
  match vs with
  | [] => Ok (([], false), q)
  | v :: vs' =>
      ' (r, q1) <- f v q ;;
      if snd r then Ok (([fst r], true), q1)
      else ' (bx, q2) <- leaves_throw f vs' q1 ;; Ok ((fst r :: fst bx, snd bx), q2)
  end.

(** a = f(a, v1), a = f(a, v2), ...: the last value of a. *)
Fixpoint fold_throw {A V} (f : A -> V -> Q -> outcome (option A * Q)) (vs : list V) (a : A) (q : Q)
  : outcome ((A * bool) * Q) :=
  match vs with
  | [] => Ok ((a, false), q)
  | v :: vs' =>
      ' (r, q1) <- f a v q ;;
      match r with None => Ok ((a, true), q1) | Some a1 => fold_throw f vs' a1 q1 end
  end.

(** d = f2(v1), s = f1(s, d), d = f2(v2), s = f1(s, d), ...: the successive values of s. *)
Fixpoint scan_throw {A D V} (f1 : A -> D -> Q -> outcome (option A * Q)) (f2 : V -> Q -> outcome (option D * Q))
    (vs : list V) (s : A) (q : Q) : outcome ((list A * bool) * Q) :=
  match vs with
  | [] => Ok (([], false), q)
  | v :: vs' =>
      ' (d, q1) <- f2 v q ;;
      match d with
      | None => Ok (([], true), q1)
      | Some d => ' (r, q2) <- f1 s d q1 ;;
                  match r with
                  | None => Ok (([], true), q2)
                  | Some s1 => ' (bx, q3) <- scan_throw f1 f2 vs' s1 q2 ;; Ok ((s1 :: fst bx, snd bx), q3)
                  end
      end
  end.
End ExnSpec.

(** Nothing is written beyond what is listed. *)
Definition then_nothing {T} (ws all : list (option T)) : Prop := exists k, all = ws ++ repeat None k.
