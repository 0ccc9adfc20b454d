(** Specification vocabulary for threads: what they read and write, data races. *)
From Coq Require Import ZArith List.
From Verif Require Import Outcome CInt Spec ShapeSpec Memory Container ContainerSpec AlgoSpec Program Threads.
Import ListNotations.
Open Scope Z_scope.

(** The elements of [c] at the coordinates of [c0]. *)
Definition elements (c0 c : container) (p : ptr) : Prop := exists is_, in_box (dims c0) is_ /\ p = elem c is_.
Definition elements_of (c0 : container) (cs : list container) (p : ptr) : Prop := exists c, In c cs /\ elements c0 c p.
(** A loop over the coordinates of [c0] stays inside [c] and its sums do not overflow. *)
Definition in_reach (c0 c : container) : Prop := addressable c (ctypes c0) /\ covers c c0.
(** The bisections compute the coordinates of its elements as ints. *)
Definition bisectable (c : container) : Prop :=
  legal (c_shape c) /\ c_shape c <> [] /\ addressable c (map (fun _ => I32) (c_shape c)).
Definition nothing (p : ptr) : Prop := False.

(** Whatever the values it reads, [x] writes only cells of [W] and reads only cells of [R] and [W]. *)
Inductive touches {T A} (R W : ptr -> Prop) : act T A -> Prop :=
| touches_stop o : touches R W (Stop o)
| touches_mk p k : touches R W k -> touches R W (Mk p k)
| touches_ld p k : R p \/ W p -> (forall v, touches R W (k v)) -> touches R W (Ld p k)
| touches_st p v k : W p -> touches R W k -> touches R W (St p v k).

(** The callable of for_each writes only some of the elements it is given, by their position. *)
Inductive writes_only {S T} (n : nat) (ws : nat -> Prop) : elem_fun S T -> Prop :=
| wo_done s : writes_only n ws (Done s)
| wo_rd i k : (i < n)%nat -> (forall v, writes_only n ws (k v)) -> writes_only n ws (Rd i k)
| wo_wr i v k : (i < n)%nat -> ws i -> writes_only n ws k -> writes_only n ws (Wr i v k).
Definition written (ws : nat -> Prop) (c0 : container) (cs : list container) (p : ptr) : Prop :=
  exists i c, ws i /\ nth_error cs i = Some c /\ elements c0 c p.

(** No thread writes what another one reads or writes. *)
Definition separate (n : nat) (R W : nat -> ptr -> Prop) : Prop :=
  forall i j p, (i < n)%nat -> (j < n)%nat -> i <> j -> W i p -> ~ R j p /\ ~ W j p.

(** A data race: two threads about to access the same element, at least one of them to write it. *)
Definition about_to_read {T A} (x : act T A) (p : ptr) : Prop := exists k, x = Ld p k.
Definition about_to_write {T A} (x : act T A) (p : ptr) : Prop := exists v k, x = St p v k.
Definition race {T A} (s : state T A) : Prop :=
  exists i j x y p, i <> j /\ nth_error (fst s) i = Some x /\ nth_error (fst s) j = Some y /\
    about_to_write x p /\ (about_to_read y p \/ about_to_write y p).
(** Some thread is about to access an element that does not exist or has no value. *)
Definition undefined {T A} (s : state T A) : Prop :=
  exists i x o, nth_error (fst s) i = Some x /\ advance x (snd s) = Some o /\ forall r, o <> Ok r.
(** All threads returned, with these results. *)
Definition returned {T A} (s : state T A) (rs : list A) : Prop := Forall2 (fun x r => x = Stop (Ok r)) (fst s) rs.

(** In every order of the turns: no data race, no access to an element that does not exist, no thread is stuck;
    after some number of turns all threads returned, with results and in a memory that satisfy [Q]. *)
Definition threads_give {T A} (ths : list (act T A)) (m : mem T) (Q : list A -> mem T -> Prop) : Prop :=
  exists N, forall n s, turns n (ths, m) s ->
    ~ race s /\ ~ undefined s /\ (n <= N)%nat /\ ((n < N)%nat -> exists s', turn s s') /\
    (n = N -> exists rs, returned s rs /\ Q rs (snd s)).

(** The memory where every thread left what it writes as it does when it is alone, and nothing else changed. *)
Definition merged {T A} (W : nat -> ptr -> Prop) (m : mem T) (outs : list (A * mem T)) (m' : mem T) : Prop :=
  same_cells m m' /\
  (forall i o p, nth_error outs i = Some o -> W i p -> cell m' p = cell (snd o) p) /\
  (forall p, cell m' p = cell m p \/ exists i, (i < length outs)%nat /\ W i p).

(** The threads one after the other. *)
Fixpoint one_by_one {T A} (ths : list (act T A)) (m : mem T) : outcome (list A * mem T) :=
  match ths with
  | [] => Ok ([], m)
  | x :: r => ' (a, m1) <- alone x m ;; ' (rs, m2) <- one_by_one r m1 ;; Ok (a :: rs, m2)
  end.

(** A given order of the turns, by the number of the thread. *)
Fixpoint play {T A} (l : list nat) (s : state T A) : option (state T A) :=
  match l with
  | [] => Some s
  | i :: r =>
      match nth_error (fst s) i with
      | Some x => match advance x (snd s) with
                  | Some (Ok (x', m')) => play r (set_nth (fst s) i x', m')
                  | _ => None
                  end
      | None => None
      end
  end.
