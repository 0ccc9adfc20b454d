(** Memory: a list of blocks of elements. A block that was released is [None]; a cell that was never
    written is [None]. Elements are abstract values, one per cell (sizes in bytes and alignment are
    not modelled). *)
From Coq Require Import ZArith List Bool.
From Verif Require Import Outcome.
Import ListNotations.
Open Scope Z_scope.

Definition mem (T : Type) := list (option (list (option T))).

(** A pointer is null or an offset (in elements) inside a block. *)
Inductive ptr := Null | Ptr (b : nat) (o : Z).

(** [p + k]. Forming an out-of-range pointer is not reported; using it is. *)
Definition padd (p : ptr) (k : Z) : ptr :=
  match p with Null => Null | Ptr b o => Ptr b (o + k) end.

(** The cell designated by a pointer, if the pointer designates a cell of a live block. *)
Definition cell {T} (m : mem T) (p : ptr) : option (option T) :=
  match p with
  | Null => None
  | Ptr b o =>
      match nth_error m b with
      | Some (Some cs) => if 0 <=? o then nth_error cs (Z.to_nat o) else None
      | _ => None
      end
  end.

Definition validb {T} (m : mem T) (p : ptr) : bool :=
  match cell m p with Some _ => true | None => false end.

(** Reading: undefined outside of a live block and on cells never written. *)
Definition load {T} (m : mem T) (p : ptr) : outcome T :=
  match cell m p with Some (Some v) => Ok v | _ => UB end.

Fixpoint set_nth {A} (l : list A) (n : nat) (x : A) : list A :=
  match l, n with
  | [], _ => []
  | _ :: l', O => x :: l'
  | y :: l', S n' => y :: set_nth l' n' x
  end.

Definition upd {T} (m : mem T) (p : ptr) (v : T) : mem T :=
  match p with
  | Null => m
  | Ptr b o =>
      match nth_error m b with
      | Some (Some cs) => if 0 <=? o then set_nth m b (Some (set_nth cs (Z.to_nat o) (Some v))) else m
      | _ => m
      end
  end.

(** Writing: undefined outside of a live block. *)
Definition store {T} (m : mem T) (p : ptr) (v : T) : outcome (mem T) :=
  if validb m p then Ok (upd m p v) else UB.

(** A fresh block of [n] cells. *)
Definition alloc {T} (m : mem T) (n : Z) : mem T * ptr :=
  (m ++ [Some (repeat None (Z.to_nat n))], Ptr (length m) 0).

(** std::copy(src, src+n, dst): element by element, in increasing order. *)
Fixpoint copy_elements {T} (m : mem T) (src dst : ptr) (n : nat) : outcome (mem T) :=
  match n with
  | O => Ok m
  | S n' =>
      v <- load m src ;; m' <- store m dst v ;;
      copy_elements m' (padd src 1) (padd dst 1) n'
  end.

(** Value of an initialised cell. *)
Definition peek {T} (m : mem T) (p : ptr) : option T :=
  match cell m p with Some (Some v) => Some v | _ => None end.
