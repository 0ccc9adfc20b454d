(** What the calls mean without attributes. *)
From Coq Require Import ZArith List Bool.
From Verif Require Import Outcome CInt Shape Slicer Attribute.
Import ListNotations.
Open Scope Z_scope.

(** A function on the shapes its arguments hold. *)
Definition meaning (f : fn) (args : list shape) : outcome value :=
  match f, args with
  | FNumel, [s] => n <- numel s ;; Ok (VInt n)
  | FNbdims, [s] => Ok (VNat (nbdims s))
  | FContains p, [s] => Ok (VBool (contains s p))
  | FEqual, [a; b] => r <- shape_eq a b ;; Ok (VBool r)
  | FCompress n, [s] => c <- compress n s ;; Ok (VList c)
  | FStride, [s] => st <- as_stride s ;; Ok (VList st)
  | FLinear dbg p, [s] => i <- linear_index dbg s p ;; Ok (VInt i)
  | FCoordinates dbg i, [s] => p <- coordinates dbg i s ;; Ok (VList p)
  | FSlice sls, [s] => r <- slice_shape s sls ;; Ok (VList r)
  | FOrigin dbg sls, [s] => i <- origin dbg s sls ;; Ok (VInt i)
  | FReduce n, [s] => c <- compress n s ;; Ok (VList (map (conv I32) c))
  | _, _ => UB
  end.

(** A program, every call of which is made, on what the variables hold. *)
Fixpoint plain (st : store) (p : list command) : list (outcome value) :=
  match p with
  | [] => []
  | Set_ x s :: p => plain (fun y => if Nat.eqb y x then s else st y) p
  | Call f xs :: p =>
      match meaning f (map st xs) with
      | Ok v => Ok v :: plain st p
      | r => [r]
      end
  | Drop f xs :: p =>
      match meaning f (map st xs) with
      | Ok _ => plain st p
      | r => [r]
      end
  end.

(** The functions which compress an argument: compress, ==, slicing, origin, conversion to fewer axes. *)
Definition compresses (f : fn) : bool :=
  match f with
  | FEqual | FCompress _ | FSlice _ | FOrigin _ _ | FReduce _ => true
  | _ => false
  end.

(** No shape is assigned once it was given to one of these ([used]: the shapes given already). *)
Fixpoint settled (used : list nat) (p : list command) : Prop :=
  match p with
  | [] => True
  | Set_ x _ :: p => ~ In x used /\ settled used p
  | Call f xs :: p | Drop f xs :: p => settled (if compresses f then xs ++ used else used) p
  end.

(** Some calls whose results are not used are left out. *)
Inductive thinned : list command -> list command -> Prop :=
| thin_nil : thinned [] []
| thin_keep : forall k p q, thinned p q -> thinned (k :: p) (k :: q)
| thin_drop : forall f xs p q,
    In (attr f) [Pure; Const] -> thinned p q -> thinned (Drop f xs :: p) q.

(** Every result is used. *)
Definition all_used (p : list command) : Prop := forall f xs, ~ In (Drop f xs) p.

(** A function called at first and again after each of some assignments. *)
Fixpoint watch (f : fn) (xs : list nat) (x : nat) (l : list shape) : list command :=
  match l with
  | [] => []
  | s :: l => Set_ x s :: Call f xs :: watch f xs x l
  end.
