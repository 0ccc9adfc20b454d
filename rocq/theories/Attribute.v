(** The function attributes of the library (include/kwk/detail/abi.hpp 34-51) and what they allow a
    compiler to do. KWK_CONST is [[gnu::const]] and KWK_PURE is [[gnu::pure]]. Both let the compiler leave
    out a repeated call with the same argument values and use the earlier result: for a pure function as
    long as nothing was written in between, for a const function always. The value of an argument passed
    by reference is the reference. Both let it leave out a call whose result is not used. *)
From Coq Require Import ZArith List Bool.
From Verif Require Import Outcome CInt Shape Slicer.
Import ListNotations.
Open Scope Z_scope.

(** What the functions below return. *)
Inductive value := VInt (c : cint) | VNat (z : Z) | VBool (b : bool) | VList (l : list cint).

(** The functions on shapes which carry an attribute, and those which call one of them on their own
    argument. Template arguments and arguments which are not shapes belong to the name. Not here: get
    (detail/sequence/prefilled.hpp 459-485), which returns a reference, and fit_constraints, both pure. *)
Inductive fn :=
| FNumel | FNbdims | FContains (p : list cint) | FEqual | FCompress (n : nat)
| FStride | FLinear (dbg : bool) (p : list cint) | FCoordinates (dbg : bool) (idx : cint)
| FSlice (sls : list slc) | FOrigin (dbg : bool) (sls : list slc) | FReduce (n : nat).

Inductive attribute := Plain | Pure | Const.

(** The attributes: include/kwk/utility/container/shape.hpp 284 (numel), 268 (nbdims), 241 (contains),
    220 (operator==), 383 (compress), 306 (operator()(slice...): none); stride.hpp 174 (as_stride);
    include/kwk/utility/linear_index.hpp 30; include/kwk/utility/coordinates.hpp 32;
    include/kwk/utility/slicer.hpp 236 (origin: none); shape.hpp 187-199 (constructor: none). *)
Definition attr (f : fn) : attribute :=
  match f with
  | FNumel | FNbdims | FContains _ | FEqual | FStride => Pure
  | FCompress _ | FLinear _ _ | FCoordinates _ _ => Const
  | FSlice _ | FOrigin _ _ | FReduce _ => Plain
  end.

(** The functions which take the shape by value: as_stride (stride.hpp 174), linear_index
    (linear_index.hpp 30) and coordinates (coordinates.hpp 33). The others take a reference: compress
    (shape.hpp 383), operator== (shape.hpp 220), origin (slicer.hpp 237), and the members, through this. *)
Definition by_value (f : fn) : bool :=
  match f with FStride | FLinear _ _ | FCoordinates _ _ => true | _ => false end.

(** Variables holding shapes. A variable stands for an object at a fixed address. *)
Definition store := nat -> shape.
Definition write (st : store) (x : nat) (s : shape) : store := fun y => if Nat.eqb y x then s else st y.

(** The value of the arguments of a call, as a compiler compares them: the addresses, or the shapes. *)
Inductive key := KRefs (xs : list nat) | KValues (ss : list shape).
Definition key_of (st : store) (f : fn) (xs : list nat) : key :=
  if by_value f then KValues (map st xs) else KRefs xs.

(** The calls a function makes on its own reference arguments, with the position of the argument:
    shape.hpp 222-226 (operator==), 309 (operator()), slicer.hpp 240 (origin),
    detail/sequence/shape_constraints.hpp 63-66 (conversion to a smaller order). *)
Definition inner (f : fn) (args : list shape) : list (fn * nat) :=
  match f, args with
  | FEqual, [a; b] =>
      let sz := Nat.min (length a) (length b) in [(FCompress sz, 0%nat); (FCompress sz, 1%nat)]
  | FSlice sls, [_] => [(FCompress (length sls), 0%nat)]
  | FOrigin _ sls, [_] => [(FCompress (length sls), 0%nat)]
  | FReduce n, [_] => [(FCompress n, 0%nat)]
  | _, _ => []
  end.

(** What a function computes from its arguments and the results of these calls. A number of arguments
    other than that of the function does not compile: [UB]. A conversion to a smaller order gives
    extents of type int (shape of jokers). *)
Definition finish (f : fn) (args : list shape) (rs : list value) : outcome value :=
  match f, args, rs with
  | FNumel, [s], [] => n <- numel s ;; Ok (VInt n)
  | FNbdims, [s], [] => Ok (VNat (nbdims s))
  | FContains p, [s], [] => Ok (VBool (contains s p))
  | FEqual, [_; _], [VList a; VList b] => Ok (VBool (all_eqb a b))
  | FCompress n, [s], [] => c <- compress n s ;; Ok (VList c)
  | FStride, [s], [] => st <- as_stride s ;; Ok (VList st)
  | FLinear dbg p, [s], [] => i <- linear_index dbg s p ;; Ok (VInt i)
  | FCoordinates dbg i, [s], [] => p <- coordinates dbg i s ;; Ok (VList p)
  | FSlice sls, [_], [VList c] => r <- mapM2 reshape1 c sls ;; Ok (VList r)
  | FOrigin dbg sls, [_], [VList c] =>
      if existsb const_index sls then UB
      else is_ <- mapM2 reindex1 c sls ;; i <- linear_index dbg c is_ ;; Ok (VInt i)
  | FReduce _, [_], [VList c] => Ok (VList (map (conv I32) c))
  | _, _, _ => UB
  end.

(** The results of the calls made so far which may still be used. *)
Record entry := { e_fn : fn; e_key : key; e_result : outcome value }.
Definition cache := list entry.

(** A write ends the use of results of pure functions. *)
Definition is_const (f : fn) : bool := match attr f with Const => true | _ => false end.
Definition forget (c : cache) : cache := filter (fun e => is_const (e_fn e)) c.

(** A call, with every result the attributes allow: that of an earlier call with the same arguments, or
    that of running the function. *)
Inductive call : cache -> store -> fn -> list nat -> outcome value -> cache -> Prop :=
| call_reuse : forall c st f xs r,
    attr f <> Plain ->
    In {| e_fn := f; e_key := key_of st f xs; e_result := r |} c ->
    call c st f xs r c
| call_run : forall c st f xs rs c',
    calls c st xs (inner f (map st xs)) rs c' ->
    call c st f xs (vs <- rs ;; finish f (map st xs) vs)
      ({| e_fn := f; e_key := key_of st f xs;
          e_result := (vs <- rs ;; finish f (map st xs) vs) |} :: c')
with calls : cache -> store -> list nat -> list (fn * nat) -> outcome (list value) -> cache -> Prop :=
| calls_nil : forall c st xs, calls c st xs [] (Ok []) c
| calls_cons : forall c st xs f i l x r rs c1 c2,
    nth_error xs i = Some x ->
    call c st f [x] r c1 ->
    calls c1 st xs l rs c2 ->
    calls c st xs ((f, i) :: l) (v <- r ;; vs <- rs ;; Ok (v :: vs)) c2.

(** Programs: assignments of shapes, calls, and calls whose result is not used. *)
Inductive command := Set_ (x : nat) (s : shape) | Call (f : fn) (xs : list nat) | Drop (f : fn) (xs : list nat).

Definition is_ok (r : outcome value) : bool := match r with Ok _ => true | _ => false end.

(** The executions the attributes allow, as the list of the results of the calls. A call which fails
    ends the program; the failure of a call whose result is not used is seen too. *)
Inductive exec : cache -> store -> list command -> list (outcome value) -> Prop :=
| exec_end : forall c st, exec c st [] []
| exec_set : forall c st x s p tr,
    exec (forget c) (write st x s) p tr -> exec c st (Set_ x s :: p) tr
| exec_call : forall c st f xs p v c' tr,
    call c st f xs (Ok v) c' -> exec c' st p tr -> exec c st (Call f xs :: p) (Ok v :: tr)
| exec_fail : forall c st f xs p r c',
    call c st f xs r c' -> is_ok r = false -> exec c st (Call f xs :: p) [r]
| exec_skip : forall c st f xs p tr,
    attr f <> Plain -> exec c st p tr -> exec c st (Drop f xs :: p) tr
| exec_drop : forall c st f xs p v c' tr,
    call c st f xs (Ok v) c' -> exec c' st p tr -> exec c st (Drop f xs :: p) tr
| exec_drop_fail : forall c st f xs p r c',
    call c st f xs r c' -> is_ok r = false -> exec c st (Drop f xs :: p) [r].

(** The executions of a program, from its start. *)
Definition allowed (st : store) (p : list command) (tr : list (outcome value)) : Prop := exec [] st p tr.
