(** Specification vocabulary for what is known at compile time about a slice. *)
From Coq Require Import ZArith List Bool.
From Verif Require Import Outcome CInt CIntFacts Prefilled PrefilledSpec NamedStrideSpec Container SliceText SliceKinds.
Import ListNotations.
Open Scope Z_scope.

(** Expressions and bounds made of constants only; [nk]: the extent of the axis is known. *)
Fixpoint constants (e : texpr) : Prop :=
  match e with
  | TEEnd => True
  | TEAdd e o | TEAddL o e | TESub e o | TESubL o e | TEMul e o | TEMulL o e | TEDiv e o => is_fixed o = true /\ constants e
  end.
Definition constant_bound (nk : Prop) (b : tbound) : Prop :=
  match b with TInt a => is_fixed a = true | TEnd e => nk /\ constants e end.
Definition constant_or (def nk : Prop) (b : option tbound) : Prop :=
  match b with None => def | Some b => constant_bound nk b end.
Definition constant_step (s : option knum) : Prop :=
  match s with None => True | Some k => is_fixed k = true end.

(** Slices with a step and a bound. *)
Definition stepped_range (sl : kslc) : Prop :=
  match sl with
  | KSl s => ts_len s = None /\ ts_step s <> None /\ (ts_begin s <> None \/ ts_stop s <> None)
  | _ => False
  end.

(** Everything the number of elements of a slice is computed from is known. *)
Definition extent_constant (nk : Prop) (sl : kslc) : Prop :=
  match sl with
  | KAll => nk
  | KEnd _ | KIdx _ => True
  | KSl s =>
      match ts_len s with
      | Some l => constant_bound nk l
      | None =>
          constant_or True nk (ts_begin s) /\
          constant_or nk nk (ts_stop s) /\
          constant_step (ts_step s)
      end
  end.
Definition stride_constant (k : Prop) (sl : kslc) : Prop :=
  k /\ match sl with KSl s => constant_step (ts_step s) | _ => True end.

(** The first index of a slice is a constant. *)
Definition start_constant (nk : Prop) (sl : kslc) : Prop :=
  match sl with
  | KAll => False
  | KEnd e => nk /\ constants e
  | KIdx i => is_fixed i = true
  | KSl s => constant_or False nk (ts_begin s)
  end.

(** The axes that become axis [k] when there are [n] slicers. *)
Definition grouped {A} (n k : nat) (l : list A) : list A :=
  match k with
  | O => firstn (length l - n + 1) l
  | _ => firstn 1 (skipn (length l - n + k) l)
  end.

(** The shape and the strides of a container, with their descriptors. *)
Definition described (c : container) (p r : prefilled) : Prop :=
  wfp p /\ to_values p = Ok (c_shape c) /\ wfp r /\ Forall wfc (match to_values r with Ok st => st | _ => [] end) /\
  get_stride c = to_values r.

(** No slicer has a constant as its first index. *)
Definition runtime_starts (p : prefilled) (sls : list kslc) : Prop :=
  forall k sl, nth_error sls k = Some sl -> ~ start_constant (Forall known (grouped (length sls) k (pdesc p))) sl.

(** Slicers made by the named functions. *)
Inductive helper : kslc -> Prop :=
| h_between b e : helper (kbetween b e)
| h_at i : helper (kat i)
| h_every s : helper (kevery s)
| h_first n : helper (kfirst n)
| h_drop_first n : helper (kdrop_first n)
| h_last n : helper (klast n)
| h_drop_last n : helper (kdrop_last n).

(** Everything about the slicer is known. *)
Definition constant_slicer (sl : kslc) : Prop := extent_constant True sl /\ stride_constant True sl.
