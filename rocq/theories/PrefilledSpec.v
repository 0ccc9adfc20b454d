(** Specification vocabulary for mixed compile-time / run-time extents. *)
From Coq Require Import ZArith String List Bool.
From Verif Require Import Outcome CInt Prefilled.
Import ListNotations.
Open Scope Z_scope.

(** The run-time axes, and the type each of them is declared with. *)
Definition runtime (d : desc) : Prop := forall c, acont d <> CStatic c.
Definition axis_type (d : desc) : ity :=
  match acont d with CJoker => I32 | CType t => t | CStatic c => cty c end.

(** Number of run-time axes. *)
Fixpoint nb_runtime (ds : list desc) : nat :=
  match ds with
  | [] => O
  | d :: ds' => match acont d with CStatic _ => nb_runtime ds' | _ => S (nb_runtime ds') end
  end.

(** Reading a list of descriptors with the run-time values stored in axis order. *)
Fixpoint interleave (ds : list desc) (st : list cint) : list cint :=
  match ds with
  | [] => []
  | d :: ds' =>
      match acont d with
      | CStatic c => c :: interleave ds' st
      | _ => match st with
             | [] => []
             | v :: st' => v :: interleave ds' st'
             end
      end
  end.

(** A storage that matches its descriptors: one value per run-time axis, of the type of the axis. *)
Fixpoint runtime_types (ds : list desc) : list ity :=
  match ds with
  | [] => []
  | d :: ds' => match acont d with
                | CStatic _ => runtime_types ds'
                | _ => axis_type d :: runtime_types ds'
                end
  end.
Definition wfp (p : prefilled) : Prop :=
  map cty (pstore p) = runtime_types (pdesc p) /\ Forall wfc (pstore p).

(** What an axis holds after being given an extent; [def] is used for jokers. *)
Definition expected (def : cint) (d : desc) (e : extent) : cint :=
  match acont d with
  | CStatic c => c
  | _ => match e with
         | EJoker => conv (axis_type d) def
         | EInt v | EConst v => conv (axis_type d) v
         end
  end.

(** An extent contradicting a compile-time axis. *)
Definition contradicts (d : desc) (e : extent) : Prop :=
  match acont d, e with
  | CStatic c, EInt v | CStatic c, EConst v => cval v <> cval c
  | _, _ => False
  end.

(** Extents are values of their type, and not negative. *)
Definition sane (c : cint) : Prop := wfc c /\ 0 <= cval c.
Definition sane_desc (d : desc) : Prop := match acont d with CStatic c => sane c | _ => True end.
Definition sane_ext (e : extent) : Prop :=
  match e with EJoker => True | EInt v | EConst v => sane v end.

Fixpoint map2 {A B C} (f : A -> B -> C) (l : list A) (m : list B) : list C :=
  match l, m with
  | x :: l', y :: m' => f x y :: map2 f l' m'
  | _, _ => []
  end.

(** The value given to an axis in a list of named extents; axes that are not named get a joker. *)
Fixpoint given (os : list (axis_id * extent)) (a : axis_id) : extent :=
  match os with
  | [] => EJoker
  | (b, e) :: os' => if axis_id_eqb a b then e else given os' a
  end.

(** Distinct axes. *)
Definition distinct_axes (ds : list desc) : Prop := NoDup (map aid ds).

Definition all_runtime (ds : list desc) : Prop := Forall runtime ds.

(** Run-time axes whose type holds every std::int32_t size: jokers, and types of 32 bits or more. *)
Definition wide_axis (d : desc) : Prop := runtime d /\ in_ty (axis_type d) 2147483647.

(** The axes of extents without names: numbered from the last one, -1, -2, ... *)
Definition unnamed_axes (n : nat) : list axis_id :=
  map (fun k => AIdx (Z.of_nat k - Z.of_nat n)) (seq 0 n).
(** Axes between which a shape can be converted: the innermost ones are the same, or the result has fewer and
    they have no names. *)
Definition axes_fit (dst src : list desc) : Prop :=
  if (length src <=? length dst)%nat
  then map aid (skipn (length dst - length src) dst) = map aid src
  else map aid dst = unnamed_axes (length dst).

(** Values whose types are all signed, or all unsigned. *)
Definition same_sign (vs : list cint) : Prop :=
  exists b, Forall (fun v => is_signed (cty v) = b) vs.
