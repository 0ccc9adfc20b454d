(** What slicers of the user select (C98). *)
From Coq Require Import ZArith List Bool.
From Verif Require Import Outcome CInt CIntFacts Spec Shape ShapeSpec EndRatio Slicer SlicerSpec UserSlicer.
Import ListNotations.
Open Scope Z_scope.

(** What a slicer says on axis [k] of the shape [c] with strides [st], the axis being of extent [x] and stride [d]:
    the first index [o], the number [n] of indexes, the distance [s] between them. *)
Definition says (c : shape) (st : stride) (k : nat) (x d : cint) (sl : xslc) (o n s : Z) : Prop :=
  match sl with
  | Lib sl => takes x sl o n s /\ s <= cval x
  | User u =>
      (exists f, u_index u = Some f /\ u_convertible u = false /\ wfc (f c k) /\ cval (f c k) = o) /\
      match u_count u with Some f => wfc (f c k) /\ cval (f c k) = n | None => n = 1 end /\
      match u_stride u with Some f => wfc (f st k) /\ cval (f st k) = s * cval d | None => s = 1 end
  end.

(** All indexes it selects exist. *)
Definition on_axis (x : cint) (o n s : Z) : Prop :=
  0 <= n /\ 0 <= s /\ 0 <= o < cval x /\ (0 < n -> o + (n - 1) * s < cval x).

(** On all axes. [c] and [st] are what the members get; the two lists are their axes from number [k] on. *)
Inductive cut_from (c : shape) (st : stride) : nat -> shape -> stride -> list xslc -> list Z -> list Z -> list Z -> Prop :=
| cut_nil k : cut_from c st k [] [] [] [] [] []
| cut_cons k x xs d ds sl sls o os n ns s ss :
    says c st k x d sl o n s -> on_axis x o n s -> cut_from c st (S k) xs ds sls os ns ss ->
    cut_from c st k (x :: xs) (d :: ds) (sl :: sls) (o :: os) (n :: ns) (s :: ss).
Definition cut (c : shape) (st : stride) (sls : list xslc) (os ns ss : list Z) : Prop := cut_from c st 0 c st sls os ns ss.

Definition some_xslicer (sls : list xslc) : Prop := exists sl, In sl sls /\ forall i, sl <> Lib (SIdx i).

(** The first index is of a type at least as large as int. *)
Definition xwide (c : shape) (k : nat) (sl : xslc) : Prop :=
  match sl with
  | Lib sl => wide sl
  | User u => forall f, u_index u = Some f -> promote (cty (f c k)) = cty (f c k)
  end.
Definition all_wide (c : shape) (sls : list xslc) : Prop := forall k sl, nth_error sls k = Some sl -> xwide c k sl.

(** A type of the user that answers as a slicer of the library does on axis [k]. *)
Definition answers_as (c : shape) (st : stride) (k : nat) (u : user) (sl : slc) : Prop :=
  exists x d f, nth_error c k = Some x /\ nth_error st k = Some d /\
    u_index u = Some f /\ u_convertible u = false /\ reindex1 x sl = Ok (f c k) /\
    match u_count u with Some g => reshape1 x sl = Ok (g c k) | None => reshape1 x sl = Ok (int 1) end /\
    match u_stride u with Some h => restride1 d sl = Ok (h st k) | None => restride1 d sl = Ok d end.
Definition stands_for (c : shape) (st : stride) (k : nat) (sl : xslc) (sl' : slc) : Prop :=
  match sl with Lib s => s = sl' | User u => answers_as c st k u sl' end.

(** A type of the user whose has_step is true if its indexes are not all the next ones. *)
Definition honest (sl : xslc) (s : Z) : Prop :=
  match sl with Lib _ => True | User u => u_has_step u = Some false -> s = 1 end.
