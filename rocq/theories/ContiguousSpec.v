(** When the elements of a slice follow each other. *)
From Coq Require Import ZArith List.
From Verif Require Import Outcome CInt Spec Memory Container ContainerSpec Slicer.
Import ListNotations.
Open Scope Z_scope.

(** The elements of a view lie one after the other in memory, in row-major order. *)
Definition contiguous (v : container) : Prop := forall js, in_box (dims v) js -> elem v js = padd (c_data v) (rank (dims v) js).

(** [ks] indexes, [ss] apart, selected on axes [ns]: an axis on which more than one index is selected has step 1 and is followed
    by axes selected completely. *)
Fixpoint solid (ns ks ss : list Z) : Prop :=
  match ns, ks, ss with
  | _ :: ns, k :: ks, s :: ss => (k = 1 \/ (s = 1 /\ ks = ns)) /\ solid ns ks ss
  | _, _, _ => True
  end.

(** Slicers of one index. *)
Definition single (sl : slc) : Prop := match sl with SIdx _ | SEnd _ => True | _ => False end.
