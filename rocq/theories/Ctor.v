(** Construction of a shape or stride of a given type from extents with and without names: the choice between the
    constructors of include/kwk/detail/sequence/prefilled.hpp 131-186, called by utility/container/shape.hpp 107-110 and
    172-174 (default value 0), and stride.hpp 92-107 (default value 1). *)
From Coq Require Import ZArith String List Bool.
From Verif Require Import Outcome CInt Prefilled.
Import ListNotations.
Open Scope Z_scope.

(** An argument: a value, or an option [axis = value]. Axes without value, user types (C95) and options whose axis has a
    content (C57) are left out. *)
Inductive karg := KPos (e : extent) | KNamed (a : axis_id) (e : extent).
Definition kext (g : karg) : extent := match g with KPos e | KNamed _ e => e end.
Definition is_kpos (g : karg) : bool := match g with KPos _ => true | _ => false end.

(** axis_::is_implicit, settings/axis.hpp 38-44; is_fully_implicit and is_fully_explicit, prefilled.hpp 70-71. *)
Definition is_implicit (d : desc) : bool := match aid d with AIdx z => z <? 0 | AName _ => false end.
Definition is_fully_implicit (ds : list desc) : bool := forallb is_implicit ds.
Definition is_fully_explicit (ds : list desc) : bool := forallb (fun d => negb (is_implicit d)) ds.

(** The axis of each argument: that of the option, or implicit<static_size - 1 - I> (prefilled.hpp 163-167 and 182,
    normalize_axis: helpers.hpp 70-74). *)
Fixpoint keyed (i n : Z) (l : list karg) : list (axis_id * extent) :=
  match l with
  | [] => []
  | g :: l' =>
      (match g with KPos _ => implicit (n - 1 - i) | KNamed a _ => a end, kext g) :: keyed (i + 1) n l'
  end.

(** __is_ordered, prefilled.hpp 155-175 (is_along_v: detail/traits.hpp 50-53). *)
Fixpoint keys_match (ds : list desc) (os : list (axis_id * extent)) : bool :=
  match ds, os with
  | [], [] => true
  | d :: ds', o :: os' => axis_id_eqb (aid d) (fst o) && keys_match ds' os'
  | _, _ => false
  end.
Definition is_ordered (ds : list desc) (os : list (axis_id * extent)) : bool :=
  if is_fully_explicit ds then true
  else if negb (length ds =? length os)%nat then false
  else keys_match ds os.

(** Options are looked up among the descriptors (prefilled.hpp 113): one that is not there does not compile, unless the
    shape is fully static, when nothing is looked at (line 105). *)
Definition found (ds : list desc) (os : list (axis_id * extent)) : bool :=
  is_fully_static ds || forallb (fun o => (find_axis ds (fst o) <? length ds)%nat) os.

(** The requires clause of the constructor for a mixture, 179. *)
Definition mixed_fits (ds : list desc) (os : list (axis_id * extent)) : bool :=
  negb (is_fully_implicit ds) && negb (is_fully_explicit ds) && (length os <=? length ds)%nat && is_ordered ds os.

(** No argument: the default constructor. Values only: 131-146. Options only: 148-153; if the constructor 177-186 fits as
    well (only with options for implicit axes, written along<-1>) the choice is not modelled: UB. Both: 177-186. Anything
    else does not compile: UB. *)
Definition construct_shape (dbg : bool) (ds : list desc) (def : cint) (l : list karg) : outcome prefilled :=
  let os := keyed 0 (Z.of_nat (length ds)) l in
  match l with
  | [] => Ok (pdefault ds)
  | _ =>
      if forallb is_kpos l then pconstruct dbg ds def (map kext l)
      else if existsb is_kpos l then
        if mixed_fits ds os then if found ds os then pconstruct_named dbg ds def os else UB else UB
      else if mixed_fits ds os then UB
      else if (length l <=? length ds)%nat && found ds os then pconstruct_named dbg ds def os
      else UB
  end.
