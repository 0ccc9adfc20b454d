(** of_size and with_strides with named extents: include/kwk/utility/container/shape.hpp 330-353, stride.hpp 96-166,
    utility/traits/to_descriptor.hpp 74-107, utility/traits/as_dimension.hpp 66-86 and the constructors of
    detail/sequence/prefilled.hpp 132-186. *)
From Coq Require Import ZArith String List Bool.
From Verif Require Import Outcome CInt Prefilled.
Import ListNotations.
Open Scope Z_scope.

(** An argument of of_size: a value without a name, an axis without a value given (width, width[as<T>] or
    width[n]), or an option [axis = value]. The axis of an option may carry a content of its own
    (settings/axis.hpp 34-60: axis_<ID,Content>). *)
Inductive arg :=
| APos (e : extent)
| AAxis (a : axis_id) (c : content)
| ANamed (a : axis_id) (c : content) (e : extent).

(** to_descriptor_, to_descriptor.hpp 76-106. For an axis the content is itself turned into a descriptor: an
    integer n of type T becomes as<T>. For an option: a joker gives key_t{}, the default constructed axis
    (content kept when it is a type, 0 when it is an integer); an integral value gives its own type; a
    constant is cast to the type of the content if there is one. *)
Definition content_type (c : content) : option ity :=
  match c with CJoker => None | CType t => Some t | CStatic v => Some (cty v) end.
Definition arg_content (a : arg) : content :=
  match a with
  | APos e => to_descriptor e
  | AAxis _ c => match content_type c with None => CJoker | Some t => CType t end
  | ANamed _ c EJoker => match c with CStatic v => CStatic (CI (cty v) 0) | _ => c end
  | ANamed _ _ (EInt v) => CType (cty v)
  | ANamed _ c (EConst v) => CStatic (match content_type c with None => v | Some t => conv t v end)
  end.

Definition arg_axis (a : arg) : option axis_id :=
  match a with APos _ => None | AAxis x _ | ANamed x _ _ => Some x end.

(** normalize_extents (helpers.hpp 64-85) as in [Prefilled.normalize]. *)
Definition arg_descs (l : list arg) : list desc :=
  normalize (map (fun a => (arg_axis a, arg_content a)) l).

(** as_dimension_, as_dimension.hpp 66-86: an axis gives the default value, as a joker does; an option gives
    what its value gives. *)
Definition arg_extent (a : arg) : extent :=
  match a with APos e | ANamed _ _ e => e | AAxis _ _ => EJoker end.

Definition is_named (a : arg) : bool := match a with ANamed _ _ _ => true | _ => false end.
Definition is_bare (a : arg) : bool := match a with AAxis _ _ => true | _ => false end.

(** Options are looked up by x.base() (prefilled.hpp 111-125), the axis without content: an option whose axis
    has a content is not found, and that does not compile unless the shape is fully static. *)
Definition has_content (a : arg) : bool :=
  match a with ANamed _ CJoker _ => false | ANamed _ _ _ => true | _ => false end.

(** shape{d...} and stride{d...} with the descriptors to_descriptor(D)...: without options this is the
    positional constructor (prefilled.hpp 132-137); with options only, the named one (148-153); with both, the
    values without name are first given the implicit axis of their place (155-186). A bare axis next to an option
    does not compile: UB stands for this. Repeated axes do not compile for shapes (prefilled.hpp 445-451,
    utility/container/shape.hpp 85-88); here they are not rejected and the theorems exclude them. [def]: the
    value jokers get. *)
Definition build_args (dbg : bool) (def : cint) (l : list arg) : outcome prefilled :=
  let ds := arg_descs l in
  if existsb is_named l then
    if existsb is_bare l then UB
    else if existsb has_content l && negb (is_fully_static ds) then UB
    else pconstruct_named dbg ds def (combine (map aid ds) (map arg_extent l))
  else pconstruct dbg ds def (map arg_extent l).

(** of_size(d...), shape.hpp 338-342: shape<to_descriptor(D)...>{d...}; default value 0 (172-174). *)
Definition of_size_args (dbg : bool) (l : list arg) : outcome prefilled := build_args dbg (int 0) l.

(** with_strides(d...), stride.hpp 158-166 with the deduction guide 151-152; default value 1 (106). *)
Definition with_strides_args (dbg : bool) (l : list arg) : outcome prefilled := build_args dbg (int 1) l.
