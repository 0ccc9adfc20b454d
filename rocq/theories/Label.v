(** Labels of containers. *)
From Coq Require Import ZArith String List Bool.
From Verif Require Import Outcome CInt Shape Memory Container Algo Search Slicer Output.
Import ListNotations.

(** A label, include/kwk/settings/label.hpp 17-20: the option keeps a T convertible to std::string; here one
    that is only a reference to characters (a literal is kept as char const pointer), or a std::string. *)
Inductive label_type := Literal | Owned.
Definition label := (label_type * string)%type.

(** A container and its metadata, include/kwk/container/container.hpp 21 and
    include/kwk/detail/container/metadata.hpp. That there is a label, and its type, belong to the type of
    the container (builder.hpp 32). The number of characters a literal refers to is not modelled, nor its
    lifetime. *)
Record labelled := L { l_label : option label; l_c : container }.
Definition label_type_of (x : labelled) : option label_type := option_map fst (l_label x).

(** metadata(opts), metadata.hpp 24-26 and 41: label_(pick(label, opts)). When the settings have no label,
    pick yields rbr::unknown_key (container/settings/label.hpp 18-22), of which no label can be constructed: the
    program does not compile. *)
Definition metadata_from (ty : option label_type) (opts : option label) : outcome (option label) :=
  match ty, opts with
  | None, _ => Ok None
  | Some _, Some l => Ok (Some l)
  | Some _, None => UB
  end.

(** The label in container::settings(), container.hpp 75-83: there is none. *)
Definition settings_label (x : labelled) : option label := None.

(** label(), metadata.hpp 28 and 43. *)
Definition label_of (x : labelled) : string := match l_label x with Some (_, s) => s | None => ""%string end.

(** operator<<, container.hpp 85-114. *)
Definition show_labelled {T} (show : T -> string) (m : mem T) (x : labelled) : outcome string :=
  print show (option_map snd (l_label x)) m (l_c x).

(** Copy constructor of a table, table.hpp 75-77. *)
Definition copy_labelled {T} (m : mem T) (x : labelled) : outcome (mem T * labelled) :=
  l <- metadata_from (label_type_of x) (settings_label x) ;;
  ' (m1, t) <- copy_table m (l_c x) ;; Ok (m1, L l t).

(** container::swap, container.hpp 56-63: the labels (metadata.hpp 30 and 44), then the rest. *)
Definition swap_labelled (a b : labelled) : labelled * labelled :=
  let '(a', b') := swap_containers (l_c a) (l_c b) in (L (l_label b) a', L (l_label a) b').
Definition swap_labelled_stack {T} (m : mem T) (a b : labelled) : outcome (mem T * labelled * labelled) :=
  ' (m1, a', b') <- swap_stack m (l_c a) (l_c b) ;; Ok (m1, L (l_label b) a', L (l_label a) b').

(** Copy assignment of a table, table.hpp 85-98: table local(other); swap(local). *)
Definition assign_labelled {T} (m : mem T) (dst src : labelled) : outcome (mem T * labelled) :=
  l <- metadata_from (label_type_of dst) (settings_label src) ;;
  ' (m1, local) <- table_like m (l_c dst) (l_c src) ;;
  let '(dst', old) := swap_labelled dst (L l local) in
  m2 <- release m1 (c_data (l_c old)) ;; Ok (m2, dst').

(** Assignment to a view from a container of another type, view.hpp 73-79: view local(other); swap(local). *)
Definition assign_view {T} (m : mem T) (dst src : labelled) : outcome labelled :=
  l <- metadata_from (label_type_of dst) (settings_label src) ;;
  let '(data, sh) := settings (l_c src) in
  ' (k, sh', st) <- rebuild_accessor (l_c dst) sh ;;
  Ok (fst (swap_labelled dst (L l (Cn k sh' st data)))).

(** Move construction of a table, table.hpp 69: a std::string is left with an unspecified value [moved]. *)
Definition move_labelled (moved : string -> string) (x : labelled) : labelled * labelled :=
  let '(t, old) := move_table (l_c x) in
  (L (l_label x) t,
   L (match l_label x with Some (Owned, s) => Some (Owned, moved s) | l => l end) old).

(** relabel(c, l), include/kwk/algorithm/views/relabel.hpp 18-22: the view of
    rbr::merge(settings(label = l), c.settings()), where the left settings win. *)
Definition merge_label (l : label) (other : option label) : option label := Some l.
Definition relabel (st_shape : bool) (x : labelled) (l : label) : outcome labelled :=
  k <- metadata_from (Some (fst l)) (merge_label l (settings_label x)) ;;
  v <- view_of st_shape (l_c x) ;; Ok (L k v).

(** A container deduced from one of the other category (of the same category it is a copy): container::archetype(tag), container.hpp 70-73, has no label; nor
    have the settings given by reshape (reshape.hpp 18-22), reverse (reverse.hpp 13-22) and slices
    (container.hpp 140-151). *)
Definition table_of_labelled {T} (m : mem T) (st_shape : bool) (x : labelled) : outcome (mem T * labelled) :=
  l <- metadata_from None (settings_label x) ;;
  ' (m1, t) <- table_of m st_shape (l_c x) ;; Ok (m1, L l t).
Definition view_of_labelled (st_shape : bool) (x : labelled) : outcome labelled :=
  l <- metadata_from None (settings_label x) ;; v <- view_of st_shape (l_c x) ;; Ok (L l v).
Definition reshape_labelled (st_shape : bool) (x : labelled) (sh : shape) : outcome labelled :=
  l <- metadata_from None (settings_label x) ;; v <- reshape_view st_shape (l_c x) sh ;; Ok (L l v).
Definition reverse_labelled (st : bool) (x : labelled) : outcome labelled :=
  l <- metadata_from None None ;; v <- reverse st (l_c x) ;; Ok (L l v).
Definition slice_labelled (dbg st_shape st_stride : bool) (x : labelled) (sls : list slc) : outcome labelled :=
  l <- metadata_from None None ;; v <- slice_container dbg st_shape st_stride (l_c x) sls ;; Ok (L l v).
