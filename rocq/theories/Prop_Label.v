(** Property C68: labels. *)
From Coq Require Import ZArith Ascii String List Bool Lia.
From Verif Require Import Outcome CInt CIntFacts Spec SpecFacts ShapeSpec Shape ShapeFacts ShapeFacts2 Memory MemFacts
  Container ContainerSpec ContainerFacts ContainerFacts2 ContainerFacts3 AlgoSpec AlgoFacts4 Slicer
  Output OutputSpec OutputFacts Label LabelFacts.
Import ListNotations.
Open Scope Z_scope.

(** C68 *)
Theorem labelled_text : forall (T : Type) (show : T -> string) (m : mem T) x (f : list Z -> T),
  default_layout (l_c x) -> readable m (l_c x) -> prod (dims (l_c x)) <> 0 ->
  (forall is_, in_box (dims (l_c x)) is_ -> value m (l_c x) is_ (f is_)) ->
  show_labelled show m x =
  Ok (heading (option_map snd (l_label x)) ++
      text (indent (option_map snd (l_label x))) (dims (l_c x)) (fun is_ => show (f is_)))%string.
Proof. intros T show m x f. exact (readable_text show _ m (l_c x) f). Qed.
Print Assumptions labelled_text.

(** relabel: the text of the same elements under the new label, whatever the old one. *)
Theorem relabel_shows : forall (T : Type) (show : T -> string) (m : mem T) ss x l,
  default_layout (l_c x) -> readable m (l_c x) ->
  exists v, relabel ss x l = Ok v /\ label_of v = snd l /\
    show_labelled show m v = print show (Some (snd l)) m (l_c x).
Proof. exact @relabel_l. Qed.
Print Assumptions relabel_shows.

(** A view deduced from a labelled table, or a table from a labelled view, shows the elements without the
    label. *)
Theorem deduced_view_shows : forall (T : Type) (show : T -> string) (m : mem T) ss x,
  default_layout (l_c x) -> readable m (l_c x) ->
  exists v, view_of_labelled ss x = Ok v /\ label_of v = ""%string /\
    show_labelled show m v = print show None m (l_c x).
Proof. exact @view_deduced_l. Qed.
Print Assumptions deduced_view_shows.

Theorem deduced_table_shows : forall (T : Type) (show : T -> string) (m : mem T) ss x,
  default_layout (l_c x) -> readable m (l_c x) ->
  exists m' t, table_of_labelled m ss x = Ok (m', t) /\ label_of t = ""%string /\
    show_labelled show m' t = print show None m (l_c x).
Proof. exact @table_deduced_l. Qed.
Print Assumptions deduced_table_shows.

Theorem derived_without_label : forall (T : Type) (m : mem T) x,
  (forall ss m' t, table_of_labelled m ss x = Ok (m', t) -> l_label t = None) /\
  (forall ss v, view_of_labelled ss x = Ok v -> l_label v = None) /\
  (forall ss sh v, reshape_labelled ss x sh = Ok v -> l_label v = None) /\
  (forall st v, reverse_labelled st x = Ok v -> l_label v = None) /\
  (forall dbg ss st sls v, slice_labelled dbg ss st x sls = Ok v -> l_label v = None).
Proof. exact @no_label_l. Qed.
Print Assumptions derived_without_label.

(** Copies and assignments of tables: the text is that of the source if there is no label. With a label they do
    not compile. *)
Theorem copy_shows : forall (T : Type) (show : T -> string) (m : mem T) x,
  l_label x = None -> default_layout (l_c x) -> readable m (l_c x) ->
  exists m' t, copy_labelled m x = Ok (m', t) /\ label_of t = ""%string /\
    show_labelled show m' t = show_labelled show m x.
Proof. exact @unlabelled_copy_l. Qed.
Print Assumptions copy_shows.

Theorem assign_shows : forall (T : Type) (show : T -> string) (m : mem T) x y,
  l_label x = None -> default_layout (l_c x) -> default_layout (l_c y) -> same_type (l_c x) (l_c y) ->
  owns m (l_c x) -> readable m (l_c y) ->
  exists m' t, assign_labelled m x y = Ok (m', t) /\ label_of t = ""%string /\
    show_labelled show m' t = print show None m (l_c y).
Proof. exact @unlabelled_assign_l. Qed.
Print Assumptions assign_shows.

(** A view assigned a container of another type refers to the elements of that container. *)
Theorem view_assign_shows : forall (T : Type) (show : T -> string) (m : mem T) x y,
  l_label x = None -> default_layout (l_c x) -> default_layout (l_c y) -> same_type (l_c x) (l_c y) ->
  exists v, assign_view m x y = Ok v /\ label_of v = ""%string /\ l_c v = l_c y /\
    show_labelled show m v = print show None m (l_c y).
Proof. exact @view_assign_l. Qed.
Print Assumptions view_assign_shows.

Theorem labelled_copy_rejected : forall (T : Type) (m : mem T) x y, l_label x <> None ->
  copy_labelled m x = UB /\ assign_labelled m x y = UB /\ assign_view m x y = UB.
Proof. exact @labelled_copy_l. Qed.
Print Assumptions labelled_copy_rejected.

(** swap exchanges the texts, label included: heap tables and views, then static tables. *)
Theorem swap_exchanges_labels : forall (T : Type) (show : T -> string) (m : mem T) x y, same_type (l_c x) (l_c y) ->
  (exists ss st g, make_accessor ss st (c_shape (l_c x)) g = Ok (c_kind (l_c x), c_stride (l_c x))) ->
  (exists ss st g, make_accessor ss st (c_shape (l_c y)) g = Ok (c_kind (l_c y), c_stride (l_c y))) ->
  let (x', y') := swap_labelled x y in
  label_of x' = label_of y /\ label_of y' = label_of x /\
  show_labelled show m x' = show_labelled show m y /\ show_labelled show m y' = show_labelled show m x.
Proof. exact @swap_labelled_l. Qed.
Print Assumptions swap_exchanges_labels.

Theorem stack_swap_exchanges_labels : forall (T : Type) (show : T -> string) (m : mem T) x y,
  default_layout (l_c x) -> default_layout (l_c y) -> same_type (l_c x) (l_c y) -> c_kind (l_c x) = KStatic ->
  readable m (l_c x) -> readable m (l_c y) -> ~ same_block (c_data (l_c x)) (c_data (l_c y)) ->
  exists m' x' y', swap_labelled_stack m x y = Ok (m', x', y') /\
    label_of x' = label_of y /\ label_of y' = label_of x /\
    show_labelled show m' x' = show_labelled show m y /\ show_labelled show m' y' = show_labelled show m x.
Proof. exact @swap_labelled_stack_l. Qed.
Print Assumptions stack_swap_exchanges_labels.

(** A moved table takes its label along; only a std::string is lost in the source. *)
Theorem move_takes_label : forall (T : Type) (show : T -> string) (m : mem T) moved x,
  let (t, old) := move_labelled moved x in
  label_of t = label_of x /\ show_labelled show m t = show_labelled show m x /\
  match l_label x with
  | Some (Owned, s) => label_of old = moved s
  | _ => label_of old = label_of x
  end.
Proof. exact @move_labelled_l. Qed.
Print Assumptions move_takes_label.

(** Relabelling a container with strides shows other elements. *)
Theorem relabel_strided_refuted : exists (m : mem Z) x l v s s',
  addressable (l_c x) (map (fun _ => I32) (c_shape (l_c x))) /\ readable m (l_c x) /\
  relabel false x l = Ok v /\ print dec (Some (snd l)) m (l_c x) = Ok s /\ show_labelled dec m v = Ok s' /\ s <> s'.
Proof.
  exists [Some (map Some [1; 2; 3; 4; 5; 6])], (L None (Cn K1S [int 3] [int 2] (Ptr 0 0))), (Literal, "odd"%string).
  do 3 eexists. split.
  - split; [|split].
    + split; [by_check|]. split; [by_check|]. split; [|reflexivity].
      eexists. split; [reflexivity|]. split; [by_check|reflexivity].
    + left. repeat constructor; discriminate.
    + left. intros is_ B; apply box_In in B; vm_compute in B.
      repeat (destruct B as [<-|B]; [vm_compute; discriminate|]); contradiction.
  - split; [by_box|]. split; [vm_compute; reflexivity|]. split; [vm_compute; reflexivity|].
    split; [vm_compute; reflexivity|]. discriminate.
Qed.
Print Assumptions relabel_strided_refuted.

(** Two labelled 2x2 tables. *)
Definition lm : mem Z := [Some (map Some [1; 2; 3; 4]); Some (map Some [5; 6; 7; 8])].
Definition la : labelled := L (Some (Owned, "a"%string)) (Cn KStatic [int 2; int 2] [int 2; int 1] (Ptr 0 0)).
Definition lb : labelled := L (Some (Owned, "b"%string)) (Cn KStatic [int 2; int 2] [int 2; int 1] (Ptr 1 0)).
Example la_default : default_layout (l_c la). Proof. by_default true. Qed.
Example lb_default : default_layout (l_c lb). Proof. by_default true. Qed.
Example la_readable : readable lm (l_c la). Proof. by_box. Qed.
Example lb_readable : readable lm (l_c lb). Proof. by_box. Qed.
Example lab_same : same_type (l_c la) (l_c lb). Proof. repeat split. Qed.
Example lab_blocks : ~ same_block (c_data (l_c la)) (c_data (l_c lb)). Proof. discriminate. Qed.
Example lab_built : exists ss st g,
  make_accessor ss st (c_shape (l_c la)) g = Ok (c_kind (l_c la), c_stride (l_c la)).
Proof. exists true, true, None. reflexivity. Qed.
Example la_show : show_labelled dec lm la = Ok ("a:
  [ 1 2 ]
  [ 3 4 ]
")%string.
Proof. vm_compute. reflexivity. Qed.
Example relabel_ex : (v <- relabel true la (Literal, "c"%string) ;; show_labelled dec lm v) = Ok ("c:
  [ 1 2 ]
  [ 3 4 ]
")%string.
Proof. vm_compute. reflexivity. Qed.
Example assign_view_ex : (v <- assign_view lm (L None (l_c lb)) la ;; show_labelled dec lm v) = Ok ("[ 1 2 ]
[ 3 4 ]
")%string.
Proof. vm_compute. reflexivity. Qed.
Example swap_ex : (' (m, x, y) <- swap_labelled_stack lm la lb ;; show_labelled dec m x) = show_labelled dec lm lb.
Proof. vm_compute. reflexivity. Qed.
Example deduced_ex : (v <- view_of_labelled true la ;; show_labelled dec lm v) = Ok ("[ 1 2 ]
[ 3 4 ]
")%string.
Proof. vm_compute. reflexivity. Qed.
