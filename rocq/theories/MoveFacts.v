From Coq Require Import ZArith List Bool Lia.
From Verif Require Import Outcome CInt CIntFacts Spec SpecFacts ShapeSpec Shape ShapeFacts ShapeFacts2
  Memory MemFacts Container ContainerSpec ContainerFacts ContainerFacts2 ContainerFacts3.
Import ListNotations.
Open Scope Z_scope.

(** ** C31 *)
Lemma default_layout_data c p : default_layout c -> default_layout (Cn (c_kind c) (c_shape c) (c_stride c) p).
Proof. intros (Lg & Ne & ss & E). split; [exact Lg|]. split; [exact Ne|]. exists ss. exact E. Qed.

Lemma c_empty_ok c : default_layout c -> c_empty c = Ok (prod (dims c) =? 0).
Proof.
  intros D. pose proof (default_kind_inv c D) as K. destruct D as (Lg & Ne & _).
  assert (Nm : numel (c_shape c) = Ok (int (prod (dims c)))) by (apply numel_ok; assumption).
  assert (Ps : 0 <= prod (dims c) <= max31).
  { destruct Lg as (_ & Nn & P). fold (dims c) in *. pose proof (prod_nonneg _ Nn). pose proof (prod_le_posprod _ Nn). unfold max31. lia. }
  assert (Ez : ceqb (int (prod (dims c))) (int 0) = (prod (dims c) =? 0)).
  { rewrite ceqb_exact; [reflexivity| | |]; try (apply wfc_small_int; unfold max31 in *; lia). apply compat_signed; reflexivity. }
  unfold c_empty, c_size. destruct (c_kind c); try contradiction.
  - rewrite Nm, bind_ok, Ez. reflexivity.
  - rewrite Nm, bind_ok, Ez. reflexivity.
  - destruct K as [_ L]. unfold dims in *. destruct (c_shape c) as [|n [|n' s]]; try discriminate. rewrite bind_ok.
    destruct Lg as (W & Nn & _). inversion W; subst. inversion Nn; subst.
    rewrite ceqb_exact; [|assumption|apply wfc_small_int; unfold max31; lia|apply compat_nonneg; cbn; lia].
    do 2 f_equal. cbn [vals map prod fold_right cval int]. unfold prod. cbn. lia.
  - destruct K as [_ L]. destruct (c_shape c) as [|n s] eqn:E; [congruence|]. rewrite Nm, bind_ok, Ez. reflexivity.
Qed.

Lemma moved_from_l {T} (m : mem T) c new old : default_layout c -> c_kind c <> KStatic -> move_table c = (new, old) ->
  (forall is_, coord_of c is_ -> get m new is_ = get m c is_) /\
  dims old = dims c /\ c_numel old = Ok (int (prod (dims c))) /\ c_empty old = Ok (prod (dims c) =? 0) /\
  (forall is_, coord_of c is_ -> get m old is_ = UB /\ forall v, put m old is_ v = UB) /\
  (0 < prod (dims c) -> copy_table m old = UB) /\
  release m (c_data old) = Ok m /\ release m (c_data new) = release m (c_data c).
Proof.
  intros D _ E. injection E as <- <-. pose proof (default_layout_data c Null D) as D'.
  set (old := Cn (c_kind c) (c_shape c) (c_stride c) Null) in *.
  split; [reflexivity|]. split; [reflexivity|]. split; [exact (numel_ok _ (proj1 D) (proj1 (proj2 D)))|].
  split; [exact (c_empty_ok old D')|]. split; [|split; [|split; reflexivity]].
  - intros is_ C. split.
    + rewrite get_load by (try exact C; apply default_addressable; exact D'). reflexivity.
    + intros v. rewrite put_store by (try exact C; apply default_addressable; exact D'). reflexivity.
  - intros P. unfold copy_table, table_like. cbn [settings old c_data c_shape].
    rewrite (numel_ok _ (proj1 D) (proj1 (proj2 D))), bind_ok. cbn [cval int]. unfold new_block. fold (dims c).
    destruct (Z.eqb_spec (prod (dims c)) 0); [lia|]. unfold alloc.
    destruct (Z.to_nat (prod (dims c))) as [|k] eqn:Ek; [lia|]. reflexivity.
Qed.

Lemma moved_from_reassign_l {T} (m : mem T) c src new old : default_layout c -> c_kind c <> KStatic ->
  move_table c = (new, old) -> default_layout src -> same_type c src -> readable m src ->
  exists m' d, assign_table m old src = Ok (m', d) /\ c_shape d = c_shape src /\
    (forall is_, coord_of src is_ -> get m' d is_ = get m src is_) /\
    (forall p, valid m p -> cell m' p = cell m p).
Proof.
  intros D _ E D' (S1 & S2 & S3) R. injection E as <- <-.
  destruct (assign_table_l m _ src (default_layout_data c Null D) D') as (m' & d & Ea & _ & Sh & G & _ & F).
  - split; [exact S1|]. split; [exact S2|exact S3].
  - left. reflexivity.
  - exact R.
  - exists m', d. split; [exact Ea|]. split; [exact Sh|]. split; [exact G|]. intros p V. apply F; [exact V|]. destruct p; exact (fun x => x).
Qed.
