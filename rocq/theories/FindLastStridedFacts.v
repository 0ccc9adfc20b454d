(** find_last on containers with any strides. *)
From Coq Require Import ZArith List Bool Lia.
From Verif Require Import Outcome CInt CIntFacts Spec SpecFacts ShapeSpec Shape ShapeFacts ShapeFacts2 Memory MemFacts Container
  ContainerSpec ContainerFacts ContainerFacts2 ContainerFacts3 Algo AlgoSpec AlgoFacts AlgoFacts2 AlgoFacts3 AlgoFacts4 ReverseStridedFacts.
Import ListNotations.
Open Scope Z_scope.

Definition moved (c : container) (d : Z) : container := Cn (c_kind c) (c_shape c) (c_stride c) (padd (c_data c) d).
Lemma moved_elem c d is_ : elem (moved c d) is_ = padd (elem c is_) d.
Proof. unfold elem. change (strides_z (moved c d)) with (strides_z c). cbn [c_data moved]. rewrite !padd_padd. f_equal. lia. Qed.

Lemma find_last_moved {T} ss c (f : T -> bool) m : legal (c_shape c) -> c_shape c <> [] -> signeds (c_shape c) -> signed_strides c -> reach_ok c ->
  let c' := moved c (prod (dims c) - 1 - dot (strides_z c) (map Z.pred (dims c))) in
  readable m c' ->
  exists r, find_last_if ss c f m = Ok (r, m) /\
    match r with
    | Some pos => map cty pos = map (fun _ => I32) (c_shape c) /\ in_box (dims c) (vals pos) /\
        (exists v, value m c' (vals pos) v /\ f v = true) /\
        (forall is_ v, in_box (dims c) is_ -> value m c' is_ v -> f v = true ->
           is_ = vals pos \/ lex is_ (vals pos))
    | None => forall is_ v, in_box (dims c) is_ -> value m c' is_ v -> f v = false
    end.
Proof.
  intros Lg Ne S Sg Rc c' R. pose proof Sg as (st & G & _ & _ & Ls & _).
  destruct (reverse_any_l ss c Lg Ne Sg) as (rc & Er & Sh & _ & _ & _ & Ad & El0).
  assert (El : forall is_, in_box (dims c) is_ -> elem rc is_ = elem c' (mirror_coord (dims c) is_)).
  { intros is_ B. rewrite El0. unfold c'. rewrite moved_elem. unfold elem. rewrite padd_padd, dot_mirror; [f_equal; lia|exact B|].
    unfold strides_z, dims, vals. rewrite G, !map_length. exact Ls. }
  assert (Ed : dims rc = dims c) by (unfold dims; rewrite Sh; reflexivity).
  assert (Hv : forall is_ v, in_box (dims c) is_ -> (value m rc is_ v <-> value m c' (mirror_coord (dims c) is_) v)).
  { intros is_ v B. unfold value. rewrite (El is_ B). tauto. }
  assert (CR : can_read m rc rc).
  { split; [apply Ad; [exact Rc|]; unfold ctypes; rewrite Sh; unfold signeds in S; apply Forall_map; exact S|]. split; [intros is_ B; exact B|]. rewrite Ed. intros is_ B.
    destruct (R _ (mirror_box _ _ B)) as (v & Hvv). exists v. apply Hv; assumption. }
  assert (Fd : Forall (fun n => n <= 2147483648) (dims rc)).
  { rewrite Ed. destruct Lg as (_ & _ & Pp). fold (dims c) in Pp. revert Pp. generalize (dims c).
    clear. induction l as [|n l IH]; intros P; constructor.
    - pose proof (posprod_head_le n l). lia.
    - apply IH. pose proof (posprod_tail_le n l). lia. }
  destruct (find_if_l rc f m CR Fd) as (r & E & H). unfold find_last_if. rewrite Er, bind_ok, E, bind_ok.
  destruct r as [pos|].
  - destruct H as (Ty & B & (v & Hvv & Hf) & Hm). rewrite Ed in B, Hm. rewrite Sh in Ty.
    assert (Wp : wfs pos).
    { destruct Lg as (_ & _ & Pp). fold (dims c) in Pp. revert Ty B Pp. unfold dims. generalize (c_shape c). clear.
      induction pos as [|p pos IH]; intros [|n s] Ty B Pp; try discriminate; constructor.
      - cbn [vals map] in *. injection Ty as Ty1 _. inversion B; subst. unfold wfc, in_ty. rewrite Ty1. simpl.
        pose proof (posprod_head_le (cval n) (vals s)). unfold vals in *. lia.
      - cbn [vals map] in *. injection Ty as _ Ty. inversion B; subst. apply (IH s Ty); [assumption|].
        pose proof (posprod_tail_le (cval n) (vals s)). unfold vals in *. lia. }
    destruct (mirror_pos (c_shape c) pos Lg S Wp Ty B) as (ps & Eps & Vps & Tps). fold (dims c) in Vps.
    rewrite Eps, bind_ok. exists (Some ps). split; [reflexivity|]. split; [exact Tps|]. rewrite Vps.
    split; [apply mirror_box; exact B|]. split; [exists v; split; [apply Hv; assumption|exact Hf]|].
    intros is_ w Bi Hw Hfw. destruct (Hm (mirror_coord (dims c) is_) w) as [Eq|Lx].
    + apply mirror_box; exact Bi.
    + apply Hv; [apply mirror_box; exact Bi|]. rewrite mirror_invol by exact Bi. exact Hw.
    + exact Hfw.
    + left. rewrite <- Eq, mirror_invol by exact Bi. reflexivity.
    + right. rewrite <- (mirror_invol (dims c) is_ Bi). apply mirror_lex; [exact B|apply mirror_box; exact Bi|exact Lx].
  - exists None. split; [reflexivity|]. intros is_ v B Hvv. rewrite Ed in H.
    apply (H (mirror_coord (dims c) is_) v); [apply mirror_box; exact B|].
    apply Hv; [apply mirror_box; exact B|]. rewrite mirror_invol by exact B. exact Hvv.
Qed.
Lemma find_last_moved_l {T} ss c (f : T -> bool) m : legal (c_shape c) -> c_shape c <> [] -> signeds (c_shape c) -> signed_strides c -> reach_ok c ->
  let c' := Cn (c_kind c) (c_shape c) (c_stride c) (padd (c_data c) (prod (dims c) - 1 - dot (strides_z c) (map Z.pred (dims c)))) in
  readable m c' -> exists r, find_last_if ss c f m = Ok (r, m) /\ last_at m c' (fun v => f v = true) r.
Proof.
  intros Lg Ne S Sg Rc c' R. destruct (find_last_moved ss c f m Lg Ne S Sg Rc R) as (r & E & H). exists r. split; [exact E|].
  apply (last_at_of m c' f); [tauto|exact H].
Qed.
Lemma find_last_right_l {T} ss c (f : T -> bool) m : legal (c_shape c) -> c_shape c <> [] -> signeds (c_shape c) -> signed_strides c -> reach_ok c ->
  dot (strides_z c) (map Z.pred (dims c)) = prod (dims c) - 1 ->
  readable m c -> exists r, find_last_if ss c f m = Ok (r, m) /\ last_at m c (fun v => f v = true) r.
Proof.
  intros Lg Ne S Sg Rc Ed R. pose proof (find_last_moved_l ss c f m Lg Ne S Sg Rc) as H. cbv zeta in H. rewrite Ed, Z.sub_diag in H.
  replace (Cn (c_kind c) (c_shape c) (c_stride c) (padd (c_data c) 0)) with c in H; [exact (H R)|].
  destruct c as [k s st [|b o]]; cbn; [reflexivity|]. rewrite Z.add_0_r. reflexivity.
Qed.
