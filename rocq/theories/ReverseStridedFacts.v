(** Lemmas about reversing containers with any strides. *)
From Coq Require Import ZArith List Bool Lia.
From Verif Require Import Outcome CInt CIntFacts Spec SpecFacts ShapeSpec Shape ShapeFacts ShapeFacts2 Memory MemFacts Container
  ContainerSpec ContainerFacts ContainerFacts2 ContainerFacts3 Algo AlgoSpec AlgoFacts AlgoFacts2 AlgoFacts3 AlgoFacts4.
Import ListNotations.
Open Scope Z_scope.

Definition signed_strides (c : container) : Prop :=
  exists st, get_stride c = Ok st /\ wfs st /\ signeds st /\ length st = length (c_shape c) /\
    Forall (fun s => Z.abs (cval s) <= max31) st.

Lemma reverse_any_l ss c : legal (c_shape c) -> c_shape c <> [] -> signed_strides c ->
  exists rc, reverse ss c = Ok rc /\ c_shape rc = c_shape c /\ signed_strides rc /\
    strides_z rc = map Z.opp (strides_z c) /\ c_data rc = padd (c_data c) (prod (dims c) - 1) /\
    (reach_ok c -> forall tys, Forall (fun t => is_signed t = true) tys -> addressable rc tys) /\
    forall is_, elem rc is_ = padd (c_data c) (prod (dims c) - 1 - dot (strides_z c) is_).
Proof.
  intros Lg Ne (st & G & Ws & Ss & Ls & Fs). pose proof Lg as (W & N & _).
  destruct (mapM_neg st Ws Ss Fs) as (ns & Em & Vn & Wn & Sn & Ln).
  unfold reverse. rewrite G, bind_ok, Em, bind_ok, (numel_ok _ Lg Ne), bind_ok.
  change (cval (int (prod (vals (c_shape c))))) with (prod (dims c)).
  unfold make_view, make_accessor. rewrite padd_padd. change (prod (dims c) + -1) with (prod (dims c) - 1).
  set (data := padd (c_data c) (prod (dims c) - 1)).
  assert (Fn : Forall (fun s => Z.abs (cval s) <= max31) ns).
  { clear -Fs Vn. revert ns Vn. induction Fs as [|s st H _ IH]; intros [|n ns] E; cbn in E; try discriminate; constructor.
    - injection E as E _. rewrite E, Z.abs_opp. exact H.
    - apply IH. injection E as _ E. exact E. }
  assert (Zc : strides_z c = vals st) by (unfold strides_z; rewrite G; reflexivity).
  assert (Ad : forall k, (match k with K1 | K2 => False | K1S => length (c_shape c) = 1%nat
                          | K2S => length (c_shape c) = 2%nat | _ => True end) ->
    let rc := Cn k (c_shape c) ns data in
    c_shape rc = c_shape c /\ signed_strides rc /\ strides_z rc = map Z.opp (strides_z c) /\ c_data rc = data /\
    (reach_ok c -> forall tys, Forall (fun t => is_signed t = true) tys -> addressable rc tys) /\
    forall is_, elem rc is_ = padd (c_data c) (prod (dims c) - 1 - dot (strides_z c) is_)).
  { intros k Hk rc. assert (Gs : get_stride rc = Ok ns) by (destruct k; try contradiction; reflexivity).
    assert (Zs : strides_z rc = map Z.opp (strides_z c)) by (rewrite Zc; unfold strides_z; rewrite Gs, Vn; reflexivity).
    split; [reflexivity|]. split; [exists ns; split; [exact Gs|]; split; [exact Wn|]; split; [exact Sn|]; split; [cbn; congruence|exact Fn]|].
    split; [exact Zs|]. split; [reflexivity|]. split.
    - intros R tys Ht. split; [|split].
      + split; [exact W|]. split; [exact N|]. split; [exists ns; split; [exact Gs|split; [exact Wn|cbn; congruence]]|].
        destruct k; try contradiction; cbn; auto.
      + right. split; [exists ns; split; assumption|exact Ht].
      + left. intros is_ B. rewrite Zs, absdot_opp. apply R. exact B.
    - intros is_. unfold elem. rewrite Zs, dot_opp. change (c_data rc) with data. unfold data. rewrite padd_padd. f_equal. }
  destruct (as_stride_ok _ Lg Ne) as (dst & Ed & _).
  destruct ss; cbn [andb]; rewrite ?Ed.
  - cbn [bind]. eexists. split; [reflexivity|]. apply (Ad KStatic I).
  - destruct (c_shape c) as [|a [|b [|d s]]] eqn:Es; cbn [bind]; eexists; (split; [reflexivity|]).
    + congruence.
    + apply (Ad K1S). reflexivity.
    + apply (Ad K2S). reflexivity.
    + apply (Ad KGen I).
Qed.

Lemma dot_mirror st ns is_ : in_box ns is_ -> length st = length ns ->
  dot st (mirror_coord ns is_) = dot st (map Z.pred ns) - dot st is_.
Proof.
  intros B. revert st. induction B as [|n i ns is_ H B IH]; intros [|s st] E; cbn in E; try discriminate; [reflexivity|].
  cbn [mirror_coord map dot]. rewrite IH by lia. unfold Z.pred. ring.
Qed.
Lemma reverse_right_l ss c : legal (c_shape c) -> c_shape c <> [] -> signed_strides c -> 0 < prod (dims c) -> c_data c <> Null ->
  exists rc, reverse ss c = Ok rc /\ c_shape rc = c_shape c /\
    (forall is_, in_box (dims c) is_ ->
       elem rc is_ = padd (elem c (mirror_coord (dims c) is_)) (prod (dims c) - 1 - dot (strides_z c) (map Z.pred (dims c)))) /\
    ((forall is_, in_box (dims c) is_ -> elem rc is_ = elem c (mirror_coord (dims c) is_)) <->
     dot (strides_z c) (map Z.pred (dims c)) = prod (dims c) - 1).
Proof.
  intros Lg Ne S Np Nd. pose proof S as (st & G & _ & _ & Ls & _).
  destruct (reverse_any_l ss c Lg Ne S) as (rc & E & Es & _ & _ & _ & _ & El).
  assert (D : forall is_, in_box (dims c) is_ ->
    elem rc is_ = padd (elem c (mirror_coord (dims c) is_)) (prod (dims c) - 1 - dot (strides_z c) (map Z.pred (dims c)))).
  { intros is_ B. rewrite El. unfold elem. rewrite padd_padd, dot_mirror; [f_equal; lia|exact B|].
    unfold strides_z, dims, vals. rewrite G, !map_length. exact Ls. }
  exists rc. split; [exact E|]. split; [exact Es|]. split; [exact D|]. split.
  - intros H. pose proof Lg as (_ & N & _).
    destruct (box (dims c)) as [|is_ l] eqn:Bx.
    + pose proof (box_length (dims c) N) as L. rewrite Bx in L. cbn in L. lia.
    + assert (B : in_box (dims c) is_) by (apply box_In; rewrite Bx; left; reflexivity).
      specialize (H is_ B). rewrite (D is_ B) in H. unfold elem in H. rewrite padd_padd in H.
      destruct (c_data c) as [|b o]; [congruence|]. cbn [padd] in H. injection H as H. lia.
  - intros H is_ B. rewrite (D is_ B), H. rewrite Z.sub_diag. unfold elem. rewrite padd_padd. f_equal. lia.
Qed.

Lemma default_signed c : default_layout c -> signeds (c_shape c) -> signed_strides c.
Proof.
  intros D S. destruct (default_stride c D S) as (st & G & Ws & Ss & Ls & Vs & Fs). exists st. repeat (split; [assumption|]). exact Fs.
Qed.
Lemma reverse_twice_l ss ss' c : legal (c_shape c) -> c_shape c <> [] -> signed_strides c ->
  exists rc rrc, reverse ss c = Ok rc /\ reverse ss' rc = Ok rrc /\ c_shape rrc = c_shape c /\
    (reach_ok c -> forall tys, Forall (fun t => is_signed t = true) tys -> addressable rrc tys) /\
    forall is_, elem rrc is_ = padd (elem c is_) (2 * (prod (dims c) - 1)).
Proof.
  intros Lg Ne S. destruct (reverse_any_l ss c Lg Ne S) as (rc & E & Es & Sr & Zr & Dr & Ar & El).
  assert (Lr : legal (c_shape rc)) by (rewrite Es; exact Lg). assert (Nr : c_shape rc <> []) by (rewrite Es; exact Ne).
  destruct (reverse_any_l ss' rc Lr Nr Sr) as (rrc & E' & Es' & _ & _ & _ & Ar' & El').
  exists rc, rrc. split; [exact E|]. split; [exact E'|]. split; [congruence|]. split.
  - intros R tys Ht. apply Ar'; [|exact Ht]. intros is_ B. rewrite Zr, absdot_opp. apply R. unfold dims in *. rewrite Es in B. exact B.
  - intros is_. rewrite El', Zr, dot_opp, Dr. unfold elem, dims. rewrite Es, !padd_padd. f_equal. lia.
Qed.
Lemma reverse_twice_outside_l {T} ss ss' c (m : mem T) : default_layout c -> signeds (c_shape c) -> 1 < prod (dims c) ->
  (forall k, prod (dims c) <= k -> ~ valid m (padd (c_data c) k)) ->
  exists rc rrc, reverse ss c = Ok rc /\ reverse ss' rc = Ok rrc /\
    forall is_, coord_of c is_ -> signeds is_ -> get m rrc is_ = UB /\ forall v, put m rrc is_ v = UB.
Proof.
  intros D S Np Out. pose proof D as (Lg & Ne & _).
  destruct (reverse_twice_l ss ss' c Lg Ne (default_signed c D S)) as (rc & rrc & E & E' & Es & Ad & El).
  exists rc, rrc. split; [exact E|]. split; [exact E'|]. intros is_ [Wi Bi] Si.
  assert (A : addressable rrc (map cty is_)).
  { apply Ad; [apply default_reach; exact D|]. clear -Si. induction Si; cbn; constructor; assumption. }
  assert (C : coord_of rrc is_) by (split; [exact Wi|unfold dims; rewrite Es; exact Bi]).
  destruct (strided_access_l m rrc is_ A C) as (_ & _ & Hu). apply Hu. rewrite El, (default_elem c) by assumption.
  rewrite padd_padd. apply Out. pose proof (rank_range _ _ Bi). lia.
Qed.
