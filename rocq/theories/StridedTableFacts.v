(** Lemmas about tables with strides of their own. *)
From Coq Require Import ZArith List Bool Lia.
From Verif Require Import Outcome CInt CIntFacts Spec SpecFacts ShapeSpec Shape ShapeFacts ShapeFacts2 Memory MemFacts Container
  ContainerSpec ContainerFacts ContainerFacts2 ContainerFacts3.
Import ListNotations.
Open Scope Z_scope.

Lemma strided_made_l {T} (m m1 : mem T) a b sh st t : legal sh -> sh <> [] -> make_table m a b sh (Some st) None = Ok (m1, t) ->
  c_shape t = sh /\ strides_z t = vals st /\ (prod (vals sh) = 0 -> m1 = m /\ c_data t = Null) /\
  (0 < prod (vals sh) -> m1 = m ++ [Some (repeat None (Z.to_nat (prod (vals sh))))] /\ c_data t = Ptr (length m) 0).
Proof.
  intros L Nn E. destruct sh as [|d sh']; [congruence|].
  - set (sh := d :: sh') in *. assert (Ne : sh <> []) by discriminate.
    destruct (index_arithmetic_exact_l false sh L Ne) as (Hn & _). unfold make_table in E. rewrite Hn in E. cbn [bind cval int] in E.
    assert (Np : 0 <= prod (vals sh)) by (apply prod_nonneg, L).
    unfold new_block in E. change (cval (int (prod (vals sh)))) with (prod (vals sh)) in E.
    assert (K : forall k s, make_accessor a b sh (Some st) = Ok (k, s) -> s = st /\ k <> K1 /\ k <> K2).
    { intros k s. unfold make_accessor. destruct (a && b); [intros Y; injection Y as <- <-; repeat split; discriminate|].
      destruct (as_stride sh); try discriminate. cbn [bind]. destruct a; [intros Y; injection Y as <- <-; repeat split; discriminate|].
      unfold sh. destruct sh' as [|e [|]]; intros Y; injection Y as <- <-; repeat split; discriminate. }
    destruct (make_accessor a b sh (Some st)) as [[k s]| | |]; try (destruct (prod (vals sh) =? 0); discriminate).
    destruct (K k s eq_refl) as (-> & K1n & K2n).
    assert (G : forall data, strides_z (Cn k sh st data) = vals st).
    { intros data. unfold strides_z, get_stride. cbn [c_kind c_stride]. destruct k; congruence. }
    destruct (Z.eqb_spec (prod (vals sh)) 0) as [Z0|Z0]; cbn [bind alloc] in E; injection E as <- <-; cbn [c_shape c_data];
      (split; [reflexivity|split; [apply G|split; intros Y; try lia; split; reflexivity]]).
Qed.
Lemma fresh_valid {T} (m : mem T) n k : 0 < n ->
  (valid (m ++ [Some (repeat None (Z.to_nat n))]) (Ptr (length m) k) <-> 0 <= k < n).
Proof.
  intros Hn. unfold valid, cell. rewrite nth_error_app2, Nat.sub_diag by lia. cbn [nth_error].
  destruct (Z.leb_spec 0 k) as [H|H]; [|split; [congruence|lia]].
  destruct (nth_error (repeat None (Z.to_nat n)) (Z.to_nat k)) as [x|] eqn:E.
  - split; [intros _|discriminate]. assert (X : nth_error (@repeat (option T) None (Z.to_nat n)) (Z.to_nat k) <> None) by congruence.
    apply nth_error_Some in X. rewrite repeat_length in X. lia.
  - apply nth_error_None in E. rewrite repeat_length in E. split; [congruence|lia].
Qed.
Lemma strided_table_l {T} (m m1 : mem T) a b sh st t : legal sh -> sh <> [] -> make_table m a b sh (Some st) None = Ok (m1, t) ->
  c_shape t = sh /\ forall is_, addressable t (map cty is_) -> coord_of t is_ ->
    (0 <= dot (vals st) (vals is_) < prod (vals sh) -> forall v, exists m', put m1 t is_ v = Ok m' /\ get m' t is_ = Ok v) /\
    (~ 0 <= dot (vals st) (vals is_) < prod (vals sh) -> get m1 t is_ = UB /\ forall v, put m1 t is_ v = UB).
Proof.
  intros L Ne E. destruct (strided_made_l m m1 a b sh st t L Ne E) as (Es & Est & Z0 & Zp). split; [exact Es|]. intros is_ A C.
  assert (Np : 0 <= prod (vals sh)) by (apply prod_nonneg, L).
  destruct (strided_access_l m1 t is_ A C) as (_ & Hp & Hu).
  assert (Pp : 0 < prod (vals sh)).
  { destruct C as [_ Bx]. unfold dims in Bx. rewrite Es in Bx. pose proof (rank_range _ _ Bx). lia. }
  destruct (Zp Pp) as [Em Ed].
  assert (V : valid m1 (elem t (vals is_)) <-> 0 <= dot (vals st) (vals is_) < prod (vals sh)).
  { unfold elem. rewrite Ed, Est, Em. cbn [padd]. rewrite Z.add_0_l. apply fresh_valid. exact Pp. }
  split; intros H.
  - intros v. destruct (Hp v (proj2 V H)) as (m' & P & Pk & _). exists m'. split; [exact P|].
    destruct (strided_access_l m' t is_ A C) as (Hg & _). apply Hg. exact Pk.
  - apply Hu. rewrite V. exact H.
Qed.

(** The largest offset is that of the last coordinate. *)
Lemma dot_corner st ns is_ : Forall (fun s => 0 <= s) st -> in_box ns is_ -> length st = length ns ->
  0 <= dot st is_ <= dot st (map Z.pred ns).
Proof.
  intros F B. revert st F. induction B as [|n i ns is_ H B IH]; intros [|s st] F E; cbn in E; try discriminate; [cbn; lia|].
  inversion F as [|? ? Hs Fs]; subst. specialize (IH st Fs ltac:(lia)). cbn [dot map]. nia.
Qed.
Lemma corner_in ns : Forall (fun n => 0 < n) ns -> in_box ns (map Z.pred ns).
Proof. induction 1 as [|n ns H _ IH]; cbn [map]; constructor; [lia|exact IH]. Qed.
Lemma strided_inside_l st ns : Forall (fun s => 0 <= s) st -> Forall (fun n => 0 < n) ns -> length st = length ns ->
  ((forall is_, in_box ns is_ -> 0 <= dot st is_ < prod ns) <-> dot st (map Z.pred ns) < prod ns).
Proof.
  intros F P E. split.
  - intros H. apply (H _ (corner_in _ P)).
  - intros H is_ B. pose proof (dot_corner st ns is_ F B E). lia.
Qed.
