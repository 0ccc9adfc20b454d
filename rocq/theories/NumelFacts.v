(** Lemmas about the number of elements and the default strides of shapes of any size. *)
From Coq Require Import ZArith List Bool Lia.
From Verif Require Import Outcome CInt CIntFacts Spec SpecFacts ShapeSpec Shape ShapeFacts SumsFacts.
Import ListNotations.
Open Scope Z_scope.

Definition suffixes_fit (t : ity) (l : list Z) : bool := forallb (fun k => in_tyb t (prod (skipn k l))) (seq 0 (S (length l))).
Lemma suffixes_cons t n l : suffixes_fit t (n :: l) = in_tyb t (prod (n :: l)) && suffixes_fit t l.
Proof.
  unfold suffixes_fit. cbn [length].
  change (seq 0 (S (S (length l)))) with (0%nat :: seq 1 (S (length l))). cbn [forallb]. f_equal.
  rewrite <- seq_shift. induction (seq 0 (S (length l))) as [|k ks IH]; [reflexivity|]. cbn [map forallb skipn]. rewrite IH. reflexivity.
Qed.
Lemma suffixes_fit_spec t l : suffixes_fit t l = true <-> (forall pre suf, l = pre ++ suf -> in_ty t (prod suf)).
Proof.
  unfold suffixes_fit. rewrite forallb_forall. split.
  - intros H pre suf ->. apply in_tyb_spec. specialize (H (length pre)). rewrite skipn_app, skipn_all, Nat.sub_diag in H. apply H.
    apply in_seq. rewrite app_length. lia.
  - intros H k _. apply in_tyb_spec. apply (H (firstn k l)). symmetry. apply firstn_skipn.
Qed.
Lemma suffixes_fit_false t l : suffixes_fit t l = false <-> (exists pre suf, l = pre ++ suf /\ ~ in_ty t (prod suf)).
Proof.
  split.
  - unfold suffixes_fit. intros H.
    assert (G : forall ks, forallb (fun k => in_tyb t (prod (skipn k l))) ks = false -> exists k, in_tyb t (prod (skipn k l)) = false).
    { induction ks as [|k ks IH]; [discriminate|]. cbn [forallb]. destruct (in_tyb t (prod (skipn k l))) eqn:E; [exact IH|].
      intros _. exists k. exact E. }
    destruct (G _ H) as (k & E). exists (firstn k l), (skipn k l). split; [symmetry; apply firstn_skipn|].
    intros Y. apply in_tyb_spec in Y. congruence.
  - intros (pre & suf & E & B). destruct (suffixes_fit t l) eqn:F; [|reflexivity].
    exfalso. apply B. exact (proj1 (suffixes_fit_spec t l) F pre suf E).
Qed.

Definition one_type (t : ity) (c : cint) : Prop := CInt.common I32 (cty c) = t.
Lemma one_type_common t c : t = I32 \/ t = I64 -> one_type t c -> CInt.common t (cty c) = t /\ CInt.common (cty c) t = t.
Proof. unfold one_type. intros [-> | ->]; destruct (cty c); cbn; intros H; try discriminate; auto. Qed.
Lemma one_type_in t c : t = I32 \/ t = I64 -> one_type t c -> wfc c -> in_ty t (cval c).
Proof.
  intros Ht H W. destruct (one_type_common t c Ht H) as [E _]. rewrite <- E. apply common_r_in; [exact W|].
  rewrite E. destruct Ht as [-> | ->]; reflexivity.
Qed.
Lemma mul_one t u x c : t = I32 \/ t = I64 -> (u = t \/ u = I32) -> one_type t c -> wfc c -> in_ty u x ->
  cmul (CI u x) c = (if in_tyb t (cval c * x) then Ok (CI t (cval c * x)) else UB) /\
  cmul c (CI u x) = (if in_tyb t (cval c * x) then Ok (CI t (cval c * x)) else UB).
Proof.
  intros Ht Hu H W Hx. pose proof (one_type_in t c Ht H W) as Hc. destruct (one_type_common t c Ht H) as [E1 E2].
  assert (E : CInt.common u (cty c) = t /\ CInt.common (cty c) u = t).
  { destruct Hu as [-> | ->]; [split; assumption|]. split; [exact H|]. rewrite CIntFacts.common_comm. exact H. }
  assert (Hx' : in_ty t x). { destruct Hu as [<- | ->]; [exact Hx|]. destruct Ht as [-> | ->]; unfold in_ty in *; cbn in *; lia. }
  destruct E as [Ea Eb]. unfold cmul, arith. cbn [cty cval]. cbv zeta. rewrite Ea, Eb, !(cast_id t x), !(cast_id t (cval c)) by assumption.
  rewrite (Z.mul_comm x). assert (S : is_signed t = true) by (destruct Ht as [-> | ->]; reflexivity). rewrite S. split; reflexivity.
Qed.

Lemma product_l t s : t = I32 \/ t = I64 -> wfs s -> Forall (one_type t) s ->
  kfold_left cmul s (int 1) =
  if suffixes_fit t (vals s) then Ok (CI (match s with [] => I32 | _ => t end) (prod (vals s))) else UB.
Proof.
  intros Ht W. induction W as [|c s Wc W IH]; intros F; inversion F as [|? ? Fc Fs]; subst.
  - destruct Ht as [-> | ->]; reflexivity.
  - cbn [kfold_left vals map]. change (map cval s) with (vals s). rewrite (IH Fs), suffixes_cons.
    destruct (suffixes_fit t (vals s)) eqn:Sf; [|rewrite andb_false_r; reflexivity]. rewrite andb_true_r. cbn [bind].
    assert (P : in_ty t (prod (vals s))) by (apply (proj1 (suffixes_fit_spec t (vals s)) Sf [] (vals s)); reflexivity).
    destruct (mul_one t (match s with [] => I32 | _ => t end) (prod (vals s)) c Ht) as [-> _]; try assumption.
    + destruct s; [right; reflexivity|left; reflexivity].
    + destruct s; [unfold in_ty; vm_compute; split; discriminate|exact P].
    + reflexivity.
Qed.
Lemma numel_l t s : t = I32 \/ t = I64 -> s <> [] -> wfs s -> Forall (one_type t) s ->
  numel s = if suffixes_fit t (vals s) then Ok (int (cast I32 (prod (vals s)))) else UB.
Proof.
  intros Ht Ne W F. destruct s as [|c s]; [congruence|]. unfold numel. rewrite (product_l t) by assumption.
  destruct (suffixes_fit t (vals (c :: s))); reflexivity.
Qed.
Lemma numel_overflows_l t s : t = I32 \/ t = I64 -> s <> [] -> wfs s -> Forall (one_type t) s ->
  (numel s = UB <-> exists pre suf, vals s = pre ++ suf /\ ~ in_ty t (prod suf)) /\
  ((forall pre suf, vals s = pre ++ suf -> in_ty t (prod suf)) -> numel s = Ok (int (cast I32 (prod (vals s))))).
Proof.
  intros Ht Ne W F. rewrite (numel_l t) by assumption. split.
  - rewrite <- suffixes_fit_false. destruct (suffixes_fit t (vals s)); split; congruence.
  - intros H. rewrite (proj2 (suffixes_fit_spec t (vals s)) H). reflexivity.
Qed.

(** Strides: the same products, without the first extent. *)
Lemma strides_l t s : t = I32 \/ t = I64 -> wfs s -> Forall (one_type t) s ->
  (suffixes_fit t (vals s) = true ->
   exists f st, kfold_left (fun a m => f <- front a ;; x <- cmul m f ;; Ok (x :: a)) s [int 1] = Ok (f :: st) /\
     cval f = prod (vals s) /\ wfc f /\ (cty f = t \/ cty f = I32) /\
     forall k, (k < S (length s))%nat -> nth_error (vals (f :: st)) k = Some (prod (skipn k (vals s)))) /\
  (suffixes_fit t (vals s) = false -> kfold_left (fun a m => f <- front a ;; x <- cmul m f ;; Ok (x :: a)) s [int 1] = UB).
Proof.
  intros Ht W. induction W as [|c s Wc W IH]; intros F; inversion F as [|? ? Fc Fs]; subst.
  - split; [|destruct Ht as [-> | ->]; discriminate]. intros _. exists (int 1), []. split; [reflexivity|]. split; [reflexivity|].
    split; [unfold wfc, in_ty; cbn; lia|]. split; [right; reflexivity|]. intros [|k] Hk; [reflexivity|]. cbn in Hk. lia.
  - destruct (IH Fs) as [G B]. cbn [kfold_left vals map]. change (map cval s) with (vals s). rewrite suffixes_cons.
    destruct (suffixes_fit t (vals s)) eqn:Sf.
    + destruct (G eq_refl) as (f & st & E & Vf & Wf & Tf & N). rewrite E, andb_true_r. cbn [bind front].
      destruct (mul_one t (cty f) (cval f) c Ht Tf Fc Wc Wf) as [_ M]. destruct f as [u x]. cbn [cval cty] in Vf, M. subst x. rewrite M.
      change (prod (cval c :: vals s)) with (cval c * prod (vals s)).
      destruct (in_tyb t (cval c * prod (vals s))) eqn:It; (split; [|]); intros Y; try discriminate; cbn [bind].
      * exists (CI t (cval c * prod (vals s))), (CI u (prod (vals s)) :: st). split; [reflexivity|]. split; [reflexivity|].
        split; [apply in_tyb_spec; exact It|]. split; [left; reflexivity|].
        intros [|k] Hk; [reflexivity|]. exact (N k ltac:(cbn in Hk; lia)).
      * reflexivity.
    + rewrite andb_false_r. split; [discriminate|]. intros _. rewrite (B eq_refl). reflexivity.
Qed.
Lemma as_stride_overflows_l t d s : t = I32 \/ t = I64 -> s <> [] -> wfs s -> Forall (one_type t) s ->
  (as_stride (d :: s) = UB <-> exists pre suf, vals s = pre ++ suf /\ ~ in_ty t (prod suf)) /\
  ((forall pre suf, vals s = pre ++ suf -> in_ty t (prod suf)) ->
   exists st, as_stride (d :: s) = Ok st /\ forall k, (k <= length s)%nat -> nth_error (vals st) k = Some (prod (skipn k (vals s)))).
Proof.
  intros Ht Ne W F. destruct s as [|c s]; [congruence|]. destruct (strides_l t (c :: s) Ht W F) as [G B]. unfold as_stride.
  split.
  - rewrite <- suffixes_fit_false. destruct (suffixes_fit t (vals (c :: s))) eqn:E.
    + destruct (G eq_refl) as (f & st & -> & _). split; discriminate.
    + rewrite (B eq_refl). split; reflexivity.
  - intros H. destruct (G (proj2 (suffixes_fit_spec t _) H)) as (f & st & E & _ & _ & _ & N). exists (f :: st).
    split; [exact E|]. intros k Hk. apply N. lia.
Qed.

(** Unsigned extents never overflow, and are counted modulo. *)
Lemma unsigned_product_l s : Forall (fun c => cty c = U32 \/ cty c = U64) s ->
  exists r, kfold_left cmul s (int 1) = Ok r /\ cast I32 (cval r) = cast I32 (prod (vals s)) /\
    (cty r = I32 /\ s = [] \/ cty r = U32 \/ cty r = U64).
Proof.
  induction 1 as [|c s Hc _ (r & E & C & Tr)].
  - exists (int 1). split; [reflexivity|]. split; [reflexivity|]. left. split; reflexivity.
  - cbn [kfold_left vals map]. change (map cval s) with (vals s). rewrite E. cbn [bind].
    change (prod (cval c :: vals s)) with (cval c * prod (vals s)). set (T := CInt.common (cty r) (cty c)).
    assert (HT : T = U32 \/ T = U64) by (subst T; destruct Tr as [[-> _]|[-> | ->]], Hc as [-> | ->]; cbn; auto).
    assert (Hm : forall z, cast I32 (cast T z) = cast I32 z).
    { intros z. assert (X : T = CInt.common I32 T) by (destruct HT as [-> | ->]; reflexivity). rewrite X. apply cast_common. }
    exists (CI T (cast T (cast T (cval r) * cast T (cval c)))). split; [|split].
    + unfold cmul, arith. cbv zeta. fold T. destruct HT as [-> | ->]; reflexivity.
    + cbn [cval]. rewrite Hm, <- cast_mul, !Hm, C, cast_mul, Z.mul_comm. reflexivity.
    + right. exact HT.
Qed.
Lemma numel_unsigned_l s : s <> [] -> Forall (fun c => cty c = U32 \/ cty c = U64) s ->
  numel s = Ok (int (cast I32 (prod (vals s)))).
Proof.
  intros Ne F. destruct (unsigned_product_l s F) as (r & E & C & _). unfold numel. destruct s as [|c s]; [congruence|].
  rewrite E. cbn [bind]. unfold conv. rewrite C. reflexivity.
Qed.
Lemma prod_pos l : Forall (fun n => 0 < n) l -> 0 < prod l.
Proof. induction 1 as [|n l H _ IH]; [reflexivity|]. change (prod (n :: l)) with (n * prod l). lia. Qed.
Lemma prod_suffix_le pre suf : Forall (fun n => 0 < n) (pre ++ suf) -> prod suf <= prod (pre ++ suf).
Proof.
  induction pre as [|n pre IH]; intros F; [apply Z.le_refl|]. inversion F as [|? ? Hn F']; subst. specialize (IH F').
  cbn [app]. change (prod (n :: pre ++ suf)) with (n * prod (pre ++ suf)). pose proof (prod_pos _ F'). nia.
Qed.
Lemma numel_positive_l t s : t = I32 \/ t = I64 -> s <> [] -> wfs s -> Forall (fun c => CInt.common I32 (cty c) = t) s ->
  Forall (fun n => 0 < n) (vals s) -> (numel s = UB <-> tmax t < prod (vals s)).
Proof.
  intros Ht Ne W F P. destruct (numel_overflows_l t s Ht Ne W F) as [H _]. rewrite H. split.
  - intros (pre & suf & E & B). rewrite E in P |- *. pose proof (prod_suffix_le pre suf P).
    apply Forall_app in P. pose proof (prod_pos suf (proj2 P)). unfold in_ty in B.
    assert (tmin t <= 0) by (destruct Ht as [-> | ->]; cbn; lia). lia.
  - intros G. exists [], (vals s). split; [reflexivity|]. unfold in_ty. lia.
Qed.
