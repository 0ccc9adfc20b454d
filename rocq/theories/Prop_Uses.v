(** Property C105: callables that use containers themselves. *)
From Coq Require Import ZArith List Bool Lia.
From Verif Require Import Outcome CInt CIntFacts Spec SpecFacts ShapeSpec Shape ShapeFacts ShapeFacts2 Memory MemFacts
  Container ContainerSpec ContainerFacts ContainerFacts2 ContainerFacts3 Algo AlgoSpec Calls CallSpec Uses Uses2 UsesSpec UsesFacts UsesFacts2 UsesFacts3 UsesFacts4.
Import ListNotations.
Open Scope Z_scope.

(** generate with a callable that reads elements of the container before the current one (and anything elsewhere):
    afterwards every element is what the callable returns in the final memory. *)
Theorem generate_recurrence : forall (T : Type) (f : list cint -> mem T -> outcome (T * mem T)) out m, can_write m out out ->
  (forall is_, loop_coord out is_ -> reads (outside_or_before out (vals is_)) (f is_)) ->
  (forall is_ m1, loop_coord out is_ -> same_cells m m1 -> (forall p, outside out p -> cell m1 p = cell m p) ->
     (forall js, in_box (dims out) js -> lex js (vals is_) -> exists v, value m1 out js v) ->
     exists v m2, f is_ m1 = Ok (v, m2)) ->
  exists m', generate_use f out m = Ok m' /\ frame out out m m' /\
    forall is_, loop_coord out is_ -> exists v, f is_ m' = Ok (v, m') /\ value m' out (vals is_) v.
Proof. exact @generate_recurrence_l. Qed.
Print Assumptions generate_recurrence.

(** No other memory is like that. *)
Theorem recurrence_unique : forall (T : Type) (f : list cint -> mem T -> outcome (T * mem T)) out (m m1 m2 : mem T),
  wf_container out -> (forall is_, loop_coord out is_ -> reads (outside_or_before out (vals is_)) (f is_)) ->
  frame out out m m1 -> frame out out m m2 ->
  (forall is_, loop_coord out is_ -> exists v, f is_ m1 = Ok (v, m1) /\ value m1 out (vals is_) v) ->
  (forall is_, loop_coord out is_ -> exists v, f is_ m2 = Ok (v, m2) /\ value m2 out (vals is_) v) ->
  forall p, cell m1 p = cell m2 p.
Proof. exact @recurrence_unique_l. Qed.
Print Assumptions recurrence_unique.

(** A callable that reads no element of the output: every element is what it returns in the initial memory. *)
Theorem generate_stencil : forall (T : Type) (f : list cint -> mem T -> outcome (T * mem T)) out m, can_write m out out ->
  (forall is_, loop_coord out is_ -> reads (outside out) (f is_)) ->
  (forall is_, loop_coord out is_ -> exists v m2, f is_ m = Ok (v, m2)) ->
  exists m', generate_use f out m = Ok m' /\ frame out out m m' /\
    forall is_ v m2, loop_coord out is_ -> f is_ m = Ok (v, m2) -> value m' out (vals is_) v.
Proof. exact @generate_stencil_l. Qed.
Print Assumptions generate_stencil.

Theorem transform_lookup : forall (T : Type) (f : list T -> mem T -> outcome (T * mem T)) out c0 cs m, can_write m out out ->
  Forall (can_read m out) (c0 :: cs) -> Forall (fun i => no_cross_alias out i out) (c0 :: cs) ->
  (forall vs, reads (outside out) (f vs)) ->
  (forall is_ vs, in_box (dims out) is_ -> Forall2 (fun c v => value m c is_ v) (c0 :: cs) vs -> exists v m2, f vs m = Ok (v, m2)) ->
  exists m', transform_use f out c0 cs m = Ok m' /\ frame out out m m' /\
    forall is_ vs v m2, in_box (dims out) is_ -> Forall2 (fun c v => value m c is_ v) (c0 :: cs) vs ->
      f vs m = Ok (v, m2) -> value m' out is_ v.
Proof. exact @transform_stencil_l. Qed.
Print Assumptions transform_lookup.

Theorem reduce_lookup : forall (T A : Type) c (f : A -> T -> mem T -> outcome (A * mem T)) (g : A -> T -> A) init m vs,
  can_read m c c -> values m c c vs -> (forall a v, In v vs -> f a v m = Ok (g a v, m)) ->
  reduce_use c f init m = Ok (fold_left g vs init, m).
Proof. exact @reduce_reads_l. Qed.
Print Assumptions reduce_lookup.

Theorem find_lookup : forall (T : Type) c (f : T -> mem T -> outcome (bool * mem T)) m, can_read m c c ->
  Forall (fun n => n <= 2147483648) (dims c) ->
  (forall is_ v, in_box (dims c) is_ -> value m c is_ v -> exists b, f v m = Ok (b, m)) ->
  exists r, find_if_use c f m = Ok (r, m) /\ first_at m c (fun v => f v m = Ok (true, m)) r.
Proof. exact @find_if_reads_l. Qed.
Print Assumptions find_lookup.

(** What such callables are made of. *)
Theorem reading_callables : forall (T A B : Type) R (v : A) (k : mem T -> outcome (A * mem T)) (f : A -> mem T -> outcome (B * mem T)) c is_,
  @reads T A R (fun m => Ok (v, m)) /\
  (reads R k -> (forall a, reads R (f a)) -> reads R (fun m => r <- k m ;; f (fst r) (snd r))) /\
  (addressable c (map cty is_) -> coord_of c is_ -> R (elem c (vals is_)) -> @reads T T R (fun m => v <- get m c is_ ;; Ok (v, m))).
Proof. exact (fun T A B R v k f c is_ => conj (reads_ret R v) (conj (reads_bind R k f) (reads_get R c is_))). Qed.
Print Assumptions reading_callables.

(** Histograms: for_each with a callable that combines every element with the one of another table it chooses. *)
Theorem histogram : forall (T : Type) c h (at_ : T -> list cint) (g : T -> T -> T) m vs, can_read m c c -> values m c c vs ->
  readable m h -> distinct_on h h ->
  (forall is_ js, in_box (dims c) is_ -> in_box (dims h) js -> elem c is_ <> elem h js) ->
  (forall v, In v vs -> coord_of h (at_ v) /\ addressable h (map cty (at_ v))) ->
  exists m', for_each_use (tally h at_ g) c [] m = Ok m' /\ frame h h m m' /\
    forall b x, in_box (dims h) b -> value m h b x -> value m' h b (fold_left g (sent at_ b vs) x).
Proof. exact @tally_l. Qed.
Print Assumptions histogram.

(** A callable that keeps its state in tables of its own does the same as one that keeps it elsewhere (C66): the same
    outcome, the same results, the same elements outside of these tables, and the same state at the end. *)
Theorem state_in_tables : forall (T Q : Type) (W : ptr -> Prop) (St : Q -> mem T -> Prop), kept_in W St -> forall q m m',
  St q m' -> twins W m m' ->
  (forall f k out, not_in W out -> (forall is_, works_as W St (f is_) (k is_)) ->
     agrees (generate_call f out q m) (generate_use k out m') (fun r m2 => St (fst r) m2 /\ twins W (snd r) m2)) /\
  (forall f k out c0 cs, Forall (not_in W) (out :: c0 :: cs) -> (forall vs, works_as W St (f vs) (k vs)) ->
     agrees (transform_call f out c0 cs q m) (transform_use k out c0 cs m') (fun r m2 => St (fst r) m2 /\ twins W (snd r) m2)) /\
  (forall f k out in_, Forall (not_in W) [out; in_] -> (forall v, works_as W St (f v) (k v)) ->
     agrees (copy_if_call f out in_ q m) (copy_if_use k out in_ m') (fun r m2 => St (fst r) m2 /\ twins W (snd r) m2)) /\
  (forall f k out x, not_in W out -> (forall v, works_as W St (f v) (k v)) ->
     agrees (replace_if_call out f x q m) (replace_if_use out k x m') (fun r m2 => St (fst r) m2 /\ twins W (snd r) m2)) /\
  (forall A f k c (init : A), not_in W c -> (forall a v, works_as W St (f a v) (k a v)) ->
     agrees (reduce_call c f init q m) (reduce_use c k init m')
       (fun r r' => fst r' = fst (fst r) /\ St (snd (fst r)) (snd r') /\ twins W (snd r) (snd r'))) /\
  (forall f k c, not_in W c -> (forall v, works_as W St (f v) (k v)) ->
     agrees (find_if_call c f q m) (find_if_use c k m') (fun r r' => fst r' = fst r /\ St (snd r) (snd r') /\ twins W m (snd r'))).
Proof.
  exact (fun T Q W St K q m m' Hs Tw =>
    conj (fun f k out N H => generate_elsewhere_l W St K f k out q m m' N H Hs Tw)
    (conj (fun f k out c0 cs N H => transform_elsewhere_l W St K f k out c0 cs q m m' N H Hs Tw)
    (conj (fun f k out in_ N H => copy_if_elsewhere_l W St K f k out in_ q m m' N H Hs Tw)
    (conj (fun f k out x N H => replace_if_elsewhere_l W St K f k out x q m m' N H Hs Tw)
    (conj (fun A f k c init N H => reduce_elsewhere_l W St f k c init q m m' N H Hs Tw)
      (fun f k c N H => find_if_elsewhere_l W St f k c q m m' N H Hs Tw)))))).
Qed.
Print Assumptions state_in_tables.

Theorem state_in_tables_folds : forall (T Q : Type) (W : ptr -> Prop) (St : Q -> mem T -> Prop), kept_in W St -> forall q m m',
  St q m' -> twins W m m' ->
  (forall f k c, not_in W c -> (forall v, works_as W St (f v) (k v)) ->
     agrees (all_of_call c f q m) (all_of_use c k m')
       (fun r r' => fst r' = fst (fst r) /\ St (snd (fst r)) (snd r') /\ twins W (snd r) (snd r')) /\
     agrees (any_of_call c f q m) (any_of_use c k m')
       (fun r r' => fst r' = fst (fst r) /\ St (snd (fst r)) (snd r') /\ twins W (snd r) (snd r')) /\
     agrees (none_of_call c f q m) (none_of_use c k m')
       (fun r r' => fst r' = fst (fst r) /\ St (snd (fst r)) (snd r') /\ twins W (snd r) (snd r')) /\
     agrees (count_if_call c f q m) (count_if_use c k m')
       (fun r r' => fst r' = fst (fst r) /\ St (snd (fst r)) (snd r') /\ twins W (snd r) (snd r'))) /\
  (forall A B R F R' F' c1 c2 (init : A), Forall (not_in W) [c1; c2] ->
     (forall a (b : B), works_as W St (R a b) (R' a b)) -> (forall x y, works_as W St (F x y) (F' x y)) ->
     agrees (transform_reduce_call c1 c2 init R F q m) (transform_reduce_use c1 c2 init R' F' m')
       (fun r r' => fst r' = fst (fst r) /\ St (snd (fst r)) (snd r') /\ twins W (snd r) (snd r')) /\
     forall dbg, agrees (inner_product_call dbg c1 c2 init R F q m) (inner_product_use dbg c1 c2 init R' F' m')
       (fun r r' => fst r' = fst (fst r) /\ St (snd (fst r)) (snd r') /\ twins W (snd r) (snd r'))) /\
  (forall B f1 f2 k1 k2 in_ out init, Forall (not_in W) [in_; out] ->
     (forall a (b : B), works_as W St (f1 a b) (k1 a b)) -> (forall x, works_as W St (f2 x) (k2 x)) ->
     agrees (exclusive_scan_call in_ out init f1 f2 q m) (exclusive_scan_use in_ out init k1 k2 m')
       (fun r r' => fst r' = fst (fst r) /\ St (snd (fst r)) (snd r') /\ twins W (snd r) (snd r')) /\
     agrees (inclusive_scan_call in_ out init f1 f2 q m) (inclusive_scan_use in_ out init k1 k2 m')
       (fun r r' => fst r' = fst (fst r) /\ St (snd (fst r)) (snd r') /\ twins W (snd r) (snd r'))).
Proof.
  exact (fun T Q W St K q m m' Hs Tw =>
    conj (fun f k c N H => conj (all_of_elsewhere_l W St f k c q m m' N H Hs Tw) (conj (any_of_elsewhere_l W St f k c q m m' N H Hs Tw)
      (conj (none_of_elsewhere_l W St f k c q m m' N H Hs Tw) (count_if_elsewhere_l W St f k c q m m' N H Hs Tw))))
    (conj (fun A B R F R' F' c1 c2 init N HR HF => conj (transform_reduce_elsewhere_l W St R F R' F' c1 c2 init q m m' N HR HF Hs Tw)
      (fun dbg => inner_product_elsewhere_l W St dbg R F R' F' c1 c2 init q m m' N HR HF Hs Tw))
      (fun B f1 f2 k1 k2 in_ out init N H1 H2 => conj (exclusive_elsewhere_l W St K f1 f2 k1 k2 in_ out init q m m' N H1 H2 Hs Tw)
        (inclusive_elsewhere_l W St K f1 f2 k1 k2 in_ out init q m m' N H1 H2 Hs Tw)))).
Qed.
Print Assumptions state_in_tables_folds.

Theorem state_in_tables_searches : forall (T Q : Type) (W : ptr -> Prop) (St : Q -> mem T -> Prop) q m m',
  St q m' -> twins W m m' -> forall c, not_in W c ->
  (forall f k, (forall v, works_as W St (f v) (k v)) ->
     agrees (find_if_not_call c f q m) (find_if_not_use c k m') (fun r r' => fst r' = fst r /\ St (snd r) (snd r') /\ twins W m (snd r')) /\
     forall st,
     agrees (find_last_if_call st c f q m) (find_last_if_use st c k m') (fun r r' => fst r' = fst r /\ St (snd r) (snd r') /\ twins W m (snd r')) /\
     agrees (find_last_if_not_call st c f q m) (find_last_if_not_use st c k m') (fun r r' => fst r' = fst r /\ St (snd r) (snd r') /\ twins W m (snd r'))) /\
  (forall f k x dbg, (forall v w, works_as W St (f v w) (k v w)) ->
     agrees (lower_bound_call dbg f c x q m) (lower_bound_use dbg k c x m') (fun r r' => fst r' = fst r /\ St (snd r) (snd r') /\ twins W m (snd r')) /\
     agrees (upper_bound_call dbg f c x q m) (upper_bound_use dbg k c x m') (fun r r' => fst r' = fst r /\ St (snd r) (snd r') /\ twins W m (snd r')) /\
     agrees (binary_search_call dbg f c x q m) (binary_search_use dbg k c x m') (fun r r' => fst r' = fst r /\ St (snd r) (snd r') /\ twins W m (snd r'))).
Proof.
  exact (fun T Q W St q m m' Hs Tw c N =>
    conj (fun f k H => conj (find_if_not_elsewhere_l W St f k c q m m' N H Hs Tw) (fun st =>
      conj (find_last_if_elsewhere_l W St st f k c q m m' N H Hs Tw) (find_last_if_not_elsewhere_l W St st f k c q m m' N H Hs Tw)))
    (fun f k x dbg H => conj (lower_elsewhere_l W St dbg f k c x q m m' N H Hs Tw)
      (conj (upper_elsewhere_l W St dbg f k c x q m m' N H Hs Tw) (binary_elsewhere_l W St dbg f k c x q m m' N H Hs Tw)))).
Qed.
Print Assumptions state_in_tables_searches.

(** A callable that only reads tables of its own is such a callable, without a state: its results are those it gives in
    the memory at the start. *)
Theorem reading_works_as : forall (T A : Type) W (m0 : mem T) (k : mem T -> outcome (A * mem T)) v m1, reads W k -> k m0 = Ok (v, m1) ->
  kept_in W (fun (_ : unit) m => forall p, W p -> cell m p = cell m0 p) /\
  works_as W (fun (_ : unit) m => forall p, W p -> cell m p = cell m0 p) (fun q => Ok (v, q)) k.
Proof. exact (fun T A W m0 k v m1 R E => conj (reading_kept_l W m0) (reading_works_l W m0 k v m1 R E)). Qed.
Print Assumptions reading_works_as.

(** ** Examples *)
(** t(i) = t(i-1) + t(i-2). *)
Definition fib5 : container := Cn K1 [int 5] [] (Ptr 0 0).
Definition fib_z (i : Z) : mem Z -> outcome (Z * mem Z) :=
  if i <? 2 then fun m => Ok (1, m) else fun m =>
    r <- (v <- get m fib5 [int (i - 1)] ;; Ok (v, m)) ;;
    (fun a m => r <- (v <- get m fib5 [int (i - 2)] ;; Ok (v, m)) ;; (fun b m => Ok (a + b, m)) (fst r) (snd r)) (fst r) (snd r).
Definition fib (is_ : list cint) : mem Z -> outcome (Z * mem Z) :=
  match is_ with [i] => fib_z (cval i) | _ => fun _ => UB end.
Definition five : mem Z := [Some (repeat None 5)].
Lemma fib_coord is_ : loop_coord fib5 is_ -> exists i, is_ = [int i] /\ 0 <= i < 5.
Proof.
  intros (_ & Ty & B). destruct is_ as [|[t i] [|? ?]]; try discriminate. injection Ty as ->.
  exists i. split; [reflexivity|]. inversion B; subst. assumption.
Qed.
Lemma elem_1 n b k : elem (Cn K1 [n] [] (Ptr b 0)) [k] = Ptr b k.
Proof. unfold elem, strides_z. cbn -[Z.mul Z.add]. f_equal. lia. Qed.
Lemma distinct_1 n b : distinct_on (Cn K1 [n] [] (Ptr b 0)) (Cn K1 [n] [] (Ptr b 0)).
Proof.
  intros x y Bx By E. inversion Bx as [|? i ? x' Bi Bx']; subst. inversion By as [|? j ? y' Bj By']; subst.
  inversion Bx'; inversion By'; subst. rewrite !elem_1 in E. congruence.
Qed.
Lemma fib_default : default_layout fib5. Proof. by_default false. Qed.
Lemma fib_at i : 0 <= i < 5 -> coord_of fib5 [int i].
Proof. intros H. split; [constructor; [unfold wfc, in_ty; cbn; lia|constructor]|constructor; [exact H|constructor]]. Qed.
Example fib_reads : forall is_, loop_coord fib5 is_ -> reads (outside_or_before fib5 (vals is_)) (fib is_).
Proof.
  intros is_ L. destruct (fib_coord is_ L) as (i & -> & Hi). change (fib [int i]) with (fib_z i). unfold fib_z. destruct (Z.ltb_spec i 2) as [H|H]; [apply reads_ret|].
  assert (G : forall d, 1 <= d <= 2 -> reads (outside_or_before fib5 [i]) (fun m : mem Z => v <- get m fib5 [int (i - d)] ;; Ok (v, m))).
  { intros d Hd. apply reads_get; [exact (default_addressable fib5 _ fib_default)|apply fib_at; lia|].
    intros js B E. inversion B as [|? j ? js' Bj Bs]; subst. inversion Bs; subst. unfold fib5 in E. cbn [vals map cval int] in E. rewrite !elem_1 in E.
    injection E as E. constructor; [lia|reflexivity]. }
  apply (@reads_bind Z Z Z _ (fun m => v <- get m fib5 [int (i - 1)] ;; Ok (v, m))
    (fun a m => r <- (v <- get m fib5 [int (i - 2)] ;; Ok (v, m)) ;; Ok (a + fst r, snd r))); [apply (G 1); lia|]. intros a.
  apply (@reads_bind Z Z Z _ (fun m => v <- get m fib5 [int (i - 2)] ;; Ok (v, m)) (fun b m => Ok (a + b, m))); [apply (G 2); lia|].
  intros b. apply reads_ret.
Qed.
Example fib_fills : generate_use fib fib5 five = Ok [Some (map Some [1; 1; 2; 3; 5])].
Proof. vm_compute. reflexivity. Qed.
Example fib_recurrence : exists m', generate_use fib fib5 five = Ok m' /\ frame fib5 fib5 five m' /\
  forall is_, loop_coord fib5 is_ -> exists v, fib is_ m' = Ok (v, m') /\ value m' fib5 (vals is_) v.
Proof.
  apply generate_recurrence; [|exact fib_reads|].
  - split; [exact (default_addressable fib5 _ fib_default)|]. split; [intros is_ B; exact B|]. split.
    + apply distinct_1.
    + by_box.
  - intros is_ m1 L Sm _ Hv. destruct (fib_coord is_ L) as (i & -> & Hi). change (fib [int i]) with (fib_z i). unfold fib_z.
    destruct (Z.ltb_spec i 2) as [H|H]; [eauto|].
    assert (G : forall d, 1 <= d <= 2 -> exists v, get m1 fib5 [int (i - d)] = Ok v).
    { intros d Hd. assert (Bd : in_box (dims fib5) [i - d]) by (exact (proj2 (fib_at (i - d) ltac:(lia)))).
      assert (Ld : lex [i - d] [i]) by (constructor; [lia|reflexivity]).
      destruct (Hv [i - d] Bd Ld) as (v & Ev). exists v.
      unfold get. rewrite (ref_ok m1 fib5 [int (i - d)] (default_addressable fib5 _ fib_default)
        (proj1 (fib_at (i - d) ltac:(lia))) (proj2 (fib_at (i - d) ltac:(lia))) (peek_valid _ _ _ Ev)), bind_ok.
      apply load_peek. exact Ev. }
    destruct (G 1 ltac:(lia)) as (a & Ea). destruct (G 2 ltac:(lia)) as (b & Eb). rewrite Ea. cbn [bind fst snd]. rewrite Eb. cbn [bind fst snd]. eauto.
Qed.

(** Sums of neighbours into another table; a lookup table; a histogram of digits. *)
Definition in5 : container := Cn K1 [int 5] [] (Ptr 0 0).
Definition out3 : container := Cn K1 [int 3] [] (Ptr 1 0).
Definition two_blocks : mem Z := [Some (map Some [2; 0; 2; 1; 2]); Some (map Some [10; 20; 30])].
Definition around (is_ : list cint) (m : mem Z) : outcome (Z * mem Z) :=
  match is_ with
  | [CI _ i] => a <- get m in5 [int i] ;; b <- get m in5 [int (i + 1)] ;; c <- get m in5 [int (i + 2)] ;; Ok (a + b + c, m)
  | _ => UB
  end.
Example around_ex : generate_use around out3 two_blocks = Ok [Some (map Some [2; 0; 2; 1; 2]); Some (map Some [4; 3; 5])].
Proof. vm_compute. reflexivity. Qed.
Definition lookup (vs : list Z) (m : mem Z) : outcome (Z * mem Z) :=
  match vs with [v] => x <- get m out3 [int v] ;; Ok (x, m) | _ => UB end.
Example lookup_ex : transform_use lookup in5 in5 [] two_blocks = Ok [Some (map Some [30; 10; 30; 20; 30]); Some (map Some [10; 20; 30])] /\
  reduce_use in5 (fun a v m => r <- lookup [v] m ;; Ok (a + fst r, snd r)) 0 two_blocks = Ok (120, two_blocks) /\
  find_if_use in5 (fun v m => r <- lookup [v] m ;; Ok (fst r =? 20, snd r)) two_blocks = Ok (Some [int 3], two_blocks).
Proof. split; [vm_compute; reflexivity|]. split; vm_compute; reflexivity. Qed.
Lemma get_out3 v : exists o, forall m : mem Z, get m out3 [v] = (i <- o ;; if validb m (Ptr 1 i) then load m (Ptr 1 i) else UB).
Proof.
  exists (i <- index out3 [v] ;; Ok (0 + cast I64 (cval i))). intros m. unfold get, ref, address.
  destruct (index out3 [v]) as [i| | |]; try reflexivity. cbn [bind]. change (c_data out3) with (Ptr 1 0). unfold padd.
  destruct (validb m (Ptr 1 (0 + cast I64 (cval i)))); reflexivity.
Qed.
Example lookup_reads : forall vs, reads (outside in5) (lookup vs).
Proof.
  intros [|v [|? ?]] m m' x m1 H E; try discriminate. unfold lookup in *. destruct (get_out3 (int v)) as ([i| | |] & G); rewrite G in *; try discriminate. cbn [bind] in *.
  assert (Hc : cell m' (Ptr 1 i) = cell m (Ptr 1 i)).
  { apply H. intros js B. inversion B as [|? j ? js' Bj Bs]; subst. inversion Bs; subst. unfold in5. rewrite elem_1. discriminate. }
  unfold validb, load in *. rewrite Hc. destruct (cell m (Ptr 1 i)) as [[y|]|]; cbn [bind] in *; try discriminate.
  injection E as -> ->. split; reflexivity.
Qed.
Example lookup_holds : can_write two_blocks in5 in5 /\ Forall (can_read two_blocks in5) [in5] /\
  Forall (fun i => no_cross_alias in5 i in5) [in5] /\
  forall is_ vs, in_box (dims in5) is_ -> Forall2 (fun c v => value two_blocks c is_ v) [in5] vs -> exists v m2, lookup vs two_blocks = Ok (v, m2).
Proof.
  assert (A : addressable in5 (ctypes in5)) by exact (default_addressable in5 _ (default_by false in5 ltac:(split; [by_check|split; [discriminate|reflexivity]]))).
  split; [split; [exact A|split; [intros is_ B; exact B|split; [apply distinct_1|by_box]]]|].
  split; [constructor; [split; [exact A|split; [intros is_ B; exact B|by_box]]|constructor]|].
  split; [constructor; [intros a b Ba Bb N E; apply N; apply (distinct_1 (int 5) 0); assumption|constructor]|].
  intros is_ vs B F. inversion B as [|? ? j js1 Bj Bs]; subst. inversion Bs; subst.
  inversion F as [|? v ? vs' Fv Fs]; subst. inversion Fs; subst. unfold value, in5 in Fv. rewrite elem_1 in Fv.
  cbn in Bj. assert (J : j = 0 \/ j = 1 \/ j = 2 \/ j = 3 \/ j = 4) by lia.
  destruct J as [->|[->|[->|[->| ->]]]]; injection Fv as <-; do 2 eexists; vm_compute; reflexivity.
Qed.
Example histogram_ex : for_each_use (tally out3 (fun v => [int v]) (fun x _ => x + 1)) in5 [] two_blocks =
  Ok [Some (map Some [2; 0; 2; 1; 2]); Some (map Some [11; 21; 33])].
Proof. vm_compute. reflexivity. Qed.
Lemma out3_default : default_layout out3. Proof. by_default false. Qed.
Lemma in5_default : default_layout in5. Proof. by_default false. Qed.
Example histogram_holds : can_read two_blocks in5 in5 /\ values two_blocks in5 in5 [2; 0; 2; 1; 2] /\ readable two_blocks out3 /\
  distinct_on out3 out3 /\ (forall is_ js, in_box (dims in5) is_ -> in_box (dims out3) js -> elem in5 is_ <> elem out3 js) /\
  (forall v, In v [2; 0; 2; 1; 2] -> coord_of out3 [int v] /\ addressable out3 (map cty [int v])).
Proof.
  split; [|split; [|split; [by_box|split; [|split]]]].
  - split; [exact (default_addressable in5 _ in5_default)|]. split; [intros is_ B; exact B|]. by_box.
  - repeat constructor.
  - apply distinct_1.
  - intros is_ js _ _ E. discriminate.
  - intros v I. split; [|exact (default_addressable out3 _ out3_default)].
    assert (H : 0 <= v < 3) by (cbn in I; lia).
    split; [constructor; [unfold wfc, in_ty; cbn; lia|constructor]|constructor; [exact H|constructor]].
Qed.

(** A callable that numbers its calls with a counter kept in a table. *)
Definition counter_cell (p : ptr) : Prop := p = Ptr 1 0.
Definition counts (q : Z) (m : mem Z) : Prop := peek m (Ptr 1 0) = Some q.
Definition next (is_ : list cint) (m : mem Z) : outcome (Z * mem Z) :=
  x <- get m out3 [int 0] ;; m' <- Container.put m out3 [int 0] (x + 1) ;; Ok (x, m').
Example counter_ex : kept_in counter_cell counts /\ not_in counter_cell in5 /\ counts 10 two_blocks /\
  (forall is_, works_as counter_cell counts (fun q => Ok (q, q + 1)) (next is_)) /\
  generate_use next in5 two_blocks = Ok [Some (map Some [10; 11; 12; 13; 14]); Some (map Some [15; 20; 30])].
Proof.
  split; [|split; [|split; [reflexivity|split; [|vm_compute; reflexivity]]]].
  - intros q m m' H C. unfold counts, peek in *. rewrite (H (Ptr 1 0) eq_refl). exact C.
  - intros p -> E. discriminate E.
  - intros is_ q m C. unfold counts in C. pose proof (peek_valid _ _ _ C) as V.
    assert (E : ref m out3 [int 0] = Ok (Ptr 1 0)).
    { apply (ref_ok m out3 [int 0] (default_addressable out3 _ out3_default)); [constructor; [unfold wfc, in_ty; cbn; lia|constructor]|constructor; [cbn; lia|constructor]|exact V]. }
    unfold next, get, Container.put. rewrite E. cbn [bind]. rewrite (load_peek _ _ _ C). cbn [bind]. rewrite store_valid by exact V.
    cbn [bind agrees fst snd]. split; [reflexivity|]. split; [apply peek_upd_same; exact V|]. split.
    + intros p. unfold valid. rewrite valid_upd. tauto.
    + intros p N. apply cell_upd_other. intros <-. apply N. reflexivity.
Qed.

(** Predicates, comparisons and operations that count their calls in the first element of a table and look up the rest. *)
Definition ticking {A} (v : A) (m : mem Z) : outcome (A * mem Z) :=
  x <- get m out3 [int 0] ;; m' <- Container.put m out3 [int 0] (x + 1) ;; Ok (v, m').
Lemma ticking_works {A} (v : A) : works_as counter_cell counts (fun q => Ok (v, q + 1)) (ticking v).
Proof.
  intros q m C. unfold counts in C. pose proof (peek_valid _ _ _ C) as V.
  assert (E : ref m out3 [int 0] = Ok (Ptr 1 0)).
  { apply (ref_ok m out3 [int 0] (default_addressable out3 _ out3_default)); [constructor; [unfold wfc, in_ty; cbn; lia|constructor]|constructor; [cbn; lia|constructor]|exact V]. }
  unfold ticking, get, Container.put. rewrite E. cbn [bind]. rewrite (load_peek _ _ _ C). cbn [bind]. rewrite store_valid by exact V.
  cbn [bind agrees fst snd]. split; [reflexivity|]. split; [apply peek_upd_same; exact V|]. split.
  - intros p. unfold valid. rewrite valid_upd. tauto.
  - intros p N. apply cell_upd_other. intros <-. apply N. reflexivity.
Qed.
Definition ticked (x : Z) : mem Z := [Some (map Some [2; 0; 2; 1; 2]); Some (map Some [x; 20; 30])].
Example ticking_folds :
  all_of_use in5 (fun v => ticking (1 <? v)) two_blocks = Ok (false, ticked 12) /\
  any_of_use in5 (fun v => ticking (v =? 1)) two_blocks = Ok (true, ticked 14) /\
  none_of_use in5 (fun v => ticking (v =? 1)) two_blocks = Ok (false, ticked 14) /\
  count_if_use in5 (fun v => ticking (v =? 2)) two_blocks = Ok (3, ticked 15) /\
  transform_reduce_use in5 in5 0 (fun a b => ticking (a + b)) (fun x y => ticking (x * y)) two_blocks = Ok (13, ticked 20) /\
  inner_product_use true in5 in5 0 (fun a b => ticking (a + b)) (fun x y => ticking (x * y)) two_blocks = Ok (13, ticked 20).
Proof. do 5 (split; [vm_compute; reflexivity|]). vm_compute. reflexivity. Qed.
Example ticking_scans :
  exclusive_scan_use in5 (Cn K1 [int 5] [] (Ptr 2 0)) 0 (fun a b => ticking (a * 10 + b)) (fun x => ticking (x + 1))
    (two_blocks ++ [Some (repeat None 5)]) = Ok (31323, ticked 20 ++ [Some (map Some [0; 3; 31; 313; 3132])]) /\
  inclusive_scan_use in5 in5 0 (fun a b => ticking (a + b)) (fun x => ticking x) two_blocks =
    Ok (7, [Some (map Some [2; 2; 4; 5; 7]); Some (map Some [20; 20; 30])]).
Proof. split; vm_compute; reflexivity. Qed.
Definition up5 : mem Z := [Some (map Some [1; 3; 3; 5; 8]); Some (map Some [10; 20; 30])].
Definition up5' (x : Z) : mem Z := [Some (map Some [1; 3; 3; 5; 8]); Some (map Some [x; 20; 30])].
Example ticking_searches :
  find_if_not_use in5 (fun v => ticking (v <? 4)) up5 = Ok (Some [int 3], up5' 14) /\
  find_last_if_use false in5 (fun v => ticking (v =? 3)) up5 = Ok (Some [int 2], up5' 13) /\
  find_last_if_not_use false in5 (fun v => ticking (4 <? v)) up5 = Ok (Some [int 2], up5' 13) /\
  lower_bound_use true (fun v w => ticking (v <? w)) in5 3 up5 = Ok (Some [int 1], up5' 13) /\
  upper_bound_use true (fun v w => ticking (v <? w)) in5 3 up5 = Ok (Some [int 3], up5' 13) /\
  binary_search_use true (fun v w => ticking (v <? w)) in5 3 up5 = Ok (true, up5' 14).
Proof. do 5 (split; [vm_compute; reflexivity|]). vm_compute. reflexivity. Qed.
Example ticking_same : forall f : Z -> bool,
  agrees (count_if_call in5 (fun v (q : Z) => Ok (f v, q + 1)) 10 two_blocks) (count_if_use in5 (fun v => ticking (f v)) two_blocks)
    (fun r r' => fst r' = fst (fst r) /\ counts (snd (fst r)) (snd r') /\ twins counter_cell (snd r) (snd r')).
Proof.
  destruct counter_ex as (Kk & Nn & Cc & _).
  intros f. refine (proj2 (proj2 (proj2 (proj1 (state_in_tables_folds Z Z counter_cell counts Kk 10 two_blocks two_blocks Cc _) _ _ in5 Nn _)))).
  - split; [intros p; tauto|reflexivity].
  - intros v. apply ticking_works.
Qed.

(** Reading elements of the output that come later, or writing in place what neighbours still need, gives the new values
    and not the old ones: t(i) = t(1-i) does not exchange two elements. *)
Definition pair2 : container := Cn K1 [int 2] [] (Ptr 0 0).
Definition other (is_ : list cint) (m : mem Z) : outcome (Z * mem Z) :=
  match is_ with [CI _ i] => x <- get m pair2 [int (1 - i)] ;; Ok (x, m) | _ => UB end.
Theorem stencil_in_place_refuted : exists (f : list cint -> mem Z -> outcome (Z * mem Z)) out m m' is_ v,
  default_layout out /\ readable m out /\ loop_coord out is_ /\ f is_ m = Ok (v, m) /\
  generate_use f out m = Ok m' /\ ~ value m' out (vals is_) v.
Proof.
  exists other, pair2, [Some [Some 1; Some 2]], [Some [Some 2; Some 2]], [int 1], 1.
  split; [by_default false|]. split; [by_box|]. split; [split; [constructor; [unfold wfc, in_ty; cbn; lia|constructor]|split; [reflexivity|constructor; [cbn; lia|constructor]]]|].
  split; [reflexivity|]. split; [vm_compute; reflexivity|]. discriminate.
Qed.
Print Assumptions stencil_in_place_refuted.

(** copy_if copies the element as it is after the call: with a predicate that changes the element it is asked about, a
    value is copied that was not tested. *)
Definition clear_it (v : Z) (m : mem Z) : outcome (bool * mem Z) := m' <- Container.put m in5 [int 0] 7 ;; Ok (true, m').
Theorem copy_if_copies_untested_refuted : exists (k : Z -> mem Z -> outcome (bool * mem Z)) out in_ m m' is_ v w,
  default_layout out /\ default_layout in_ /\ in_box (dims out) is_ /\ value m in_ is_ v /\
  copy_if_use k out in_ m = Ok m' /\ value m' out is_ w /\ w <> v.
Proof.
  exists clear_it, out3, in5, two_blocks. do 4 eexists. split; [exact out3_default|]. split; [exact in5_default|].
  split; [instantiate (1 := [0]); constructor; [cbn; lia|constructor]|]. split; [reflexivity|].
  split; [vm_compute; reflexivity|]. split; [reflexivity|]. discriminate.
Qed.
Print Assumptions copy_if_copies_untested_refuted.
