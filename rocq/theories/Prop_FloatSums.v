(** C84: sums, inner products and scans of floating-point elements. *)
From Coq Require Import ZArith QArith Qabs List Bool Lia Lqa.
From Coq Require Import Floats.SpecFloat.
From Verif Require Import Outcome CInt CIntFacts Spec SpecFacts ShapeSpec Shape ShapeFacts ShapeFacts2
  ForEach ForEachSpec ForEachFacts Memory MemFacts Container ContainerSpec ContainerFacts ContainerFacts2
  ContainerFacts3 Algo AlgoSpec AlgoFacts AlgoFacts2 AlgoFacts3 AlgoFacts4 Interp IeeeSpec RoundSpec Mixed MixedSpec Convert ConvertSpec
  FloatSums FloatSumsSpec FloatSumsFacts2 FloatSumsFacts3 FloatSumsFacts4 FloatSumsFacts5.
Import ListNotations.
Open Scope Z_scope.

(** reduce(in, +, init) with an init of a floating-point type and elements of any arithmetic type: the result is
    the exact sum up to [sum_error], unless a sum may overflow. *)
Theorem float_sum_error : forall f te c m vs qs a qa,
  can_read m c c -> values m c c vs -> stand_for te vs qs -> finite_of f a -> float_value a = Some qa ->
  (sum_limit f te (length vs) (Qabs qa + size_of qs) < 2 ^ f_emax f)%Q ->
  exists r p, nsum_from (AFloat f) te c (NFloat a) m = Ok (NFloat r, m) /\ finite_of f r /\ float_value r = Some p /\
    within (sum_error f te (length vs) (Qabs qa + size_of qs)) (qa + sum_of qs) p.
Proof. exact nsum_error_l. Qed.
Print Assumptions float_sum_error.

(** reduce(in): an error of at most 2^-23 (float) or 2^-52 (double) of the sum of the absolute values for each
    element. *)
Theorem float_sum_default : forall g c m vs qs, can_read m c c -> values m c c vs -> stand_for (AFloat g) vs qs ->
  Z.of_nat (length vs) <= 2 ^ (f_prec g - 1) -> (2 * size_of qs < 2 ^ f_emax g)%Q ->
  exists r p, nsum (AFloat g) c m = Ok (NFloat r, m) /\ finite_of g r /\ float_value r = Some p /\
    within (inject_Z (Z.of_nat (length vs)) * 2 ^ (1 - f_prec g) * size_of qs) (sum_of qs) p.
Proof. exact nsum_simple_l. Qed.
Print Assumptions float_sum_default.

(** transform_reduce(in1, in2, init): products in the type of higher rank, sums in the type of init. *)
Theorem float_dot_error : forall f f1 f2 c1 c2 m vs1 vs2 qs1 qs2 a qa,
  can_read m c1 c1 -> can_read m c1 c2 -> values m c1 c1 vs1 -> values m c1 c2 vs2 ->
  stand_for (AFloat f1) vs1 qs1 -> stand_for (AFloat f2) vs2 qs2 -> finite_of f a -> float_value a = Some qa ->
  (dot_limit f (common f1 f2) (length vs1) (Qabs qa + size_of (products qs1 qs2)) < 2 ^ f_emax f)%Q ->
  (dot_limit f (common f1 f2) (length vs1) (Qabs qa + size_of (products qs1 qs2)) < 2 ^ f_emax (common f1 f2))%Q ->
  exists r p, ndot_from (AFloat f) (AFloat f1) (AFloat f2) c1 c2 (NFloat a) m = Ok (NFloat r, m) /\
    finite_of f r /\ float_value r = Some p /\
    within (dot_error f (common f1 f2) (length vs1) (Qabs qa + size_of (products qs1 qs2)))
           (qa + sum_of (products qs1 qs2)) p.
Proof. exact ndot_error_l. Qed.
Print Assumptions float_dot_error.

(** inner_product(in1, in2) and transform_reduce(in1, in2) of containers of equal shapes. *)
Theorem float_inner_error : forall dbg f1 f2 c1 c2 m vs1 vs2 qs1 qs2,
  can_read m c1 c1 -> can_read m c1 c2 -> values m c1 c1 vs1 -> values m c1 c2 vs2 ->
  stand_for (AFloat f1) vs1 qs1 -> stand_for (AFloat f2) vs2 qs2 ->
  legal (c_shape c1) -> legal (c_shape c2) -> c_shape c1 <> [] -> dims c1 = dims c2 ->
  (dot_limit (common f1 f2) (common f1 f2) (length vs1) (size_of (products qs1 qs2)) < 2 ^ f_emax (common f1 f2))%Q ->
  exists r p, ninner dbg (AFloat f1) (AFloat f2) c1 c2 m = Ok (NFloat r, m) /\
    ndot (AFloat f1) (AFloat f2) c1 c2 m = Ok (NFloat r, m) /\ finite_of (common f1 f2) r /\ float_value r = Some p /\
    within (dot_error (common f1 f2) (common f1 f2) (length vs1) (size_of (products qs1 qs2)))
           (sum_of (products qs1 qs2)) p.
Proof. exact ninner_default_l. Qed.
Print Assumptions float_inner_error.

(** The scans: each output is within the error of its own partial sum, and the outputs of a container without
    negative elements never decrease, those of one without positive elements never increase. *)
Theorem float_inclusive_scan : forall f te o in_ out a qa m vs qs,
  can_read m in_ in_ -> can_write m in_ out -> no_cross_alias in_ in_ out ->
  values m in_ in_ vs -> stand_for te vs qs -> finite_of f a -> float_value a = Some qa -> f_prec f <= f_prec o ->
  (sum_limit f te (length vs) (Qabs qa + size_of qs) < 2 ^ f_emax f)%Q ->
  exists m', ninclusive (AFloat f) te (AFloat o) in_ out (NFloat a) m = Ok m' /\
    (forall is_ k, in_box (dims in_) is_ -> k = S (Z.to_nat (rank (dims in_) is_)) ->
       exists y p, value m' out is_ (NFloat y) /\ finite_of o y /\ float_value y = Some p /\
         within (sum_error f te k (Qabs qa + size_of (firstn k qs))) (qa + sum_of (firstn k qs)) p) /\
    (Forall (fun q => (0 <= q)%Q) qs -> forall is_ js y z p p', in_box (dims in_) is_ -> in_box (dims in_) js ->
       rank (dims in_) is_ <= rank (dims in_) js -> value m' out is_ (NFloat y) -> value m' out js (NFloat z) ->
       float_value y = Some p -> float_value z = Some p' -> (p <= p')%Q) /\
    (Forall (fun q => (q <= 0)%Q) qs -> forall is_ js y z p p', in_box (dims in_) is_ -> in_box (dims in_) js ->
       rank (dims in_) is_ <= rank (dims in_) js -> value m' out is_ (NFloat y) -> value m' out js (NFloat z) ->
       float_value y = Some p -> float_value z = Some p' -> (p' <= p)%Q) /\
    frame in_ out m m'.
Proof. exact ninclusive_error_l. Qed.
Print Assumptions float_inclusive_scan.

Theorem float_exclusive_scan : forall f te o in_ out a qa m vs qs,
  can_read m in_ in_ -> can_write m in_ out -> no_alias in_ in_ out ->
  values m in_ in_ vs -> stand_for te vs qs -> finite_of f a -> float_value a = Some qa -> f_prec f <= f_prec o ->
  (sum_limit f te (length vs) (Qabs qa + size_of qs) < 2 ^ f_emax f)%Q ->
  exists m', nexclusive (AFloat f) te (AFloat o) in_ out (NFloat a) m = Ok m' /\
    (forall is_ k, in_box (dims in_) is_ -> k = Z.to_nat (rank (dims in_) is_) ->
       exists y p, value m' out is_ (NFloat y) /\ finite_of o y /\ float_value y = Some p /\
         within (sum_error f te k (Qabs qa + size_of (firstn k qs))) (qa + sum_of (firstn k qs)) p) /\
    (Forall (fun q => (0 <= q)%Q) qs -> forall is_ js y z p p', in_box (dims in_) is_ -> in_box (dims in_) js ->
       rank (dims in_) is_ <= rank (dims in_) js -> value m' out is_ (NFloat y) -> value m' out js (NFloat z) ->
       float_value y = Some p -> float_value z = Some p' -> (p <= p')%Q) /\
    (Forall (fun q => (q <= 0)%Q) qs -> forall is_ js y z p p', in_box (dims in_) is_ -> in_box (dims in_) js ->
       rank (dims in_) is_ <= rank (dims in_) js -> value m' out is_ (NFloat y) -> value m' out js (NFloat z) ->
       float_value y = Some p -> float_value z = Some p' -> (p' <= p)%Q) /\
    frame in_ out m m'.
Proof. exact nexclusive_error_l. Qed.
Print Assumptions float_exclusive_scan.

(** Outputs of any type: the partial sums, in the type of init, are converted one by one. *)
Theorem float_inclusive_scan_as : forall f te ot in_ out a qa m vs qs,
  can_read m in_ in_ -> can_write m in_ out -> no_cross_alias in_ in_ out ->
  values m in_ in_ vs -> stand_for te vs qs -> finite_of f a -> float_value a = Some qa ->
  (sum_limit f te (length vs) (Qabs qa + size_of qs) < 2 ^ f_emax f)%Q -> sums_convertible f te ot qa qs ->
  exists m', ninclusive (AFloat f) te ot in_ out (NFloat a) m = Ok m' /\
    (forall is_ k, in_box (dims in_) is_ -> k = S (Z.to_nat (rank (dims in_) is_)) ->
       exists x p w, finite_of f x /\ float_value x = Some p /\
         within (sum_error f te k (Qabs qa + size_of (firstn k qs))) (qa + sum_of (firstn k qs)) p /\
         value m' out is_ w /\ converted ot (NFloat x) w) /\
    frame in_ out m m'.
Proof. exact ninclusive_as_l. Qed.
Print Assumptions float_inclusive_scan_as.

Theorem float_exclusive_scan_as : forall f te ot in_ out a qa m vs qs,
  can_read m in_ in_ -> can_write m in_ out -> no_alias in_ in_ out ->
  values m in_ in_ vs -> stand_for te vs qs -> finite_of f a -> float_value a = Some qa ->
  (sum_limit f te (length vs) (Qabs qa + size_of qs) < 2 ^ f_emax f)%Q -> sums_convertible f te ot qa qs ->
  exists m', nexclusive (AFloat f) te ot in_ out (NFloat a) m = Ok m' /\
    (forall is_ k, in_box (dims in_) is_ -> k = Z.to_nat (rank (dims in_) is_) ->
       exists x p w, finite_of f x /\ float_value x = Some p /\
         within (sum_error f te k (Qabs qa + size_of (firstn k qs))) (qa + sum_of (firstn k qs)) p /\
         value m' out is_ w /\ converted ot (NFloat x) w) /\
    frame in_ out m m'.
Proof. exact nexclusive_as_l. Qed.
Print Assumptions float_exclusive_scan_as.

(** Sums of multiples of a power of two are exact as long as every partial sum fits the precision. *)
Theorem float_sum_exact : forall f te e c m vs qs zs a qa z0, can_read m c c -> values m c c vs ->
  stand_for te vs qs -> multiples e qs zs -> finite_of f a -> float_value a = Some qa ->
  (qa == inject_Z z0 * 2 ^ e)%Q -> exponent_of f e -> sums_below (f_prec f) z0 zs ->
  exists r p, nsum_from (AFloat f) te c (NFloat a) m = Ok (NFloat r, m) /\ finite_of f r /\ float_value r = Some p /\
    (p == qa + sum_of qs)%Q.
Proof. exact nsum_exact_l. Qed.
Print Assumptions float_sum_exact.

Theorem float_inner_exact : forall dbg f1 f2 e1 e2 c1 c2 m vs1 vs2 qs1 qs2 zs1 zs2,
  can_read m c1 c1 -> can_read m c1 c2 -> values m c1 c1 vs1 -> values m c1 c2 vs2 ->
  stand_for (AFloat f1) vs1 qs1 -> stand_for (AFloat f2) vs2 qs2 -> multiples e1 qs1 zs1 -> multiples e2 qs2 zs2 ->
  legal (c_shape c1) -> legal (c_shape c2) -> c_shape c1 <> [] -> dims c1 = dims c2 ->
  exponent_of (common f1 f2) (e1 + e2) ->
  sums_below (f_prec (common f1 f2)) 0 (map (fun p => fst p * snd p)%Z (combine zs1 zs2)) ->
  exists r p, ninner dbg (AFloat f1) (AFloat f2) c1 c2 m = Ok (NFloat r, m) /\
    finite_of (common f1 f2) r /\ float_value r = Some p /\ (p == sum_of (products qs1 qs2))%Q.
Proof. exact ninner_exact_l. Qed.
Print Assumptions float_inner_exact.

(** The sum of n ones is n up to 2^precision, and stays there. *)
Theorem float_count_stops : forall f c m vs qs, can_read m c c -> values m c c vs -> stand_for (AFloat f) vs qs ->
  Forall (fun q => (q == 1)%Q) qs ->
  exists r p, nsum (AFloat f) c m = Ok (NFloat r, m) /\ float_value r = Some p /\
    (p == inject_Z (Z.min (Z.of_nat (length vs)) (2 ^ f_prec f)))%Q.
Proof. exact nsum_ones_l. Qed.
Print Assumptions float_count_stops.

(** With the integer 0 as init, elements between -1 and 1 all vanish. *)
Theorem integer_init_drops : forall t g c m vs qs, can_read m c c -> values m c c vs -> stand_for (AFloat g) vs qs ->
  Forall (fun q => (Qabs q < 1)%Q) qs -> nsum_from (AInt t) (AFloat g) c (NInt 0) m = Ok (NInt 0, m).
Proof. exact nsum_int_l. Qed.
Print Assumptions integer_init_drops.

(** A NaN among the elements makes the sum NaN, whatever the others are (infinities included). *)
Theorem nan_spreads : forall f g c m vs a, can_read m c c -> values m c c vs ->
  Forall (fun v => exists x, v = NFloat x) vs -> In (NFloat S754_nan) vs ->
  nsum_from (AFloat f) (AFloat g) c (NFloat a) m = Ok (NFloat S754_nan, m) /\ nsum (AFloat g) c m = Ok (NFloat S754_nan, m).
Proof. exact nsum_nan_l. Qed.
Print Assumptions nan_spreads.

(** inner_product of shapes of the same order that differ: aborted by the assertion, and not looked at without. *)
Theorem float_inner_checks : forall ta t1 t2 c1 c2 init m,
  ninner_from false ta t1 t2 c1 c2 init m = ndot_from ta t1 t2 c1 c2 init m /\
  ninner false t1 t2 c1 c2 m = ndot t1 t2 c1 c2 m /\
  (legal (c_shape c1) -> legal (c_shape c2) -> c_shape c1 <> [] -> length (c_shape c1) = length (c_shape c2) ->
   dims c1 <> dims c2 ->
   ninner_from true ta t1 t2 c1 c2 init m = Abort /\ ninner true t1 t2 c1 c2 m = Abort).
Proof. exact ninner_checks_l. Qed.
Print Assumptions float_inner_checks.

(** Elements of integral types, whatever the accumulator: the products are those of integers. *)
Theorem integer_products : forall ta i j c1 c2 cp init m zs1 zs2,
  can_read m c1 c1 -> can_read m c1 c2 -> values m c1 c1 (map NInt zs1) -> values m c1 c2 (map NInt zs2) ->
  can_read m cp cp -> values m cp cp (map (fun p => NInt (fst p * snd p)) (combine zs1 zs2)) ->
  Forall (fun p => in_ty i (fst p) /\ in_ty j (snd p) /\ in_ty (CInt.common i j) (fst p * snd p) /\
    (is_signed (CInt.common i j) = true \/ (0 <= fst p /\ 0 <= snd p)%Z)) (combine zs1 zs2) ->
  ndot_from ta (AInt i) (AInt j) c1 c2 init m = nsum_from ta (AInt (CInt.common i j)) cp init m.
Proof. exact integer_products_l. Qed.
Print Assumptions integer_products.

(** ** Tables of three elements *)
Definition fa : container := Cn K1 [int 3] [] (Ptr 0 0).
Definition fb : container := Cn K1 [int 3] [] (Ptr 1 0).
Definition fmem (xs ys : list number) : mem number := [Some (map Some xs); Some (map Some ys)].
Definition fl (m : positive) (e : Z) : number := NFloat (S754_finite false m e).
Definition num (v : number) : Q := match number_value v with Some q => q | None => 0 end.
(** 0.1f, 0.2f, 0.3f and 0.1, 2, 3. *)
Definition xs : list number := [fl 13421773 (-27); fl 13421773 (-26); fl 10066330 (-25)].
Definition ys : list number := [fl 7205759403792794 (-56); fl 4503599627370496 (-51); fl 6755399441055744 (-51)].
Definition fm : mem number := fmem xs ys.
Definition ones : list number := [fl 8388608 (-23); fl 8388608 (-23); fl 8388608 (-23)].
Definition halves : list number := [fl 8388608 (-24); NFloat (S754_finite true 8388608 (-24)); fl 12582912 (-24)].

Example fa_default : default_layout fa. Proof. by_default false. Qed.
Example fb_default : default_layout fb. Proof. by_default false. Qed.
Example fa_read : can_read fm fa fa.
Proof. apply default_can_read; [exact fa_default|reflexivity|by_box]. Qed.
Example fb_read : can_read fm fa fb.
Proof. apply default_can_read; [exact fb_default|reflexivity|by_box]. Qed.
Example fb_write : can_write fm fa fb.
Proof. apply default_can_write; [exact fb_default|reflexivity|]. apply readable_writable. by_box. Qed.
Example fab_no_alias : no_alias fa fa fb.
Proof. apply (other_block_no_alias fa fa fb 0 0 1 0); try reflexivity. discriminate. Qed.
Example fa_values : values fm fa fa xs. Proof. repeat (constructor; [reflexivity|]); constructor. Qed.
Example fb_values : values fm fa fb ys. Proof. repeat (constructor; [reflexivity|]); constructor. Qed.
Ltac by_stand := repeat (constructor; [split; [split; [vm_compute; reflexivity|exact I]|reflexivity]|]); constructor.
Example xs_stand : stand_for (AFloat Float) xs (map num xs). Proof. by_stand. Qed.
Example ys_stand : stand_for (AFloat Double) ys (map num ys). Proof. by_stand. Qed.
Example ones_stand : stand_for (AFloat Float) ones (map num ones) /\ Forall (fun q => (q == 1)%Q) (map num ones).
Proof. split; [by_stand|repeat (constructor; [reflexivity|]); constructor]. Qed.
Example halves_stand : stand_for (AFloat Float) halves (map num halves) /\ Forall (fun q => (Qabs q < 1)%Q) (map num halves).
Proof. split; [by_stand|repeat (constructor; [reflexivity|]); constructor]. Qed.
Example halves_multiples : multiples (-2) (map num halves) [2; -2; 3] /\ exponent_of Float (-2) /\ sums_below 24 1 [2; -2; 3].
Proof.
  split; [repeat (constructor; [reflexivity|]); constructor|]. split; [split; vm_compute; discriminate|].
  split; [repeat (constructor; [reflexivity|]); constructor|].
  intros k. destruct k as [|[|[|k]]]; try reflexivity. cbn [firstn]. rewrite firstn_nil. reflexivity.
Qed.
Example limits :
  (sum_limit Float (AFloat Float) 3 (Qabs 0 + size_of (map num xs)) < 2 ^ f_emax Float)%Q /\
  (sum_limit Float (AFloat Double) 3 (Qabs 0 + size_of (map num ys)) < 2 ^ f_emax Float)%Q /\
  (2 * size_of (map num xs) < 2 ^ f_emax Float)%Q /\ Z.of_nat (length xs) <= 2 ^ (f_prec Float - 1) /\
  (dot_limit Float (common Float Double) 3 (Qabs 0 + size_of (products (map num xs) (map num ys))) < 2 ^ f_emax Float)%Q /\
  (dot_limit Float (common Float Double) 3 (Qabs 0 + size_of (products (map num xs) (map num ys))) < 2 ^ f_emax (common Float Double))%Q /\
  (dot_limit (common Float Double) (common Float Double) 3 (size_of (products (map num xs) (map num ys))) < 2 ^ f_emax (common Float Double))%Q.
Proof. repeat split; try (vm_compute; reflexivity). vm_compute. discriminate. Qed.
(** 0.1f + 0.2f + 0.3f is 0.6f, the inner product in double, and the scans. *)
Example float_sums_ex :
  (nsum (AFloat Float) fa fm, nsum (AFloat Double) fb fm, ninner true (AFloat Float) (AFloat Double) fa fb fm,
   ninclusive (AFloat Float) (AFloat Float) (AFloat Float) fa fb (NFloat (S754_zero false)) fm,
   nexclusive (AFloat Float) (AFloat Float) (AFloat Double) fa fb (fl 8388608 (-23)) fm)
  = (Ok (fl 10066330 (-24), fm), Ok (fl 5742089524897382 (-50), fm), Ok (fl 5899715700431258 (-52), fm),
     Ok (fmem xs [fl 13421773 (-27); fl 10066330 (-25); fl 10066330 (-24)]),
     Ok (fmem xs [fl 4503599627370496 (-52); fl 4953959697481728 (-52); fl 5854679837704192 (-52)])).
Proof. vm_compute. reflexivity. Qed.

(** Starting from 1, every partial sum of [xs] becomes the integer 1. *)
Example xs_convertible : sums_convertible Double (AFloat Float) (AInt I32) 1 (map num xs).
Proof.
  intros k x p Lk _ Vp W. exists p, 1. split; [exact Vp|]. split; [|split; vm_compute; discriminate].
  unfold within in W. apply Qabs_Qle_condition in W. destruct W as [W1 W2].
  assert (K : (1 <= p)%Q /\ (p < 2)%Q).
  { set (e := sum_error _ _ _ _) in *. set (q := (1 + sum_of _)%Q) in *.
    assert (H1 : (1 <= q - e)%Q /\ (q + e < 2)%Q).
    { unfold q, e. cbn [map length xs] in Lk. assert (k = 0 \/ k = 1 \/ k = 2 \/ k = 3)%nat as [->|[->|[->| ->]]] by lia;
        split; vm_compute; try reflexivity; discriminate. }
    destruct H1 as [H1 H2]. split.
    - lra.
    - lra. }
  destruct K as [K1 K2]. split; [intros _; split; assumption|].
  intros K0. exfalso. apply (Qlt_irrefl 1). eapply Qle_lt_trans; [exact K1|]. eapply Qle_lt_trans; [exact K0|]. reflexivity.
Qed.
Example scan_as_ex :
  (sum_limit Double (AFloat Float) 3 (Qabs 1 + size_of (map num xs)) < 2 ^ f_emax Double)%Q /\
  ninclusive (AFloat Double) (AFloat Float) (AInt I32) fa fb (fl 4503599627370496 (-52)) fm
    = Ok (fmem xs [NInt 1; NInt 1; NInt 1]).
Proof. split; vm_compute; reflexivity. Qed.
Example nan_ex : let vs := [NFloat (S754_infinity false); NFloat S754_nan; fl 8388608 (-23)] in
  can_read (fmem vs []) fa fa /\ values (fmem vs []) fa fa vs /\ Forall (fun v => exists x, v = NFloat x) vs /\ In (NFloat S754_nan) vs /\
  nsum (AFloat Float) fa (fmem vs []) = Ok (NFloat S754_nan, fmem vs []).
Proof.
  split; [apply default_can_read; [exact fa_default|reflexivity|by_box]|].
  split; [repeat (constructor; [reflexivity|]); constructor|].
  split; [repeat (constructor; [eexists; reflexivity|]); constructor|]. split; [right; left; reflexivity|vm_compute; reflexivity].
Qed.

(** ** What goes wrong *)

(** The order of the elements matters. *)
Theorem float_sum_order_refuted : exists c m m' vs vs' r r', can_read m c c /\ values m c c vs /\ can_read m' c c /\ values m' c c vs' /\
  (exists x y z, vs = [x; y; z] /\ vs' = [y; z; x]) /\ (num r < num r')%Q /\
  nsum (AFloat Float) c m = Ok (r, m) /\ nsum (AFloat Float) c m' = Ok (r', m').
Proof.
  exists fa, (fmem [fl 8388608 1; fl 8388608 (-23); fl 8388608 (-23)] []), (fmem [fl 8388608 (-23); fl 8388608 (-23); fl 8388608 1] []).
  exists [fl 8388608 1; fl 8388608 (-23); fl 8388608 (-23)], [fl 8388608 (-23); fl 8388608 (-23); fl 8388608 1].
  exists (fl 8388608 1), (fl 8388609 1).
  split; [apply default_can_read; [exact fa_default|reflexivity|by_box]|].
  split; [repeat (constructor; [reflexivity|]); constructor|].
  split; [apply default_can_read; [exact fa_default|reflexivity|by_box]|].
  split; [repeat (constructor; [reflexivity|]); constructor|].
  split; [do 3 eexists; split; reflexivity|].
  split; [vm_compute; reflexivity|]. split; vm_compute; reflexivity.
Qed.
Print Assumptions float_sum_order_refuted.

(** An integer init: the sum of three elements 0.75 is 0 rather than 2, and one element beyond the type is
    undefined behaviour. *)
Theorem integer_init_refuted : exists c m m' vs vs', can_read m c c /\ values m c c vs /\ can_read m' c c /\ values m' c c vs' /\
  stand_for (AFloat Float) vs (map num vs) /\ stand_for (AFloat Float) vs' (map num vs') /\
  (sum_of (map num vs) == 9 # 4)%Q /\ nsum_from (AInt I32) (AFloat Float) c (NInt 0) m = Ok (NInt 0, m) /\
  (sum_of (map num vs') == 0)%Q /\ nsum_from (AInt I32) (AFloat Float) c (NInt 0) m' = UB.
Proof.
  exists fa, (fmem [fl 12582912 (-24); fl 12582912 (-24); fl 12582912 (-24)] []),
    (fmem [fl 8388608 8; NFloat (S754_finite true 8388608 8); NFloat (S754_zero false)] []).
  exists [fl 12582912 (-24); fl 12582912 (-24); fl 12582912 (-24)], [fl 8388608 8; NFloat (S754_finite true 8388608 8); NFloat (S754_zero false)].
  split; [apply default_can_read; [exact fa_default|reflexivity|by_box]|].
  split; [repeat (constructor; [reflexivity|]); constructor|].
  split; [apply default_can_read; [exact fa_default|reflexivity|by_box]|].
  split; [repeat (constructor; [reflexivity|]); constructor|].
  split; [by_stand|]. split; [by_stand|]. repeat split; vm_compute; reflexivity.
Qed.
Print Assumptions integer_init_refuted.

(** A sum that overflows on the way is infinite although the exact sum is a number of the type. *)
Theorem float_sum_overflow_refuted : exists c m vs, can_read m c c /\ values m c c vs /\
  stand_for (AFloat Float) vs (map num vs) /\ (sum_of (map num vs) == num (fl 16777215 104))%Q /\
  nsum (AFloat Float) c m = Ok (NFloat (S754_infinity false), m).
Proof.
  exists fa, (fmem [fl 16777215 104; fl 16777215 104; NFloat (S754_finite true 16777215 104)] []),
    [fl 16777215 104; fl 16777215 104; NFloat (S754_finite true 16777215 104)].
  split; [apply default_can_read; [exact fa_default|reflexivity|by_box]|].
  split; [repeat (constructor; [reflexivity|]); constructor|].
  split; [by_stand|]. split; vm_compute; reflexivity.
Qed.
Print Assumptions float_sum_overflow_refuted.
(** 3*4 + 5*6 + 7*8 = 98 into a double. *)
Definition ints (zs : list Z) : list number := map NInt zs.
Definition fc : container := Cn K1 [int 3] [] (Ptr 2 0).
Definition im : mem number := fmem (ints [3; 5; 7]%Z) (ints [4; 6; 8]%Z) ++ [Some (map Some (ints [12; 30; 56]%Z))].
Example integer_products_ex : can_read im fa fa /\ can_read im fa fb /\ can_read im fc fc /\
  values im fa fa (ints [3; 5; 7]%Z) /\ values im fa fb (ints [4; 6; 8]%Z) /\ values im fc fc (ints [12; 30; 56]%Z) /\
  exists r, ndot_from (AFloat Double) (AInt I32) (AInt U8) fa fb (zero (AFloat Double)) im = Ok (NFloat r, im) /\
    exists q, float_value r = Some q /\ (q == 98)%Q.
Proof.
  split; [apply default_can_read; [exact fa_default|reflexivity|by_box]|].
  split; [apply default_can_read; [exact fb_default|reflexivity|by_box]|].
  split; [apply default_can_read; [by_default false|reflexivity|by_box]|].
  do 3 (split; [repeat (constructor; [reflexivity|]); constructor|]).
  eexists. split; [vm_compute; reflexivity|]. eexists. split; [vm_compute; reflexivity|reflexivity].
Qed.
