(** Properties C32 - C42 and C52: algorithms over containers. *)
From Coq Require Import ZArith List Bool Lia.
From Verif Require Import Outcome CInt CIntFacts Spec SpecFacts ShapeSpec Shape ShapeFacts ShapeFacts2
  ForEach ForEachSpec ForEachFacts Memory MemFacts Container ContainerSpec ContainerFacts ContainerFacts2
  ContainerFacts3 Algo AlgoSpec AlgoFacts AlgoFacts2 AlgoFacts3 AlgoFacts4.
Import ListNotations.
Open Scope Z_scope.

(** The hypotheses of the following theorems hold for default-layout containers: *)
Theorem default_layout_can_read : forall (T : Type) (m : mem T) c0 c,
  default_layout c -> dims c0 = dims c -> readable m c -> can_read m c0 c.
Proof. exact @default_can_read. Qed.
Print Assumptions default_layout_can_read.

Theorem default_layout_can_write : forall (T : Type) (m : mem T) c0 c,
  default_layout c -> dims c0 = dims c -> writable m c -> can_write m c0 c /\ (c0 = c -> no_cross_alias c c c).
Proof.
  intros T m c0 c D E W. exact (conj (default_can_write m c0 c D E W) (fun _ => default_no_cross m c D W)).
Qed.
Print Assumptions default_layout_can_write.

(** Two 2x3 tables in distinct blocks, and a strided view on the second. *)
Definition xa : container := Cn K2 [int 2; int 3] [] (Ptr 0 0).
Definition xb : container := Cn KStatic [int 2; int 3] [CI I32 3; int 1] (Ptr 1 0).
Definition xv : container := Cn K2S [int 2; int 2] [CI I32 (-3); int 2] (Ptr 1 3).
Definition xw : container := Cn K2 [int 2; int 2] [] (Ptr 0 0).
Definition xm : mem Z := [Some (map Some [1; 2; 3; 4; 5; 6]); Some (map Some [10; 20; 30; 40; 50; 60])].
Example xa_default : default_layout xa. Proof. by_default false. Qed.
Example xb_default : default_layout xb. Proof. by_default true. Qed.
Example xw_default : default_layout xw. Proof. by_default false. Qed.
Example xa_readable : readable xm xa. Proof. by_box. Qed.
Example xb_readable : readable xm xb. Proof. by_box. Qed.
Example xw_readable : readable xm xw. Proof. by_box. Qed.
Example xa_read : can_read xm xa xa. Proof. exact (default_can_read xm xa xa xa_default eq_refl xa_readable). Qed.
Example xa_write : can_write xm xa xa.
Proof. exact (default_can_write xm xa xa xa_default eq_refl (readable_writable _ _ xa_readable)). Qed.
Example xb_read : can_read xm xa xb. Proof. exact (default_can_read xm xa xb xb_default eq_refl xb_readable). Qed.
Example xb_write : can_write xm xa xb.
Proof. exact (default_can_write xm xa xb xb_default eq_refl (readable_writable _ _ xb_readable)). Qed.
Example xab_no_alias : no_alias xa xa xb.
Proof. apply (other_block_no_alias xa xa xb 0 0 1 0); try reflexivity. discriminate. Qed.
Example xba_no_cross : no_cross_alias xa xb xa.
Proof. apply no_alias_cross, (other_block_no_alias xa xb xa 1 0 0 0); try reflexivity. discriminate. Qed.
Example xaa_no_cross : no_cross_alias xa xa xa.
Proof. exact (default_no_cross xm xa xa_default (readable_writable _ _ xa_readable)). Qed.
Example xw_write : can_write xm xw xw.
Proof. exact (default_can_write xm xw xw xw_default eq_refl (readable_writable _ _ xw_readable)). Qed.
(** The strided view can be read and written as well. *)
Example xv_addressable : addressable xv [I32; I32].
Proof.
  split; [|split].
  - split; [by_check|]. split; [by_check|]. split; [|reflexivity].
    eexists. split; [reflexivity|]. split; [by_check|reflexivity].
  - right. split; [|repeat constructor]. eexists. split; [reflexivity|]. repeat constructor.
  - left. intros is_ B; apply box_In in B; vm_compute in B.
    repeat (destruct B as [<-|B]; [vm_compute; discriminate|]); contradiction.
Qed.
Example xv_read : can_read xm xw xv.
Proof. split; [exact xv_addressable|]. split; [intros is_ B; exact B|]. by_box. Qed.
Example xv_write : can_write xm xv xv.
Proof.
  split; [exact xv_addressable|]. split; [intros is_ B; exact B|]. split.
  - intros a b A B; apply box_In in A; apply box_In in B; vm_compute in A, B.
    repeat (destruct A as [<-|A]; [repeat (destruct B as [<-|B]; [vm_compute; congruence|]); contradiction|]); contradiction.
  - by_box.
Qed.
Example xv_no_cross : no_cross_alias xw xv xw.
Proof. apply no_alias_cross, (other_block_no_alias xw xv xw 1 3 0 0); try reflexivity. discriminate. Qed.

(** C32 *)
Theorem transform_pointwise : forall (T : Type) (f : list T -> T) out c0 cs (m : mem T),
  can_write m out out -> Forall (can_read m out) (c0 :: cs) ->
  Forall (fun i => no_cross_alias out i out) (c0 :: cs) ->
  exists m', transform f out c0 cs m = Ok m' /\
    (forall is_ vs, in_box (dims out) is_ -> Forall2 (fun c v => value m c is_ v) (c0 :: cs) vs ->
       value m' out is_ (f vs)) /\ frame out out m m'.
Proof. exact @transform_l. Qed.
Print Assumptions transform_pointwise.

Theorem copy_pointwise : forall (T : Type) out in_ (m : mem T),
  can_write m out out -> can_read m out in_ -> no_cross_alias out in_ out ->
  exists m', copy out in_ m = Ok m' /\
    (forall is_ v, in_box (dims out) is_ -> value m in_ is_ v -> value m' out is_ v) /\ frame out out m m'.
Proof. exact @copy_l. Qed.
Print Assumptions copy_pointwise.

Theorem transform_smaller_input_refuted : exists out in_ (m : mem Z),
  default_layout out /\ default_layout in_ /\ readable m out /\ readable m in_ /\
  transform (fun vs => fold_left Z.add vs 0) out in_ [] m = UB.
Proof.
  exists (Cn K1 [int 3] [] (Ptr 0 0)), (Cn K1 [int 2] [] (Ptr 1 0)),
    [Some (map Some [1; 2; 3]); Some (map Some [4; 5])].
  split; [by_default false|]. split; [by_default false|]. split; [by_box|]. split; [by_box|]. vm_compute. reflexivity.
Qed.
Print Assumptions transform_smaller_input_refuted.

(** xa = xa + xb in place; xw = xv. *)
Example transform_hyps : can_write xm xa xa /\ Forall (can_read xm xa) [xa; xb] /\
  Forall (fun i => no_cross_alias xa i xa) [xa; xb].
Proof.
  split; [exact xa_write|]. split; (constructor; [|constructor; [|constructor]]);
    [exact xa_read|exact xb_read|exact xaa_no_cross|exact xba_no_cross].
Qed.
Example transform_ex : transform (fun vs => fold_left Z.add vs 0) xa xa [xb] xm =
  Ok [Some (map Some [11; 22; 33; 44; 55; 66]); Some (map Some [10; 20; 30; 40; 50; 60])].
Proof. vm_compute. reflexivity. Qed.
Example copy_ex : copy xw xv xm =
  Ok [Some (map Some [40; 60; 10; 30; 5; 6]); Some (map Some [10; 20; 30; 40; 50; 60])].
Proof. vm_compute. reflexivity. Qed.

(** C33 *)
Theorem copy_if_exact : forall (T : Type) (f : T -> bool) out in_ (m : mem T),
  can_write m out out -> can_read m out in_ -> no_cross_alias out in_ out ->
  exists m', copy_if f out in_ m = Ok m' /\
    (forall is_ v, in_box (dims out) is_ -> value m in_ is_ v ->
       if f v then value m' out is_ v else cell m' (elem out is_) = cell m (elem out is_)) /\
    frame out out m m'.
Proof. exact @copy_if_l. Qed.
Print Assumptions copy_if_exact.
Example copy_if_ex : copy_if (fun x => x <? 50) xw xv xm =
  Ok [Some (map Some [40; 2; 10; 30; 5; 6]); Some (map Some [10; 20; 30; 40; 50; 60])].
Proof. vm_compute. reflexivity. Qed.

(** C34 *)
Theorem fill_exact : forall (T : Type) out (v : T) m, can_write m out out ->
  exists m', fill out v m = Ok m' /\
    (forall is_, in_box (dims out) is_ -> value m' out is_ v) /\ frame out out m m'.
Proof. exact @fill_l. Qed.
Print Assumptions fill_exact.

Theorem generate_exact : forall (T : Type) (f : list cint -> T) out m, can_write m out out ->
  exists m', generate f out m = Ok m' /\
    (forall tis, wfs tis -> map cty tis = ctypes out -> in_box (dims out) (vals tis) ->
       value m' out (vals tis) (f tis)) /\ frame out out m m'.
Proof. exact @generate_l. Qed.
Print Assumptions generate_exact.
Example fill_ex : fill xv 7 xm = Ok [Some (map Some [1; 2; 3; 4; 5; 6]); Some (map Some [7; 20; 7; 7; 50; 7])].
Proof. vm_compute. reflexivity. Qed.
Example generate_ex : generate (fun is_ => 100 + 10 * cval (nth 0 is_ (int 0)) + cval (nth 1 is_ (int 0))) xv xm =
  Ok [Some (map Some [1; 2; 3; 4; 5; 6]); Some (map Some [110; 20; 111; 100; 50; 101])].
Proof. vm_compute. reflexivity. Qed.

(** C35 *)
Theorem iota_step_exact : forall et out v step (m : mem cint), can_write m out out -> wfc v -> wfc step ->
  compat v step ->
  (forall k, 0 <= k <= prod (dims out) -> in_ty (cty v) (cval v + k * cval step)) ->
  exists m', @iota_step et out v step m = Ok m' /\
    (forall is_, in_box (dims out) is_ ->
       in_ty et (cval v + rank (dims out) is_ * cval step) ->
       value m' out is_ (CI et (cval v + rank (dims out) is_ * cval step))) /\
    frame out out m m'.
Proof. exact iota_step_l. Qed.
Print Assumptions iota_step_exact.

Theorem iota_exact : forall et out v (m : mem cint), can_write m out out -> wfc v ->
  in_ty (cty v) (cval v + prod (dims out)) ->
  exists m', @iota et out v m = Ok m' /\
    (forall is_, in_box (dims out) is_ -> in_ty et (cval v + rank (dims out) is_) ->
       value m' out is_ (CI et (cval v + rank (dims out) is_))) /\
    frame out out m m'.
Proof. exact iota_l. Qed.
Print Assumptions iota_exact.

Theorem iota_default_exact : forall et out (m : mem cint), can_write m out out -> in_ty et (prod (dims out)) ->
  exists m', @iota_default et out m = Ok m' /\
    (forall is_, in_box (dims out) is_ -> value m' out is_ (CI et (rank (dims out) is_))) /\
    frame out out m m'.
Proof. exact iota_default_l. Qed.
Print Assumptions iota_default_exact.

(** All the values to store are representable, but the increment after the last one overflows. *)
Theorem iota_last_increment_refuted : exists out v (m : mem cint),
  default_layout out /\ writable m out /\ wfc v /\
  (forall is_, in_box (dims out) is_ -> in_ty (cty v) (cval v + rank (dims out) is_)) /\
  @iota I32 out v m = UB.
Proof.
  exists (Cn K1 [int 2] [] (Ptr 0 0)), (int 2147483646), [Some [None; None]].
  split; [by_default false|]. split; [by_box|]. split; [cbv; split; discriminate|]. split; [|vm_compute; reflexivity].
  intros is_ B; apply box_In in B; vm_compute in B.
  repeat (destruct B as [<-|B]; [vm_compute; split; discriminate|]); contradiction.
Qed.
Print Assumptions iota_last_increment_refuted.

Definition im : mem cint := [Some (repeat None 6); Some (repeat (Some (int 9)) 6)].
Example iota_hyps : can_write im xa xa.
Proof. apply default_can_write; [exact xa_default|reflexivity|by_box]. Qed.
Example iota_ex : @iota I64 xa (CI I16 (-2)) im =
  Ok [Some (map (fun z => Some (CI I64 z)) [-2; -1; 0; 1; 2; 3]); Some (repeat (Some (int 9)) 6)].
Proof. vm_compute. reflexivity. Qed.
Example iota_step_ex : @iota_step I32 xv (int 5) (CI I8 (-3)) im =
  Ok [Some (repeat None 6); Some (map (fun z => Some (int z)) [-1; 9; -4; 5; 9; 2])].
Proof. vm_compute. reflexivity. Qed.

(** C36 *)
Theorem replace_if_exact : forall (T : Type) out f (v : T) m, can_write m out out -> can_read m out out ->
  exists m', replace_if out f v m = Ok m' /\
    (forall is_ x, in_box (dims out) is_ -> value m out is_ x -> value m' out is_ (if f x then v else x)) /\
    frame out out m m'.
Proof. exact @replace_if_l. Qed.
Print Assumptions replace_if_exact.

Theorem replace_exact : forall (T : Type) (eqb : T -> T -> bool) out a b m,
  (forall x y, eqb x y = true <-> x = y) -> can_write m out out -> can_read m out out ->
  exists m', replace eqb out a b m = Ok m' /\
    (forall is_ x, in_box (dims out) is_ -> value m out is_ x ->
       (x = a -> value m' out is_ b) /\ (x <> a -> value m' out is_ x)) /\
    (a <> b -> forall is_, in_box (dims out) is_ -> ~ value m' out is_ a) /\ frame out out m m'.
Proof. exact @replace_l. Qed.
Print Assumptions replace_exact.
Example replace_if_ex : replace_if xa Z.odd 0 xm =
  Ok [Some (map Some [0; 2; 0; 4; 0; 6]); Some (map Some [10; 20; 30; 40; 50; 60])].
Proof. vm_compute. reflexivity. Qed.
Example replace_ex : replace Z.eqb xv 30 0 xm =
  Ok [Some (map Some [1; 2; 3; 4; 5; 6]); Some (map Some [10; 20; 0; 40; 50; 60])].
Proof. vm_compute. reflexivity. Qed.

(** C37 *)
Theorem reduce_row_major : forall (T A : Type) c (f : A -> T -> A) init m, can_read m c c ->
  exists vs, values m c c vs /\ Z.of_nat (length vs) = prod (dims c) /\
    reduce c f init m = Ok (fold_left f vs init, m).
Proof. exact @reduce_values_l. Qed.
Print Assumptions reduce_row_major.
Example reduce_values_ex : values xm xv xv [40; 60; 10; 30].
Proof. repeat (constructor; [reflexivity|]). constructor. Qed.
Example reduce_ex : reduce xv (fun a x => 100 * a + x) 1 xm = Ok (140601030, xm).
Proof. vm_compute. reflexivity. Qed.

(** C38 *)
Theorem all_of_exact : forall (T : Type) c (f : T -> bool) m, can_read m c c ->
  exists b, all_of c f m = Ok (b, m) /\
    (b = true <-> forall is_ v, in_box (dims c) is_ -> value m c is_ v -> f v = true).
Proof. exact @all_of_l. Qed.
Print Assumptions all_of_exact.
Theorem any_of_exact : forall (T : Type) c (f : T -> bool) m, can_read m c c ->
  exists b, any_of c f m = Ok (b, m) /\
    (b = true <-> exists is_ v, in_box (dims c) is_ /\ value m c is_ v /\ f v = true).
Proof. exact @any_of_l. Qed.
Print Assumptions any_of_exact.
Theorem none_of_exact : forall (T : Type) c (f : T -> bool) m, can_read m c c ->
  exists b, none_of c f m = Ok (b, m) /\
    (b = true <-> ~ exists is_ v, in_box (dims c) is_ /\ value m c is_ v /\ f v = true).
Proof. exact @none_of_l. Qed.
Print Assumptions none_of_exact.
Theorem count_if_exact : forall (T : Type) c (f : T -> bool) m, can_read m c c -> prod (dims c) < 2 ^ 64 ->
  exists vs, values m c c vs /\ count_if c f m = Ok (Z.of_nat (length (filter f vs)), m).
Proof. exact @count_if_values_l. Qed.
Print Assumptions count_if_exact.
Theorem count_exact : forall (T : Type) (eqb : T -> T -> bool) c v m, can_read m c c -> prod (dims c) < 2 ^ 64 ->
  exists vs, values m c c vs /\ count eqb c v m = Ok (Z.of_nat (length (filter (fun x => eqb x v) vs)), m).
Proof. exact @count_values_l. Qed.
Print Assumptions count_exact.
Definition x0 : container := Cn K2 [int 0; int 3] [] Null.
Example x0_read : can_read xm x0 x0.
Proof. apply default_can_read; [by_default false|reflexivity|by_box]. Qed.
Example predicates_ex :
  (all_of xa (fun x => x <? 7) xm, any_of xa (fun x => 6 <? x) xm, none_of xv (fun x => x =? 20) xm,
   count_if xv (fun x => 20 <? x) xm, count Z.eqb xv 10 xm)
  = (Ok (true, xm), Ok (false, xm), Ok (true, xm), Ok (3, xm), Ok (1, xm)).
Proof. vm_compute. reflexivity. Qed.
Example predicates_empty_ex :
  (all_of x0 (fun _ => false) xm, any_of x0 (fun _ => true) xm, none_of x0 (fun _ => true) xm, count_if x0 (fun _ => true) xm)
  = (Ok (true, xm), Ok (false, xm), Ok (true, xm), Ok (0, xm)).
Proof. vm_compute. reflexivity. Qed.

(** C39 *)
Theorem transform_reduce_row_major : forall (T A B : Type) c1 c2 (R : A -> B -> A) (f : T -> T -> B) init m,
  can_read m c1 c1 -> can_read m c1 c2 ->
  exists vs1 vs2, values m c1 c1 vs1 /\ values m c1 c2 vs2 /\
    transform_reduce c1 c2 init R f m =
    Ok (fold_left (fun a p => R a (f (fst p) (snd p))) (combine vs1 vs2) init, m).
Proof. exact @transform_reduce_values_l. Qed.
Print Assumptions transform_reduce_row_major.
Theorem inner_product_row_major : forall (T A B : Type) dbg c1 c2 (R : A -> B -> A) (f : T -> T -> B) init m,
  can_read m c1 c1 -> can_read m c1 c2 ->
  legal (c_shape c1) -> legal (c_shape c2) -> c_shape c1 <> [] -> dims c1 = dims c2 ->
  exists vs1 vs2, values m c1 c1 vs1 /\ values m c1 c2 vs2 /\
    inner_product dbg c1 c2 init R f m =
    Ok (fold_left (fun a p => R a (f (fst p) (snd p))) (combine vs1 vs2) init, m).
Proof. exact @inner_product_values_l. Qed.
Print Assumptions inner_product_row_major.
Theorem inner_product_shape_mismatch_aborts : forall (T A B : Type) c1 c2 (R : A -> B -> A) (f : T -> T -> B) init m,
  legal (c_shape c1) -> legal (c_shape c2) -> c_shape c1 <> [] ->
  length (c_shape c1) = length (c_shape c2) -> dims c1 <> dims c2 ->
  inner_product true c1 c2 init R f m = Abort.
Proof. exact @inner_product_abort_l. Qed.
Print Assumptions inner_product_shape_mismatch_aborts.
(** Without assertions nothing is checked: inner_product is transform_reduce, whatever the shapes. *)
Theorem inner_product_release : forall (T A B : Type) c1 c2 (R : A -> B -> A) (f : T -> T -> B) init m,
  inner_product false c1 c2 init R f m = transform_reduce c1 c2 init R f m.
Proof. exact @inner_product_release_l. Qed.
Print Assumptions inner_product_release.
Example inner_product_ex : (inner_product true xa xb 0 Z.add Z.mul xm, inner_product true xa xv 0 Z.add Z.mul xm,
                            transform_reduce xw xv 1 Z.sub Z.mul xm)
  = (Ok (910, xm), Abort, Ok (1 - 40 - 120 - 30 - 120, xm)).
Proof. vm_compute. reflexivity. Qed.

(** C40 *)
Theorem inclusive_scan_exact : forall (T B : Type) in_ out (init : T) (f1 : T -> B -> T) f2 m,
  can_read m in_ in_ -> can_write m in_ out -> no_cross_alias in_ in_ out ->
  exists vs m', values m in_ in_ vs /\ transform_inclusive_scan in_ out init f1 f2 m = Ok m' /\
    (forall is_, in_box (dims in_) is_ ->
       value m' out is_ (fold_left (fun a v => f1 a (f2 v))
                           (firstn (Z.to_nat (rank (dims in_) is_) + 1) vs) init)) /\
    frame in_ out m m'.
Proof. exact @inclusive_values_l. Qed.
Print Assumptions inclusive_scan_exact.
Theorem exclusive_scan_exact : forall (T B : Type) in_ out (init : T) (f1 : T -> B -> T) f2 m,
  can_read m in_ in_ -> can_write m in_ out -> no_alias in_ in_ out ->
  exists vs m', values m in_ in_ vs /\ transform_exclusive_scan in_ out init f1 f2 m = Ok m' /\
    (forall is_, in_box (dims in_) is_ ->
       value m' out is_ (fold_left (fun a v => f1 a (f2 v))
                           (firstn (Z.to_nat (rank (dims in_) is_)) vs) init)) /\
    frame in_ out m m'.
Proof. exact @exclusive_values_l. Qed.
Print Assumptions exclusive_scan_exact.
Theorem plain_inclusive_scan_exact : forall (T : Type) in_ out (init : T) (f : T -> T -> T) m,
  can_read m in_ in_ -> can_write m in_ out -> no_cross_alias in_ in_ out ->
  exists vs m', values m in_ in_ vs /\ inclusive_scan in_ out init f m = Ok m' /\
    (forall is_, in_box (dims in_) is_ ->
       value m' out is_ (fold_left f (firstn (Z.to_nat (rank (dims in_) is_) + 1) vs) init)) /\
    frame in_ out m m'.
Proof. intros T in_ out init f m. exact (inclusive_values_l in_ out init f (fun x => x) m). Qed.
Print Assumptions plain_inclusive_scan_exact.
Theorem plain_exclusive_scan_exact : forall (T : Type) in_ out (init : T) (f : T -> T -> T) m,
  can_read m in_ in_ -> can_write m in_ out -> no_alias in_ in_ out ->
  exists vs m', values m in_ in_ vs /\ exclusive_scan in_ out init f m = Ok m' /\
    (forall is_, in_box (dims in_) is_ ->
       value m' out is_ (fold_left f (firstn (Z.to_nat (rank (dims in_) is_)) vs) init)) /\
    frame in_ out m m'.
Proof. intros T in_ out init f m. exact (exclusive_values_l in_ out init f (fun x => x) m). Qed.
Print Assumptions plain_exclusive_scan_exact.
(** In place, with the values 1 .. 6: the result should be 0 1 3 6 10 15. *)
Theorem exclusive_scan_in_place_refuted : exists c (m m' : mem Z) vs is_,
  default_layout c /\ readable m c /\ values m c c vs /\ in_box (dims c) is_ /\
  exclusive_scan c c 0 Z.add m = Ok m' /\
  ~ value m' c is_ (fold_left Z.add (firstn (Z.to_nat (rank (dims c) is_)) vs) 0).
Proof.
  exists xa, xm, [Some (map Some [0; 0; 0; 0; 0; 0]); Some (map Some [10; 20; 30; 40; 50; 60])], [1; 2; 3; 4; 5; 6], [0; 1].
  split; [exact xa_default|]. split; [exact xa_readable|].
  split; [repeat (constructor; [reflexivity|]); constructor|]. split; [by_check|].
  split; [vm_compute; reflexivity|]. vm_compute. discriminate.
Qed.
Print Assumptions exclusive_scan_in_place_refuted.
Example inclusive_scan_in_place_ex : inclusive_scan xa xa 0 Z.add xm =
  Ok [Some (map Some [1; 3; 6; 10; 15; 21]); Some (map Some [10; 20; 30; 40; 50; 60])].
Proof. vm_compute. reflexivity. Qed.
Example exclusive_scan_ex : exclusive_scan xa xb 5 Z.add xm =
  Ok [Some (map Some [1; 2; 3; 4; 5; 6]); Some (map Some [5; 6; 8; 11; 15; 20])].
Proof. vm_compute. reflexivity. Qed.

(** C41 *)
Theorem find_if_first : forall (T : Type) c (f : T -> bool) m,
  can_read m c c -> Forall (fun n => n <= 2147483648) (dims c) ->
  exists r, find_if c f m = Ok (r, m) /\ first_at m c (fun v => f v = true) r.
Proof. exact @find_if_first_l. Qed.
Print Assumptions find_if_first.
Theorem find_first : forall (T : Type) (eqb : T -> T -> bool) c x m,
  can_read m c c -> Forall (fun n => n <= 2147483648) (dims c) ->
  exists r, find eqb c x m = Ok (r, m) /\ first_at m c (fun v => eqb v x = true) r.
Proof. exact @find_first_l. Qed.
Print Assumptions find_first.
Theorem find_if_not_first : forall (T : Type) c (f : T -> bool) m,
  can_read m c c -> Forall (fun n => n <= 2147483648) (dims c) ->
  exists r, find_if_not c f m = Ok (r, m) /\ first_at m c (fun v => f v = false) r.
Proof. exact @find_if_not_first_l. Qed.
Print Assumptions find_if_not_first.
Theorem find_first_of_first : forall (T : Type) (eqb : T -> T -> bool) c cv (m : mem T),
  can_read m c c -> can_read m cv cv -> Forall (fun n => n <= 2147483648) (dims c) ->
  exists r, find_first_of eqb c cv m = Ok (r, m) /\
    first_at m c (fun v => exists is_ x, in_box (dims cv) is_ /\ value m cv is_ x /\ eqb x v = true) r.
Proof. exact @find_first_of_first_l. Qed.
Print Assumptions find_first_of_first.
Example find_ex : (find_if xa (fun x => 3 <? x) xm, find Z.eqb xa 7 xm, find_if_not xv (fun x => 30 <? x) xm,
                   find_first_of Z.eqb xv xb xm)
  = (Ok (Some [int 1; int 0], xm), Ok (None, xm), Ok (Some [int 1; int 0], xm), Ok (Some [int 0; int 0], xm)).
Proof. vm_compute. reflexivity. Qed.

(** C42 *)
Theorem reverse_mirrors : forall ss c, default_layout c -> signeds (c_shape c) ->
  exists rc, reverse ss c = Ok rc /\ c_shape rc = c_shape c /\ addressable rc (ctypes c) /\
    forall is_, in_box (dims c) is_ -> elem rc is_ = elem c (mirror_coord (dims c) is_).
Proof. exact reverse_l. Qed.
Print Assumptions reverse_mirrors.
Theorem find_last_if_last : forall (T : Type) ss c (f : T -> bool) m,
  default_layout c -> signeds (c_shape c) -> readable m c ->
  exists r, find_last_if ss c f m = Ok (r, m) /\ last_at m c (fun v => f v = true) r.
Proof. exact @find_last_if_last_l. Qed.
Print Assumptions find_last_if_last.
Theorem find_last_last : forall (T : Type) (eqb : T -> T -> bool) ss c x m,
  default_layout c -> signeds (c_shape c) -> readable m c ->
  exists r, find_last eqb ss c x m = Ok (r, m) /\ last_at m c (fun v => eqb v x = true) r.
Proof. exact @find_last_last_l. Qed.
Print Assumptions find_last_last.
Theorem find_last_if_not_last : forall (T : Type) ss c (f : T -> bool) m,
  default_layout c -> signeds (c_shape c) -> readable m c ->
  exists r, find_last_if_not ss c f m = Ok (r, m) /\ last_at m c (fun v => f v = false) r.
Proof. exact @find_last_if_not_last_l. Qed.
Print Assumptions find_last_if_not_last.
(** reverse of a reversed container: every access is outside of the block. *)
Theorem reverse_twice_out_of_bounds_refuted : exists c (m : mem Z) rc rrc is_,
  default_layout c /\ signeds (c_shape c) /\ readable m c /\ reverse false c = Ok rc /\ reverse false rc = Ok rrc /\
  in_box (dims c) (vals is_) /\ get m rrc is_ = UB.
Proof.
  exists xa, xm, (Cn K2S [int 2; int 3] [CI I32 (-3); int (-1)] (Ptr 0 5)),
    (Cn K2S [int 2; int 3] [CI I32 3; int 1] (Ptr 0 10)), [int 0; int 0].
  split; [exact xa_default|]. split; [repeat constructor|]. split; [exact xa_readable|].
  split; [reflexivity|]. split; [reflexivity|]. split; [by_check|]. vm_compute. reflexivity.
Qed.
Print Assumptions reverse_twice_out_of_bounds_refuted.
(** A strided view (every second element): its reverse reads other elements and find_last is wrong. *)
Theorem find_last_strided_refuted : exists c (m : mem Z) is_,
  can_read m c c /\ in_box (dims c) is_ /\ value m c is_ 20 /\ find_last Z.eqb false c 20 m = Ok (None, m).
Proof.
  exists (Cn K1S [int 2] [int 2] (Ptr 0 2)), [Some (map Some [10; 11; 20; 13; 14; 15])], [0].
  split; [|split; [by_check|split; [reflexivity|vm_compute; reflexivity]]].
  split; [|split; [intros is_ B; exact B|by_box]]. split; [|split].
  - split; [by_check|]. split; [by_check|]. split; [|reflexivity].
    eexists. split; [reflexivity|]. split; [by_check|reflexivity].
  - left. by_check.
  - left. intros is_ B; apply box_In in B; vm_compute in B.
    repeat (destruct B as [<-|B]; [vm_compute; discriminate|]); contradiction.
Qed.
Print Assumptions find_last_strided_refuted.
(** Unsigned 32-bit extents: the negated strides wrap. *)
Theorem find_last_unsigned_refuted : exists c (m : mem Z),
  default_layout c /\ readable m c /\ find_last Z.eqb false c 20 m = UB.
Proof.
  exists (Cn K2 [CI U32 2; CI U32 2] [] (Ptr 0 0)), [Some (map Some [10; 20; 30; 40])].
  split; [by_default false|]. split; [by_box|]. lazy. reflexivity.
Qed.
Print Assumptions find_last_unsigned_refuted.
Example reverse_ex : reverse false xa = Ok (Cn K2S [int 2; int 3] [CI I32 (-3); int (-1)] (Ptr 0 5)).
Proof. reflexivity. Qed.
Example xa_signed : signeds (c_shape xa). Proof. repeat constructor. Qed.
Example find_last_ex : (find_last_if false xa Z.odd xm, find_last Z.eqb true xb 20 xm, find_last_if_not false xa (fun x => x <? 7) xm)
  = (Ok (Some [int 1; int 1], xm), Ok (Some [int 0; int 1], xm), Ok (None, xm)).
Proof. vm_compute. reflexivity. Qed.

(** C52 *)
Theorem for_each_row_major : forall (T S : Type) (f : list ptr -> S * mem T -> outcome (S * mem T)) c0 cs m,
  live m c0 c0 -> Forall (live m c0) cs ->
  (forall ps s m s' m', f ps (s, m) = Ok (s', m') -> same_cells m m') ->
  exists trace, visits_all (c_shape c0) trace /\
    forall s, for_each_containers f c0 cs (s, m) =
              run (fun is_ => f (map (fun c => elem c (vals is_)) (c0 :: cs))) trace (s, m).
Proof. exact @for_each_trace_l. Qed.
Print Assumptions for_each_row_major.
Theorem for_each_index_row_major : forall (T S : Type) (f : ptr -> list cint -> S * mem T -> outcome (S * mem T)) c m,
  live m c c -> (forall p is_ s m s' m', f p is_ (s, m) = Ok (s', m') -> same_cells m m') ->
  exists trace, visits_all (c_shape c) trace /\
    forall s, for_each_index f c (s, m) = run (fun is_ => f (elem c (vals is_)) is_) trace (s, m).
Proof. exact @for_each_index_trace_l. Qed.
Print Assumptions for_each_index_row_major.
(** A callback that records the addresses, and one that also exchanges the two elements. *)
Example for_each_ex : for_each_containers (fun ps sm => Ok (fst sm ++ [ps], snd sm)) xw [xv] ([], xm) =
  Ok ([[Ptr 0 0; Ptr 1 3]; [Ptr 0 1; Ptr 1 5]; [Ptr 0 2; Ptr 1 0]; [Ptr 0 3; Ptr 1 2]], xm).
Proof. vm_compute. reflexivity. Qed.
Example for_each_swap_ex : for_each_containers (fun ps sm => match ps with
    | [p; q] => x <- load (snd sm) p ;; y <- load (snd sm) q ;; m <- store (snd sm) p y ;; m' <- store m q x ;; Ok (fst sm + 1, m')
    | _ => UB end) xw [xv] (0, xm) =
  Ok (4, [Some (map Some [40; 60; 10; 30; 5; 6]); Some (map Some [3; 20; 4; 1; 50; 2])]).
Proof. vm_compute. reflexivity. Qed.
Example for_each_hyps : live xm xw xw /\ Forall (live xm xw) [xv].
Proof.
  split; [exact (can_write_live _ _ _ xw_write)|]. constructor; [exact (can_read_live _ _ _ xv_read)|constructor].
Qed.
