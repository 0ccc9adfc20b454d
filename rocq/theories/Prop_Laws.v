(** Property C76: the algorithms agree with one another. *)
From Coq Require Import ZArith List Bool Lia.
From Verif Require Import Outcome CInt CIntFacts Spec SpecFacts ShapeSpec Shape ShapeFacts ShapeFacts2
  Memory MemFacts Container ContainerSpec ContainerFacts ContainerFacts2 ContainerFacts3 Algo AlgoSpec AlgoFacts4
  Search SearchSpec SearchFacts LawSpec LawFacts Prop_Algo Prop_Search.
Import ListNotations.
Open Scope Z_scope.

Theorem predicates_agree : forall (T : Type) c (f : T -> bool) m, can_read m c c -> prod (dims c) < 2 ^ 64 ->
  Forall (fun n => n <= 2147483648) (dims c) ->
  exists a b n k r s, all_of c f m = Ok (a, m) /\ any_of c f m = Ok (b, m) /\ none_of c f m = Ok (negb b, m) /\
    none_of c (fun x => negb (f x)) m = Ok (a, m) /\ any_of c (fun x => negb (f x)) m = Ok (negb a, m) /\
    count_if c f m = Ok (n, m) /\ count_if c (fun x => negb (f x)) m = Ok (k, m) /\
    n + k = prod (dims c) /\ (b = true <-> 0 < n) /\ (a = true <-> k = 0) /\
    find_if c f m = Ok (r, m) /\ find_if_not c f m = Ok (s, m) /\ (r <> None <-> b = true) /\ (s <> None <-> a = false).
Proof. exact @predicate_laws. Qed.
Print Assumptions predicates_agree.
Example xv_reads_itself : can_read xm xv xv.
Proof. split; [exact xv_addressable|]. split; [intros is_ B; exact B|]. by_box. Qed.
Example predicates_agree_ex :
  (all_of xv (fun x => 20 <? x) xm, any_of xv (fun x => 20 <? x) xm, none_of xv (fun x => 20 <? x) xm,
   count_if xv (fun x => 20 <? x) xm, count_if xv (fun x => negb (20 <? x)) xm, find_if_not xv (fun x => 20 <? x) xm)
  = (Ok (false, xm), Ok (true, xm), Ok (false, xm), Ok (3, xm), Ok (1, xm), Ok (Some [int 1; int 0], xm)).
Proof. vm_compute. reflexivity. Qed.

Theorem finds_agree : forall (T : Type) ss c (f : T -> bool) m, default_layout c ->
  Forall (fun n => cty n <> U32) (c_shape c) -> readable m c ->
  prod (dims c) < 2 ^ 64 -> Forall (fun n => n <= 2147483648) (dims c) ->
  exists r s n, find_if c f m = Ok (r, m) /\ find_last_if ss c f m = Ok (s, m) /\ count_if c f m = Ok (n, m) /\
    (r = None <-> n = 0) /\ (s = None <-> n = 0) /\
    (forall p q, r = Some p -> s = Some q -> vals p = vals q \/ lex (vals p) (vals q)) /\
    (0 < n -> (r = s <-> n = 1)).
Proof. exact @find_laws. Qed.
Print Assumptions finds_agree.
Example finds_agree_hyps : default_layout xa /\ Forall (fun n => cty n <> U32) (c_shape xa) /\ readable xm xa /\ prod (dims xa) < 2 ^ 64 /\
  Forall (fun n => n <= 2147483648) (dims xa).
Proof.
  split; [exact xa_default|]. split; [repeat constructor; discriminate|]. split; [exact xa_readable|]. split; [reflexivity|].
  repeat constructor; vm_compute; discriminate.
Qed.
Example finds_agree_ex :
  (find_if xa Z.even xm, find_last_if false xa Z.even xm, count_if xa Z.even xm,
   find_if xa (Z.eqb 5) xm, find_last_if false xa (Z.eqb 5) xm)
  = (Ok (Some [int 0; int 1], xm), Ok (Some [int 1; int 2], xm), Ok (3, xm),
     Ok (Some [int 1; int 1], xm), Ok (Some [int 1; int 1], xm)).
Proof. vm_compute. reflexivity. Qed.

(** The same table with extents of type std::size_t. *)
Example finds_agree_unsigned :
  Forall (fun n => cty n <> U32) (c_shape (Cn K2 [CI U64 2; CI U64 3] [] (c_data xa))) /\
  find_last_if false (Cn K2 [CI U64 2; CI U64 3] [] (c_data xa)) Z.even xm = find_last_if false xa Z.even xm.
Proof. split; [repeat constructor; discriminate|]. vm_compute. reflexivity. Qed.

Theorem searches_agree : forall (T : Type) dbg (less : T -> T -> bool) c x m,
  searchable m c -> strict_weak_order less -> sorted less m c ->
  can_read m c c -> prod (dims c) < 2 ^ 64 -> Forall (fun n => n <= 2147483648) (dims c) ->
  exists lo up b n, lower_bound dbg less c x m = Ok lo /\ upper_bound dbg less c x m = Ok up /\
    binary_search dbg less c x m = Ok b /\
    find_if c (fun v => negb (less v x)) m = Ok (lo, m) /\ find_if c (fun v => less x v) m = Ok (up, m) /\
    any_of c (fun v => negb (less v x) && negb (less x v)) m = Ok (b, m) /\
    count_if c (fun v => negb (less v x) && negb (less x v)) m = Ok (n, m) /\
    count_if c (fun v => less v x) m = Ok (place c lo, m) /\
    count_if c (fun v => less x v) m = Ok (prod (dims c) - place c up, m) /\
    n = place c up - place c lo.
Proof. exact @search_laws. Qed.
Print Assumptions searches_agree.
Example sc_read : can_read sm sc sc.
Proof. apply default_can_read; [by_default false|reflexivity|by_box]. Qed.
Example searches_agree_ex :
  (count_if sc (fun v => negb (v <? 3) && negb (3 <? v)) sm, place sc (Some [int 1; int 1]) - place sc (Some [int 0; int 1]),
   lower_bound false Z.ltb sc 3 sm, upper_bound false Z.ltb sc 3 sm, place sc None)
  = (Ok (3, sm), 3, Ok (Some [int 0; int 1]), Ok (Some [int 1; int 1]), 6).
Proof. vm_compute. reflexivity. Qed.

Theorem scans_agree : forall (T B : Type) in_ oi oe (init : T) (f1 : T -> B -> T) f2 m,
  can_read m in_ in_ -> can_write m in_ oi -> can_write m in_ oe ->
  no_cross_alias in_ in_ oi -> no_alias in_ in_ oe ->
  exists mi me r, transform_inclusive_scan in_ oi init f1 f2 m = Ok mi /\ transform_exclusive_scan in_ oe init f1 f2 m = Ok me /\
    reduce in_ (fun a v => f1 a (f2 v)) init m = Ok (r, m) /\
    forall is_ v, in_box (dims in_) is_ -> value m in_ is_ v ->
      exists a, value me oe is_ a /\ value mi oi is_ (f1 a (f2 v)) /\
        (rank (dims in_) is_ = 0 -> a = init) /\ (rank (dims in_) is_ = prod (dims in_) - 1 -> f1 a (f2 v) = r) /\
        (forall js, in_box (dims in_) js -> rank (dims in_) js = rank (dims in_) is_ + 1 -> value me oe js (f1 a (f2 v))).
Proof. exact @scan_laws. Qed.
Print Assumptions scans_agree.
Example scans_agree_hyps : can_read xm xa xa /\ can_write xm xa xa /\ can_write xm xa xb /\ no_cross_alias xa xa xa /\ no_alias xa xa xb.
Proof. exact (conj xa_read (conj xa_write (conj xb_write (conj xaa_no_cross xab_no_alias)))). Qed.
Example scans_agree_ex :
  (inclusive_scan xa xa 5 Z.add xm, exclusive_scan xa xb 5 Z.add xm, reduce xa Z.add 5 xm)
  = (Ok [Some (map Some [6; 8; 11; 15; 20; 26]); Some (map Some [10; 20; 30; 40; 50; 60])],
     Ok [Some (map Some [1; 2; 3; 4; 5; 6]); Some (map Some [5; 6; 8; 11; 15; 20])], Ok (26, xm)).
Proof. vm_compute. reflexivity. Qed.

Theorem transforms_fuse : forall (T : Type) (f g : list T -> T) in_ mid out (m : mem T),
  can_write m mid mid -> can_write m out out -> dims mid = dims out -> ctypes mid = ctypes out ->
  can_read m mid in_ -> no_cross_alias mid in_ mid -> no_cross_alias out mid out -> no_cross_alias out in_ out ->
  exists m1 m2 m', transform f mid in_ [] m = Ok m1 /\ transform g out mid [] m1 = Ok m2 /\
    transform (fun vs => g [f vs]) out in_ [] m = Ok m' /\
    forall is_ v, in_box (dims out) is_ -> (value m2 out is_ v <-> value m' out is_ v).
Proof. exact @transform_fusion. Qed.
Print Assumptions transforms_fuse.
Theorem transform_then_reduce_fuses : forall (T A : Type) (f : list T -> T) (g : A -> T -> A) init in_ out (m : mem T),
  can_write m out out -> dims in_ = dims out -> can_read m out in_ -> can_read m in_ in_ -> no_cross_alias out in_ out ->
  exists m' r, transform f out in_ [] m = Ok m' /\ reduce out g init m' = Ok (r, m') /\
    reduce in_ (fun a x => g a (f [x])) init m = Ok (r, m).
Proof. exact @transform_then_reduce. Qed.
Print Assumptions transform_then_reduce_fuses.
Example fuse_hyps : can_write xm xa xa /\ dims xb = dims xa /\ can_read xm xa xb /\ can_read xm xb xb /\ no_cross_alias xa xb xa.
Proof.
  exact (conj xa_write (conj eq_refl (conj xb_read (conj
    (default_can_read xm xb xb xb_default eq_refl xb_readable) xba_no_cross)))).
Qed.
Example fuse_ex :
  let f := fun vs => fold_left Z.add vs 1 in let g := fun vs => 2 * fold_left Z.add vs 0 in
  (m1 <- transform f xa xb [] xm ;; transform g xa xa [] m1, transform (fun vs => g [f vs]) xa xb [] xm)
  = (Ok [Some (map Some [22; 42; 62; 82; 102; 122]); Some (map Some [10; 20; 30; 40; 50; 60])],
     Ok [Some (map Some [22; 42; 62; 82; 102; 122]); Some (map Some [10; 20; 30; 40; 50; 60])]).
Proof. vm_compute. reflexivity. Qed.

Theorem replaced_values_are_gone : forall (T : Type) out f (v : T) m, can_write m out out -> can_read m out out ->
  prod (dims out) < 2 ^ 64 -> f v = false ->
  exists m', replace_if out f v m = Ok m' /\ count_if out f m' = Ok (0, m') /\ none_of out f m' = Ok (true, m').
Proof. exact @replace_then_count. Qed.
Print Assumptions replaced_values_are_gone.
Example replaced_ex : (m1 <- replace_if xv (fun x => 20 <? x) 0 xm ;; count_if xv (fun x => 20 <? x) m1) =
  Ok (0, [Some (map Some [1; 2; 3; 4; 5; 6]); Some (map Some [10; 20; 0; 0; 50; 0])]).
Proof. vm_compute. reflexivity. Qed.

Theorem numbered_positions_are_found : forall et out (m : mem cint), default_layout out -> writable m out ->
  in_ty et (prod (dims out)) ->
  exists m', @iota_default et out m = Ok m' /\
    forall dbg is_, in_box (dims out) is_ ->
      exists pos, lower_bound dbg (fun a b => cval a <? cval b) out (CI et (rank (dims out) is_)) m' = Ok (Some pos) /\
        vals pos = is_.
Proof. exact iota_then_search. Qed.
Print Assumptions numbered_positions_are_found.
Example numbered_hyps : default_layout xa /\ writable ([Some [None; None; None; None; None; None]] : mem cint) xa /\ in_ty U8 (prod (dims xa)).
Proof. split; [exact xa_default|]. split; [by_box|]. vm_compute. split; discriminate. Qed.
Example numbered_ex :
  (m1 <- @iota_default U8 xa [Some [None; None; None; None; None; None]] ;;
   lower_bound true (fun a b => cval a <? cval b) xa (CI U8 4) m1) = Ok (Some [int 1; int 1]).
Proof. vm_compute. reflexivity. Qed.
