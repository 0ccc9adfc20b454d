(** C93: comparisons of floating-point elements and values. *)
From Coq Require Import ZArith QArith Qabs List Bool Lia.
From Coq Require Import Floats.SpecFloat.
From Verif Require Import Outcome CInt CIntFacts Spec SpecFacts ShapeSpec Shape ShapeFacts ShapeFacts2
  ForEach ForEachSpec ForEachFacts Memory MemFacts Container ContainerSpec ContainerFacts ContainerFacts2
  ContainerFacts3 Algo AlgoSpec AlgoFacts AlgoFacts2 AlgoFacts3 AlgoFacts4 Search SearchSpec SearchFacts
  Interp IeeeSpec Mixed Convert ConvertSpec FloatCompare FloatCompareSpec FloatCompareFacts.
Import ListNotations.
Open Scope Z_scope.

(** count(c, x): the number of elements equal to x as numbers. *)
Theorem float_count : forall t u f c m vs x, arithmetic_of t u = Some f -> values m c c vs ->
  Forall (exact_in f t) vs -> of_type u x -> can_read m c c -> prod (dims c) < 2 ^ 64 ->
  exists e, stands_as f x e /\
    ncount t u c x m = Ok (Z.of_nat (length (filter (fun v => same (measure v) e) vs)), m).
Proof. exact ncount_l. Qed.
Print Assumptions float_count.

(** find(c, x): the first of them. *)
Theorem float_find : forall t u f c m vs x, arithmetic_of t u = Some f -> values m c c vs ->
  Forall (exact_in f t) vs -> of_type u x -> can_read m c c -> Forall (fun n => n <= 2147483648) (dims c) ->
  exists e r, stands_as f x e /\ nfind t u c x m = Ok (r, m) /\
    first_at m c (fun v => same (measure v) e = true) r.
Proof. exact nfind_l. Qed.
Print Assumptions float_find.

(** find_last(c, x): the last of them. *)
Theorem float_find_last : forall t u f c m vs x, arithmetic_of t u = Some f -> values m c c vs ->
  Forall (exact_in f t) vs -> of_type u x -> forall st, default_layout c ->
  Forall (fun n => cty n <> U32) (c_shape c) -> readable m c ->
  exists e r, stands_as f x e /\ nfind_last t u st c x m = Ok (r, m) /\
    last_at m c (fun v => same (measure v) e = true) r.
Proof. exact nfind_last_l. Qed.
Print Assumptions float_find_last.

(** find_first_of(c, values): the first element equal to a value. *)
Theorem float_find_first_of : forall t u f c cv m vs ws, arithmetic_of t u = Some f ->
  can_read m c c -> values m c c vs -> can_read m cv cv -> values m cv cv ws ->
  Forall (fun n => n <= 2147483648) (dims c) -> Forall (exact_in f t) vs -> Forall (exact_in f u) ws ->
  exists r, nfind_first_of t u c cv m = Ok (r, m) /\
    first_at m c (fun v => exists w, In w ws /\ same (measure w) (measure v) = true) r.
Proof. exact nfind_first_of_l. Qed.
Print Assumptions float_find_first_of.

(** replace(c, x, new): the new value, converted, in place of them. *)
Theorem float_replace : forall t u f c m vs x, arithmetic_of t u = Some f -> values m c c vs ->
  Forall (exact_in f t) vs -> of_type u x -> forall new, can_write m c c -> can_read m c c -> assignable t new ->
  exists e w m', stands_as f x e /\ assigned t new w /\ nreplace t u c x new m = Ok m' /\
    (forall is_ v, in_box (dims c) is_ -> value m c is_ v -> value m' c is_ (if same (measure v) e then w else v)) /\
    frame c c m m'.
Proof. exact nreplace_l. Qed.
Print Assumptions float_replace.

(** Bisection, without NaN among the elements or as the value. *)
Theorem float_searches : forall t u f c m vs x dbg, arithmetic_of t u = Some f -> values m c c vs ->
  Forall (exact_in f t) vs -> of_type u x -> searchable m c -> Forall (fun v => measure v <> NotANumber) vs ->
  sorted (fun a b => below (measure a) (measure b)) m c -> measure x <> NotANumber ->
  exists e, stands_as f x e /\
    (exists r, nlower_bound dbg t u c x m = Ok r /\ first_at m c (fun v => below (measure v) e = false) r) /\
    (exists r, nupper_bound dbg t u c x m = Ok r /\ first_at m c (fun v => below e (measure v) = true) r) /\
    (exists b, nbinary_search dbg t u c x m = Ok b /\
       (b = true <-> exists is_ v, in_box (dims c) is_ /\ value m c is_ v /\ same (measure v) e = true)).
Proof. exact searches_l. Qed.
Print Assumptions float_searches.

(** Values that the type of the comparison has stand for themselves. *)
Theorem exact_values_stand : forall f u x e, exact_in f u x -> stands_as f x e ->
  e = measure x \/ exists p q, e = Num p /\ measure x = Num q /\ (p == q)%Q.
Proof. exact exact_stands_l. Qed.
Print Assumptions exact_values_stand.

(** NaN as the value: nothing is equal to it, whatever the elements are, NaN included. *)
Theorem nan_matches_nothing : forall t u f c m, arithmetic_of t u = Some f -> can_read m c c ->
  prod (dims c) < 2 ^ 64 -> Forall (fun n => n <= 2147483648) (dims c) ->
  ncount t u c (NFloat S754_nan) m = Ok (0, m) /\ nfind t u c (NFloat S754_nan) m = Ok (None, m).
Proof. exact nan_counts_l. Qed.
Print Assumptions nan_matches_nothing.

Theorem nan_never_last : forall t u f st c m, arithmetic_of t u = Some f -> default_layout c ->
  Forall (fun n => cty n <> U32) (c_shape c) -> readable m c ->
  nfind_last t u st c (NFloat S754_nan) m = Ok (None, m).
Proof. exact nan_last_l. Qed.
Print Assumptions nan_never_last.

Theorem nan_not_replaced : forall t u f c m new, arithmetic_of t u = Some f -> can_read m c c ->
  nreplace t u c (NFloat S754_nan) new m = Ok m.
Proof. exact nan_replace_l. Qed.
Print Assumptions nan_not_replaced.

(** Bisection for NaN, in any table: lower_bound gives the first position, upper_bound none, and binary_search
    says that NaN is there unless the table is empty. *)
Theorem nan_searches : forall t u f c m dbg, arithmetic_of t u = Some f -> searchable m c ->
  (exists r, nlower_bound dbg t u c (NFloat S754_nan) m = Ok r /\ first_at m c (fun _ => True) r) /\
  nupper_bound dbg t u c (NFloat S754_nan) m = Ok None /\
  (exists b, nbinary_search dbg t u c (NFloat S754_nan) m = Ok b /\ (b = true <-> exists is_, in_box (dims c) is_)).
Proof. exact nan_searches_l. Qed.
Print Assumptions nan_searches.

(** ** Concrete tables *)

(** A 2x3 table of doubles: -infinity, -0, 0.5, 2, 2, +infinity; and 1, NaN, 0, -0, NaN, 3. *)
Definition dt : container := Cn K2 [int 2; int 3] [] (Ptr 0 0).
Definition fl (m : positive) (e : Z) : number := NFloat (S754_finite false m e).
Definition one : number := fl 4503599627370496 (-52).
Definition half : number := fl 4503599627370496 (-53).
Definition two : number := fl 4503599627370496 (-51).
Definition three : number := fl 6755399441055744 (-51).
Definition inf (s : bool) : number := NFloat (S754_infinity s).
Definition zero (s : bool) : number := NFloat (S754_zero s).
Definition nan : number := NFloat S754_nan.
Definition dmem (xs : list number) : mem number := [Some (map Some xs)].
Definition ds : list number := [inf true; zero true; half; two; two; inf false].
Definition dn : list number := [one; nan; zero false; zero true; nan; three].
Definition D : atype := AFloat Double.
Example dt_default : default_layout dt. Proof. by_default false. Qed.
Example dt_read xs : length xs = 6%nat -> can_read (dmem xs) dt dt.
Proof.
  intros L. apply default_can_read; [exact dt_default|reflexivity|].
  destruct xs as [|a [|b [|c [|d [|e [|g [|? ?]]]]]]]; try discriminate. by_box.
Qed.
Example dt_write : can_write (dmem dn) dt dt.
Proof. apply default_can_write; [exact dt_default|reflexivity|]. apply readable_writable. by_box. Qed.
Example ds_values : values (dmem ds) dt dt ds. Proof. repeat constructor. Qed.
Example dn_values : values (dmem dn) dt dt dn. Proof. repeat constructor. Qed.
Example ds_exact : Forall (exact_in Double D) ds. Proof. repeat constructor. Qed.
Example dn_exact : Forall (exact_in Double D) dn. Proof. repeat constructor. Qed.
Example types : arithmetic_of D (AInt I32) = Some Double /\ arithmetic_of (AFloat Float) D = Some Double /\ of_type (AInt I32) (NInt 2) /\
  of_type D (inf true) /\ of_type D nan /\ prod (dims dt) < 2 ^ 64 /\ Forall (fun n => n <= 2147483648) (dims dt) /\
  Forall (fun n => cty n <> U32) (c_shape dt).
Proof.
  do 2 (split; [reflexivity|]). split; [split; vm_compute; congruence|]. do 2 (split; [reflexivity|]). split; [reflexivity|].
  split; repeat constructor; discriminate.
Qed.
Example counts_ex : (ncount D (AInt I32) dt (NInt 2) (dmem ds), ncount D D dt (inf false) (dmem ds), ncount D (AInt I32) dt (NInt 0) (dmem dn))
  = (Ok (2, dmem ds), Ok (1, dmem ds), Ok (2, dmem dn)).
Proof. vm_compute. reflexivity. Qed.
Example finds_ex : (nfind D (AInt I32) dt (NInt 2) (dmem ds), nfind_last D (AInt I32) false dt (NInt 2) (dmem ds), nfind D D dt (zero false) (dmem ds))
  = (Ok (Some [int 1; int 0], dmem ds), Ok (Some [int 1; int 1], dmem ds), Ok (Some [int 0; int 1], dmem ds)).
Proof. vm_compute. reflexivity. Qed.
(** The values 7 and 2 (int), in a second allocation: the first element equal to one of them. *)
Definition iv : container := Cn K1 [int 2] [] (Ptr 1 0).
Definition two_mem : mem number := [Some (map Some ds); Some (map Some [NInt 7; NInt 2])].
Example first_of_ex : can_read two_mem dt dt /\ can_read two_mem iv iv /\ values two_mem dt dt ds /\ values two_mem iv iv [NInt 7; NInt 2] /\
  Forall (exact_in Double (AInt I32)) [NInt 7; NInt 2] /\
  nfind_first_of D (AInt I32) dt iv two_mem = Ok (Some [int 1; int 0], two_mem).
Proof.
  split; [apply default_can_read; [exact dt_default|reflexivity|by_box]|].
  split; [apply default_can_read; [by_default false|reflexivity|by_box]|].
  split; [repeat constructor|]. split; [repeat constructor|]. split; [|vm_compute; reflexivity].
  constructor; [|constructor; [|constructor]]; (split; [split; vm_compute; congruence|]).
  - exists (fl 7881299347898368 (-50)); eexists. split; [split; [reflexivity|exact I]|]. split; [reflexivity|vm_compute; reflexivity].
  - exists two; eexists. split; [split; [reflexivity|exact I]|]. split; [reflexivity|vm_compute; reflexivity].
Qed.
(** Both zeros are replaced by the int 3, converted to double; NaN stays. *)
Example replace_ex : assignable D (NInt 3) /\ nreplace D (AInt I32) dt (NInt 0) (NInt 3) (dmem dn) = Ok (dmem [one; nan; three; three; nan; three]).
Proof.
  split; [|vm_compute; reflexivity]. left. exists (3 # 1)%Q. split; [reflexivity|].
  exists three; eexists. split; [split; [reflexivity|exact I]|]. split; [reflexivity|]. vm_compute. discriminate.
Qed.
Example ds_searchable : searchable (dmem ds) dt.
Proof. split; [by_check|]. split; [discriminate|]. split; [apply default_addressable; by_default false|by_box]. Qed.
Example dn_searchable : searchable (dmem dn) dt.
Proof. split; [by_check|]. split; [discriminate|]. split; [apply default_addressable; by_default false|by_box]. Qed.
Example ds_sorted : sorted (fun a b => below (measure a) (measure b)) (dmem ds) dt /\ Forall (fun v => measure v <> NotANumber) ds.
Proof.
  split; [|repeat constructor; discriminate]. intros a b x y A B L Hx Hy. apply (rank_lex (dims dt) a b A B) in L.
  apply box_In in A. apply box_In in B. vm_compute in A, B.
  repeat (destruct A as [<-|A];
    [repeat (destruct B as [<-|B];
      [vm_compute in L; vm_compute in Hx; vm_compute in Hy;
       first [discriminate L | injection Hx as <-; injection Hy as <-; vm_compute; reflexivity]|]); contradiction|]).
  contradiction.
Qed.
Example searches_ex :
  (nlower_bound true D (AInt I32) dt (NInt 0) (dmem ds), nupper_bound true D (AInt I32) dt (NInt 2) (dmem ds),
   nbinary_search true D (AInt I32) dt (NInt 1) (dmem ds), nbinary_search true D D dt (inf true) (dmem ds))
  = (Ok (Some [int 0; int 1]), Ok (Some [int 1; int 2]), Ok false, Ok true).
Proof. vm_compute. reflexivity. Qed.
Example nan_ex : (ncount D D dt nan (dmem dn), nfind_last D D false dt nan (dmem dn), nreplace D D dt nan one (dmem dn),
   nlower_bound true D D dt nan (dmem dn), nbinary_search true D D dt nan (dmem ds))
  = (Ok (0, dmem dn), Ok (None, dmem dn), Ok (dmem dn), Ok (Some [int 0; int 0]), Ok true).
Proof. vm_compute. reflexivity. Qed.

(** ** What goes wrong *)

(** A number that no element has is found: the long 2^53+1 in a table of doubles is compared as 2^53. *)
Theorem find_rounded_value_refuted : exists c m (z : Z) v, can_read m c c /\ values m c c [v] /\ exact_in Double D v /\ in_ty I64 z /\
  same (measure v) (Num (inject_Z z)) = false /\ ncount D (AInt I64) c (NInt z) m = Ok (1, m) /\
  nfind D (AInt I64) c (NInt z) m = Ok (Some [int 0], m).
Proof.
  exists (Cn K1 [int 1] [] (Ptr 0 0)), (dmem [fl 4503599627370496 1]), 9007199254740993, (fl 4503599627370496 1).
  split; [apply default_can_read; [by_default false|reflexivity|by_box]|]. split; [repeat constructor|].
  split; [split; [reflexivity|exact I]|]. split; [split; vm_compute; congruence|]. split; [reflexivity|]. split; vm_compute; reflexivity.
Qed.
Print Assumptions find_rounded_value_refuted.

(** The double nearest to 1/10 is not found in a table of floats that has the float nearest to 1/10, though
    assigning the one to an element of the table gives the other. *)
Theorem find_less_precise_refuted : exists c m v x, can_read m c c /\ values m c c [v] /\ of_type (AFloat Float) v /\ of_type D x /\
  convert (AFloat Float) x = Ok v /\ nfind (AFloat Float) D c x m = Ok (None, m).
Proof.
  exists (Cn K1 [int 1] [] (Ptr 0 0)), (dmem [fl 13421773 (-27)]), (fl 13421773 (-27)), (fl 7205759403792794 (-56)).
  split; [apply default_can_read; [by_default false|reflexivity|by_box]|]. split; [repeat constructor|].
  split; [reflexivity|]. split; [reflexivity|]. split; vm_compute; reflexivity.
Qed.
Print Assumptions find_less_precise_refuted.

(** One NaN in a table that is otherwise in order: binary_search finds a number that is not there. *)
Theorem search_among_nan_refuted : exists c m x, searchable m c /\ values m c c [one; nan; three] /\ of_type D x /\
  (forall is_ v, in_box (dims c) is_ -> value m c is_ v -> same (measure v) (measure x) = false) /\
  nbinary_search true D D c x m = Ok true.
Proof.
  exists (Cn K1 [int 3] [] (Ptr 0 0)), (dmem [one; nan; three]), two.
  split; [split; [by_check|]; split; [discriminate|]; split; [apply default_addressable; by_default false|by_box]|].
  split; [repeat constructor|]. split; [reflexivity|]. split; [|vm_compute; reflexivity].
  intros is_ v B Hv. apply box_In in B. vm_compute in B.
  repeat (destruct B as [<-|B]; [vm_compute in Hv; injection Hv as <-; vm_compute; reflexivity|]). contradiction.
Qed.
Print Assumptions search_among_nan_refuted.
