(** C61. *)
From Coq Require Import ZArith List Bool Permutation.
From Verif Require Import Outcome CInt Shape Spec SpecFacts ShapeSpec ShapeFacts2 Memory Container ContainerSpec ContainerFacts
  ContainerFacts2 ContainerFacts3 ForEachSpec ForEachFacts Algo AlgoSpec AlgoFacts AlgoFacts4 Context ContextSpec ContextFacts.
Import ListNotations.
Open Scope Z_scope.

(** The CPU is such a context, and the algorithms without a context are the ones on the CPU. *)
Theorem cpu_visits_each_coordinate_once : fair cpu.
Proof. exact cpu_fair. Qed.
Print Assumptions cpu_visits_each_coordinate_once.

Theorem default_context_is_cpu : forall (T A B : Type) (m : mem T) (mi : mem cint) out in_ cs
    (f : list T -> T) (p : T -> bool) (g : list cint -> T) (v w : T) (eqb : T -> T -> bool) et (z : cint)
    (r : A -> T -> A) (R : A -> B -> A) (f2 : T -> T -> B) (a : A) dbg (s1 : T -> B -> T) (s2 : T -> B),
  transform_on cpu f out in_ cs m = transform f out in_ cs m /\
  copy_on cpu out in_ m = copy out in_ m /\ copy_if_on cpu p out in_ m = copy_if p out in_ m /\
  fill_on cpu out v m = fill out v m /\ generate_on cpu g out m = generate g out m /\
  @iota_on cpu et out z mi = @iota et out z mi /\
  replace_if_on cpu out p v m = replace_if out p v m /\ replace_on cpu eqb out v w m = replace eqb out v w m /\
  reduce_on cpu in_ r a m = reduce in_ r a m /\
  all_of_on cpu in_ p m = all_of in_ p m /\ any_of_on cpu in_ p m = any_of in_ p m /\
  none_of_on cpu in_ p m = none_of in_ p m /\ count_if_on cpu in_ p m = count_if in_ p m /\
  count_on cpu eqb in_ v m = count eqb in_ v m /\
  transform_reduce_on cpu in_ out a R f2 m = transform_reduce in_ out a R f2 m /\
  inner_product_on cpu dbg in_ out a R f2 m = inner_product dbg in_ out a R f2 m /\
  transform_inclusive_scan_on cpu in_ out v s1 s2 m = transform_inclusive_scan in_ out v s1 s2 m /\
  transform_exclusive_scan_on cpu in_ out v s1 s2 m = transform_exclusive_scan in_ out v s1 s2 m /\
  find_first_of_on cpu eqb in_ out m = find_first_of eqb in_ out m.
Proof. intros. repeat split. Qed.
Print Assumptions default_context_is_cpu.

(** Element-wise algorithms: any context gives exactly what the CPU gives. *)
Theorem transform_any_context : forall (T : Type) cx (f : list T -> T) out c0 cs (m : mem T),
  fair cx -> can_write m out out -> Forall (can_read m out) (c0 :: cs) ->
  Forall (fun i => no_cross_alias out i out) (c0 :: cs) ->
  transform_on cx f out c0 cs m = transform f out c0 cs m.
Proof. exact @transform_any. Qed.
Print Assumptions transform_any_context.

Theorem copy_any_context : forall (T : Type) cx (f : T -> bool) out in_ (m : mem T),
  fair cx -> can_write m out out -> can_read m out in_ -> no_cross_alias out in_ out ->
  copy_on cx out in_ m = copy out in_ m /\ copy_if_on cx f out in_ m = copy_if f out in_ m.
Proof.
  intros T cx f out in_ m F W R A. exact (conj (copy_any cx out in_ m F W R A) (copy_if_any cx f out in_ m F W R A)).
Qed.
Print Assumptions copy_any_context.

Theorem generators_any_context : forall (T : Type) cx (v : T) (f : list cint -> T) out m,
  fair cx -> can_write m out out ->
  fill_on cx out v m = fill out v m /\ generate_on cx f out m = generate f out m.
Proof. intros T cx v f out m F W. exact (conj (fill_any cx out v m F W) (generate_any cx f out m F W)). Qed.
Print Assumptions generators_any_context.

Theorem replace_any_context : forall (T : Type) cx (eqb : T -> T -> bool) (f : T -> bool) (v w : T) out m,
  fair cx -> can_write m out out -> can_read m out out ->
  replace_if_on cx out f w m = replace_if out f w m /\ replace_on cx eqb out v w m = replace eqb out v w m.
Proof.
  intros T cx eqb f v w out m F W R.
  exact (conj (replace_if_any cx out f w m F W R) (replace_if_any cx out (fun x => eqb x v) w m F W R)).
Qed.
Print Assumptions replace_any_context.

(** Reductions: the values are taken in some order; those that do not care agree with the CPU. *)
Theorem reduce_some_order : forall (T A : Type) cx c (f : A -> T -> A) init (m : mem T),
  fair cx -> can_read m c c ->
  exists vs vs', values m c c vs /\ Permutation vs vs' /\ reduce_on cx c f init m = Ok (fold_left f vs' init, m).
Proof. exact @reduce_any_order. Qed.
Print Assumptions reduce_some_order.

Theorem inner_product_some_order : forall (T A B : Type) cx dbg c1 c2 (R : A -> B -> A) (f : T -> T -> B) init (m : mem T),
  fair cx -> can_read m c1 c1 -> can_read m c1 c2 -> dbg = false \/ shape_eq (c_shape c1) (c_shape c2) = Ok true ->
  exists vs ws l, values m c1 c1 vs /\ values m c1 c2 ws /\ Permutation (combine vs ws) l /\
    transform_reduce_on cx c1 c2 init R f m = Ok (fold_left (fun a p => R a (f (fst p) (snd p))) l init, m) /\
    inner_product_on cx dbg c1 c2 init R f m = Ok (fold_left (fun a p => R a (f (fst p) (snd p))) l init, m).
Proof. exact @inner_product_any_order. Qed.
Print Assumptions inner_product_some_order.

Theorem reduce_any_context : forall (T A : Type) cx c (f : A -> T -> A) init (m : mem T),
  fair cx -> order_free f -> can_read m c c -> reduce_on cx c f init m = reduce c f init m.
Proof. exact @reduce_any. Qed.
Print Assumptions reduce_any_context.

Theorem predicates_any_context : forall (T : Type) cx (eqb : T -> T -> bool) (f : T -> bool) (v : T) c (m : mem T),
  fair cx -> can_read m c c ->
  all_of_on cx c f m = all_of c f m /\ any_of_on cx c f m = any_of c f m /\ none_of_on cx c f m = none_of c f m /\
  count_if_on cx c f m = count_if c f m /\ count_on cx eqb c v m = count eqb c v m.
Proof.
  intros T cx eqb f v c m F R.
  exact (conj (all_of_any cx c f m F R) (conj (any_of_any cx c f m F R) (conj (none_of_any cx c f m F R)
         (conj (count_if_any cx c f m F R) (count_any cx eqb c v m F R))))).
Qed.
Print Assumptions predicates_any_context.

Theorem inner_product_any_context : forall (T A B : Type) cx dbg c1 c2 (R : A -> B -> A) (f : T -> T -> B) init (m : mem T),
  fair cx -> order_free R -> can_read m c1 c1 -> can_read m c1 c2 ->
  transform_reduce_on cx c1 c2 init R f m = transform_reduce c1 c2 init R f m /\
  inner_product_on cx dbg c1 c2 init R f m = inner_product dbg c1 c2 init R f m.
Proof.
  intros T A B cx dbg c1 c2 R f init m F O R1 R2.
  exact (conj (transform_reduce_any cx c1 c2 R f init m F O R1 R2) (inner_product_any cx dbg c1 c2 R f init m F O R1 R2)).
Qed.
Print Assumptions inner_product_any_context.

Theorem find_first_of_any_context : forall (T : Type) cx (eqb : T -> T -> bool) c vs (m : mem T),
  fair cx -> wf_container c -> can_read m vs vs ->
  find_first_of_on cx eqb c vs m = find_first_of eqb c vs m.
Proof. exact @find_first_of_any. Qed.
Print Assumptions find_first_of_any_context.

(** The context that goes from the last coordinate to the first. *)
Example backwards_is_fair : fair backwards. Proof. exact backwards_fair. Qed.
Definition ya : container := Cn K2 [int 2; int 3] [] (Ptr 0 0).
Definition yb : container := Cn K2 [int 2; int 3] [] (Ptr 1 0).
Definition ym : mem Z := [Some (map Some [1; 2; 3; 4; 5; 6]); Some (map Some [10; 20; 30; 40; 50; 60])].
Example ya_default : default_layout ya. Proof. by_default false. Qed.
Example yb_default : default_layout yb. Proof. by_default false. Qed.
Example ya_readable : readable ym ya. Proof. by_box. Qed.
Example yb_readable : readable ym yb. Proof. by_box. Qed.
Example ya_write : can_write ym ya ya.
Proof. exact (default_can_write ym ya ya ya_default eq_refl (readable_writable _ _ ya_readable)). Qed.
Example ya_read : can_read ym ya ya. Proof. exact (default_can_read ym ya ya ya_default eq_refl ya_readable). Qed.
Example yb_read : can_read ym ya yb. Proof. exact (default_can_read ym ya yb yb_default eq_refl yb_readable). Qed.
Example yba_no_cross : no_cross_alias ya yb ya.
Proof. apply no_alias_cross, (other_block_no_alias ya yb ya 1 0 0 0); try reflexivity. discriminate. Qed.
Example backwards_ex :
  (transform_on backwards (fun vs => fold_left Z.add vs 1) ya yb [] ym,
   reduce_on backwards ya Z.add 0 ym, reduce_on backwards ya (fun a x => 10 * a + x) 0 ym)
  = (Ok [Some (map Some [11; 21; 31; 41; 51; 61]); Some (map Some [10; 20; 30; 40; 50; 60])],
     Ok (21, ym), Ok (654321, ym)).
Proof. vm_compute. reflexivity. Qed.
Example backwards_inner_ex : shape_eq (c_shape ya) (c_shape yb) = Ok true /\
  inner_product_on backwards true ya yb 0 (fun a x => 2 * a + x) (fun x y => y - x) ym = Ok (2889, ym) /\
  inner_product true ya yb 0 (fun a x => 2 * a + x) (fun x y => y - x) ym = Ok (1080, ym).
Proof. vm_compute. repeat split. Qed.
Example sum_order_free : order_free Z.add.
Proof. intros a x y. rewrite <- !Z.add_assoc. f_equal. apply Z.add_comm. Qed.

(** Reductions that care about the order, iota and the scans depend on the context. *)
Theorem reduce_order_refuted : exists cx c (f : Z -> Z -> Z) (m : mem Z) a b,
  fair cx /\ default_layout c /\ readable m c /\
  reduce c f 0 m = Ok (a, m) /\ reduce_on cx c f 0 m = Ok (b, m) /\ a <> b.
Proof.
  exists backwards, ya, (fun a x => 10 * a + x), ym, 123456, 654321.
  split; [exact backwards_fair|]. split; [exact ya_default|]. split; [exact ya_readable|].
  split; [vm_compute; reflexivity|]. split; [vm_compute; reflexivity|discriminate].
Qed.
Print Assumptions reduce_order_refuted.

Theorem iota_order_refuted : exists cx out (m a b : mem cint),
  fair cx /\ default_layout out /\ writable m out /\
  @iota I32 out (int 0) m = Ok a /\ @iota_on cx I32 out (int 0) m = Ok b /\
  value a out [0; 0] (int 0) /\ value b out [0; 0] (int 5).
Proof.
  exists backwards, ya, [Some (repeat None 6)], [Some (map (fun z => Some (int z)) [0; 1; 2; 3; 4; 5])],
    [Some (map (fun z => Some (int z)) [5; 4; 3; 2; 1; 0])].
  split; [exact backwards_fair|]. split; [exact ya_default|]. split; [by_box|].
  repeat split; vm_compute; reflexivity.
Qed.
Print Assumptions iota_order_refuted.

Theorem scan_order_refuted : exists cx in_ out (m a b : mem Z),
  fair cx /\ default_layout in_ /\ default_layout out /\ readable m in_ /\ writable m out /\ no_alias in_ in_ out /\
  transform_inclusive_scan in_ out 0 Z.add (fun x => x) m = Ok a /\
  transform_inclusive_scan_on cx in_ out 0 Z.add (fun x => x) m = Ok b /\
  value a out [0; 0] 1 /\ value b out [0; 0] 21.
Proof.
  exists backwards, ya, yb, ym, [Some (map Some [1; 2; 3; 4; 5; 6]); Some (map Some [1; 3; 6; 10; 15; 21])],
    [Some (map Some [1; 2; 3; 4; 5; 6]); Some (map Some [21; 20; 18; 15; 11; 6])].
  split; [exact backwards_fair|]. split; [exact ya_default|]. split; [exact yb_default|].
  split; [exact ya_readable|]. split; [exact (readable_writable _ _ yb_readable)|].
  split; [apply (other_block_no_alias ya ya yb 0 0 1 0); try reflexivity; discriminate|].
  repeat split; vm_compute; reflexivity.
Qed.
Print Assumptions scan_order_refuted.

(** So does an element-wise algorithm whose input overlaps its output at other coordinates. *)
Theorem overlapping_copy_order_refuted : exists cx out in_ (m a b : mem Z),
  fair cx /\ default_layout out /\ default_layout in_ /\ readable m out /\ readable m in_ /\
  copy out in_ m = Ok a /\ copy_on cx out in_ m = Ok b /\ a <> b.
Proof.
  exists backwards, (Cn K1 [int 3] [] (Ptr 0 1)), (Cn K1 [int 3] [] (Ptr 0 0)),
    [Some (map Some [1; 2; 3; 4])], [Some (map Some [1; 1; 1; 1])], [Some (map Some [1; 1; 2; 3])].
  split; [exact backwards_fair|]. split; [by_default false|]. split; [by_default false|]. split; [by_box|].
  split; [by_box|]. split; [vm_compute; reflexivity|]. split; [vm_compute; reflexivity|discriminate].
Qed.
Print Assumptions overlapping_copy_order_refuted.
