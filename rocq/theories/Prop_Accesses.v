(** C97: which elements the algorithms read and write, how often and in which order. *)
From Coq Require Import ZArith List Bool Lia.
From Verif Require Import Outcome CInt Spec ShapeSpec Shape Memory Container ContainerSpec ContainerFacts2 AlgoSpec Algo Search Program Threads ThreadsSpec
  Accesses AccessesSpec AccessesFacts.
Import ListNotations.
Open Scope Z_scope.

(** The list of accesses is what happens: a call that returns has one, each read in it gives the value the element has at that
    time, and the writes in it lead to the memory the call leaves. (What the calls of Threads.v compute alone is C87.) *)
Theorem accesses_happen : forall (T A : Type) (x : act T A) m, (forall l a m', logged x m = Ok (l, (a, m')) -> alone x m = Ok (a, m') /\ replay m l m') /\
  (forall a m', alone x m = Ok (a, m') -> exists l, logged x m = Ok (l, (a, m'))).
Proof. exact @happen_l. Qed.
Print Assumptions accesses_happen.

(** The writers go through the elements in row-major order; each element of the inputs is read once, from the first input to
    the last, before the element of the output is written, once. Tables may overlap or be the same. Only copy_if
    reads a value that it copies a second time. *)
Theorem writers_accesses : forall (T : Type) (m : mem T) out in_ c0 cs f (g : list T -> T) (h : list cint -> T) (v w : T) l u m', in_reach out out ->
  (logged (a_fill out v) m = Ok (l, (u, m')) -> l = map (fun i => Sets (elem out i) v) (box (dims out))) /\
  (logged (a_generate h out) m = Ok (l, (u, m')) ->
     in_turn (fun i _ l _ => exists js, typed out i js /\ l = [Sets (elem out i) (h js)]) (box (dims out)) tt l tt) /\
  (logged (a_replace_if out f w) m = Ok (l, (u, m')) ->
     in_turn (fun i _ l _ => exists v, l = Sees (elem out i) v :: if f v then [Sets (elem out i) w] else []) (box (dims out)) tt l tt) /\
  (in_reach out in_ -> logged (a_copy out in_) m = Ok (l, (u, m')) ->
     in_turn (fun i _ l _ => exists v, l = [Sees (elem in_ i) v; Sets (elem out i) v]) (box (dims out)) tt l tt) /\
  (in_reach out in_ -> logged (a_copy_if f out in_) m = Ok (l, (u, m')) ->
     in_turn (fun i _ l _ => exists v w, l = Sees (elem in_ i) v :: if f v then [Sees (elem in_ i) w; Sets (elem out i) w] else []) (box (dims out)) tt l tt) /\
  (Forall (in_reach out) (c0 :: cs) -> logged (a_transform g out c0 cs) m = Ok (l, (u, m')) ->
     in_turn (fun i _ l _ => exists vs l', sees_all (c0 :: cs) i vs l' /\ l = l' ++ [Sets (elem out i) (g vs)]) (box (dims out)) tt l tt).
Proof. exact @writers_l. Qed.
Print Assumptions writers_accesses.

(** iota writes each element once, and reads none. *)
Theorem iota_accesses : forall et m out v w l u m', in_reach out out ->
  (logged (@a_iota et out v) m = Ok (l, (u, m')) ->
     exists last, in_turn (fun i s l s' => l = [Sets (elem out i) (conv et s)] /\ cincr s = Ok s') (box (dims out)) v l last) /\
  (logged (@a_iota_step et out v w) m = Ok (l, (u, m')) ->
     exists last, in_turn (fun i s l s' => l = [Sets (elem out i) (conv et s)] /\ exists t, cadd s w = Ok t /\ s' = conv (cty s) t) (box (dims out)) v l last).
Proof. exact @iotas_l. Qed.
Print Assumptions iota_accesses.

(** The inclusive scan reads an element before it writes the one of the output, the exclusive scan after. *)
Theorem scans_accesses : forall (T B : Type) (m : mem T) in_ out init (f1 : T -> B -> T) f2 l u m', in_reach in_ in_ -> in_reach in_ out ->
  (logged (a_exclusive_scan in_ out init f1 f2) m = Ok (l, (u, m')) ->
     exists last, in_turn (fun i s l s' => exists v, l = [Sets (elem out i) s; Sees (elem in_ i) v] /\ s' = f1 s (f2 v)) (box (dims in_)) init l last) /\
  (logged (a_inclusive_scan in_ out init f1 f2) m = Ok (l, (u, m')) ->
     exists last, in_turn (fun i s l s' => exists v, l = [Sees (elem in_ i) v; Sets (elem out i) s'] /\ s' = f1 s (f2 v)) (box (dims in_)) init l last).
Proof. exact @scans_l. Qed.
Print Assumptions scans_accesses.

(** The reductions, all_of, any_of, none_of and count (which are reductions) read each element once, in row-major order. *)
Theorem readers_accesses : forall (T A B : Type) (m : mem T) dbg c d (f : A -> T -> A) (init : A) (R : A -> B -> A) (g : T -> T -> B) l r m', in_reach c c ->
  (logged (a_reduce c f init) m = Ok (l, (r, m')) ->
     in_turn (fun i s l s' => exists v, l = [Sees (elem c i) v] /\ s' = f s v) (box (dims c)) init l r) /\
  (in_reach c d -> logged (a_transform_reduce c d init R g) m = Ok (l, (r, m')) ->
     in_turn (fun i s l s' => exists v w, l = [Sees (elem c i) v; Sees (elem d i) w] /\ s' = R s (g v w)) (box (dims c)) init l r) /\
  (in_reach c d -> logged (a_inner_product dbg c d init R g) m = Ok (l, (r, m')) ->
     in_turn (fun i s l s' => exists v w, l = [Sees (elem c i) v; Sees (elem d i) w] /\ s' = R s (g v w)) (box (dims c)) init l r).
Proof. exact @readers_l. Qed.
Print Assumptions readers_accesses.

(** for_each calls the callable once per coordinate in row-major order; no other access is made. *)
Theorem for_each_accesses : forall (S T : Type) (m : mem T) (f : S -> elem_fun S T) (g : S -> list Z -> elem_fun S T) c0 cs s l s' m', Forall (in_reach c0) (c0 :: cs) ->
  (logged (a_for_each f c0 cs s) m = Ok (l, (s', m')) ->
     in_turn (fun i s l s' => does (map (fun c => elem c i) (c0 :: cs)) (f s) l s') (box (dims c0)) s l s') /\
  (logged (a_for_each_index g c0 s) m = Ok (l, (s', m')) ->
     in_turn (fun i s l s' => does [elem c0 i] (g s i) l s') (box (dims c0)) s l s').
Proof. exact @for_each_l. Qed.
Print Assumptions for_each_accesses.

(** find reads in row-major order up to the first hit, find_last in the opposite order up to the last one, nothing after it.
    find_first_of reads all values for each element it looks at, also those after a hit. *)
Theorem searches_accesses : forall (T : Type) (m : mem T) c d (f : T -> bool) (eqb : T -> T -> bool) st l r m', in_reach c c ->
  (logged (a_find_if c f) m = Ok (l, (r, m')) -> sees_until f c (box (dims c)) (some r) l) /\
  (default_layout c -> Forall (fun n => cty n <> U32) (c_shape c) -> logged (a_find_last_if st c f) m = Ok (l, (r, m')) ->
     sees_until f c (rev (box (dims c))) (some r) l) /\
  (in_reach d d -> logged (a_find_first_of eqb c d) m = Ok (l, (r, m')) ->
     exists pos, until_one (fun i _ l r => exists e l', l = Sees (elem c i) e :: l' /\
       in_turn (fun j b l b' => exists x, l = [Sees (elem d j) x] /\ b' = b || eqb x e) (box (dims d)) false l' (fst r))
       (box (dims c)) [] l (some r, pos : list cint)).
Proof. exact @searches_l. Qed.
Print Assumptions searches_accesses.

(** The bisections write nothing and read at most 1 + log2 n elements, binary_search one more. *)
Theorem bisections_accesses : forall (T : Type) (m : mem T) dbg (func : T -> T -> bool) c x l m', (forall r, logged (a_lower_bound dbg func c x) m = Ok (l, (r, m')) -> exists n, numel (c_shape c) = Ok n /\ few 0 (cval n) l) /\
  (forall r, logged (a_upper_bound dbg func c x) m = Ok (l, (r, m')) -> exists n, numel (c_shape c) = Ok n /\ few 0 (cval n) l) /\
  (forall r, logged (a_binary_search dbg func c x) m = Ok (l, (r, m')) -> exists n, numel (c_shape c) = Ok n /\ few 1 (cval n) l).
Proof. exact @bisections_l. Qed.
Print Assumptions bisections_accesses.

(** In numbers. *)
Theorem writers_counts : forall (T : Type) (m : mem T) out in_ c0 cs f (g : list T -> T) (h : list cint -> T) (v w : T) l u m', in_reach out out ->
  let n := prod (dims out) in
  (logged (a_fill out v) m = Ok (l, (u, m')) -> reads l = 0 /\ writes l = n) /\
  (logged (a_generate h out) m = Ok (l, (u, m')) -> reads l = 0 /\ writes l = n) /\
  (logged (a_replace_if out f w) m = Ok (l, (u, m')) -> reads l = n /\ 0 <= writes l <= n) /\
  (in_reach out in_ -> logged (a_copy out in_) m = Ok (l, (u, m')) -> reads l = n /\ writes l = n) /\
  (in_reach out in_ -> logged (a_copy_if f out in_) m = Ok (l, (u, m')) -> reads l = n + writes l /\ 0 <= writes l <= n) /\
  (Forall (in_reach out) (c0 :: cs) -> logged (a_transform g out c0 cs) m = Ok (l, (u, m')) -> reads l = Z.of_nat (length (c0 :: cs)) * n /\ writes l = n).
Proof. exact @counts_writers_l. Qed.
Print Assumptions writers_counts.

(** In numbers, for those that read. *)
Theorem readers_counts : forall (T A B : Type) (m : mem T) dbg c d out (f : A -> T -> A) (init : A) (R : A -> B -> A) (g : T -> T -> B) (f1 : T -> B -> T) f2 x p st l m', in_reach c c ->
  let n := prod (dims c) in
  (forall r, logged (a_reduce c f init) m = Ok (l, (r, m')) -> reads l = n /\ writes l = 0) /\
  (forall r, in_reach c d -> logged (a_transform_reduce c d init R g) m = Ok (l, (r, m')) -> reads l = 2 * n /\ writes l = 0) /\
  (forall r, in_reach c d -> logged (a_inner_product dbg c d init R g) m = Ok (l, (r, m')) -> reads l = 2 * n /\ writes l = 0) /\
  (forall u, in_reach c out -> logged (a_exclusive_scan c out x f1 f2) m = Ok (l, (u, m')) -> reads l = n /\ writes l = n) /\
  (forall u, in_reach c out -> logged (a_inclusive_scan c out x f1 f2) m = Ok (l, (u, m')) -> reads l = n /\ writes l = n) /\
  (forall r, logged (a_find_if c p) m = Ok (l, (r, m')) -> writes l = 0 /\ 0 <= reads l <= n /\ (r = None -> reads l = n)) /\
  (forall r, default_layout c -> Forall (fun n => cty n <> U32) (c_shape c) -> logged (a_find_last_if st c p) m = Ok (l, (r, m')) ->
     writes l = 0 /\ 0 <= reads l <= n /\ (r = None -> reads l = n)).
Proof. exact @counts_readers_l. Qed.
Print Assumptions readers_counts.

(** Not true: any_of stops at the first hit, all_of at the first failure. *)
Theorem any_of_stops_refuted : exists (m : mem Z) c l, in_reach c c /\
  logged (a_reduce c (fun a e => a || (e =? 1)) false) m = Ok (l, (true, m)) /\ any_of c (fun e => e =? 1) m = Ok (true, m) /\
  hd_error l = Some (Sees (elem c [0; 0]) 1) /\ reads l = 6.
Proof. exact any_of_goes_on. Qed.
Print Assumptions any_of_stops_refuted.

(** Not true: exclusive_scan can work in place, as the other scan and transform can: the value is read after it was overwritten. *)
Theorem exclusive_in_place_refuted : exists (m m' : mem Z) c l, in_reach c c /\ readable m c /\
  logged (a_exclusive_scan c c 0 Z.add (fun v => v)) m = Ok (l, (tt, m')) /\
  firstn 2 l = [Sets (elem c [0; 0]) 0; Sees (elem c [0; 0]) 0] /\ peek m (elem c [0; 0]) = Some 1 /\
  m' = [Some (map Some [0; 0; 0; 0; 0; 0])].
Proof. exact exclusive_in_place. Qed.
Print Assumptions exclusive_in_place_refuted.

(** Examples: two tables of 2x3 elements. *)
Example reach_ex : in_reach ac ac /\ in_reach ac ad /\ readable am ac.
Proof. exact ac_reach. Qed.
Example copy_ex : exists m', logged (a_copy ad ac) am =
  Ok ([Sees (Ptr 0 0) 1; Sets (Ptr 1 0) 1; Sees (Ptr 0 1) 2; Sets (Ptr 1 1) 2; Sees (Ptr 0 2) 3; Sets (Ptr 1 2) 3;
       Sees (Ptr 0 3) 4; Sets (Ptr 1 3) 4; Sees (Ptr 0 4) 5; Sets (Ptr 1 4) 5; Sees (Ptr 0 5) 6; Sets (Ptr 1 5) 6], (tt, m')).
Proof. eexists. vm_compute. reflexivity. Qed.
Example transform_ex : exists m' l, logged (a_transform (fun vs => fold_right Z.add 0 vs) ad ad [ac]) am = Ok (l, (tt, m')) /\
  firstn 3 l = [Sees (Ptr 1 0) 0; Sees (Ptr 0 0) 1; Sets (Ptr 1 0) 1] /\ reads l = 12 /\ writes l = 6.
Proof. eexists. eexists. split; [vm_compute; reflexivity|]. vm_compute. auto. Qed.
Example copy_if_ex : exists m' l, logged (a_copy_if (fun e => 5 <=? e) ad ac) am = Ok (l, (tt, m')) /\ reads l = 8 /\ writes l = 2 /\
  firstn 3 (skipn 4 l) = [Sees (Ptr 0 4) 5; Sees (Ptr 0 4) 5; Sets (Ptr 1 4) 5].
Proof. do 2 eexists. split; [vm_compute; reflexivity|]. vm_compute. auto. Qed.
Example find_ex : logged (a_find_if ac (fun e => e =? 3)) am = Ok ([Sees (Ptr 0 0) 1; Sees (Ptr 0 1) 2; Sees (Ptr 0 2) 3], (Some [int 0; int 2], am)).
Proof. vm_compute. reflexivity. Qed.
Example find_last_ex : default_layout ac /\ logged (a_find_last_if true ac (fun e => e =? 5)) am = Ok ([Sees (Ptr 0 5) 6; Sees (Ptr 0 4) 5], (Some [int 1; int 1], am)).
Proof. split; [exact ac_layout|vm_compute; reflexivity]. Qed.
Example find_first_of_ex : exists l r, logged (a_find_first_of Z.eqb ac ad) am = Ok (l, (r, am)) /\ reads l = 6 * 7.
Proof. eexists. eexists. split; [vm_compute; reflexivity|]. vm_compute. reflexivity. Qed.
Example lower_ex : exists l, logged (a_lower_bound true Z.ltb ac 4) am = Ok (l, (Some [int 1; int 0], am)) /\ reads l = 3.
Proof. eexists. split; [vm_compute; reflexivity|]. vm_compute. reflexivity. Qed.
Example scan_ex : exists l m', logged (a_inclusive_scan ac ac 0 Z.add (fun v => v)) am = Ok (l, (tt, m')) /\
  firstn 4 l = [Sees (Ptr 0 0) 1; Sets (Ptr 0 0) 1; Sees (Ptr 0 1) 2; Sets (Ptr 0 1) 3].
Proof. eexists. eexists. split; [vm_compute; reflexivity|]. vm_compute. reflexivity. Qed.
