(** Property C87: calls made by several threads at the same time. *)
From Coq Require Import ZArith List Bool Lia.
From Verif Require Import Outcome CInt CIntFacts Spec SpecFacts ShapeSpec Shape ShapeFacts ShapeFacts2 Memory MemFacts
  Container ContainerSpec ContainerFacts ContainerFacts2 ContainerFacts3 EndRatio Slicer SlicerSpec AlgoSpec Algo Search
  SplitSpec SplitFacts Program Threads ThreadsSpec ThreadsFacts ThreadsFacts2 ThreadsFacts3 ThreadsFacts4 Prop_Slicer Prop_Split.
Import ListNotations.
Open Scope Z_scope.

(** Threads that do not write what another one reads or writes: whatever the order of their accesses, no data race,
    every thread returns what it returns alone, and the memory is what each of them leaves alone. *)
Theorem separate_threads : forall (T A : Type) (ths : list (act T A)) m outs R W,
  Forall2 (fun x o => alone x m = Ok o) ths outs -> (forall i x, nth_error ths i = Some x -> touches (R i) (W i) x) ->
  separate (length ths) R W -> threads_give ths m (fun rs m' => rs = map fst outs /\ merged W m outs m').
Proof. exact @together_l. Qed.
Print Assumptions separate_threads.

Theorem same_as_one_after_the_other : forall (T A : Type) (ths : list (act T A)) m outs R W,
  Forall2 (fun x o => alone x m = Ok o) ths outs -> (forall i x, nth_error ths i = Some x -> touches (R i) (W i) x) ->
  separate (length ths) R W ->
  exists m', one_by_one ths m = Ok (map fst outs, m') /\
    threads_give ths m (fun rs m1 => rs = map fst outs /\ forall p, cell m1 p = cell m' p).
Proof. exact @same_as_one_by_one_l. Qed.
Print Assumptions same_as_one_after_the_other.

(** Any number of threads that only read, of the same containers or not. *)
Theorem readers : forall (T A : Type) (ths : list (act T A)) m rs R,
  Forall2 (fun x r => exists m', alone x m = Ok (r, m')) ths rs -> Forall (touches R nothing) ths ->
  threads_give ths m (fun rs' m' => rs' = rs /\ forall p, cell m' p = cell m p).
Proof. exact @readers_l. Qed.
Print Assumptions readers.

(** The threads can make any calls one after the other. *)
Theorem several_calls : forall (T A B : Type) R W (x : act T A) (f : A -> act T B),
  (forall m, alone (abind x f) m = (r <- alone x m ;; alone (f (fst r)) (snd r))) /\
  (touches R W x -> (forall a, touches R W (f a)) -> touches R W (abind x f)).
Proof. exact (fun T A B R W x f => conj (alone_bind x f) (touches_bind R W x f)). Qed.
Print Assumptions several_calls.
Theorem touches_more : forall (T A : Type) (R W R' W' : ptr -> Prop) (x : act T A),
  (forall p, R p -> R' p \/ W' p) -> (forall p, W p -> W' p) -> touches R W x -> touches R' W' x.
Proof. exact @touches_weaken. Qed.
Print Assumptions touches_more.

(** What the calls do as sequences of accesses: alone, exactly what the rest of the model says ... *)
Theorem writers_alone : forall (T : Type) (m : mem T) out in_ c0 cs f (g : list T -> T) (h : list cint -> T) (v w : T),
  alone (a_fill out v) m = (m' <- fill out v m ;; Ok (tt, m')) /\
  alone (a_copy out in_) m = (m' <- copy out in_ m ;; Ok (tt, m')) /\
  alone (a_copy_if f out in_) m = (m' <- copy_if f out in_ m ;; Ok (tt, m')) /\
  alone (a_generate h out) m = (m' <- generate h out m ;; Ok (tt, m')) /\
  alone (a_replace_if out f w) m = (m' <- replace_if out f w m ;; Ok (tt, m')) /\
  alone (a_transform g out c0 cs) m = (m' <- transform g out c0 cs m ;; Ok (tt, m')).
Proof.
  exact (fun T m out in_ c0 cs f g h v w => conj (al_fill out v m) (conj (al_copy out in_ m) (conj (al_copy_if f out in_ m)
    (conj (al_generate h out m) (conj (al_replace_if out f w m) (al_transform g out c0 cs m)))))).
Qed.
Print Assumptions writers_alone.
Theorem scans_alone : forall (T B : Type) (m : mem T) in_ out init (f1 : T -> B -> T) f2,
  alone (a_exclusive_scan in_ out init f1 f2) m = (m' <- transform_exclusive_scan in_ out init f1 f2 m ;; Ok (tt, m')) /\
  alone (a_inclusive_scan in_ out init f1 f2) m = (m' <- transform_inclusive_scan in_ out init f1 f2 m ;; Ok (tt, m')).
Proof. exact (fun T B m in_ out init f1 f2 => conj (al_exclusive in_ out init f1 f2 m) (al_inclusive in_ out init f1 f2 m)). Qed.
Print Assumptions scans_alone.
Theorem iota_alone : forall et out v w m,
  alone (@a_iota et out v) m = (m' <- @iota et out v m ;; Ok (tt, m')) /\
  alone (@a_iota_step et out v w) m = (m' <- @iota_step et out v w m ;; Ok (tt, m')).
Proof. exact (fun et out v w m => conj (al_iota out v m) (al_iota_step out v w m)). Qed.
Print Assumptions iota_alone.
Theorem readers_alone : forall (T A B : Type) (m : mem T) dbg st c d (f : A -> T -> A) (init : A) (R : A -> B -> A) (g : T -> T -> B) (p : T -> bool) (eqb : T -> T -> bool),
  alone (a_reduce c f init) m = reduce c f init m /\
  alone (a_transform_reduce c d init R g) m = transform_reduce c d init R g m /\
  alone (a_inner_product dbg c d init R g) m = inner_product dbg c d init R g m /\
  alone (a_find_if c p) m = find_if c p m /\
  alone (a_find_first_of eqb c d) m = find_first_of eqb c d m /\
  alone (a_find_last_if st c p) m = find_last_if st c p m.
Proof.
  exact (fun T A B m dbg st c d f init R g p eqb => conj (al_reduce c f init m) (conj (al_transform_reduce c d init R g m)
    (conj (al_inner_product dbg c d init R g m) (conj (al_find_if c p m) (conj (al_find_first_of eqb c d m) (al_find_last_if st c p m)))))).
Qed.
Print Assumptions readers_alone.
Theorem searches_alone : forall (T : Type) (m : mem T) dbg func c v,
  alone (a_lower_bound dbg func c v) m = (r <- lower_bound dbg func c v m ;; Ok (r, m)) /\
  alone (a_upper_bound dbg func c v) m = (r <- upper_bound dbg func c v m ;; Ok (r, m)) /\
  alone (a_binary_search dbg func c v) m = (r <- binary_search dbg func c v m ;; Ok (r, m)).
Proof. exact (fun T m dbg func c v => conj (al_lower dbg func c v m) (conj (al_upper dbg func c v m) (al_search dbg func c v m))). Qed.
Print Assumptions searches_alone.
Theorem for_each_alone : forall (S T : Type) (m : mem T) (f : S -> elem_fun S T) (g : S -> list Z -> elem_fun S T) c cs s,
  alone (a_for_each f c cs s) m = for_each_containers (fun ps sm => call (f (fst sm)) ps (snd sm)) c cs (s, m) /\
  alone (a_for_each_index g c s) m = for_each_index (fun p is_ sm => call (g (fst sm) (vals is_)) [p] (snd sm)) c (s, m).
Proof. exact (fun S T m f g c cs s => conj (al_for_each f c cs s m) (al_for_each_index g c s m)). Qed.
Print Assumptions for_each_alone.
Theorem accesses_alone : forall (T : Type) (m : mem T) c is_ v,
  alone (aget c is_) m = (v <- get m c is_ ;; Ok (v, m)) /\ alone (aput c is_ v) m = (m' <- put m c is_ v ;; Ok (tt, m')).
Proof. exact (fun T m c is_ v => conj (alone_aget c is_ m) (alone_aput c is_ v m)). Qed.
Print Assumptions accesses_alone.

(** ... and what they touch: the elements of their outputs are written, those of their inputs only read. *)
Theorem writers_touch : forall (T : Type) out in_ c0 cs f (g : list T -> T) (h : list cint -> T) (v w : T), in_reach out out ->
  touches nothing (elements out out) (a_fill out v) /\
  touches nothing (elements out out) (a_generate h out) /\
  touches nothing (elements out out) (a_replace_if out f w) /\
  (in_reach out in_ -> touches (elements out in_) (elements out out) (@a_copy T out in_)) /\
  (in_reach out in_ -> touches (elements out in_) (elements out out) (a_copy_if f out in_)) /\
  (Forall (in_reach out) (c0 :: cs) -> touches (elements_of out (c0 :: cs)) (elements out out) (a_transform g out c0 cs)).
Proof.
  exact (fun T out in_ c0 cs f g h v w H => conj (ft_fill out v H) (conj (ft_generate h out H) (conj (ft_replace_if out f w H)
    (conj (ft_copy out in_ H) (conj (ft_copy_if f out in_ H) (fun F => ft_transform g out c0 cs (Forall_cons _ H F))))))).
Qed.
Print Assumptions writers_touch.
Theorem scans_touch : forall (T B : Type) in_ out init (f1 : T -> B -> T) f2, in_reach in_ in_ -> in_reach in_ out ->
  touches (elements in_ in_) (elements in_ out) (a_exclusive_scan in_ out init f1 f2) /\
  touches (elements in_ in_) (elements in_ out) (a_inclusive_scan in_ out init f1 f2).
Proof. exact (fun T B in_ out init f1 f2 H1 H2 => conj (ft_exclusive in_ out init f1 f2 H1 H2) (ft_inclusive in_ out init f1 f2 H1 H2)). Qed.
Print Assumptions scans_touch.
Theorem iota_touches : forall et out v w, in_reach out out ->
  touches nothing (elements out out) (@a_iota et out v) /\ touches nothing (elements out out) (@a_iota_step et out v w).
Proof. exact (fun et out v w H => conj (ft_iota out v H) (ft_iota_step out v w H)). Qed.
Print Assumptions iota_touches.
Theorem readers_touch : forall (T A B : Type) dbg c d (f : A -> T -> A) (init : A) (R : A -> B -> A) (g : T -> T -> B) (p : T -> bool) (eqb : T -> T -> bool), in_reach c c ->
  touches (elements c c) nothing (a_reduce c f init) /\
  touches (elements c c) nothing (a_find_if c p) /\
  (in_reach c d -> touches (elements_of c [c; d]) nothing (a_transform_reduce c d init R g)) /\
  (in_reach c d -> touches (elements_of c [c; d]) nothing (a_inner_product dbg c d init R g)) /\
  (in_reach d d -> touches (fun x => elements c c x \/ elements d d x) nothing (a_find_first_of eqb c d)).
Proof.
  exact (fun T A B dbg c d f init R g p eqb H => conj (ft_reduce c f init H) (conj (ft_find_if c p H)
    (conj (ft_transform_reduce c d init R g H) (conj (ft_inner_product dbg c d init R g H) (ft_find_first_of eqb c d H))))).
Qed.
Print Assumptions readers_touch.
Theorem searches_touch : forall (T : Type) dbg func c (v : T), bisectable c ->
  touches (elements c c) nothing (a_lower_bound dbg func c v) /\ touches (elements c c) nothing (a_upper_bound dbg func c v) /\
  touches (elements c c) nothing (a_binary_search dbg func c v).
Proof. exact (fun T dbg func c v H => conj (ft_lower dbg func c v H) (conj (ft_upper dbg func c v H) (ft_search dbg func c v H))). Qed.
Print Assumptions searches_touch.
Theorem find_last_touches : forall (T : Type) st c (f : T -> bool), default_layout c ->
  Forall (fun n => cty n <> U32) (c_shape c) ->
  touches (elements c c) nothing (a_find_last_if st c f).
Proof. exact @ft_find_last_if. Qed.
Print Assumptions find_last_touches.
Theorem for_each_touches : forall (S T : Type) ws (f : S -> elem_fun S T) c0 cs s, Forall (in_reach c0) (c0 :: cs) ->
  (forall s, writes_only (length (c0 :: cs)) ws (f s)) ->
  touches (elements_of c0 (c0 :: cs)) (written ws c0 (c0 :: cs)) (a_for_each f c0 cs s).
Proof. exact (fun S T => @ft_for_each T S). Qed.
Print Assumptions for_each_touches.
Theorem for_each_index_touches : forall (S T : Type) (f : S -> list Z -> elem_fun S T) c s, in_reach c c ->
  touches nothing (elements c c) (a_for_each_index f c s).
Proof. exact (fun S T => @ft_for_each_index T S). Qed.
Print Assumptions for_each_index_touches.
Theorem accesses_touch : forall (T : Type) c is_ (v : T), addressable c (map cty is_) -> coord_of c is_ ->
  touches (fun p => p = elem c (vals is_)) nothing (@aget T c is_) /\ touches nothing (fun p => p = elem c (vals is_)) (aput c is_ v).
Proof. exact (fun T c is_ v A C => conj (ft_get c is_ A C) (ft_put c is_ v A C)). Qed.
Print Assumptions accesses_touch.

(** Tables of their own never share an element; neither do the tiles of one container (C77): one thread per tile
    gives what one call on the whole container gives. *)
Theorem other_tables_apart : forall c0 c d0 d p, c_data c <> Null -> ~ same_block (c_data c) (c_data d) ->
  elements c0 c p -> ~ elements d0 d p.
Proof. exact other_block_l. Qed.
Print Assumptions other_tables_apart.
Theorem transform_in_threads : forall (T : Type) (m : mem T) dbg a b c ps f,
  default_layout c -> Forall (is_part dbg c) ps -> tiling c ps -> readable m c ->
  exists vs m2, slices dbg a b c ps = Ok vs /\ transform f c c [] m = Ok m2 /\
    threads_give (map (fun v => a_transform f v v []) vs) m (fun _ m' => forall p, cell m' p = cell m2 p).
Proof. exact @threads_transform_l. Qed.
Print Assumptions transform_in_threads.
Theorem fill_in_threads : forall (T : Type) (m : mem T) dbg a b c ps x,
  default_layout c -> Forall (is_part dbg c) ps -> tiling c ps -> writable m c ->
  exists vs m2, slices dbg a b c ps = Ok vs /\ fill c x m = Ok m2 /\
    threads_give (map (fun v => a_fill v x) vs) m (fun _ m' => forall p, cell m' p = cell m2 p).
Proof. exact @threads_fill_l. Qed.
Print Assumptions fill_in_threads.
Theorem count_in_threads : forall (T : Type) (m : mem T) dbg a b c ps (f : T -> bool),
  default_layout c -> Forall (is_part dbg c) ps -> tiling c ps -> readable m c ->
  exists vs total, slices dbg a b c ps = Ok vs /\ count_if c f m = Ok (total, m) /\
    threads_give (map (fun v => a_reduce v (fun a e => size_add a (f e)) 0) vs) m
      (fun ns m' => fold_right Z.add 0 ns = total /\ forall p, cell m' p = cell m p).
Proof. exact @threads_count_l. Qed.
Print Assumptions count_in_threads.
Theorem reduce_in_threads : forall (T : Type) (m : mem T) dbg a b c n rest l (f : T -> T -> T) e,
  (forall x y z, f (f x y) z = f x (f y z)) -> (forall x, f e x = x) -> (forall x, f x e = x) ->
  default_layout c -> c_shape c = n :: rest -> Forall (fun n => 0 < cval n) rest -> consecutive n rest 0 l ->
  (dbg = true -> Forall wide (map fst l)) -> readable m c ->
  exists vs r, slices dbg a b c (blocks rest 0 l) = Ok vs /\ reduce c f e m = Ok (r, m) /\
    threads_give (map (fun v => a_reduce v f e) vs) m (fun rs m' => fold_left f rs e = r /\ forall p, cell m' p = cell m p).
Proof. exact @threads_reduce_l. Qed.
Print Assumptions reduce_in_threads.

(** Without separation: a thread that fills a table while another one adds its elements up. They race, and the sum is
    that of the old elements, of the new ones, or of some of both. *)
Definition pair : container := Cn K1 [int 2] [] (Ptr 0 0).
Definition pair_mem : mem Z := [Some (map Some [1; 2])].
Definition filler : act Z Z := _ <~ a_fill pair 7 ;; ret 0.
Definition adder : act Z Z := a_reduce pair Z.add 0.
Theorem shared_table_races_refuted : exists n s n1 s1 n2 s2 n3 s3,
  turns n ([filler; adder], pair_mem) s /\ race s /\
  turns n1 ([filler; adder], pair_mem) s1 /\ returned s1 [0; 3] /\
  turns n2 ([filler; adder], pair_mem) s2 /\ returned s2 [0; 14] /\
  turns n3 ([filler; adder], pair_mem) s3 /\ returned s3 [0; 9].
Proof.
  destruct (play [0; 1]%nat ([filler; adder], pair_mem)) as [s|] eqn:E; [|discriminate].
  destruct (play [1; 1; 1; 1; 0; 0; 0; 0]%nat ([filler; adder], pair_mem)) as [s1|] eqn:E1; [|discriminate].
  destruct (play [0; 0; 0; 0; 1; 1; 1; 1]%nat ([filler; adder], pair_mem)) as [s2|] eqn:E2; [|discriminate].
  destruct (play [0; 0; 1; 1; 1; 1; 0; 0]%nat ([filler; adder], pair_mem)) as [s3|] eqn:E3; [|discriminate].
  exists 2%nat, s, 8%nat, s1, 8%nat, s2, 8%nat, s3.
  split; [exact (play_turns _ _ _ E)|]. split.
  { vm_compute in E. injection E as <-. exists 0%nat, 1%nat. do 3 eexists. split; [discriminate|]. split; [reflexivity|].
    split; [reflexivity|]. split; [do 2 eexists; reflexivity|]. left. eexists. reflexivity. }
  split; [exact (play_turns _ _ _ E1)|]. split; [vm_compute in E1; injection E1 as <-; repeat constructor|].
  split; [exact (play_turns _ _ _ E2)|]. split; [vm_compute in E2; injection E2 as <-; repeat constructor|].
  split; [exact (play_turns _ _ _ E3)|]. vm_compute in E3. injection E3 as <-. repeat constructor.
Qed.
Print Assumptions shared_table_races_refuted.

(** Even and odd columns of a table of 4 x 6 filled by two threads, a turn each. *)
Definition two_fills : outcome (list (act Z unit)) :=
  vs <- slices true false false sc parity ;; Ok (map (fun v => a_fill v 5) vs).
Example threads_ex : exists ths s, two_fills = Ok ths /\ length ths = 2%nat /\
  play (concat (repeat [0; 1]%nat 24)) (ths, sm) = Some s /\ returned s [tt; tt] /\ snd s = [Some (repeat (Some 5) 24)].
Proof.
  do 2 eexists. split; [vm_compute; reflexivity|]. split; [reflexivity|]. split; [vm_compute; reflexivity|].
  split; [repeat constructor|vm_compute; reflexivity].
Qed.
Example parity_in_threads : exists vs m2, slices true false false sc parity = Ok vs /\ fill sc 5 sm = Ok m2 /\
  threads_give (map (fun v => a_fill v 5) vs) sm (fun _ m' => forall p, cell m' p = cell m2 p).
Proof.
  apply fill_in_threads; [|exact parity_parts|exact parity_tiles|].
  - by_default false.
  - by_box.
Qed.
(** A copy into one table and a reduction of the source, in two threads. *)
Definition source : container := Cn K1 [int 2] [] (Ptr 0 0).
Definition target : container := Cn K1 [int 2] [] (Ptr 1 0).
Definition two_tables : mem Z := [Some (map Some [1; 2]); Some [None; Some 9]].
Example reach_ex : in_reach target target /\ in_reach target source /\ in_reach source source.
Proof.
  assert (A : forall o, addressable (Cn K1 [int 2] [] o) [I32]) by (intros o; apply default_addressable; by_default false).
  repeat split; try apply A; intros is_ B; exact B.
Qed.
Definition copier : act Z Z := _ <~ a_copy target source ;; ret 0.
Example copy_and_add : threads_give [copier; a_reduce source Z.add 0] two_tables
  (fun rs m' => rs = [0; 3] /\ forall p, cell m' p = cell [Some (map Some [1; 2]); Some (map Some [1; 2])] p).
Proof.
  destruct reach_ex as (R1 & R2 & R3).
  destruct (same_as_one_after_the_other Z Z [copier; a_reduce source Z.add 0] two_tables
    [(0, [Some (map Some [1; 2]); Some (map Some [1; 2])]); (3, two_tables)]
    (fun _ => elements source source) (fun i => match i with O => elements target target | _ => nothing end)) as (m' & E & H).
  - constructor; [vm_compute; reflexivity|]. constructor; [vm_compute; reflexivity|constructor].
  - assert (T0 : touches (elements source source) (elements target target) copier).
    { apply touches_bind; [exact (ft_copy target source R1 R2)|intros; constructor]. }
    assert (T1 : touches (elements source source) nothing (a_reduce source Z.add 0)) by exact (ft_reduce source Z.add 0 R3).
    intros [|[|[|i]]] x Hx; try discriminate; cbn [nth_error] in Hx; congruence.
  - intros [|[|i]] [|[|j]] p Li Lj N H; cbn in Li, Lj; try lia; try (destruct H; fail).
    split; [|intros []]. apply (other_block_l target target); [discriminate|discriminate|exact H].
  - vm_compute in E. injection E as <-. exact H.
Qed.
(** The other hypotheses: a callable that copies its second argument to its first one, a bisection, blocks of rows. *)
Example writes_only_ex : forall s : nat, writes_only 2 (fun i => i = 0%nat) (Rd 1 (fun v : Z => Wr 0 v (Done s))).
Proof. intros s. constructor; [lia|]. intros v. constructor; [lia|reflexivity|constructor]. Qed.
Example bisectable_ex : bisectable sc /\ default_layout sc /\ Forall (fun n => cty n <> U32) (c_shape sc).
Proof.
  split; [split; [by_check|split; [discriminate|apply default_addressable; by_default false]]|]. split; [by_default false|repeat constructor; discriminate].
Qed.
Example blocks_in_threads : exists vs r, slices true false false sc (blocks [int 6] 0 thirds) = Ok vs /\ reduce sc Z.add 0 sm = Ok (r, sm) /\
  threads_give (map (fun v => a_reduce v Z.add 0) vs) sm (fun rs m' => fold_left Z.add rs 0 = r /\ forall p, cell m' p = cell sm p).
Proof.
  apply (reduce_in_threads Z sm true false false sc (int 4) [int 6] thirds); try (intros; lia).
  - by_default false.
  - reflexivity.
  - constructor; [reflexivity|constructor].
  - apply thirds_consecutive.
  - intros _. apply thirds_consecutive.
  - by_box.
Qed.
Example parity_transformed : exists vs m2, slices true false false sc parity = Ok vs /\
  transform (fun l => fold_right Z.add 1 l) sc sc [] sm = Ok m2 /\
  threads_give (map (fun v => a_transform (fun l => fold_right Z.add 1 l) v v []) vs) sm (fun _ m' => forall p, cell m' p = cell m2 p).
Proof.
  apply transform_in_threads; [|exact parity_parts|exact parity_tiles|].
  - by_default false.
  - by_box.
Qed.
Example parity_counted : exists vs total, slices true false false sc parity = Ok vs /\ count_if sc (Z.leb 7) sm = Ok (total, sm) /\
  threads_give (map (fun v => a_reduce v (fun a e => size_add a (Z.leb 7 e)) 0) vs) sm
    (fun ns m' => fold_right Z.add 0 ns = total /\ forall p, cell m' p = cell sm p).
Proof.
  apply count_in_threads; [|exact parity_parts|exact parity_tiles|].
  - by_default false.
  - by_box.
Qed.
Example parity_total : exists total, count_if sc (Z.leb 7) sm = Ok (total, sm) /\ 0 < total < 24.
Proof. eexists. split; [vm_compute; reflexivity|]. split; reflexivity. Qed.
(** Two threads read the same table. *)
Example two_readers : threads_give [a_reduce source Z.add 0; a_reduce source Z.mul 1] two_tables
  (fun rs m' => rs = [3; 2] /\ forall p, cell m' p = cell two_tables p).
Proof.
  apply (readers Z Z _ _ _ (elements source source)).
  - constructor; [exists two_tables; vm_compute; reflexivity|].
    constructor; [exists two_tables; vm_compute; reflexivity|constructor].
  - destruct reach_ex as (_ & _ & R).
    constructor; [apply (readers_touch Z Z Z true source source Z.add 0 Z.add Z.add (Z.eqb 0) Z.eqb R)|].
    constructor; [apply (readers_touch Z Z Z true source source Z.mul 1 Z.add Z.add (Z.eqb 0) Z.eqb R)|constructor].
Qed.
Example access_ex : addressable target (map cty [int 1]) /\ coord_of target [int 1] /\
  alone (aput target [int 1] 5) two_tables = Ok (tt, [Some (map Some [1; 2]); Some [None; Some 5]]).
Proof.
  split; [apply default_addressable; by_default false|].
  split; [|vm_compute; reflexivity]. unfold coord_of. by_check.
Qed.
Example apart_ex : c_data source <> Null /\ ~ same_block (c_data source) (c_data target) /\ elements source source (Ptr 0 1).
Proof.
  split; [discriminate|]. split; [cbn; discriminate|]. exists [1]. split; [|reflexivity].
  constructor; [cbn; lia|constructor].
Qed.
