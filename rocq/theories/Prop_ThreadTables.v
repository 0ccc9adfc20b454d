(** Property C104: threads that make, copy, assign and destroy tables. *)
From Coq Require Import ZArith List Bool Lia.
From Verif Require Import Outcome CInt CIntFacts Spec SpecFacts ShapeSpec Shape ShapeFacts ShapeFacts2 Memory MemFacts
  Container ContainerSpec ContainerFacts ContainerFacts2 ContainerFacts3 AlgoSpec Algo Program Threads ThreadsSpec ThreadsFacts
  ThreadTables ThreadTablesSpec ThreadTablesFacts ThreadTablesFacts2 ThreadTablesFacts3 ThreadTablesFacts4 ThreadTablesFacts5
  Prop_Slicer.
Import ListNotations.
Open Scope Z_scope.

(** Threads each of which keeps to the memory it may read, the memory it may write and the blocks it got itself: in every
    order of the turns no data race, nothing undefined, all of them return; each with what its own rules give it, and
    nothing changed that no thread may write. *)
Theorem threads_with_tables : forall (T A : Type) (ths : list (tact T A)) g Sh R W Q Bs ms,
  arranged (length ths) Sh R W Bs ms g ->
  (forall i x, nth_error ths i = Some x -> safe Sh (R i) (W i) (Q i) x (Bs i) (ms i)) ->
  threads_end ths g (fun rs g' => exists Bs' ms', arranged (length ths) Sh R W Bs' ms' g' /\ length rs = length ths /\
    (forall i r, nth_error rs i = Some r -> Q i r (Bs' i) (ms' i)) /\
    (forall p, within Sh p -> cell g' p = cell g p \/ exists i, (i < length ths)%nat /\ W i p)).
Proof. exact @tables_threads_l. Qed.
Print Assumptions threads_with_tables.

(** At the start all blocks are shared. *)
Theorem all_shared_at_the_start : forall (T : Type) n (g : mem T) R W, separate n R W ->
  (forall i p, (i < n)%nat -> R i p \/ W i p -> within (fun b => (b < length g)%nat) p) ->
  arranged n (fun b => (b < length g)%nat) R W (fun _ => []) (fun _ => g) g.
Proof. exact @arranged_start. Qed.
Print Assumptions all_shared_at_the_start.

(** What the operations of a thread do when nobody interrupts them: exactly what the rest of the model says. *)
Theorem table_calls_alone : forall (T A : Type) (m : mem T) ss st sh given source c d (x : act T A),
  talone (t_make ss st sh given source) m = (r <- make_table m ss st sh given source ;; Ok (snd r, fst r)) /\
  talone (t_copy c) m = (r <- copy_table m c ;; Ok (snd r, fst r)) /\
  talone (t_assign d c) m = (r <- assign_table m d c ;; Ok (snd r, fst r)) /\
  talone (t_drop c) m = (m' <- release m (c_data c) ;; Ok (tt, m')) /\
  talone (lift x) m = alone x m.
Proof.
  exact (fun T A m ss st sh given source c d x => conj (al_make ss st sh given source m) (conj (al_like c c m)
    (conj (al_assign d c m) (conj (al_drop c m) (talone_lift x m))))).
Qed.
Print Assumptions table_calls_alone.
Theorem one_after_the_other_alone : forall (T A A' : Type) (x : tact T A) (f : A -> tact T A') m,
  talone (tbind x f) m = (r <- talone x m ;; talone (f (fst r)) (snd r)).
Proof. exact @talone_bind. Qed.
Print Assumptions one_after_the_other_alone.

(** The steps of a thread that nobody interrupts are these: each leads to the same end, is undefined when the whole is, and only
    a call that has ended makes none. *)
Theorem steps_alone : forall (T A : Type) (x : tact T A) m,
  match tadvance x m with
  | None => exists r, x = End r
  | Some (Ok (x', m')) => talone x m = talone x' m'
  | Some UB => talone x m = UB
  | Some _ => False
  end.
Proof.
  intros T A x m. destruct x as [r|p k|p k|p v k|n k|p k]; cbn [tadvance talone].
  - exists r. reflexivity.
  - destruct (validb m p); reflexivity.
  - unfold load. destruct (cell m p) as [[v|]|]; reflexivity.
  - unfold store. destruct (validb m p); reflexivity.
  - destruct (alloc m n) as [m' q]. reflexivity.
  - destruct (release m p) as [m'| | |] eqn:E; cbn [bind]; try reflexivity; unfold release in E; destruct p as [|b [| |]]; try discriminate; destruct (nth_error m b) as [[?|]|]; discriminate.
Qed.
Print Assumptions steps_alone.

(** What a thread may do: one operation after the other, ... *)
Theorem safe_sequence : forall (T A A' : Type) Sh R W (Q : A' -> list nat -> mem T -> Prop) (x : tact T A) (f : A -> tact T A') B m,
  safe Sh R W (fun a B' m' => safe Sh R W Q (f a) B' m') x B m -> safe Sh R W Q (tbind x f) B m.
Proof. exact @safe_then. Qed.
Print Assumptions safe_sequence.
(** ... a call of [Threads] that keeps to memory of its own, ... *)
Theorem safe_call : forall (T A : Type) Sh R W (Q : A -> list nat -> mem T -> Prop) R' W' (x : act T A) B, touches R' W' x ->
  (forall p, R' p -> R p \/ W p \/ owned B p) -> (forall p, W' p -> W p \/ owned B p) ->
  forall m a m', alone x m = Ok (a, m') -> Q a B m' -> safe Sh R W Q (lift x) B m.
Proof. exact @safe_call_l. Qed.
Print Assumptions safe_call.
(** ... make a table, ... *)
Theorem safe_make : forall (T : Type) Sh R W (Q : container -> list nat -> mem T -> Prop) ss sh B m, legal sh -> sh <> [] ->
  (forall t B' m', c_shape t = sh -> new_table Sh B m t B' m' -> Q t B' m') ->
  safe Sh R W Q (t_make ss ss sh None None) B m.
Proof. exact @safe_make_l. Qed.
Print Assumptions safe_make.
(** ... copy a table that nobody writes meanwhile, ... *)
Theorem safe_copy : forall (T : Type) Sh R W (Q : container -> list nat -> mem T -> Prop) c B m, default_layout c -> readable m c ->
  (forall p, elements c c p -> R p \/ W p \/ owned B p) -> (forall p, R p \/ W p -> within Sh p) ->
  (forall t B' m', c_shape t = c_shape c -> c_kind t = c_kind c -> new_table Sh B m t B' m' ->
     (forall is_ v, in_box (dims c) is_ -> value m c is_ v -> value m' t is_ v) -> Q t B' m') ->
  safe Sh R W Q (t_copy c) B m.
Proof. exact @safe_copy_l. Qed.
Print Assumptions safe_copy.
(** ... destroy a table of its own, ... *)
Theorem safe_drop : forall (T : Type) Sh R W (Q : unit -> list nat -> mem T -> Prop) t B m, releasable m B t ->
  (forall B' m', (forall b, In b B' <-> In b B /\ ~ In b (table_blocks t)) ->
     (forall p, ~ owned (table_blocks t) p -> cell m' p = cell m p) -> Q tt B' m') ->
  safe Sh R W Q (t_drop t) B m.
Proof. exact @safe_drop_l. Qed.
Print Assumptions safe_drop.
(** ... and assign to one of its own a table that nobody writes meanwhile. *)
Theorem safe_assign : forall (T : Type) Sh R W (Q : container -> list nat -> mem T -> Prop) dst src B m,
  default_layout dst -> default_layout src ->
  c_kind dst = c_kind src -> c_kind dst <> KStatic -> releasable m B dst -> readable m src ->
  (forall p, elements src src p -> R p \/ W p \/ owned B p) -> (forall p, R p \/ W p -> within Sh p) ->
  (forall t B1 m1 B' m', c_shape t = c_shape src -> new_table Sh B m t B1 m1 ->
     (forall is_ v, in_box (dims src) is_ -> value m src is_ v -> value m1 t is_ v) ->
     (forall b, In b B' <-> In b B1 /\ ~ In b (table_blocks dst)) -> (forall p, ~ owned (table_blocks dst) p -> cell m' p = cell m1 p) ->
     Q t B' m') ->
  safe Sh R W Q (t_assign dst src) B m.
Proof. exact @safe_assign_l. Qed.
Print Assumptions safe_assign.

(** Any number of threads with tables of their own: copies of containers that any of them reads, tables they make, copies
    they assign to. All of them return what they compute alone, and the memory is in the end what it was, every block released. *)
Theorem threads_with_tables_of_their_own : forall (T A : Type) (g : mem T) (ths : list (tact T A)) rs, Forall2 (job g) ths rs ->
  threads_end ths g (fun rs' g' => rs' = rs /\ forall p, cell g' p = cell g p).
Proof. exact @jobs_l. Qed.
Print Assumptions threads_with_tables_of_their_own.

(** Any number of threads that return a table they made from a container, the same for all or not: the tables have no element in
    common with one another nor with what was there, and hold what the threads computed. *)
Theorem tables_made_in_threads : forall (T : Type) (g : mem T) (js : list ((list T -> T) * container)) (vs : nat -> list T),
  (forall i f c, nth_error js i = Some (f, c) -> default_layout c /\ values g c c (vs i)) ->
  threads_end (map (fun j => maker (fst j) (snd j)) js) g (fun ts g' =>
    length ts = length js /\
    (forall i f c t, nth_error js i = Some (f, c) -> nth_error ts i = Some t ->
       c_shape t = c_shape c /\ default_layout t /\ values g' t t (map (fun v => f [v]) (vs i)) /\
       forall p, elements t t p -> ~ valid g p) /\
    (forall i j t u p, i <> j -> nth_error ts i = Some t -> nth_error ts j = Some u -> elements t t p -> ~ elements u u p) /\
    forall p, valid g p -> cell g' p = cell g p).
Proof. exact @makers_l. Qed.
Print Assumptions tables_made_in_threads.

(** Not so when a thread destroys or assigns to a table that another one uses, whatever the threads return. *)
Definition tab : container := Cn K1 [int 2] [] (Ptr 0 0).
Definition tab_mem : mem Z := [Some (map Some [7; 8])].
Definition dropping (c : container) : tact Z Z := _ <== t_drop c ;; End (Ok 0).
Definition assigning (d c : container) : tact Z Z := _ <== t_assign d c ;; End (Ok 0).
Ltac race_at i j := exists i, j; do 2 eexists; exists (Ptr 0 0), (Ptr 0 0); split; [discriminate|]; split; [reflexivity|]; split; [reflexivity|]; right;
  split; [eexists; reflexivity|]; split; [reflexivity|].
Theorem table_destroyed_in_use_refuted :
  (exists r, talone (lift (a_reduce tab Z.add 0)) tab_mem = Ok r) /\ (exists r, talone (dropping tab) tab_mem = Ok r) /\
  (exists s, tplay [1]%nat ([lift (a_reduce tab Z.add 0); dropping tab], tab_mem) = Some s /\ tundefined s) /\
  forall Q, ~ threads_end [lift (a_reduce tab Z.add 0); dropping tab] tab_mem Q.
Proof.
  split; [eexists; vm_compute; reflexivity|]. split; [eexists; vm_compute; reflexivity|]. split.
  - eexists. split; [vm_compute; reflexivity|]. exists 0%nat. do 2 eexists. split; [reflexivity|]. split; [vm_compute; reflexivity|]. discriminate.
  - intros Q. apply (not_together _ _ [] _ Q eq_refl). left. race_at 1%nat 0%nat.
    first [left; eexists; vm_compute; reflexivity|right; left; eexists; vm_compute; reflexivity].
Qed.
Print Assumptions table_destroyed_in_use_refuted.
Theorem table_destroyed_twice_refuted :
  (exists s, tplay [0]%nat ([dropping tab; dropping tab], tab_mem) = Some s /\ tundefined s) /\
  forall Q, ~ threads_end [dropping tab; dropping tab] tab_mem Q.
Proof.
  split.
  - eexists. split; [vm_compute; reflexivity|]. exists 1%nat. do 2 eexists. split; [reflexivity|]. split; [vm_compute; reflexivity|]. discriminate.
  - intros Q. apply (not_together _ _ [] _ Q eq_refl). left. race_at 1%nat 0%nat. right. right. right. eexists. reflexivity.
Qed.
Print Assumptions table_destroyed_twice_refuted.
(** The assignment of a table to itself by a thread while another one reads it. *)
Theorem table_assigned_in_use_refuted :
  (exists r, talone (assigning tab tab) tab_mem = Ok r) /\
  forall Q, ~ threads_end [lift (a_reduce tab Z.add 0); assigning tab tab] tab_mem Q.
Proof.
  split; [eexists; vm_compute; reflexivity|].
  intros Q. eapply (not_together _ _ [1; 1; 1; 1; 1]%nat); [vm_compute; reflexivity|]. left. race_at 1%nat 0%nat.
  first [left; eexists; reflexivity|right; left; eexists; reflexivity].
Qed.
Print Assumptions table_assigned_in_use_refuted.

(** ** Examples *)
Example tab_layout : default_layout tab /\ values tab_mem tab tab [7; 8].
Proof. split; [by_default false|]. repeat constructor. Qed.
(** Three threads: twice the elements of a copy are added; a table of six threes is added; a copy is assigned a copy. *)
Definition three : list (tact Z Z) :=
  [worker (fun l => 2 * hd 0 l) Z.add 0 tab; filler false [int 2; int 3] 3 Z.add 0; assigner Z.mul 1 tab tab].
Example three_jobs : Forall2 (job tab_mem) three [30; 18; 56].
Proof.
  destruct tab_layout as [D V]. constructor; [exact (job_worker tab_mem _ _ 0 tab [7; 8] D V)|].
  constructor; [refine (job_filler tab_mem false [int 2; int 3] 3 Z.add 0 _ _); [by_check|discriminate]|].
  constructor; [exact (job_assigner tab_mem Z.mul 1 tab tab _ _ D D eq_refl ltac:(discriminate) V V)|constructor].
Qed.
Example three_end : threads_end three tab_mem (fun rs g => rs = [30; 18; 56] /\ forall p, cell g p = cell tab_mem p).
Proof. exact (threads_with_tables_of_their_own Z Z tab_mem three _ three_jobs). Qed.
(** One order of their turns: thread 2 first, then one turn each in a circle. *)
Example three_play : exists s,
  tplay (repeat 2 7 ++ concat (repeat [0; 1] 18) ++ [1; 1; 1; 1] ++ concat (repeat [1; 2] 4) ++ repeat 2 5)%nat (three, tab_mem) = Some s /\
  treturned s [30; 18; 56] /\ snd s = [Some (map Some [7; 8]); None; None; None; None].
Proof.
  eexists. split; [vm_compute; reflexivity|]. split; [repeat constructor|vm_compute; reflexivity].
Qed.
(** The rules are met by a thread that copies the table and returns the copy. *)
Example safe_ex : safe (fun b => (b < 1)%nat) (elements tab tab) nothing
  (fun t B m => B = table_blocks t /\ values m t t [7; 8]) (t_copy tab) [] tab_mem.
Proof.
  destruct tab_layout as [D V]. apply safe_copy; [exact D| | | |].
  - exact (values_readable _ _ _ V).
  - auto.
  - intros p [(is_ & B & ->)|[]]. exact Nat.lt_0_1.
  - intros t B m Es _ (_ & EB & _) Vt. rewrite app_nil_r in EB. split; [exact EB|].
    assert (Ed : dims t = dims tab) by (unfold dims; rewrite Es; reflexivity).
    exact (values_map tab_mem m tab t (fun v => v) [7; 8] V Ed Vt).
Qed.
Example arranged_ex : arranged 2 (fun b => (b < length tab_mem)%nat) (fun _ => elements tab tab) (fun _ => nothing) (fun _ => []) (fun _ => tab_mem) tab_mem.
Proof.
  apply all_shared_at_the_start; [intros i j p _ _ _ []|]. intros i p _ [(is_ & B & ->)|[]]. exact Nat.lt_0_1.
Qed.
(** Two threads make tables from the same one. *)
Example two_makers : threads_end [maker (fun l => hd 0 l + 1) tab; maker (fun l => hd 0 l * 10) tab] tab_mem (fun ts g =>
  exists t u, ts = [t; u] /\ values g t t [8; 9] /\ values g u u [70; 80] /\ values g tab tab [7; 8] /\
    forall p, elements t t p -> ~ elements u u p).
Proof.
  destruct tab_layout as [D V].
  destruct (tables_made_in_threads Z tab_mem [(fun l => hd 0 l + 1, tab); (fun l => hd 0 l * 10, tab)] (fun _ => [7; 8])) as (N & HN).
  - intros [|[|[|i]]] f c E; try discriminate; injection E as <- <-; auto.
  - exists N. intros n s Tn. destruct (HN n s Tn) as (H1 & H2 & H3 & H4). do 3 (split; [assumption|]).
    destruct H4 as [H4|(ts & Rt & Ln & Ht & Hd & Kp)]; [left; exact H4|right]. exists ts. split; [exact Rt|].
    destruct ts as [|t [|u [|]]]; try discriminate. exists t, u. split; [reflexivity|].
    destruct (Ht 0%nat _ _ t eq_refl eq_refl) as (_ & _ & V1 & _). destruct (Ht 1%nat _ _ u eq_refl eq_refl) as (_ & _ & V2 & _).
    split; [exact V1|]. split; [exact V2|]. split; [|intros p; apply (Hd 0%nat 1%nat t u p); auto].
    apply (values_map tab_mem (snd s) tab tab (fun v => v) [7; 8] V eq_refl). intros is_ v B Hv. unfold value, peek in *.
    rewrite Kp; [exact Hv|]. unfold valid. destruct (cell tab_mem (elem tab is_)); [discriminate|discriminate Hv].
Qed.
