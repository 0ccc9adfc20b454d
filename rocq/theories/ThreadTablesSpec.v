(** Specification vocabulary for threads that make and destroy tables: who owns which memory. *)
From Coq Require Import ZArith List.
From Verif Require Import Outcome CInt Spec ShapeSpec Shape Memory Container ContainerSpec AlgoSpec Threads ThreadsSpec ThreadTables.
Import ListNotations.
Open Scope Z_scope.

(** The cells of some blocks. *)
Definition within (bs : nat -> Prop) (p : ptr) : Prop := match p with Ptr b _ => bs b | Null => False end.
Definition owned (bs : list nat) (p : ptr) : Prop := within (fun b => In b bs) p.
Definition alive {T} (m : mem T) (b : nat) : Prop := exists cs, nth_error m b = Some (Some cs).

(** A data race: two threads about to access the same element, at least one of them to write it; or a thread about to
    release a block another one is about to access or to release. *)
Definition uses {T A} (x : tact T A) (p : ptr) : Prop :=
  (exists k, x = Form p k) \/ (exists k, x = Load p k) \/ (exists v k, x = Store p v k) \/ (exists k, x = Delete p k).
Definition tables_race {T A} (s : tstate T A) : Prop :=
  exists i j x y p q, i <> j /\ nth_error (fst s) i = Some x /\ nth_error (fst s) j = Some y /\
    (((exists v k, x = Store p v k) /\ p = q /\ ((exists k, y = Load q k) \/ exists v k, y = Store q v k)) \/
     ((exists k, x = Delete p k) /\ same_block p q /\ uses y q)).
Definition tundefined {T A} (s : tstate T A) : Prop :=
  exists i x o, nth_error (fst s) i = Some x /\ tadvance x (snd s) = Some o /\ forall r, o <> Ok r.
Definition treturned {T A} (s : tstate T A) (rs : list A) : Prop := Forall2 (fun x r => x = End (Ok r)) (fst s) rs.

(** In every order of the turns: no data race, nothing undefined; there are not more turns than some number, and until all
    threads returned one of them can go on; when they have, the results and the memory satisfy [Q]. *)
Definition threads_end {T A} (ths : list (tact T A)) (m : mem T) (Q : list A -> mem T -> Prop) : Prop :=
  exists N, forall n s, tturns n (ths, m) s ->
    ~ tables_race s /\ ~ tundefined s /\ (n <= N)%nat /\
    ((exists s', tturn s s') \/ (exists rs, treturned s rs /\ Q rs (snd s))).

(** Memory [m] with a new block of number [b], of [n] elements without value. *)
Definition place {T} (m : mem T) (b : nat) (n : Z) : mem T :=
  set_nth (m ++ repeat None (S b - length m)) b (Some (repeat None (Z.to_nat n))).

(** What a thread may do. It reads the cells of [R], reads and writes those of [W], all of them in the blocks [Sh] that
    are there for as long as the threads run; and does what it likes with the blocks it got itself, [B]. [m] is the memory as
    it knows it. Whatever the number of a new block, all of it ends, and then [Q] holds. *)
Inductive safe {T A} (Sh : nat -> Prop) (R W : ptr -> Prop) (Q : A -> list nat -> mem T -> Prop)
  : tact T A -> list nat -> mem T -> Prop :=
| safe_end a B m : Q a B m -> safe Sh R W Q (End (Ok a)) B m
| safe_form p k B m : valid m p -> safe Sh R W Q k B m -> safe Sh R W Q (Form p k) B m
| safe_load p k B m v : R p \/ W p \/ owned B p -> peek m p = Some v -> safe Sh R W Q (k v) B m -> safe Sh R W Q (Load p k) B m
| safe_store p v k B m : W p \/ owned B p -> valid m p -> safe Sh R W Q k B (upd m p v) -> safe Sh R W Q (Store p v k) B m
| safe_new n k B m : 0 < n -> (forall b, ~ Sh b -> ~ In b B -> safe Sh R W Q (k (Ptr b 0)) (b :: B) (place m b n)) ->
    safe Sh R W Q (New n k) B m
| safe_delete b k B m : In b B -> valid m (Ptr b 0) -> safe Sh R W Q k (remove Nat.eq_dec b B) (set_nth m b None) ->
    safe Sh R W Q (Delete (Ptr b 0) k) B m.

(** [n] threads, the memory [g], and for each thread the blocks it owns and the memory as it knows it. *)
Definition arranged {T} (n : nat) (Sh : nat -> Prop) (R W : nat -> ptr -> Prop) (Bs : nat -> list nat) (ms : nat -> mem T) (g : mem T) : Prop :=
  (* nobody writes what another one reads or writes *)
  separate n R W /\ (forall i p, (i < n)%nat -> R i p \/ W i p -> within Sh p) /\
  (* every block is shared by all or has one owner *)
  (forall i b, (i < n)%nat -> In b (Bs i) -> ~ Sh b) /\
  (forall i j b, (i < n)%nat -> (j < n)%nat -> i <> j -> In b (Bs i) -> ~ In b (Bs j)) /\
  (forall b, Sh b -> (b < length g)%nat) /\ (forall i b, (i < n)%nat -> In b (Bs i) -> (b < length g)%nat) /\
  (forall b, alive g b -> Sh b \/ exists i, (i < n)%nat /\ In b (Bs i)) /\
  (* what the threads know is so *)
  (forall i p, (i < n)%nat -> valid (ms i) p -> within Sh p \/ owned (Bs i) p) /\
  (forall i p, (i < n)%nat -> within Sh p \/ owned (Bs i) p -> (valid (ms i) p <-> valid g p)) /\
  (forall i p, (i < n)%nat -> R i p \/ W i p \/ owned (Bs i) p -> cell (ms i) p = cell g p).

(** The blocks of a table, its memory being allocated as the library does. *)
Definition table_blocks (t : container) : list nat := match c_data t with Ptr b _ => [b] | Null => [] end.
(** A thread that owns the blocks [B] can release [t]. *)
Definition releasable {T} (m : mem T) (B : list nat) (t : container) : Prop :=
  forall b, In b (table_blocks t) -> In b B /\ c_data t = Ptr b 0 /\ valid m (Ptr b 0).
(** [t] is a table made by a thread that owned [B] and knew [m]: it has a block nobody else knows, or none; the thread
    now owns [B'] and knows [m'], where nothing else changed. *)
Definition new_table {T} (Sh : nat -> Prop) (B : list nat) (m : mem T) (t : container) (B' : list nat) (m' : mem T) : Prop :=
  default_layout t /\ B' = table_blocks t ++ B /\ (forall b, In b (table_blocks t) -> ~ Sh b /\ ~ In b B) /\
  releasable m' B' t /\ writable m' t /\ (forall p, elements t t p -> owned (table_blocks t) p) /\
  (forall p, ~ owned (table_blocks t) p -> cell m' p = cell m p).

(** Programs of threads: copy a container, apply a function to all elements of the copy, reduce it and let it go. *)
Definition worker {T A} (f : list T -> T) (op : A -> T -> A) (init : A) (c : container) : tact T A :=
  t <== t_copy c ;;
  _ <== lift (a_transform f t t []) ;;
  r <== lift (a_reduce t op init) ;;
  _ <== t_drop t ;; End (Ok r).
(** Make a new table of some shape, fill it, reduce it and let it go. *)
Definition filler {T A} (st : bool) (sh : shape) (v : T) (op : A -> T -> A) (init : A) : tact T A :=
  t <== t_make st st sh None None ;;
  _ <== lift (a_fill t v) ;; r <== lift (a_reduce t op init) ;; _ <== t_drop t ;; End (Ok r).
(** Copy a container, assign another one to the copy, reduce it and let it go. *)
Definition assigner {T A} (op : A -> T -> A) (init : A) (c d : container) : tact T A :=
  t <== t_copy c ;; t' <== t_assign t d ;; r <== lift (a_reduce t' op init) ;; _ <== t_drop t' ;; End (Ok r).
(** What they are to return. *)
Inductive job {T A} (m : mem T) : tact T A -> A -> Prop :=
| job_worker f op init c vs : default_layout c -> values m c c vs ->
    job m (worker f op init c) (fold_left op (map (fun v => f [v]) vs) init)
| job_filler st sh v op init : legal sh -> sh <> [] ->
    job m (filler st sh v op init) (fold_left op (repeat v (Z.to_nat (prod (vals sh)))) init)
| job_assigner op init c d vs ws : default_layout c -> default_layout d -> c_kind c = c_kind d -> c_kind c <> KStatic ->
    values m c c vs -> values m d d ws -> job m (assigner op init c d) (fold_left op ws init).
(** Copy a container, apply a function to the elements of the copy and return it. *)
Definition maker {T} (f : list T -> T) (c : container) : tact T container :=
  t <== t_copy c ;; _ <== lift (a_transform f t t []) ;; End (Ok t).

(** A given order of the turns, by the number of the thread. *)
Fixpoint tplay {T A} (l : list nat) (s : tstate T A) : option (tstate T A) :=
  match l with
  | [] => Some s
  | i :: r =>
      match nth_error (fst s) i with
      | Some x => match tadvance x (snd s) with
                  | Some (Ok (x', m')) => tplay r (set_nth (fst s) i x', m')
                  | _ => None
                  end
      | None => None
      end
  end.
