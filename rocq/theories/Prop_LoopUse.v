(** Property C106: loops whose callables use containers. *)
From Coq Require Import ZArith List Bool Lia Sorted.
From Verif Require Import Outcome CInt CIntFacts Spec SpecFacts ShapeSpec Shape ShapeFacts ShapeFacts2 Memory MemFacts
  Container ContainerSpec ContainerFacts ContainerFacts2 ContainerFacts3 Algo AlgoSpec AlgoFacts4 Slicer UsesSpec UsesFacts2 LoopUse LoopUseSpec LoopUseFacts LoopUseFacts2.
Import ListNotations.
Open Scope Z_scope.

(** A loop over a shape that combines, for every coordinate, an element of a container with something that does not depend on
    that container: every element ends as its old value combined with all that was sent to it, in row-major order. *)
Theorem loop_combines : forall (T A : Type) s h at_ az (g : T -> A -> T) k w (m : mem T), wfs s -> nonnegs (vals s) ->
  readable m h -> distinct_on h h -> chooses s h at_ az -> computes s h k w m ->
  exists m', shape_loop (combines h at_ g k) s m = Ok m' /\ frame h h m m' /\
    forall b x cs, in_box (dims h) b -> value m h b x -> in_order s (fun c => az c = b) cs -> value m' h b (fold_left g (map w cs) x).
Proof. exact (fun T A => @combine_l T A). Qed.
Print Assumptions loop_combines.

(** A loop that stores: an element is what was sent to it last, and as before if nothing was. *)
Theorem loop_stores : forall (T : Type) s h at_ az k w (m : mem T), wfs s -> nonnegs (vals s) ->
  writable m h -> distinct_on h h -> chooses s h at_ az -> computes s h k w m ->
  exists m', shape_loop (stores h at_ k) s m = Ok m' /\ frame h h m m' /\
    (forall c, in_box (vals s) c -> (forall c', in_box (vals s) c' -> lex c c' -> az c' <> az c) -> value m' h (az c) (w c)) /\
    (forall b, in_box (dims h) b -> (forall c, in_box (vals s) c -> az c <> b) -> cell m' (elem h b) = cell m (elem h b)).
Proof. exact (fun T => @store_l T). Qed.
Print Assumptions loop_stores.

(** for_each_index is the loop over the shape whose callable reads the element first. *)
Theorem index_loop_is_shape_loop : forall (T : Type) (f : T -> list cint -> mem T -> outcome (mem T)) c m,
  wfs (c_shape c) -> nonnegs (dims c) ->
  index_loop f c m = shape_loop (fun is_ m => v <- get m c is_ ;; f v is_ m) (c_shape c) m.
Proof. exact (fun T => @index_shape_l T). Qed.
Print Assumptions index_loop_is_shape_loop.

(** The matrix product: c(i, j) = add(c(i, j), mul(a(i, k), b(k, j))) for all (i, j, k). *)
Theorem matrix_product : forall (T : Type) (add mul : T -> T -> T) n p q a b c (A B : Z -> Z -> T) (m : mem T),
  wfs [n; p; q] -> nonnegs (vals [n; p; q]) -> dims a = [cval n; cval q] -> dims b = [cval q; cval p] -> dims c = [cval n; cval p] ->
  addressable a [cty n; cty q] -> addressable b [cty q; cty p] -> addressable c [cty n; cty p] -> readable m c -> distinct_on c c ->
  (forall i k, in_box (dims a) [i; k] -> value m a [i; k] (A i k)) -> (forall k j, in_box (dims b) [k; j] -> value m b [k; j] (B k j)) ->
  (forall is_, in_box (dims a) is_ -> outside c (elem a is_)) -> (forall is_, in_box (dims b) is_ -> outside c (elem b is_)) ->
  exists m', shape_loop (combines c first2 add (products mul a b)) [n; p; q] m = Ok m' /\ frame c c m m' /\
    forall i j x, in_box (dims c) [i; j] -> value m c [i; j] x ->
      value m' c [i; j] (fold_left (fun s k => add s (mul (A i (Z.of_nat k)) (B (Z.of_nat k) j))) (seq 0 (Z.to_nat (cval q))) x).
Proof. exact (fun T => @product_l T). Qed.
Print Assumptions matrix_product.

(** Transposition: t(j, i) = a(i, j) for all (i, j). *)
Theorem transposition : forall (T : Type) n p a t (m : mem T), wfs [n; p] -> nonnegs (vals [n; p]) ->
  dims a = [cval n; cval p] -> dims t = [cval p; cval n] ->
  addressable a [cty n; cty p] -> addressable t [cty p; cty n] -> readable m a -> writable m t -> distinct_on t t ->
  (forall is_, in_box (dims a) is_ -> outside t (elem a is_)) ->
  exists m', shape_loop (stores t crossed (reading a)) [n; p] m = Ok m' /\ frame t t m m' /\
    forall i j x, in_box (dims a) [i; j] -> value m a [i; j] x -> value m' t [j; i] x.
Proof. exact (fun T => @transpose_l T). Qed.
Print Assumptions transposition.

(** The rows of a container reduced by for_each_index: r(i) = g(r(i), a(i, j)) for all (i, j). *)
Theorem rows_reduced : forall (T : Type) (g : T -> T -> T) n p a r (A : Z -> Z -> T) (m : mem T), c_shape a = [n; p] ->
  wfs [n; p] -> nonnegs (vals [n; p]) ->
  dims r = [cval n] -> addressable a [cty n; cty p] -> addressable r [cty n] -> readable m r -> distinct_on r r ->
  (forall i j, in_box (dims a) [i; j] -> value m a [i; j] (A i j)) -> (forall is_, in_box (dims a) is_ -> outside r (elem a is_)) ->
  exists m', index_loop (fun v is_ => combines r first1 g (fun _ m => Ok (v, m)) is_) a m = Ok m' /\ frame r r m m' /\
    forall i x, in_box (dims r) [i] -> value m r [i] x ->
      value m' r [i] (fold_left (fun s j => g s (A i (Z.of_nat j))) (seq 0 (Z.to_nat (cval p))) x).
Proof. exact (fun T => @rows_l T). Qed.
Print Assumptions rows_reduced.

(** An algorithm called by the callable, on a slice: r(i) = reduce(init, a(i, _), f) for all i, and the same for columns. *)
Theorem rows_by_slices : forall (T : Type) dbg (f : T -> T -> T) init n p a r (A : Z -> Z -> T) (m : mem T),
  default_layout a -> c_shape a = [n; p] -> 0 < cval p ->
  (dbg = true -> promote (cty n) = cty n) -> dims r = [cval n] -> addressable r [cty n] -> writable m r -> distinct_on r r ->
  (forall i j, in_box (dims a) [i; j] -> value m a [i; j] (A i j)) -> (forall is_, in_box (dims a) is_ -> outside r (elem a is_)) ->
  exists m', shape_loop (stores r (fun is_ => is_) (reducing dbg a row f init)) [n] m = Ok m' /\ frame r r m m' /\
    forall i, in_box (dims r) [i] -> value m' r [i] (fold_left (fun s j => f s (A i (Z.of_nat j))) (seq 0 (Z.to_nat (cval p))) init).
Proof. exact (fun T => @rows_slices_l T). Qed.
Print Assumptions rows_by_slices.
Theorem columns_by_slices : forall (T : Type) dbg (f : T -> T -> T) init n p a r (A : Z -> Z -> T) (m : mem T),
  default_layout a -> c_shape a = [n; p] -> 0 < cval n ->
  (dbg = true -> promote (cty p) = cty p) -> dims r = [cval p] -> addressable r [cty p] -> writable m r -> distinct_on r r ->
  (forall i j, in_box (dims a) [i; j] -> value m a [i; j] (A i j)) -> (forall is_, in_box (dims a) is_ -> outside r (elem a is_)) ->
  exists m', shape_loop (stores r (fun is_ => is_) (reducing dbg a column f init)) [p] m = Ok m' /\ frame r r m m' /\
    forall j, in_box (dims r) [j] -> value m' r [j] (fold_left (fun s i => f s (A (Z.of_nat i) j)) (seq 0 (Z.to_nat (cval n))) init).
Proof. exact (fun T => @columns_slices_l T). Qed.
Print Assumptions columns_by_slices.

(** A callable that only reads, and nothing of the container written, computes what it gives at the start. *)
Theorem reads_compute : forall (T A : Type) s h (k : list cint -> mem T -> outcome (A * mem T)) w m,
  (forall is_, shape_coord s is_ -> reads (outside h) (k is_) /\ exists m2, k is_ m = Ok (w (vals is_), m2)) -> computes s h k w m.
Proof. exact (fun T A s h k w m H is_ m1 C E => let '(conj R (ex_intro _ m2 K)) := H is_ C in proj2 (R m m1 _ _ E K)). Qed.
Print Assumptions reads_compute.

(** Tables without strides, in blocks of their own, are such containers. *)
Theorem tables_suit : forall a c tys, default_layout a -> default_layout c -> c_data c <> Null -> ~ same_block (c_data a) (c_data c) ->
  addressable a tys /\ addressable c tys /\ distinct_on c c /\ forall is_, in_box (dims a) is_ -> outside c (elem a is_).
Proof.
  exact (fun a c tys Da Dc N H => conj (default_addressable a tys Da) (conj (default_addressable c tys Dc)
    (conj (default_distinct c Dc N) (fun is_ _ => apart_l a c is_ N H)))).
Qed.
Print Assumptions tables_suit.

(** ** Examples *)
Definition a23 : container := Cn K2 [int 2; int 3] [] (Ptr 0 0).
Definition b32 : container := Cn K2 [int 3; int 2] [] (Ptr 1 0).
Definition c22 : container := Cn K2 [int 2; int 2] [] (Ptr 2 0).
Definition r2 : container := Cn K1 [int 2] [] (Ptr 2 0).
Definition three : mem Z := [Some (map Some [1; 2; 3; 4; 5; 6]); Some (map Some [1; 0; 2; 1; 0; 3]); Some (map Some [100; 200; 300; 400])].
Lemma a23_default : default_layout a23. Proof. by_default false. Qed.
Lemma b32_default : default_layout b32. Proof. by_default false. Qed.
Lemma c22_default : default_layout c22. Proof. by_default false. Qed.
Lemma r2_default : default_layout r2. Proof. by_default false. Qed.

Example product_ex : shape_loop (combines c22 first2 Z.add (products Z.mul a23 b32)) [int 2; int 2; int 3] three =
  Ok [Some (map Some [1; 2; 3; 4; 5; 6]); Some (map Some [1; 0; 2; 1; 0; 3]); Some (map Some [105; 211; 314; 423])].
Proof. vm_compute. reflexivity. Qed.
Example product_holds : wfs [int 2; int 2; int 3] /\ nonnegs (vals [int 2; int 2; int 3]) /\
  addressable a23 [I32; I32] /\ addressable b32 [I32; I32] /\ addressable c22 [I32; I32] /\ readable three c22 /\ distinct_on c22 c22 /\
  (forall i k, in_box (dims a23) [i; k] -> value three a23 [i; k] (3 * i + k + 1)) /\
  (forall is_, in_box (dims a23) is_ -> outside c22 (elem a23 is_)) /\ (forall is_, in_box (dims b32) is_ -> outside c22 (elem b32 is_)).
Proof.
  split; [do 3 (constructor; [vm_compute; split; discriminate|]); constructor|].
  split; [do 3 (constructor; [cbn; lia|]); constructor|].
  split; [apply default_addressable, a23_default|]. split; [apply default_addressable, b32_default|]. split; [apply default_addressable, c22_default|].
  split; [by_box|]. split; [apply default_distinct; [apply c22_default|discriminate]|]. split.
  - intros i k B. assert (E : (i = 0 \/ i = 1) /\ (k = 0 \/ k = 1 \/ k = 2)).
    { inversion B as [|? ? ? ? B1 Bs]; subst. inversion Bs as [|? ? ? ? B2 _]; subst. cbn in B1, B2. lia. }
    destruct E as [[-> | ->] [-> |[-> | ->]]]; reflexivity.
  - split; intros is_ _ js _ E; discriminate E.
Qed.
Example transposition_ex : shape_loop (stores b32 crossed (reading a23)) [int 2; int 3] three =
  Ok [Some (map Some [1; 2; 3; 4; 5; 6]); Some (map Some [1; 4; 2; 5; 3; 6]); Some (map Some [100; 200; 300; 400])].
Proof. vm_compute. reflexivity. Qed.
Example transposition_holds : readable three a23 /\ writable three b32 /\ distinct_on b32 b32 /\
  (forall is_, in_box (dims a23) is_ -> outside b32 (elem a23 is_)).
Proof.
  split; [by_box|]. split; [by_box|]. split; [apply default_distinct; [apply b32_default|discriminate]|]. intros is_ _ js _ E; discriminate E.
Qed.
Example rows_ex : index_loop (fun v is_ => combines r2 first1 Z.add (fun _ m => Ok (v, m)) is_) a23 three =
  Ok [Some (map Some [1; 2; 3; 4; 5; 6]); Some (map Some [1; 0; 2; 1; 0; 3]); Some (map Some [106; 215; 300; 400])].
Proof. vm_compute. reflexivity. Qed.
Example rows_hold : c_shape a23 = [int 2; int 3] /\ addressable r2 [I32] /\ readable three r2 /\ distinct_on r2 r2 /\
  (forall is_, in_box (dims a23) is_ -> outside r2 (elem a23 is_)).
Proof.
  split; [reflexivity|]. split; [apply default_addressable, r2_default|]. split; [by_box|]. split; [apply default_distinct; [apply r2_default|discriminate]|].
  intros is_ _ js _ E; discriminate E.
Qed.
Definition r3 : container := Cn K1 [int 3] [] (Ptr 2 0).
Example slices_ex :
  shape_loop (stores r2 (fun is_ => is_) (reducing true a23 row Z.add 0)) [int 2] three =
    Ok [Some (map Some [1; 2; 3; 4; 5; 6]); Some (map Some [1; 0; 2; 1; 0; 3]); Some (map Some [6; 15; 300; 400])] /\
  shape_loop (stores r3 (fun is_ => is_) (reducing true a23 column Z.add 0)) [int 3] three =
    Ok [Some (map Some [1; 2; 3; 4; 5; 6]); Some (map Some [1; 0; 2; 1; 0; 3]); Some (map Some [5; 7; 9; 400])].
Proof. split; vm_compute; reflexivity. Qed.
(** Two loops sending to the same element: the last of the row remains. *)
Example last_ex : shape_loop (stores r2 first1 (reading a23)) [int 2; int 3] three =
  Ok [Some (map Some [1; 2; 3; 4; 5; 6]); Some (map Some [1; 0; 2; 1; 0; 3]); Some (map Some [3; 6; 300; 400])].
Proof. vm_compute. reflexivity. Qed.

(** Calls that work on regions of their own: all of them do what each of them does alone, and nothing else changes. *)
Theorem independent_calls : forall (T : Type) s R Q (f : list cint -> mem T -> outcome (mem T)) m, wfs s -> nonnegs (vals s) -> independent s R Q f m ->
  exists m', shape_loop f s m = Ok m' /\ same_cells m m' /\ (forall p, (forall c, in_box (vals s) c -> ~ R c p) -> cell m' p = cell m p) /\
    forall c, in_box (vals s) c -> Q c m'.
Proof. exact (fun T => @independent_l T). Qed.
Print Assumptions independent_calls.

(** Algorithms that write into the rows: fill(a(i, _), w(i)) for all i, and inclusive_scan(a(i, _), a(i, _), init, g) for all i. *)
Theorem rows_filled : forall (T : Type) dbg n p a (w : list Z -> T) (m : mem T),
  default_layout a -> c_shape a = [n; p] -> 0 < cval p -> c_data a <> Null -> writable m a -> (dbg = true -> promote (cty n) = cty n) ->
  exists m', shape_loop (filling dbg a w) [n] m = Ok m' /\ frame a a m m' /\
    forall i j, in_box (dims a) [i; j] -> value m' a [i; j] (w [i]).
Proof. exact (fun T => @fill_rows_l T). Qed.
Print Assumptions rows_filled.
Theorem rows_scanned : forall (T : Type) dbg n p a (g : T -> T -> T) init (A : Z -> Z -> T) (m : mem T),
  default_layout a -> c_shape a = [n; p] -> 0 < cval p -> c_data a <> Null ->
  (forall i j, in_box (dims a) [i; j] -> value m a [i; j] (A i j)) -> (dbg = true -> promote (cty n) = cty n) ->
  exists m', shape_loop (scanning dbg a g init) [n] m = Ok m' /\ frame a a m m' /\
    forall i j, in_box (dims a) [i; j] -> value m' a [i; j] (fold_left (fun s k => g s (A i (Z.of_nat k))) (seq 0 (Z.to_nat j + 1)) init).
Proof. exact (fun T => @scan_rows_l T). Qed.
Print Assumptions rows_scanned.
Example written_rows_ex :
  shape_loop (filling true a23 (fun c => 10 * hd 0 c + 7)) [int 2] three =
    Ok [Some (map Some [7; 7; 7; 17; 17; 17]); Some (map Some [1; 0; 2; 1; 0; 3]); Some (map Some [100; 200; 300; 400])] /\
  shape_loop (scanning true a23 Z.add 0) [int 2] three =
    Ok [Some (map Some [1; 3; 6; 4; 9; 15]); Some (map Some [1; 0; 2; 1; 0; 3]); Some (map Some [100; 200; 300; 400])].
Proof. split; vm_compute; reflexivity. Qed.
Example written_rows_hold : default_layout a23 /\ c_shape a23 = [int 2; int 3] /\ c_data a23 <> Null /\ writable three a23 /\
  (forall i j, in_box (dims a23) [i; j] -> value three a23 [i; j] (3 * i + j + 1)) /\ promote (cty (int 2)) = cty (int 2).
Proof.
  split; [apply a23_default|]. split; [reflexivity|]. split; [discriminate|]. split; [by_box|]. split; [|reflexivity].
  intros i j B. inversion B as [|? ? x ? B1 Bs]; subst. inversion Bs as [|? ? y ? B2 _]; subst. cbn in B1, B2.
  assert (Ei : i = 0 \/ i = 1) by lia. assert (Ej : j = 0 \/ j = 1 \/ j = 2) by lia.
  destruct Ei as [-> | ->], Ej as [-> |[-> | ->]]; reflexivity.
Qed.
(** The regions of the calls above are the rows. *)
Example independent_ex : independent [int 2] (in_row a23 3) (filled a23 3 (fun c => 10 * hd 0 c + 7)) (filling true a23 (fun c => 10 * hd 0 c + 7)) three.
Proof. apply (fill_independent true (int 2) (int 3) a23); [apply a23_default|reflexivity|cbn; lia|discriminate|by_box|reflexivity]. Qed.

(** A container transposed into itself in this way is not: elements already replaced are read. *)
Theorem transposition_in_place_refuted : exists a (m m' : mem Z) i j x, default_layout a /\ readable m a /\ dims a = [2; 2] /\
  shape_loop (stores a crossed (reading a)) [int 2; int 2] m = Ok m' /\ in_box (dims a) [i; j] /\ value m a [i; j] x /\ ~ value m' a [j; i] x.
Proof.
  exists c22, three. eexists. exists 1, 0, 300. split; [apply c22_default|]. split; [by_box|]. split; [reflexivity|].
  split; [vm_compute; reflexivity|]. split; [do 2 (constructor; [cbn; lia|]); constructor|]. split; [reflexivity|]. intros E. discriminate E.
Qed.
Print Assumptions transposition_in_place_refuted.

(** In debug builds the rows of a container that has only empty rows cannot be taken, although the loop over its elements works. *)
Theorem empty_rows_refuted : exists a r (m : mem Z), default_layout a /\ dims a = [2; 0] /\ default_layout r /\ dims r = [2] /\ writable m r /\
  shape_loop (stores r (fun is_ => is_) (reducing true a row Z.add 0)) [int 2] m = Abort /\
  index_loop (fun v is_ => combines r first1 Z.add (fun _ m => Ok (v, m)) is_) a m = Ok m.
Proof.
  exists (Cn K2 [int 2; int 0] [] (Ptr 0 0)), r2, three. split; [by_default false|]. split; [reflexivity|]. split; [apply r2_default|].
  split; [reflexivity|]. split; [by_box|]. split; vm_compute; reflexivity.
Qed.
Print Assumptions empty_rows_refuted.
