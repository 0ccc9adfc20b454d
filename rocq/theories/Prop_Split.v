(** Property C77: cutting a container into slices. *)
From Coq Require Import ZArith List Bool Lia Permutation.
From Verif Require Import Outcome CInt CIntFacts Spec SpecFacts ShapeSpec Shape ShapeFacts ShapeFacts2
  Memory MemFacts Container ContainerSpec ContainerFacts ContainerFacts2 ContainerFacts3 EndRatio Slicer SlicerSpec SlicerFacts3
  Algo AlgoSpec SplitSpec SplitFacts Prop_Slicer.
Import ListNotations.
Open Scope Z_scope.

Theorem tiles_hold_every_element_once : forall (T : Type) (m : mem T) dbg a b c ps,
  default_layout c -> Forall (is_part dbg c) ps -> tiling c ps -> readable m c ->
  exists vs us wss, slices dbg a b c ps = Ok vs /\ values m c c us /\
    Forall2 (fun v ws => can_read m v v /\ values m v v ws) vs wss /\ Permutation us (concat wss).
Proof. exact @tiles_values. Qed.
Print Assumptions tiles_hold_every_element_once.

Theorem tiles_share_no_element : forall (T : Type) (m : mem T) dbg a b c ps i j p q v w,
  default_layout c -> Forall (is_part dbg c) ps -> tiling c ps -> writable m c ->
  nth_error ps i = Some p -> nth_error ps j = Some q -> i <> j ->
  slice_container dbg a b c (cuts p) = Ok v -> slice_container dbg a b c (cuts q) = Ok w ->
  forall x y, in_box (dims v) x -> in_box (dims w) y -> elem v x <> elem w y.
Proof. exact @tiles_disjoint. Qed.
Print Assumptions tiles_share_no_element.

Theorem reduce_over_tiles : forall (T A : Type) (m : mem T) dbg a b c ps (f : A -> T -> A) init,
  default_layout c -> Forall (is_part dbg c) ps -> tiling c ps -> readable m c -> order_free f ->
  exists vs r, slices dbg a b c ps = Ok vs /\ reduce_each vs f init m = Ok (r, m) /\ reduce c f init m = Ok (r, m).
Proof. exact @reduce_tiles. Qed.
Print Assumptions reduce_over_tiles.

Theorem count_over_tiles : forall (T : Type) (m : mem T) dbg a b c ps (f : T -> bool),
  default_layout c -> Forall (is_part dbg c) ps -> tiling c ps -> readable m c ->
  exists vs ns, slices dbg a b c ps = Ok vs /\ Forall2 (fun v n => count_if v f m = Ok (n, m)) vs ns /\
    count_if c f m = Ok (fold_right Z.add 0 ns, m).
Proof. exact @count_tiles. Qed.
Print Assumptions count_over_tiles.

Theorem predicates_over_tiles : forall (T : Type) (m : mem T) dbg a b c ps (f : T -> bool),
  default_layout c -> Forall (is_part dbg c) ps -> tiling c ps -> readable m c ->
  exists vs xs ys, slices dbg a b c ps = Ok vs /\ Forall2 (fun v x => all_of v f m = Ok (x, m)) vs xs /\
    Forall2 (fun v y => any_of v f m = Ok (y, m)) vs ys /\
    all_of c f m = Ok (forallb (fun x => x) xs, m) /\ any_of c f m = Ok (existsb (fun y => y) ys, m).
Proof. exact @all_any_tiles. Qed.
Print Assumptions predicates_over_tiles.

Theorem transform_over_tiles : forall (T : Type) (m : mem T) dbg a b c ps (f : list T -> T),
  default_layout c -> Forall (is_part dbg c) ps -> tiling c ps -> readable m c ->
  exists vs m1 m2, slices dbg a b c ps = Ok vs /\ transform_each f vs m = Ok m1 /\ transform f c c [] m = Ok m2 /\
    forall q, cell m1 q = cell m2 q.
Proof. exact @transform_tiles. Qed.
Print Assumptions transform_over_tiles.

Theorem fill_over_tiles : forall (T : Type) (m : mem T) dbg a b c ps x,
  default_layout c -> Forall (is_part dbg c) ps -> tiling c ps -> writable m c ->
  exists vs m1 m2, slices dbg a b c ps = Ok vs /\ fill_each vs x m = Ok m1 /\ fill c x m = Ok m2 /\
    forall q, cell m1 q = cell m2 q.
Proof. exact @fill_tiles. Qed.
Print Assumptions fill_over_tiles.

(** Four tiles of a table of 4 x 6; even and odd columns. *)
Definition quarters : list part :=
  [Part [first (int 2); first (int 4)] [0; 0] [2; 4] [1; 1];
   Part [first (int 2); drop_first (int 4)] [0; 4] [2; 2] [1; 1];
   Part [drop_first (int 2); first (int 4)] [2; 0] [2; 4] [1; 1];
   Part [drop_first (int 2); drop_first (int 4)] [2; 4] [2; 2] [1; 1]].
Definition odd_columns : slc := SSlice (Some (BInt (int 1))) (Some (int 2)) None None.
Definition parity : list part :=
  [Part [SAll; every (int 2)] [0; 0] [4; 3] [1; 2]; Part [SAll; odd_columns] [0; 1] [4; 3] [1; 2]].
Ltac by_bound := first [reflexivity | split; [apply wfc_int; unfold max31; lia|reflexivity]].
Ltac by_takes :=
  first [exact (takes_all _)
        | refine (takes_length _ None None (BInt (int _)) 0 _ 1 _ _ _ _ _ _); first [by_bound|lia]
        | match goal with |- takes ?n _ ?o ?k ?s =>
            change (takes n (SSlice None (Some (int s)) None None) o (ceil_div (cval n - o) s) s);
            apply (takes_range n None (Some (int s)) None)
          end; first [by_bound|simpl; lia]
        | match goal with |- takes ?n (drop_first ?i) ?o ?k ?s =>
            change (takes n (SSlice (Some (BInt i)) None None None) o (ceil_div (cval n - o) s) s);
            apply (takes_range n (Some (BInt i)) None None)
          end; first [by_bound|simpl; lia]
        | match goal with |- takes ?n odd_columns ?o ?k ?s =>
            change (takes n (SSlice (Some (BInt (int o))) (Some (int s)) None None) o (ceil_div (cval n - o) s) s);
            apply (takes_range n (Some (BInt (int o))) (Some (int s)) None)
          end; first [by_bound|simpl; lia]].
Ltac by_part :=
  split; [|split; [intros _; cbn [cuts]; repeat (constructor; [first [exact I|reflexivity]|]); constructor
                  |cbn [steps]; repeat (constructor; [lia|]); constructor]];
  cbn [cuts starts counts steps];
  split; [by_slicer|]; repeat (apply sliced_cons; [by_takes|unfold inside; cbn; lia|]); apply sliced_nil.
Example quarters_parts : Forall (is_part true sc) quarters.
Proof. repeat (constructor; [by_part|]). constructor. Qed.
Example quarters_tile : tiling sc quarters.
Proof. apply tiling_check. vm_compute. reflexivity. Qed.
Example parity_parts : Forall (is_part true sc) parity.
Proof. repeat (constructor; [by_part|]). constructor. Qed.
Example parity_tiles : tiling sc parity.
Proof. apply tiling_check. vm_compute. reflexivity. Qed.
Example order_free_ex : order_free Z.add. Proof. intros a x y. lia. Qed.
Example tiles_ex :
  (vs <- slices true false false sc quarters ;; reduce_each vs Z.add 0 sm, reduce sc Z.add 0 sm,
   vs <- slices true false false sc parity ;; mapM (fun v => count_if v Z.odd sm) vs)
  = (Ok (276, sm), Ok (276, sm), Ok [(0, sm); (12, sm)]).
Proof. vm_compute. reflexivity. Qed.
Example transform_tiles_ex :
  (vs <- slices true false false sc quarters ;; transform_each (fun l => 2 * fold_left Z.add l 1) vs sm)
  = transform (fun l => 2 * fold_left Z.add l 1) sc sc [] sm.
Proof. vm_compute. reflexivity. Qed.
(** The order matters for other functions, as the tiles do not follow that of the whole. *)
Example order_ex :
  (vs <- slices true false false sc quarters ;; reduce_each vs (fun a x => 3 * a - x) 0 sm) <> reduce sc (fun a x => 3 * a - x) 0 sm.
Proof. vm_compute. discriminate. Qed.

(** Blocks of whole rows keep the order. *)
Theorem blocks_of_rows_are_tiles : forall dbg c n rest l, default_layout c -> c_shape c = n :: rest ->
  Forall (fun n => 0 < cval n) rest -> consecutive n rest 0 l -> (dbg = true -> Forall wide (map fst l)) ->
  Forall (is_part dbg c) (blocks rest 0 l) /\ tiling c (blocks rest 0 l).
Proof. exact blocks_tiling. Qed.
Print Assumptions blocks_of_rows_are_tiles.

Theorem blocks_of_rows_in_order : forall (T : Type) (m : mem T) dbg a b c n rest l, default_layout c -> c_shape c = n :: rest ->
  Forall (fun n => 0 < cval n) rest -> consecutive n rest 0 l -> (dbg = true -> Forall wide (map fst l)) -> readable m c ->
  exists vs us wss, slices dbg a b c (blocks rest 0 l) = Ok vs /\ values m c c us /\
    Forall2 (fun v ws => can_read m v v /\ values m v v ws) vs wss /\ us = concat wss.
Proof. exact @blocks_values. Qed.
Print Assumptions blocks_of_rows_in_order.

Theorem reduce_over_blocks_of_rows : forall (T A : Type) (m : mem T) dbg a b c n rest l (f : A -> T -> A) init,
  default_layout c -> c_shape c = n :: rest ->
  Forall (fun n => 0 < cval n) rest -> consecutive n rest 0 l -> (dbg = true -> Forall wide (map fst l)) -> readable m c ->
  exists vs r, slices dbg a b c (blocks rest 0 l) = Ok vs /\ reduce_each vs f init m = Ok (r, m) /\ reduce c f init m = Ok (r, m).
Proof. exact @reduce_blocks. Qed.
Print Assumptions reduce_over_blocks_of_rows.

Theorem blocks_of_rows_slice_like_tables : forall d1 d2 a1 b1 a2 b2 c n rest sl o k v1 p2 b off,
  default_layout c -> c_shape c = n :: rest ->
  is_part d1 c (block rest sl o k) -> slice_container d1 a1 b1 c (cuts (block rest sl o k)) = Ok v1 ->
  is_part d2 v1 p2 -> Forall (fun x => Z.abs x <= 2147483647) (times (steps p2) (strides_z v1)) -> c_data c = Ptr b off ->
  exists v2, slice_container d2 a2 b2 v1 (cuts p2) = Ok v2 /\ dims v2 = counts p2 /\
    forall js, in_box (counts p2) js -> elem v2 js = elem v1 (place (starts p2) (steps p2) js).
Proof. exact slice_block. Qed.
Print Assumptions blocks_of_rows_slice_like_tables.

Definition thirds : list (slc * Z) :=
  [(first (int 1), 1); (between (int 1) (BEnd (ESub EEnd (int 1))), 2); (last (int 1), 1)].
Example thirds_consecutive : consecutive (int 4) [int 6] 0 thirds /\ Forall wide (map fst thirds).
Proof.
  split; [|repeat constructor].
  split; [|split; [by_slicer|split; [lia|]]]; [|split; [|split; [by_slicer|split; [lia|]]]; [|split; [|split; [by_slicer|split; [lia|reflexivity]]]]].
  - refine (takes_length _ None None (BInt (int _)) 0 _ 1 _ _ _ _ _ _); first [by_bound|lia].
  - refine (takes_range _ (Some (BInt (int _))) None (Some (BEnd _)) 1 3 1 _ _ _ _ _ _); try by_bound; try (simpl; lia).
    eexists. split; [vm_compute; reflexivity|reflexivity].
  - refine (takes_length _ (Some (BEnd _)) None (BInt (int _)) 3 1 1 _ _ _ _ _ _); try by_bound; try lia.
    eexists. split; [vm_compute; reflexivity|reflexivity].
Qed.
Example blocks_ex :
  (vs <- slices true false false sc (blocks [int 6] 0 thirds) ;; reduce_each vs (fun a x => 3 * a - x) 0 sm)
  = reduce sc (fun a x => 3 * a - x) 0 sm.
Proof. vm_compute. reflexivity. Qed.
(** The two middle rows, then their last two columns. *)
Example block_again_ex : exists v1 v2,
  slice_container true false false sc (cuts (block [int 6] (between (int 1) (BEnd (ESub EEnd (int 1)))) 1 2)) = Ok v1 /\
  slice_container true false false v1 [drop_first (int 1); drop_first (int 4)] = Ok v2 /\
  dims v2 = [1; 2] /\ (get sm v2 [int 0; int 0], get sm v2 [int 0; int 1]) = (Ok 16, Ok 17).
Proof. do 2 eexists. split; [vm_compute; reflexivity|]. split; [vm_compute; reflexivity|]. split; vm_compute; reflexivity. Qed.

(** Cutting by columns first and each half by rows next does not give the four quarters. *)
Theorem quarters_by_cutting_twice_refuted : exists l r ll lh rl rh,
  slice_container true false false sc [SAll; first (int 4)] = Ok l /\
  slice_container true false false sc [SAll; drop_first (int 4)] = Ok r /\
  slice_container true false false l [first (int 2); SAll] = Ok ll /\
  slice_container true false false l [drop_first (int 2); SAll] = Ok lh /\
  slice_container true false false r [first (int 2); SAll] = Ok rl /\
  slice_container true false false r [drop_first (int 2); SAll] = Ok rh /\
  (x <- reduce_each [l; r] Z.add 0 sm ;; Ok (fst x)) = Ok 276 /\
  (x <- reduce_each [ll; lh; rl; rh] Z.add 0 sm ;; Ok (fst x)) <> Ok 276 /\
  get sm lh [int 0; int 0] = Ok 8 /\ get sm l [int 2; int 0] = Ok 12.
Proof.
  do 6 eexists. do 6 (split; [vm_compute; reflexivity|]). split; [vm_compute; reflexivity|]. split; [vm_compute; discriminate|].
  split; vm_compute; reflexivity.
Qed.
Print Assumptions quarters_by_cutting_twice_refuted.
