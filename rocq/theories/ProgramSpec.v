(** The same programs on mathematical arrays: no strides, no integer types in the computation of
    addresses, no accessor; an array is a box of coordinates and the cell of each coordinate. *)
From Coq Require Import ZArith List Bool.
From Verif Require Import Outcome CInt Spec ShapeSpec ShapeFacts EndRatio Memory Container ContainerSpec AlgoSpec ForEachSpec
  SearchSpec Slicer SlicerSpec Alloc Program.
Import ListNotations.
Open Scope Z_scope.

(** An array. [a_dense]: the cells follow each other from an address in row-major order, for a shape
    written in the program. [a_signed]: its sizes are of signed types. [a_back]: it runs backwards along
    some axis, and only understands coordinates of signed types. *)
Record array := Arr { a_dims : list Z; a_at : list Z -> ptr; a_dense : option (list cint * ptr);
                      a_signed : bool; a_back : bool }.
Definition signed (c : cint) : bool := is_signed (cty c).
Definition dense (sh : list cint) (p : ptr) : array :=
  Arr (vals sh) (fun is_ => padd p (rank (vals sh) is_)) (Some (sh, p)) (forallb signed sh) false.

(** Slicers written with integers of signed types only. *)
Fixpoint signed_expr (e : eexpr) : bool :=
  match e with
  | EEnd => true
  | EAdd e o | EAddL o e | ESub e o | ESubL o e | EMul e o | EMulL o e | EDiv e o => signed_expr e && signed o
  end.
Definition signed_bound (b : option bound) : bool :=
  match b with None => true | Some (BInt c) => signed c | Some (BEnd e) => signed_expr e end.
Definition signed_slc (sl : slc) : bool :=
  match sl with
  | SSlice b s e l =>
      signed_bound b && match s with Some s => signed s | None => true end && signed_bound e && signed_bound l
  | _ => true
  end.

(** A table: its shape, whether its type fixes it (then the elements are inside the variable and stay
    there), the block it owns ([None]: no element, or moved from). *)
Record tab := Tb { t_shape : list cint; t_static : bool; t_block : option nat }.
Definition base (x : tab) : ptr := match t_block x with Some b => Ptr b 0 | None => Null end.
Definition array_of (x : tab) : array := dense (t_shape x) (base x).

Record world (T : Type) := Wd { w_mem : mem T; w_tabs : vars tab; w_views : vars array }.
Arguments Wd {T}. Arguments w_mem {T}. Arguments w_tabs {T}. Arguments w_views {T}.

(** The array of a variable. *)
Definition names {T} (w : world T) (h : handle) (a : array) : Prop :=
  match h with
  | Tab t => exists x, w_tabs w t = Some x /\ a = array_of x
  | View v => w_views w v = Some a
  end.

(** New cells; giving back the cells of a table. *)
Definition give {T} (m : mem T) (cells : list (option T)) : mem T * option nat :=
  match cells with [] => (m, None) | _ => (m ++ [Some cells], Some (length m)) end.
Definition take_back {T} (m : mem T) (x : tab) : mem T :=
  match t_block x with Some b => set_nth m b None | None => m end.

(** The values of an array, in row-major order; every cell has one. *)
Definition contents {T} (m : mem T) (a : array) (vs : list T) : Prop :=
  Forall2 (fun is_ v => peek m (a_at a is_) = Some v) (box (a_dims a)) vs.

(** Every coordinate of [o] has a live cell in [a]. *)
Definition reaches {T} (m : mem T) (o a : array) : Prop :=
  (forall is_, in_box (a_dims o) is_ -> in_box (a_dims a) is_ /\ valid m (a_at a is_)) /\
  (a_back a = true -> a_signed o = true).

(** Writing values one after the other. *)
Fixpoint write_at {T} (m : mem T) (p : ptr) (vs : list T) : mem T :=
  match vs with [] => m | v :: vs => write_at (upd m p v) (padd p 1) vs end.

Definition set_tab {T} (w : world T) (m : mem T) (t : nat) (x : option tab) : world T :=
  Wd m (bindv (w_tabs w) t x) (w_views w).
Definition set_view {T} (w : world T) (v : nat) (a : option array) : world T :=
  Wd (w_mem w) (w_tabs w) (bindv (w_views w) v a).
Definition set_mem {T} (w : world T) (m : mem T) : world T := Wd m (w_tabs w) (w_views w).

(** The algorithms that write, one coordinate after the other. *)
Definition each_do {S T} (f : S -> elem_fun S T) (a : array) (as_ : list array) (s : S) (m : mem T) :=
  run (fun is_ sm => call (f (fst sm)) (map (fun b => a_at b is_) (a :: as_)) (snd sm)) (box (a_dims a)) (s, m).
Definition each_index_do {S T} (f : S -> list Z -> elem_fun S T) (a : array) (s : S) (m : mem T) :=
  run (fun is_ sm => call (f (fst sm) is_) [a_at a is_] (snd sm)) (box (a_dims a)) (s, m).
Definition transform_do {T} (f : list T -> T) (out : array) (ins : list array) (m : mem T) :=
  run (fun is_ m => vs <- mapM (fun a => load m (a_at a is_)) ins ;; store m (a_at out is_) (f vs))
    (box (a_dims out)) m.
Definition copy_if_do {T} (f : T -> bool) (out a : array) (m : mem T) :=
  run (fun is_ m => v <- load m (a_at a is_) ;; if f v then store m (a_at out is_) v else Ok m)
    (box (a_dims out)) m.
Definition generate_do {T} (f : list Z -> T) (out : array) (m : mem T) :=
  run (fun is_ m => store m (a_at out is_) (f is_)) (box (a_dims out)) m.
Definition scan_in_do {T} (a out : array) (init : T) (f1 : T -> T -> T) (f2 : T -> T) (m : mem T) :=
  run (fun is_ sm => v <- load (snd sm) (a_at a is_) ;;
                     m' <- store (snd sm) (a_at out is_) (f1 (fst sm) (f2 v)) ;; Ok (f1 (fst sm) (f2 v), m'))
    (box (a_dims a)) (init, m).
Definition scan_ex_do {T} (a out : array) (init : T) (f1 : T -> T -> T) (f2 : T -> T) (m : mem T) :=
  run (fun is_ sm => m' <- store (snd sm) (a_at out is_) (fst sm) ;;
                     v <- load m' (a_at a is_) ;; Ok (f1 (fst sm) (f2 v), m'))
    (box (a_dims a)) (init, m).

(** The first coordinate, in row-major order, whose element satisfies [f]. *)
Definition first_where {T} (m : mem T) (a : array) (f : T -> bool) (r : option (list Z)) : Prop :=
  match r with
  | Some is_ => in_box (a_dims a) is_ /\ (exists v, peek m (a_at a is_) = Some v /\ f v = true) /\
      forall js v, in_box (a_dims a) js -> lex js is_ -> peek m (a_at a js) = Some v -> f v = false
  | None => forall js v, in_box (a_dims a) js -> peek m (a_at a js) = Some v -> f v = false
  end.

(** The last one. *)
Definition last_where {T} (m : mem T) (a : array) (f : T -> bool) (r : option (list Z)) : Prop :=
  match r with
  | Some is_ => in_box (a_dims a) is_ /\ (exists v, peek m (a_at a is_) = Some v /\ f v = true) /\
      forall js v, in_box (a_dims a) js -> lex is_ js -> peek m (a_at a js) = Some v -> f v = false
  | None => forall js v, in_box (a_dims a) js -> peek m (a_at a js) = Some v -> f v = false
  end.

(** No value is less than one before it. *)
Definition in_order {T} (less : T -> T -> bool) (vs : list T) : Prop :=
  ForallOrdPairs (fun x y => less y x = false) vs.

(** The calls on arrays. A call that has no rule here has no meaning: what the properties of the single
    functions show to go wrong (copies and slices of slices, views of tables that are gone...). *)
Inductive wstep {S T} (dbg : bool) (w : world T) : op S T -> world T -> res S T -> Prop :=
| w_new t st sh m b : w_tabs w t = None -> legal sh -> sh <> [] ->
    give (w_mem w) (repeat None (Z.to_nat (prod (vals sh)))) = (m, b) ->
    wstep dbg w (ONew t st sh) (set_tab w m t (Some (Tb sh st b))) RNone
| w_copy t u x vs m b : w_tabs w t = None -> w_tabs w u = Some x -> contents (w_mem w) (array_of x) vs ->
    give (w_mem w) (map Some vs) = (m, b) ->
    wstep dbg w (OCopy t u) (set_tab w m t (Some (Tb (t_shape x) (t_static x) b))) RNone
| w_table t st h a sh p vs m b : w_tabs w t = None -> names w h a -> a_dense a = Some (sh, p) ->
    contents (w_mem w) a vs -> give (w_mem w) (map Some vs) = (m, b) ->
    wstep dbg w (OTable t st h) (set_tab w m t (Some (Tb sh st b))) RNone
| w_move t u x : w_tabs w t = None -> w_tabs w u = Some x -> t_static x = false ->
    wstep dbg w (OMove t u)
      (set_tab (set_tab w (w_mem w) u (Some (Tb (t_shape x) (t_static x) None))) (w_mem w) t (Some x)) RNone
| w_move_static t u x vs m b : w_tabs w t = None -> w_tabs w u = Some x -> t_static x = true ->
    contents (w_mem w) (array_of x) vs -> give (w_mem w) (map Some vs) = (m, b) ->
    wstep dbg w (OMove t u) (set_tab w m t (Some (Tb (t_shape x) true b))) RNone
| w_assign t h x a sh p vs m b : w_tabs w t = Some x -> names w h a -> a_dense a = Some (sh, p) ->
    t_static x = false -> length sh = length (t_shape x) -> (2 <= length sh)%nat ->
    contents (w_mem w) a vs -> give (w_mem w) (map Some vs) = (m, b) ->
    wstep dbg w (OAssign t h) (set_tab w (take_back m x) t (Some (Tb sh false b))) RNone
| w_assign_static t h x a sh p us vs : w_tabs w t = Some x -> names w h a -> a_dense a = Some (sh, p) ->
    t_static x = true -> t_block x <> None -> vals sh = vals (t_shape x) ->
    contents (w_mem w) (array_of x) us -> contents (w_mem w) a vs ->
    wstep dbg w (OAssign t h) (set_mem w (write_at (w_mem w) (base x) vs ++ [None])) RNone
| w_swap t u x y : w_tabs w t = Some x -> w_tabs w u = Some y -> t_static x = false -> t_static y = false ->
    length (t_shape x) = length (t_shape y) -> (2 <= length (t_shape x))%nat ->
    wstep dbg w (OSwap t u) (set_tab (set_tab w (w_mem w) t (Some y)) (w_mem w) u (Some x)) RNone
| w_swap_static t u x y us vs : w_tabs w t = Some x -> w_tabs w u = Some y -> t_static x = true ->
    t_static y = true -> t_shape x = t_shape y ->
    contents (w_mem w) (array_of x) us -> contents (w_mem w) (array_of y) vs ->
    wstep dbg w (OSwap t u) (set_mem w (write_at (write_at (w_mem w) (base x) vs) (base y) us)) RNone
| w_drop t x : w_tabs w t = Some x ->
    wstep dbg w (ODrop t) (set_tab w (take_back (w_mem w) x) t None) RNone
| w_use v st sh p : w_views w v = None -> legal sh -> sh <> [] ->
    wstep dbg w (OUse v st sh p) (set_view w v (Some (dense sh p))) RNone
| w_view v st h a sh p : w_views w v = None -> names w h a -> a_dense a = Some (sh, p) ->
    wstep dbg w (OView v st h) (set_view w v (Some (dense sh p))) RNone
| w_reshape v st h a sh p sh' : w_views w v = None -> names w h a -> a_dense a = Some (sh, p) ->
    legal sh' -> sh' <> [] -> prod (vals sh') <= prod (vals sh) ->
    wstep dbg w (OReshape v st h sh') (set_view w v (Some (dense sh' p))) RNone
| w_slice v i j h a sh p sls os ks ss : w_views w v = None -> names w h a -> a_dense a = Some (sh, p) ->
    sliced sh sls os ks ss -> (dbg = true -> Forall wide sls) ->
    forallb (Z.ltb 0) ss = true \/ forallb signed sh && forallb signed_slc sls = true ->
    wstep dbg w (OSlice v i j h sls)
      (set_view w v (Some (Arr ks (fun is_ => a_at a (place os ss is_)) None
        (forallb signed sh && forallb signed_slc sls) (negb (forallb (Z.ltb 0) ss))))) RNone
| w_reverse v st h a sh p : w_views w v = None -> names w h a -> a_dense a = Some (sh, p) ->
    forallb signed sh = true ->
    wstep dbg w (OReverse v st h)
      (set_view w v (Some (Arr (vals sh) (fun is_ => a_at a (mirror_coord (vals sh) is_)) None true true))) RNone
| w_alias v u a : w_views w v = None -> w_views w u = Some a ->
    wstep dbg w (OAlias v u) (set_view w v (Some a)) RNone
| w_forget v a : w_views w v = Some a -> wstep dbg w (OForget v) (set_view w v None) RNone
| w_each f h hs s a as_ s' m' : names w h a -> Forall2 (names w) hs as_ ->
    Forall (reaches (w_mem w) a) (a :: as_) -> each_do f a as_ s (w_mem w) = Ok (s', m') ->
    wstep dbg w (OEach f h hs s) (set_mem w m') (RState s')
| w_each_index f h s a s' m' : names w h a -> reaches (w_mem w) a a -> each_index_do f a s (w_mem w) = Ok (s', m') ->
    wstep dbg w (OEachIndex f h s) (set_mem w m') (RState s')
| w_transform f out h hs o a as_ m' : names w out o -> names w h a -> Forall2 (names w) hs as_ ->
    Forall (reaches (w_mem w) o) (o :: a :: as_) -> transform_do f o (a :: as_) (w_mem w) = Ok m' ->
    wstep dbg w (OTransform f out h hs) (set_mem w m') RNone
| w_copy_to out h o a m' : names w out o -> names w h a -> Forall (reaches (w_mem w) o) [o; a] ->
    copy_if_do (fun _ => true) o a (w_mem w) = Ok m' -> wstep dbg w (OCopyTo out h) (set_mem w m') RNone
| w_copy_if f out h o a m' : names w out o -> names w h a -> Forall (reaches (w_mem w) o) [o; a] ->
    copy_if_do f o a (w_mem w) = Ok m' -> wstep dbg w (OCopyIf f out h) (set_mem w m') RNone
| w_fill out v o m' : names w out o -> reaches (w_mem w) o o ->
    generate_do (fun _ => v) o (w_mem w) = Ok m' -> wstep dbg w (OFill out v) (set_mem w m') RNone
| w_generate f out o m' : names w out o -> reaches (w_mem w) o o ->
    generate_do f o (w_mem w) = Ok m' -> wstep dbg w (OGenerate f out) (set_mem w m') RNone
| w_replace_if out (f : T -> bool) v o m' : names w out o -> reaches (w_mem w) o o ->
    transform_do (fun l => match l with [e] => if f e then v else e | _ => v end) o [o] (w_mem w) = Ok m' ->
    wstep dbg w (OReplaceIf out f v) (set_mem w m') RNone
| w_scan_in h out init f1 f2 a o s m' : names w h a -> names w out o ->
    Forall (reaches (w_mem w) a) [a; o] -> scan_in_do a o init f1 f2 (w_mem w) = Ok (s, m') ->
    wstep dbg w (OScanIn h out init f1 f2) (set_mem w m') RNone
| w_scan_ex h out init f1 f2 a o s m' : names w h a -> names w out o ->
    Forall (reaches (w_mem w) a) [a; o] -> scan_ex_do a o init f1 f2 (w_mem w) = Ok (s, m') ->
    wstep dbg w (OScanEx h out init f1 f2) (set_mem w m') RNone
| w_reduce h f init a vs : names w h a -> contents (w_mem w) a vs ->
    wstep dbg w (OReduce h f init) w (RVal (fold_left f vs init))
| w_all_of h f a vs : names w h a -> contents (w_mem w) a vs -> wstep dbg w (OAllOf h f) w (RBool (forallb f vs))
| w_any_of h f a vs : names w h a -> contents (w_mem w) a vs -> wstep dbg w (OAnyOf h f) w (RBool (existsb f vs))
| w_none_of h f a vs : names w h a -> contents (w_mem w) a vs ->
    wstep dbg w (ONoneOf h f) w (RBool (negb (existsb f vs)))
| w_count_if h f a vs : names w h a -> contents (w_mem w) a vs ->
    wstep dbg w (OCountIf h f) w (RNum (Z.of_nat (length (filter f vs))))
| w_inner h1 h2 init f1 f2 a b vs us : names w h1 a -> names w h2 b -> a_dims a = a_dims b ->
    (a_back b = true -> a_signed a = true) ->
    contents (w_mem w) a vs -> contents (w_mem w) b us ->
    wstep dbg w (OInner h1 h2 init f1 f2) w
      (RVal (fold_left (fun acc p => f1 acc (f2 (fst p) (snd p))) (combine vs us) init))
| w_find h f a vs r : names w h a -> contents (w_mem w) a vs -> first_where (w_mem w) a f r ->
    wstep dbg w (OFind h f) w (RPos r)
| w_find_last st h f a sh p vs r : names w h a -> a_dense a = Some (sh, p) -> forallb signed sh = true ->
    contents (w_mem w) a vs -> last_where (w_mem w) a f r -> wstep dbg w (OFindLast st h f) w (RPos r)
| w_lower h less v a vs r : names w h a -> contents (w_mem w) a vs -> strict_weak_order less -> in_order less vs ->
    first_where (w_mem w) a (fun e => negb (less e v)) r -> wstep dbg w (OLower h less v) w (RPos r)
| w_upper h less v a vs r : names w h a -> contents (w_mem w) a vs -> strict_weak_order less -> in_order less vs ->
    first_where (w_mem w) a (less v) r -> wstep dbg w (OUpper h less v) w (RPos r)
| w_search h less v a vs : names w h a -> contents (w_mem w) a vs -> strict_weak_order less -> in_order less vs ->
    wstep dbg w (OSearch h less v) w (RBool (existsb (fun e => negb (less e v) && negb (less v e)) vs))
| w_get h is_ a v : names w h a -> wfs is_ -> in_box (a_dims a) (vals is_) ->
    (a_back a = true -> signeds is_) ->
    peek (w_mem w) (a_at a (vals is_)) = Some v -> wstep dbg w (OGet h is_) w (RVal v)
| w_put h is_ v a m' : names w h a -> wfs is_ -> in_box (a_dims a) (vals is_) ->
    (a_back a = true -> signeds is_) ->
    store (w_mem w) (a_at a (vals is_)) v = Ok m' -> wstep dbg w (OPut h is_ v) (set_mem w m') RNone
| w_numel h a : names w h a -> wstep dbg w (ONumel h) w (RNum (prod (a_dims a))).

(** The first [n] calls of a program. *)
Inductive wruns {S T} (dbg : bool) (p : program S T) : nat -> world T -> S -> world T -> S -> Prop :=
| wr_stop w s : wruns dbg p 0 w s w s
| wr_end n w s : p_call p s = None -> wruns dbg p (Datatypes.S n) w s w s
| wr_call n w s o w1 r w2 s2 : p_call p s = Some o -> wstep dbg w o w1 r ->
    wruns dbg p n w1 (p_next p s r) w2 s2 -> wruns dbg p (Datatypes.S n) w s w2 s2.

Definition winit {T} (m : mem T) : world T := Wd m (fun _ => None) (fun _ => None).

(** The state of the program against the world: the same cells, and every variable designates, at every
    coordinate, the cell of its array; the address the library computes is that cell. *)
Definition agrees {T} (w : world T) (k : kstate T) : Prop :=
  k_mem k = w_mem w /\
  forall h, match kget k h with
            | Ok c => exists a, names w h a /\ dims c = a_dims a /\
                (forall is_, in_box (dims c) is_ -> elem c is_ = a_at a is_) /\
                forall is_, coord_of c is_ -> (a_back a = true -> signeds is_) -> address c is_ = Ok (a_at a (vals is_))
            | _ => forall a, ~ names w h a
            end.

(** The variables through which a call may write. *)
Definition stack_table {T} (k : kstate T) (t : nat) : bool :=
  match k_tabs k t with Some c => match c_kind c with KStatic => true | _ => false end | None => false end.
Definition outs {S T} (k : kstate T) (o : op S T) : list handle :=
  match o with
  | OEach _ h hs _ => h :: hs
  | OEachIndex _ h _ => [h]
  | OTransform _ out _ _ | OCopyTo out _ | OCopyIf _ out _ | OFill out _ | OGenerate _ out | OReplaceIf out _ _
  | OScanIn _ out _ _ _ | OScanEx _ out _ _ _ | OPut out _ _ => [out]
  | OAssign t _ => if stack_table k t then [Tab t] else []
  | OSwap t u => if stack_table k t then [Tab t; Tab u] else []
  | _ => []
  end.

(** The cells of a variable; the cells a call may write, and those it gives back. *)
Definition cell_of (c : container) (p : ptr) : Prop := exists is_, in_box (dims c) is_ /\ elem c is_ = p.
Definition written {S T} (k : kstate T) (o : op S T) (p : ptr) : Prop :=
  exists h c, In h (outs k o) /\ kget k h = Ok c /\ cell_of c p.
Definition ends {S T} (k : kstate T) (o : op S T) (t : nat) : Prop :=
  o = ODrop t \/ stack_table k t = false /\ exists h, o = OAssign t h.
Definition ended {S T} (k : kstate T) (o : op S T) (p : ptr) : Prop :=
  exists t c, ends k o t /\ k_tabs k t = Some c /\ cell_of c p.
