(** Programs that use the library: tables, views, slices and algorithms, in any order. *)
From Coq Require Import ZArith List Bool.
From Verif Require Import Outcome CInt Shape Memory Container ForEach Algo Search Slicer Alloc.
Import ListNotations.
Open Scope Z_scope.

(** A variable of the program: a table (on the heap, or on the stack if its shape is fully static,
    include/kwk/detail/memory/block.hpp 28-32) or a view. *)
Inductive handle := Tab (t : nat) | View (v : nat).

(** The body of a callable given to for_each: it reads and writes the elements it is given by reference,
    by their position in the call, and ends with a new captured state. *)
Inductive elem_fun (S T : Type) :=
| Done (s : S)
| Rd (i : nat) (k : T -> elem_fun S T)
| Wr (i : nat) (v : T) (k : elem_fun S T).
Arguments Done {S T}. Arguments Rd {S T}. Arguments Wr {S T}.

Fixpoint call {S T} (e : elem_fun S T) (ps : list ptr) (m : mem T) : outcome (S * mem T) :=
  match e with
  | Done s => Ok (s, m)
  | Rd i k => match nth_error ps i with Some p => v <- load m p ;; call (k v) ps m | None => UB end
  | Wr i v k => match nth_error ps i with Some p => m' <- store m p v ;; call k ps m' | None => UB end
  end.

(** The calls of the library. *)
Inductive op (S T : Type) :=
(* tables, include/kwk/container/table.hpp *)
| ONew (t : nat) (st : bool) (sh : shape)                    (* table t(of_size(sh)), 55-66 *)
| OCopy (t u : nat)                                          (* table t(u), 75-77 *)
| OTable (t : nat) (st : bool) (h : handle)                  (* table t{h}, 80-82 *)
| OMove (t u : nat)                                          (* table t(std::move(u)), 69 *)
| OAssign (t : nat) (h : handle)                             (* t = h, 85-98 *)
| OSwap (t u : nat)                                          (* t.swap(u), container.hpp 56-63 *)
| ODrop (t : nat)                                            (* end of the life of t *)
(* views, view.hpp, algorithm/views/reshape.hpp and reverse.hpp, container.hpp 140-151 *)
| OUse (v : nat) (st : bool) (sh : shape) (p : ptr)          (* view v{source = p, size = sh}, 55-66 *)
| OView (v : nat) (st : bool) (h : handle)                   (* view v{h}, 68-70 *)
| OReshape (v : nat) (st : bool) (h : handle) (sh : shape)   (* auto v = reshape(h, sh) *)
| OSlice (v : nat) (st_sh st_st : bool) (h : handle) (sls : list slc)   (* auto v = h(sls...) *)
| OReverse (v : nat) (st : bool) (h : handle)                (* auto v = reverse(h) *)
| OAlias (v w : nat)                                         (* auto v = w for two views *)
| OForget (v : nat)                                          (* end of the life of v *)
(* algorithms, include/kwk/algorithm/algos *)
| OEach (f : S -> elem_fun S T) (h : handle) (hs : list handle) (s : S)   (* for_each(f, h, hs...) *)
| OEachIndex (f : S -> list Z -> elem_fun S T) (h : handle) (s : S)       (* for_each_index(f, h) *)
| OTransform (f : list T -> T) (out h : handle) (hs : list handle)
| OCopyTo (out h : handle)
| OCopyIf (f : T -> bool) (out h : handle)
| OFill (out : handle) (v : T)
| OGenerate (f : list Z -> T) (out : handle)
| OReplaceIf (out : handle) (f : T -> bool) (v : T)
| OScanIn (h out : handle) (init : T) (f1 : T -> T -> T) (f2 : T -> T)
| OScanEx (h out : handle) (init : T) (f1 : T -> T -> T) (f2 : T -> T)
| OReduce (h : handle) (f : T -> T -> T) (init : T)
| OAllOf (h : handle) (f : T -> bool)
| OAnyOf (h : handle) (f : T -> bool)
| ONoneOf (h : handle) (f : T -> bool)
| OCountIf (h : handle) (f : T -> bool)
| OInner (h1 h2 : handle) (init : T) (f1 f2 : T -> T -> T)
| OFind (h : handle) (f : T -> bool)
| OFindLast (st : bool) (h : handle) (f : T -> bool)
| OLower (h : handle) (less : T -> T -> bool) (v : T)
| OUpper (h : handle) (less : T -> T -> bool) (v : T)
| OSearch (h : handle) (less : T -> T -> bool) (v : T)
(* elements and sizes *)
| OGet (h : handle) (is_ : list cint)
| OPut (h : handle) (is_ : list cint) (v : T)
| ONumel (h : handle).
Arguments ONew {S T}. Arguments OCopy {S T}. Arguments OTable {S T}. Arguments OMove {S T}.
Arguments OAssign {S T}. Arguments OSwap {S T}. Arguments ODrop {S T}. Arguments OUse {S T}.
Arguments OView {S T}. Arguments OReshape {S T}. Arguments OSlice {S T}. Arguments OAlias {S T}.
Arguments OForget {S T}. Arguments OEach {S T}. Arguments OTransform {S T}. Arguments OCopyTo {S T}.
Arguments OCopyIf {S T}. Arguments OFill {S T}. Arguments OGenerate {S T}. Arguments OReplaceIf {S T}.
Arguments OScanIn {S T}. Arguments OScanEx {S T}. Arguments OReduce {S T}. Arguments OAllOf {S T}.
Arguments OAnyOf {S T}. Arguments ONoneOf {S T}. Arguments OCountIf {S T}. Arguments OInner {S T}.
Arguments OFind {S T}. Arguments OReverse {S T}. Arguments OEachIndex {S T}. Arguments OFindLast {S T}.
Arguments OLower {S T}. Arguments OUpper {S T}. Arguments OSearch {S T}. Arguments OGet {S T}. Arguments OPut {S T}. Arguments ONumel {S T}.

(** What a call gives back. *)
Inductive res (S T : Type) :=
| RNone | RVal (v : T) | RNum (n : Z) | RBool (b : bool) | RPos (p : option (list Z)) | RState (s : S).
Arguments RNone {S T}. Arguments RVal {S T}. Arguments RNum {S T}. Arguments RBool {S T}.
Arguments RPos {S T}. Arguments RState {S T}.

(** The memory and the variables. *)
Record kstate (T : Type) := KS { k_mem : mem T; k_tabs : vars container; k_views : vars container }.
Arguments KS {T}. Arguments k_mem {T}. Arguments k_tabs {T}. Arguments k_views {T}.

Definition kget {T} (k : kstate T) (h : handle) : outcome container :=
  match h with Tab t => var (k_tabs k) t | View v => var (k_views k) v end.

Definition with_table {T} (k : kstate T) (m : mem T) (t : nat) (c : option container) : kstate T :=
  KS m (bindv (k_tabs k) t c) (k_views k).
Definition with_view {T} (k : kstate T) (v : nat) (c : option container) : kstate T :=
  KS (k_mem k) (k_tabs k) (bindv (k_views k) v c).
Definition with_mem {T} (k : kstate T) (m : mem T) : kstate T := KS m (k_tabs k) (k_views k).

(** Move construction of a stack table, table.hpp 69: stack_block (stack_block.hpp 15-50) declares no move
    constructor, so its array is moved element by element; moving an arithmetic element copies it. *)
Definition move_stack {T} (m : mem T) (c : container) : outcome (mem T * container) :=
  n <- numel (c_shape c) ;;
  ' (m1, data) <- new_block m (cval n) (Some (c_data c)) ;;
  Ok (m1, Cn (c_kind c) (c_shape c) (c_stride c) data).

(** One call; every line uses the model of the corresponding function (Container.v, Slicer.v, Algo.v,
    Search.v). *)
Definition kstep {S T} (dbg : bool) (k : kstate T) (o : op S T) : outcome (kstate T * res S T) :=
  let m := k_mem k in
  match o with
  | ONew t st sh =>
      _ <- fresh (k_tabs k) t ;; ' (m1, c) <- make_table m st st sh None None ;;
      Ok (with_table k m1 t (Some c), RNone)
  | OCopy t u =>
      _ <- fresh (k_tabs k) t ;; c <- var (k_tabs k) u ;; ' (m1, c1) <- copy_table m c ;;
      Ok (with_table k m1 t (Some c1), RNone)
  | OTable t st h =>
      _ <- fresh (k_tabs k) t ;; c <- kget k h ;; ' (m1, c1) <- table_of m st c ;;
      Ok (with_table k m1 t (Some c1), RNone)
  | OMove t u =>
      _ <- fresh (k_tabs k) t ;; c <- var (k_tabs k) u ;;
      match c_kind c with
      | KStatic => ' (m1, c1) <- move_stack m c ;; Ok (with_table k m1 t (Some c1), RNone)
      | _ =>
          let '(c1, c2) := move_table c in
          Ok (with_table (with_table k m u (Some c2)) m t (Some c1), RNone)
      end
  | OAssign t h =>
      d <- var (k_tabs k) t ;; c <- kget k h ;; 
      ' (m1, d1) <- match c_kind d with KStatic => assign_stack_table m d c | _ => assign_table m d c end ;;
      Ok (with_table k m1 t (Some d1), RNone)
  | OSwap t u =>
      a <- var (k_tabs k) t ;; b <- var (k_tabs k) u ;;
      match c_kind a with
      | KStatic =>
          ' (m1, a1, b1) <- swap_stack m a b ;;
          Ok (with_table (with_table k m1 t (Some a1)) m1 u (Some b1), RNone)
      | _ =>
          let '(a1, b1) := swap_containers a b in
          Ok (with_table (with_table k m t (Some a1)) m u (Some b1), RNone)
      end
  | ODrop t =>
      c <- var (k_tabs k) t ;; m1 <- release m (c_data c) ;; Ok (with_table k m1 t None, RNone)
  | OUse v st sh p =>
      _ <- fresh (k_views k) v ;; c <- make_view st st sh None p ;; Ok (with_view k v (Some c), RNone)
  | OView v st h =>
      _ <- fresh (k_views k) v ;; c <- kget k h ;; c1 <- view_of st c ;;
      Ok (with_view k v (Some c1), RNone)
  | OReshape v st h sh =>
      _ <- fresh (k_views k) v ;; c <- kget k h ;; c1 <- reshape_view st c sh ;;
      Ok (with_view k v (Some c1), RNone)
  | OSlice v a b h sls =>
      _ <- fresh (k_views k) v ;; c <- kget k h ;; c1 <- slice_container dbg a b c sls ;;
      Ok (with_view k v (Some c1), RNone)
  | OReverse v st h =>
      _ <- fresh (k_views k) v ;; c <- kget k h ;; c1 <- reverse st c ;; Ok (with_view k v (Some c1), RNone)
  | OAlias v w =>
      _ <- fresh (k_views k) v ;; c <- var (k_views k) w ;; Ok (with_view k v (Some c), RNone)
  | OForget v => c <- var (k_views k) v ;; Ok (with_view k v None, RNone)
  | OEach f h hs s =>
      c <- kget k h ;; cs <- mapM (kget k) hs ;;
      r <- for_each_containers (fun ps sm => call (f (fst sm)) ps (snd sm)) c cs (s, m) ;;
      Ok (with_mem k (snd r), RState (fst r))
  | OEachIndex f h s =>
      c <- kget k h ;;
      r <- for_each_index (fun p is_ sm => call (f (fst sm) (map cval is_)) [p] (snd sm)) c (s, m) ;;
      Ok (with_mem k (snd r), RState (fst r))
  | OTransform f out h hs =>
      o <- kget k out ;; c <- kget k h ;; cs <- mapM (kget k) hs ;;
      m1 <- transform f o c cs m ;; Ok (with_mem k m1, RNone)
  | OCopyTo out h =>
      o <- kget k out ;; c <- kget k h ;; m1 <- copy o c m ;; Ok (with_mem k m1, RNone)
  | OCopyIf f out h =>
      o <- kget k out ;; c <- kget k h ;; m1 <- copy_if f o c m ;; Ok (with_mem k m1, RNone)
  | OFill out v => o <- kget k out ;; m1 <- fill o v m ;; Ok (with_mem k m1, RNone)
  | OGenerate f out =>
      o <- kget k out ;; m1 <- generate (fun is_ => f (map cval is_)) o m ;; Ok (with_mem k m1, RNone)
  | OReplaceIf out f v =>
      o <- kget k out ;; m1 <- replace_if o f v m ;; Ok (with_mem k m1, RNone)
  | OScanIn h out init f1 f2 =>
      c <- kget k h ;; o <- kget k out ;; m1 <- transform_inclusive_scan c o init f1 f2 m ;;
      Ok (with_mem k m1, RNone)
  | OScanEx h out init f1 f2 =>
      c <- kget k h ;; o <- kget k out ;; m1 <- transform_exclusive_scan c o init f1 f2 m ;;
      Ok (with_mem k m1, RNone)
  | OReduce h f init =>
      c <- kget k h ;; r <- reduce c f init m ;; Ok (with_mem k (snd r), RVal (fst r))
  | OAllOf h f => c <- kget k h ;; r <- all_of c f m ;; Ok (with_mem k (snd r), RBool (fst r))
  | OAnyOf h f => c <- kget k h ;; r <- any_of c f m ;; Ok (with_mem k (snd r), RBool (fst r))
  | ONoneOf h f => c <- kget k h ;; r <- none_of c f m ;; Ok (with_mem k (snd r), RBool (fst r))
  | OCountIf h f => c <- kget k h ;; r <- count_if c f m ;; Ok (with_mem k (snd r), RNum (fst r))
  | OInner h1 h2 init f1 f2 =>
      c1 <- kget k h1 ;; c2 <- kget k h2 ;; r <- inner_product dbg c1 c2 init f1 f2 m ;;
      Ok (with_mem k (snd r), RVal (fst r))
  | OFind h f =>
      c <- kget k h ;; r <- find_if c f m ;;
      Ok (with_mem k (snd r), RPos (option_map (map cval) (fst r)))
  | OFindLast st h f =>
      c <- kget k h ;; r <- find_last_if st c f m ;;
      Ok (with_mem k (snd r), RPos (option_map (map cval) (fst r)))
  | OLower h less v => c <- kget k h ;; r <- lower_bound dbg less c v m ;; Ok (k, RPos (option_map (map cval) r))
  | OUpper h less v => c <- kget k h ;; r <- upper_bound dbg less c v m ;; Ok (k, RPos (option_map (map cval) r))
  | OSearch h less v => c <- kget k h ;; r <- binary_search dbg less c v m ;; Ok (k, RBool r)
  | OGet h is_ => c <- kget k h ;; v <- get m c is_ ;; Ok (k, RVal v)
  | OPut h is_ v => c <- kget k h ;; m1 <- put m c is_ v ;; Ok (with_mem k m1, RNone)
  | ONumel h => c <- kget k h ;; n <- c_numel c ;; Ok (k, RNum (cval n))
  end.

(** A program: in a state it makes a call, or ends; the result of the call gives the next state. Loops and
    branches of any kind are in the two functions. *)
Record program (S T : Type) := Prog { p_call : S -> option (op S T); p_next : S -> res S T -> S }.
Arguments Prog {S T}. Arguments p_call {S T}. Arguments p_next {S T}.

(** The first [n] calls. *)
Fixpoint kruns {S T} (dbg : bool) (p : program S T) (n : nat) (k : kstate T) (s : S)
  : outcome (kstate T * S) :=
  match n with
  | O => Ok (k, s)
  | Datatypes.S n' =>
      match p_call p s with
      | None => Ok (k, s)
      | Some o => ' (k1, r) <- kstep dbg k o ;; kruns dbg p n' k1 (p_next p s r)
      end
  end.

(** No table, no view: only the memory of the user. *)
Definition kinit {T} (m : mem T) : kstate T := KS m (fun _ => None) (fun _ => None).
