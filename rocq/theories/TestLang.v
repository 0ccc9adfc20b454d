(** The expressions the unit tests of the repository are written in, evaluated by the model. Used by the files
    Test*.v, which run the checks of /repo/test/unit on the model: these are tests of the model, not properties. *)
From Coq Require Import ZArith String Ascii List Bool.
From Verif Require Import Outcome CInt Shape Prefilled NamedSize NamedStride EndRatio Literals SliceText Names SliceKinds Ctor.
Import ListNotations.
Open Scope Z_scope.

(** Values of the expressions. Settings ([axis = value], [from = value]) are values as well. *)
Inductive tv :=
| VN (k : knum)
| VE (e : texpr)
| VP (p : prefilled)
| VT (p : prefilled)
| VL (s : tslicer)
| VR (n d : knum)
| VA (l : list cint)
| VB (b : bool)
| VJ
| VX (a : axis_id) (c : content)
| VO (a : axis_id) (v : tv)
| VF (name : string) (v : tv).
Definition te := outcome tv.

Definition codes (s : string) : list Z := map (fun c => Z.of_nat (nat_of_ascii c)) (list_ascii_of_string s).
(** 5, 5_c, fixed<5>, T{e} *)
Definition ilit (z : Z) : te := Ok (VN (Nm false (int z))).
Definition tlit (t : ity) (z : Z) : te := Ok (VN (Nm false (CI t z))).
Definition clit (s : string) : te := Ok (VN (Nm true (literal_c (codes s)))).
Definition num1 (e : te) (f : knum -> te) : te := v <- e ;; match v with VN k => f k | _ => UB end.
Definition fixd (e : te) : te := num1 e (fun k => Ok (VN (Nm true (nint k)))).
Definition decl (t : ity) (e : te) : te := num1 e (fun k => Ok (VN (Nm false (conv t (nint k))))).
Definition joker : te := Ok VJ.
Definition kend : te := Ok (VE TEEnd).
Definition neg (e : te) : te := num1 e (fun k => r <- nneg k ;; Ok (VN r)).
Definition ratio_ (a b : te) : te := num1 a (fun x => num1 b (fun y => Ok (VR x y))).

(** Operators: integers and constants, end, and ratios (include/kwk/utility/ratio.hpp 31-75). *)
Definition kadd := nop cadd.
Definition ksub := nop csub.
Definition kmul := nop cmul.
Definition kdiv := nop cdiv.
Definition add (a b : te) : te :=
  x <- a ;; y <- b ;;
  match x, y with
  | VN k, VN l => r <- kadd k l ;; Ok (VN r)
  | VE e, VN l => Ok (VE (TEAdd e l))
  | VN k, VE e => Ok (VE (TEAddL k e))
  | VR n d, VR m f => a <- kmul n f ;; b <- kmul m d ;; s <- kadd a b ;; q <- kmul d f ;; Ok (VR s q)
  | _, _ => UB
  end.
Definition sub (a b : te) : te :=
  x <- a ;; y <- b ;;
  match x, y with
  | VN k, VN l => r <- ksub k l ;; Ok (VN r)
  | VE e, VN l => Ok (VE (TESub e l))
  | VN k, VE e => Ok (VE (TESubL k e))
  | VR n d, VR m f => a <- kmul n f ;; b <- kmul m d ;; s <- ksub a b ;; q <- kmul d f ;; Ok (VR s q)
  | _, _ => UB
  end.
Definition mul (a b : te) : te :=
  x <- a ;; y <- b ;;
  match x, y with
  | VN k, VN l => r <- kmul k l ;; Ok (VN r)
  | VE e, VN l => Ok (VE (TEMul e l))
  | VN k, VE e => Ok (VE (TEMulL k e))
  | VR n d, VR m f => s <- kmul n m ;; q <- kmul d f ;; Ok (VR s q)
  | _, _ => UB
  end.
Definition div (a b : te) : te :=
  x <- a ;; y <- b ;;
  match x, y with
  | VN k, VN l => r <- kdiv k l ;; Ok (VN r)
  | VE e, VN l => Ok (VE (TEDiv e l))
  | VR n d, VR m f => s <- kmul n f ;; q <- kmul d m ;; Ok (VR s q)
  | _, _ => UB
  end.

(** of_size, of_size<T>, with_strides, shape<D...>{...} and shape<D...>{other}. *)
Definition axis (s : string) : te := Ok (VX (AName s) CJoker).
Definition along (z : Z) : te := Ok (VX (AIdx z) CJoker).
Definition with_content (a v : te) : te :=
  x <- a ;; y <- v ;;
  match x, y with VX i _, VN k => Ok (VX i (CStatic (nint k))) | _, _ => UB end.
Definition opt (a v : te) : te := x <- a ;; y <- v ;; match x with VX i _ => Ok (VO i y) | _ => UB end.
Definition ext_of (v : tv) : outcome extent :=
  match v with VJ => Ok EJoker | VN k => Ok (extent_of k) | _ => UB end.
Definition arg_of (v : tv) : outcome arg :=
  match v with
  | VX a c => Ok (AAxis a c)
  | VO a v => e <- ext_of v ;; Ok (ANamed a CJoker e)
  | _ => e <- ext_of v ;; Ok (APos e)
  end.
Definition values (l : list te) : outcome (list tv) := mapM (fun e => e) l.
Definition size_ (l : list te) : te :=
  vs <- values l ;; es <- mapM arg_of vs ;; p <- of_size_args true es ;; Ok (VP p).
Definition size_as (t : ity) (l : list te) : te :=
  vs <- values l ;; es <- mapM ext_of vs ;; p <- of_size_as true t es ;; Ok (VP p).
Definition strides (l : list te) : te :=
  vs <- values l ;; es <- mapM arg_of vs ;; p <- with_strides_args true es ;; Ok (VT p).
Definition desc_of (v : tv) : outcome (option axis_id * content) :=
  match v with
  | VJ => Ok (None, CJoker)
  | VN k => Ok (None, CStatic (nint k))
  | VX a c => Ok (Some a, c)
  | _ => UB
  end.
Definition karg_of (v : tv) : outcome karg :=
  match v with VO a v => e <- ext_of v ;; Ok (KNamed a e) | _ => e <- ext_of v ;; Ok (KPos e) end.
Definition shape_of (ds l : list te) : te :=
  dv <- values ds ;; d <- mapM desc_of dv ;; vs <- values l ;;
  let ds := normalize d in
  match vs with
  | [VP q] => p <- shape_convert true ds q ;; Ok (VP p)
  | _ => ks <- mapM karg_of vs ;; p <- construct_shape true ds (int 0) ks ;; Ok (VP p)
  end.

(** slice(from = .., to = .., by = .., length = ..) and shape(slicers...). *)
Definition field (name : string) (v : te) : te := x <- v ;; Ok (VF name x).
Definition bound_of (v : tv) : outcome tbound :=
  match v with VN k => Ok (TInt k) | VE e => Ok (TEnd e) | _ => UB end.
Definition set_field (s : tslicer) (v : tv) : outcome tslicer :=
  match v with
  | VF n x =>
      if String.eqb n "from" then b <- bound_of x ;; Ok (Ts (Some b) (ts_step s) (ts_stop s) (ts_len s))
      else if String.eqb n "to" then b <- bound_of x ;; Ok (Ts (ts_begin s) (ts_step s) (Some b) (ts_len s))
      else if String.eqb n "length" then b <- bound_of x ;; Ok (Ts (ts_begin s) (ts_step s) (ts_stop s) (Some b))
      else match x with VN k => Ok (Ts (ts_begin s) (Some k) (ts_stop s) (ts_len s)) | _ => UB end
  | _ => UB
  end.
Definition slice (l : list te) : te :=
  vs <- values l ;; s <- kfold_right set_field vs (Ts None None None None) ;; Ok (VL s).
Definition slc_of (v : tv) : outcome kslc :=
  match v with VJ => Ok KAll | VE e => Ok (KEnd e) | VN k => Ok (KIdx k) | VL s => Ok (KSl s) | _ => UB end.
Definition call (p : te) (l : list te) : te :=
  v <- p ;; vs <- values l ;; ss <- mapM slc_of vs ;;
  match v with VP p => q <- pslice_shape true p ss ;; Ok (VP q) | _ => UB end.

(** Accessors. *)
Definition get (n : nat) (e : te) : te :=
  v <- e ;; match v with
            | VP p | VT p => x <- pextent p n ;; k <- knum_of x ;; Ok (VN k)
            | _ => UB
            end.
Definition at_axis (e a : te) : te :=
  v <- e ;; x <- a ;;
  match v, x with VP p, VX i _ => c <- pget_axis p i ;; Ok (VN (Nm false c)) | _, _ => UB end.
Definition at_index (e : te) (n : nat) : te :=
  v <- e ;; match v with VP p | VT p => c <- pindex true p n ;; Ok (VN (Nm false c)) | _ => UB end.
Definition on_shape (e : te) (f : prefilled -> te) : te :=
  v <- e ;; match v with VP p | VT p => f p | _ => UB end.
Definition nint_of (z : Z) : te := Ok (VN (Nm false (int z))).
Definition order_ (e : te) : te := on_shape e (fun p => nint_of (Z.of_nat (length (pdesc p)))).
Definition numel_ (e : te) : te := on_shape e (fun p => s <- to_values p ;; c <- numel s ;; Ok (VN (Nm false c))).
Definition nbdims_ (e : te) : te := on_shape e (fun p => s <- to_values p ;; nint_of (nbdims s)).
Definition is_fully_static_ (e : te) : te := on_shape e (fun p => Ok (VB (is_fully_static (pdesc p)))).
Definition is_fully_dynamic_ (e : te) : te := on_shape e (fun p => Ok (VB (is_fully_dynamic (pdesc p)))).
Definition is_unit_ (e : te) : te := on_shape e (fun p => Ok (VB (is_unit (pdesc p)))).
Definition as_array_ (e : te) : te := on_shape e (fun p => l <- as_array p ;; Ok (VA l)).
Definition fit_constraints_ (e f : te) : te :=
  on_shape e (fun p => on_shape f (fun q => b <- fit_constraints p q ;; Ok (VB b))).
Definition as_stride_ (e : te) : te := on_shape e (fun p => r <- pas_stride true p ;; Ok (VT r)).
(** sizeof(shape): the stored integers, all of the same type in the tests; an empty class has size 1. *)
Definition sizeof (e : te) : te :=
  v <- e ;;
  match v with
  | VP p => tlit U64 (if is_fully_static (pdesc p) then 1
                      else fold_right Z.add 0 (map (fun c => CInt.width (cty c) / 8) (pstore p)))
  | VN k => tlit U64 (if is_fixed k then 1 else CInt.width (cty (nint k)) / 8)
  | _ => UB
  end.
Definition array (t : ity) (l : list te) : te :=
  vs <- values l ;; cs <- mapM (fun v => match v with VN k => Ok (conv t (nint k)) | _ => UB end) vs ;; Ok (VA cs).
Definition value_ (e : te) : te := num1 e (fun k => Ok (VN (Nm false (nint k)))).
Definition on_end (e : te) (f : tend -> tv) : te := v <- e ;; match v with VE x => t <- tbuild x ;; Ok (f t) | _ => UB end.
Definition offset_ (e : te) : te := on_end e (fun t => VN (t_off t)).
Definition factor_ (e : te) : te := on_end e (fun t => VN (t_fac t)).
Definition divisor_ (e : te) : te := on_end e (fun t => VN (t_div t)).
Definition get_ratio (e : te) : te := on_end e (fun t => VR (t_fac t) (t_div t)).
Definition num_ (e : te) : te := v <- e ;; match v with VR n _ => Ok (VN n) | _ => UB end.
Definition denum_ (e : te) : te := v <- e ;; match v with VR _ d => Ok (VN d) | _ => UB end.
Definition is_static (e : te) : te := num1 e (fun k => Ok (VB (is_fixed k))).
Definition true_ : te := Ok (VB true).
Definition false_ : te := Ok (VB false).

(** TTS_EQUAL: operator== of the library on shapes, strides and ratios; the values of integers, whatever their
    types. TTS_TYPED_EQUAL: the same type as well. *)
Definition same_cint (a b : cint) : bool := ity_eqb (cty a) (cty b) && (cval a =? cval b).
Definition eq_ (a b : te) : outcome bool :=
  x <- a ;; y <- b ;;
  match x, y with
  | VN k, VN l => Ok (cval (nint k) =? cval (nint l))
  | VP p, VP q => pshape_eq true p q
  | VT p, VT q => s <- to_values p ;; t <- to_values q ;; Ok (stride_eq s t)
  | VR n d, VR m f => u <- kmul n f ;; v <- kmul d m ;; Ok (ceqb (nint u) (nint v))
  | VA l, VA m => Ok ((length l =? length m)%nat && forallb (fun ab => same_cint (fst ab) (snd ab)) (combine l m))
  | VB a, VB b => Ok (Bool.eqb a b)
  | _, _ => UB
  end.
(** TTS_NOT_EQUAL on shapes. *)
Definition neq_ (a b : te) : outcome bool := r <- eq_ a b ;; Ok (negb r).
Definition typed_eq (a b : te) : outcome bool :=
  x <- a ;; y <- b ;;
  match x, y with
  | VN k, VN l => Ok (Bool.eqb (is_fixed k) (is_fixed l) && same_cint (nint k) (nint l))
  | _, _ => UB
  end.
Definition has_type (a : te) (t : ity) : outcome bool :=
  x <- a ;; match x with VN k => Ok (negb (is_fixed k) && ity_eqb (cty (nint k)) t) | _ => UB end.
Definition expect (a : te) : outcome bool := x <- a ;; match x with VB b => Ok b | _ => UB end.
Definition expect_not (a : te) : outcome bool := b <- expect a ;; Ok (negb b).

Definition passes (l : list (outcome bool)) : bool :=
  forallb (fun o => match o with Ok b => b | _ => false end) l.
