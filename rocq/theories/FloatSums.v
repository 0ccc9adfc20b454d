(** Sums, inner products and scans of elements of any arithmetic type, with an accumulator of any arithmetic
    type: Sums.v has integers only. *)
From Coq Require Import ZArith List Bool.
From Coq Require Import Floats.SpecFloat.
From Verif Require Import Outcome CInt Shape Memory Container ForEach Algo Interp Mixed Convert Sums.
Import ListNotations.
Open Scope Z_scope.

(** Usual arithmetic conversions: the type of a+b and a*b. *)
Definition usual (t u : atype) : atype :=
  match t, u with
  | AInt a, AInt b => AInt (CInt.common a b)
  | AInt _, AFloat g => AFloat g
  | AFloat f, AInt _ => AFloat f
  | AFloat f, AFloat g => AFloat (Mixed.common f g)
  end.
(** An operator on operands of types [t] and [u], converted to [usual t u]. Floating-point operations round to
    nearest even in that type (no wider intermediate results). *)
Definition operate (iop : cint -> cint -> outcome cint) (fop : ftype -> spec_float -> spec_float -> spec_float)
    (t u : atype) (a b : number) : outcome number :=
  match usual t u with
  | AInt _ => match t, u, a, b with
              | AInt i, AInt j, NInt x, NInt y => r <- iop (CI i x) (CI j y) ;; Ok (NInt (cval r))
              | _, _, _, _ => UB
              end
  | AFloat f => x <- convert (AFloat f) a ;; y <- convert (AFloat f) b ;;
                match x, y with NFloat x, NFloat y => Ok (NFloat (fop f x y)) | _, _ => UB end
  end.
Definition plus := operate cadd (fun f => SFadd (f_prec f) (f_emax f)).
Definition times := operate cmul (fun f => SFmul (f_prec f) (f_emax f)).

Definition zero (t : atype) : number := match t with AInt _ => NInt 0 | AFloat _ => NFloat (S754_zero false) end.

(** init = f(init, e) with f = [](auto a, auto e) { return a+e; }, include/kwk/algorithm/algos/reduce.hpp
    33 and 58: an accumulator of type [ta], elements of type [te]; the assignment converts. *)
Definition accumulate (ta te : atype) (a e : number) : outcome number :=
  s <- plus ta te a e ;; convert ta s.

(** reduce(in, +, init), reduce.hpp 29-42, and reduce(in), 44-66: init is a zero of the element type. *)
Definition nsum_from (ta te : atype) (in_ : container) (init : number) (m : mem number)
  : outcome (number * mem number) := reduce_by in_ (accumulate ta te) init m.
Definition nsum (te : atype) (in_ : container) (m : mem number) : outcome (number * mem number) :=
  nsum_from te te in_ (zero te) m.

(** transform_reduce(in1, in2, init), include/kwk/algorithm/algos/numeric.hpp 28-66:
    init = init + (i1 * i2). *)
Definition ndot_from (ta t1 t2 : atype) (in1 in2 : container) (init : number) (m : mem number)
  : outcome (number * mem number) :=
  map_containers
    (fun ps sm => match ps with
                  | [i1; i2] => v1 <- load (snd sm) i1 ;; v2 <- load (snd sm) i2 ;;
                                p <- times t1 t2 v1 v2 ;; a <- accumulate ta (usual t1 t2) (fst sm) p ;; Ok (a, snd sm)
                  | _ => UB
                  end) in1 [in2] (init, m).
(** transform_reduce(in1, in2), 70-83: init is a zero of type decltype(t1{} + t1{} * t2{}). *)
Definition ndot (t1 t2 : atype) (in1 in2 : container) (m : mem number) : outcome (number * mem number) :=
  let t := usual t1 (usual t1 t2) in ndot_from t t1 t2 in1 in2 (zero t) m.
(** inner_product, 91-139: the same after the assertion on the shapes. *)
Definition ninner_from (dbg : bool) (ta t1 t2 : atype) (in1 in2 : container) (init : number) (m : mem number)
  : outcome (number * mem number) :=
  _ <- kassert dbg (shape_eq (c_shape in1) (c_shape in2)) ;; ndot_from ta t1 t2 in1 in2 init m.
Definition ninner (dbg : bool) (t1 t2 : atype) (in1 in2 : container) (m : mem number)
  : outcome (number * mem number) :=
  let t := usual t1 (usual t1 t2) in ninner_from dbg t t1 t2 in1 in2 (zero t) m.

(** exclusive_scan(in, out, init), numeric.hpp 142-177, and inclusive_scan(in, out, init), 180-216, with
    elements of type [ot] in out: the assignments to o convert. *)
Definition nexclusive (ta te ot : atype) (in_ out : container) (init : number) (m : mem number)
  : outcome (mem number) :=
  r <- map_containers
    (fun ps sm => match ps with
                  | [i; o] => w <- convert ot (fst sm) ;; m' <- store (snd sm) o w ;; v <- load m' i ;;
                              a <- accumulate ta te (fst sm) v ;; Ok (a, m')
                  | _ => UB
                  end) in_ [out] (init, m) ;;
  Ok (snd r).
Definition ninclusive (ta te ot : atype) (in_ out : container) (init : number) (m : mem number)
  : outcome (mem number) :=
  r <- map_containers
    (fun ps sm => match ps with
                  | [i; o] => v <- load (snd sm) i ;; a <- accumulate ta te (fst sm) v ;;
                              w <- convert ot a ;; m' <- store (snd sm) o w ;; Ok (a, m')
                  | _ => UB
                  end) in_ [out] (init, m) ;;
  Ok (snd r).
