(** Stream insertion of ratios, [end] expressions and slicers. *)
From Coq Require Import ZArith Ascii String List Bool.
From Verif Require Import Outcome CInt EndRatio Slicer Output.
Import ListNotations.
Open Scope Z_scope.

(** An integer as the operators see it: a run-time one or a kwk::constant (include/kwk/utility/fixed.hpp
    78-100). The operators on two constants give a constant, any other combination a run-time integer. *)
Record knum := Nm { is_fixed : bool; nint : cint }.
Definition nop (f : cint -> cint -> outcome cint) (a b : knum) : outcome knum :=
  c <- f (nint a) (nint b) ;; Ok (Nm (is_fixed a && is_fixed b) c).
(** -constant is a constant, fixed.hpp 86. *)
Definition nneg (a : knum) : outcome knum := c <- cneg (nint a) ;; Ok (Nm (is_fixed a) c).

(** Insertion of an integer with showpos set or not: the sign + is only written for signed types, run-time
    integers of 8 bits are written as one character, constants promoted and with a suffix (fixed.hpp 81-84). *)
Definition show_num (showpos : bool) (a : knum) : string :=
  let t := if is_fixed a then promote (cty (nint a)) else cty (nint a) in
  let v := cval (nint a) in
  ((match t with
    | I8 | U8 => String (ascii_of_nat (Z.to_nat (v mod 256))) ""
    | _ => (if (showpos && is_signed t && (0 <=? v)%Z)%bool then "+" else "") ++ dec v
    end) ++ (if is_fixed a then "_c" else ""))%string.

(** operator<< of ratio, include/kwk/utility/ratio.hpp 21-24. *)
Definition print_ratio (n d : knum) : string := (show_num false n ++ "/" ++ show_num false d)%string.

(** end_t, include/kwk/utility/end.hpp 26-39, with the kinds of its members: offset, factor, divisor. *)
Record tend := Tn { t_off : knum; t_fac : knum; t_div : knum }.

(** operator<<, end.hpp 41-47. Format flags set before the call: Stream.v. *)
Definition print_end (t : tend) : string :=
  ((if ceqb (nint (t_fac t)) (int 1) then "end" else show_num false (t_fac t) ++ " * end")
   ++ (if ceqb (nint (t_div t)) (int 1) then "" else "/" ++ show_num false (t_div t))
   ++ (if ceqb (nint (t_off t)) (int 0) then "" else show_num true (t_off t)))%string.

(** The operators, end.hpp 55-96, as in EndRatio.v. *)
Definition t_add (t : tend) (o : knum) : outcome tend :=
  x <- nop cmul o (t_div t) ;; s <- nop cadd (t_off t) x ;; Ok (Tn s (t_fac t) (t_div t)).
Definition t_sub (t : tend) (o : knum) : outcome tend :=
  x <- nop cmul o (t_div t) ;; s <- nop csub (t_off t) x ;; Ok (Tn s (t_fac t) (t_div t)).
Definition t_subl (o : knum) (t : tend) : outcome tend :=
  x <- nop cmul o (t_div t) ;; s <- nop csub x (t_off t) ;; f <- nneg (t_fac t) ;; Ok (Tn s f (t_div t)).
Definition t_mul (t : tend) (o : knum) : outcome tend :=
  s <- nop cmul (t_off t) o ;; f <- nop cmul (t_fac t) o ;; Ok (Tn s f (t_div t)).
Definition t_divide (t : tend) (o : knum) : outcome tend :=
  d <- nop cmul (t_div t) o ;; Ok (Tn (t_off t) (t_fac t) d).
(** end.hpp 99 *)
Definition t_end : tend := Tn (Nm true (int 0)) (Nm true (int 1)) (Nm true (int 1)).

(** Expressions, and the object each makes. *)
Inductive texpr :=
| TEEnd
| TEAdd (e : texpr) (o : knum)
| TEAddL (o : knum) (e : texpr)
| TESub (e : texpr) (o : knum)
| TESubL (o : knum) (e : texpr)
| TEMul (e : texpr) (o : knum)
| TEMulL (o : knum) (e : texpr)
| TEDiv (e : texpr) (o : knum).
Fixpoint tbuild (e : texpr) : outcome tend :=
  match e with
  | TEEnd => Ok t_end
  | TEAdd e o | TEAddL o e => t <- tbuild e ;; t_add t o
  | TESub e o => t <- tbuild e ;; t_sub t o
  | TESubL o e => t <- tbuild e ;; t_subl o t
  | TEMul e o | TEMulL o e => t <- tbuild e ;; t_mul t o
  | TEDiv e o => t <- tbuild e ;; t_divide t o
  end.

(** The same expression without the kinds of its integers. *)
Fixpoint plain (e : texpr) : eexpr :=
  match e with
  | TEEnd => EEnd
  | TEAdd e o => EAdd (plain e) (nint o)
  | TEAddL o e => EAddL (nint o) (plain e)
  | TESub e o => ESub (plain e) (nint o)
  | TESubL o e => ESubL (nint o) (plain e)
  | TEMul e o => EMul (plain e) (nint o)
  | TEMulL o e => EMulL (nint o) (plain e)
  | TEDiv e o => EDiv (plain e) (nint o)
  end.

(** Bounds, and slicers with the kinds of their integers (include/kwk/utility/slicer.hpp 50-64). *)
Inductive tbound := TInt (a : knum) | TEnd (e : texpr).
Record tslicer := Ts { ts_begin : option tbound; ts_step : option knum; ts_stop : option tbound;
                       ts_len : option tbound }.
Definition plain_bound (b : tbound) : bound :=
  match b with TInt a => BInt (nint a) | TEnd e => BEnd (plain e) end.
Definition plain_slicer (s : tslicer) : slc :=
  SSlice (option_map plain_bound (ts_begin s)) (option_map nint (ts_step s))
    (option_map plain_bound (ts_stop s)) (option_map plain_bound (ts_len s)).

(** A bound once evaluated, and the operators on bounds: two [end] expressions cannot be added or
    subtracted (both operators of end.hpp 55-65, and both of 67-78, match). *)
Inductive vbound := VInt (a : knum) | VEnd (t : tend).
Definition bvalue (b : tbound) : outcome vbound :=
  match b with TInt a => Ok (VInt a) | TEnd e => t <- tbuild e ;; Ok (VEnd t) end.
Definition vmul (b : vbound) (k : knum) : outcome vbound :=
  match b with VInt a => x <- nop cmul a k ;; Ok (VInt x) | VEnd t => x <- t_mul t k ;; Ok (VEnd x) end.
Definition vadd (a b : vbound) : outcome vbound :=
  match a, b with
  | VInt a, VInt b => x <- nop cadd a b ;; Ok (VInt x)
  | VEnd t, VInt o | VInt o, VEnd t => x <- t_add t o ;; Ok (VEnd x)
  | VEnd _, VEnd _ => UB
  end.
Definition vsub (a b : vbound) : outcome vbound :=
  match a, b with
  | VInt a, VInt b => x <- nop csub a b ;; Ok (VInt x)
  | VEnd t, VInt o => x <- t_sub t o ;; Ok (VEnd x)
  | VInt o, VEnd t => x <- t_subl o t ;; Ok (VEnd x)
  | VEnd _, VEnd _ => UB
  end.
Definition show_bound (b : vbound) : string :=
  match b with VInt a => show_num false a | VEnd t => print_end t end.

(** operator<<, slicer.hpp 146-172: the lambdas factor, start and stop, then the insertions. *)
Definition factor (s : tslicer) : knum :=
  match ts_step s with Some k => k | None => Nm true (int 1) end.
Definition show_start (s : tslicer) : outcome string :=
  match ts_begin s, ts_len s, ts_stop s with
  | Some b, _, _ => v <- bvalue b ;; Ok (show_bound v)
  | None, Some l, Some e =>
      v <- bvalue e ;; w <- bvalue l ;; x <- vmul w (factor s) ;; y <- vsub v x ;; Ok (show_bound y)
  | None, _, _ => Ok "begin"%string
  end.
Definition show_stop (s : tslicer) : outcome string :=
  match ts_stop s, ts_len s, ts_begin s with
  | Some e, _, _ => v <- bvalue e ;; Ok (show_bound v)
  | None, Some l, Some b =>
      v <- bvalue b ;; w <- bvalue l ;; x <- vmul w (factor s) ;; y <- vadd v x ;; Ok (show_bound y)
  | None, Some l, None => w <- bvalue l ;; x <- vmul w (factor s) ;; Ok (show_bound x)
  | None, None, _ => Ok "end"%string
  end.
Definition print_slicer (s : tslicer) : outcome string :=
  a <- show_start s ;;
  b <- show_stop s ;;
  Ok (a ++ ":" ++ (match ts_step s with Some k => show_num false k ++ ":" | None => "" end) ++ b)%string.
