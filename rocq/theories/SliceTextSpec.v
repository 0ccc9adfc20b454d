(** What the text of an [end] expression or of a bound says, read as arithmetic. *)
From Coq Require Import ZArith Ascii String List Bool.
From Verif Require Import Outcome CInt EndRatio EndRatioSpec Output SliceText.
Import ListNotations.
Open Scope Z_scope.

(** A number, possibly with the suffix of constants. *)
Inductive numeral : string -> Z -> Prop :=
| numeral_dec z : numeral (dec z) z
| numeral_fixed z : numeral (dec z ++ "_c") z.

(** [2 * end/3]: products and quotients are read from left to right. *)
Inductive term : string -> (Z -> Z) -> Prop :=
| term_end : term "end" (fun n => n)
| term_times k z : numeral k z -> term (k ++ " * end") (fun n => z * n)
| term_over t f k d : term t f -> numeral k d -> term (t ++ "/" ++ k) (fun n => Z.quot (f n) d).

(** A bound: a number, a term, or a term and what is added to it or taken from it. *)
Inductive reads : string -> (Z -> Z) -> Prop :=
| reads_begin : reads "begin" (fun _ => 0)
| reads_number k z : numeral k z -> reads k (fun _ => z)
| reads_term t f : term t f -> reads t f
| reads_plus t f k z : term t f -> numeral k z -> 0 <= z -> reads (t ++ "+" ++ k) (fun n => f n + z)
| reads_minus t f k z : term t f -> numeral k z -> z < 0 -> reads (t ++ k) (fun n => f n + z).

(** Integers inserted as numbers with their sign: signed after promotion, not one character. *)
Definition readable (a : knum) : Prop :=
  sgn_ty (nint a) /\ (is_fixed a = true \/ (cty (nint a) <> I8 /\ cty (nint a) <> U8)).

(** Expressions without division, of integers of such types. *)
Fixpoint whole (e : texpr) : Prop :=
  match e with
  | TEEnd => True
  | TEAdd e o | TEAddL o e | TESub e o | TESubL o e | TEMul e o | TEMulL o e => sgn_ty (nint o) /\ whole e
  | TEDiv _ _ => False
  end.
Definition signed_bound (b : tbound) : Prop :=
  match b with TInt a => sgn_ty (nint a) | TEnd e => whole e end.
Definition legible (b : option tbound) : Prop :=
  match b with None => True | Some (TInt a) => readable a | Some (TEnd e) => whole e end.

(** The text of a range: from where, by which step, up to where. *)
Inductive range_text : string -> (Z -> Z) -> Z -> (Z -> Z) -> Prop :=
| range_unit a f b g : reads a f -> reads b g -> range_text (a ++ ":" ++ b) f 1 g
| range_step a f k z b g : reads a f -> numeral k z -> reads b g -> range_text (a ++ ":" ++ k ++ ":" ++ b) f z g.

(** Where the constants of an expression reach: which numbers of the text have the suffix of constants. *)
Fixpoint constant_factor (e : texpr) : bool :=
  match e with
  | TEEnd => true
  | TEAdd e _ | TEAddL _ e | TESub e _ | TESubL _ e | TEDiv e _ => constant_factor e
  | TEMul e o | TEMulL o e => constant_factor e && is_fixed o
  end.
Fixpoint constant_divisor (e : texpr) : bool :=
  match e with
  | TEEnd => true
  | TEAdd e _ | TEAddL _ e | TESub e _ | TESubL _ e | TEMul e _ | TEMulL _ e => constant_divisor e
  | TEDiv e o => constant_divisor e && is_fixed o
  end.
Fixpoint constant_offset (e : texpr) : bool :=
  match e with
  | TEEnd => true
  | TEAdd e o | TEAddL o e | TESub e o | TESubL o e => constant_offset e && (constant_divisor e && is_fixed o)
  | TEMul e o | TEMulL o e => constant_offset e && is_fixed o
  | TEDiv e _ => constant_offset e
  end.
(** A number with or without the suffix. *)
Definition written (fixed : bool) (z : Z) : string := (dec z ++ (if fixed then "_c" else ""))%string.
Definition step_fixed (s : option knum) : bool := match s with None => true | Some k => is_fixed k end.
Definition step_text (s : option knum) : string :=
  match s with None => ""%string | Some k => (written (is_fixed k) (cval (nint k)) ++ ":")%string end.
