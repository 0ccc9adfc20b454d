(** What is expected of insertions in streams of any format. *)
From Coq Require Import ZArith Ascii String List Bool.
From Verif Require Import CInt Spec Prefilled OutputSpec SliceText Stream.
Import ListNotations.
Open Scope Z_scope.

(** A text filled up to the width: after it when adjusted to the left, else before it. *)
Definition filling (f : fmt) (n : nat) : string := String.concat "" (repeat (String (f_fill f) "") (f_width f - n)).
Definition widened (f : fmt) (x : string) : string :=
  match f_adjust f with
  | ALeft => x ++ filling f (String.length x)
  | _ => filling f (String.length x) ++ x
  end.

(** A number filled up to the width: also between its sign, or the prefix of its base, and its digits. *)
Definition number (sg ds : string) : Prop :=
  In sg [""; "-"; "+"; "0x"; "0X"]%string /\ ds <> ""%string /\
  Forall (fun c => In c (list_ascii_of_string "0123456789abcdefABCDEF")) (list_ascii_of_string ds).
Definition widened_number (f : fmt) (sg ds : string) : string :=
  let n := (String.length sg + String.length ds)%nat in
  match f_adjust f with
  | ALeft => sg ++ ds ++ filling f n
  | AInternal => sg ++ filling f n ++ ds
  | ARight => filling f n ++ sg ++ ds
  end.
(** What is written first, without and with a width. *)
Inductive filled (f : fmt) : string -> string -> Prop :=
| filled_text x : In x ["begin"; "end"]%string \/ String.length x = 1%nat -> filled f x (widened f x)
| filled_number sg ds : number sg ds -> filled f (sg ++ ds) (widened_number f sg ds).

(** The same format once something was inserted. *)
Definition used (f : fmt) : fmt := with_width f 0.

(** Digits read in a base. *)
Definition digit_value (c : ascii) : Z :=
  let n := Z.of_nat (nat_of_ascii c) in
  if n <=? 57 then n - 48 else if n <=? 70 then n - 55 else n - 87.
Fixpoint read_digits (b : Z) (s : string) (acc : Z) : Z :=
  match s with
  | EmptyString => acc
  | String c s => read_digits b s (acc * b + digit_value c)
  end.

(** The signs of values once promoted. *)
Definition signs (l : list cint) : list bool := map (fun v => is_signed (promote (cty v))) l.

(** In octal and hexadecimal integers are written modulo 2^32 or 2^64: those of two lists are comparable when they
    have the same types once promoted or are not negative. *)
Definition comparable (v w : cint) : Prop := promote (cty v) = promote (cty w) \/ 0 <= cval v /\ 0 <= cval w.

(** Names that are not mistaken for numbered axes, and types that are not mistaken for numbers. *)
Definition plain_name (i : axis_id) : Prop :=
  match i with AName s => free "[" s /\ free "<" s | AIdx k => in_ty I32 k end.
Definition in_numerals : list ascii := list_ascii_of_string "0123456789abcdefABCDEF+-xX".
Definition type_names (tyname : ity -> string) : Prop :=
  (forall t u, tyname t = tyname u -> t = u) /\
  (forall t, exists c, In c (list_ascii_of_string (tyname t)) /\ ~ In c ("_"%char :: in_numerals)).

(** What is inserted first for an axis and for a container. *)
Definition axis_first (i : axis_id) : string :=
  match i with AIdx k => if k <? 0 then "implicit<" else "along<" | AName s => s end.
Definition first_text (label : option string) : string := match label with Some l => l | None => "" end.
