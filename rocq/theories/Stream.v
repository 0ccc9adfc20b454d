(** Stream insertion in a stream with any format: sign, base, width, filling and adjustment. The pieces are
    those of Output.v and SliceText.v, inserted one by one. Locales and the state of errors are not modelled. *)
From Coq Require Import ZArith Ascii String List Bool.
From Verif Require Import Outcome CInt Shape Prefilled NamedSize Memory Container ForEach Algo Output SliceText.
Import ListNotations.
Open Scope Z_scope.

(** The format flags of std::ios_base that insertions of text and integers read: basefield, adjustfield, showpos,
    showbase, uppercase; the fill character; the width. *)
Inductive nbase := BDec | BOct | BHex.
Inductive adjust := ALeft | ARight | AInternal.
Record fmt := Fmt { f_pos : bool; f_base : nbase; f_showbase : bool; f_upper : bool; f_adjust : adjust; f_fill : ascii;
                    f_width : nat }.
Definition with_width (f : fmt) (w : nat) : fmt :=
  Fmt (f_pos f) (f_base f) (f_showbase f) (f_upper f) (f_adjust f) (f_fill f) w.
Definition with_pos (f : fmt) (b : bool) : fmt :=
  Fmt b (f_base f) (f_showbase f) (f_upper f) (f_adjust f) (f_fill f) (f_width f).
(** std::ios::init. *)
Definition plain_fmt : fmt := Fmt false BDec false false ARight " " 0.

(** A stream: what has been written, and its format. *)
Definition stream := (string * fmt)%type.

(** The digits of an integer in a base, [ostream.inserters.arithmetic] and [facet.num.put.virtuals], stage 1. *)
Definition digit_char (up : bool) (d : Z) : ascii :=
  ascii_of_nat (Z.to_nat (if d <? 10 then 48 + d else if up then 55 + d else 87 + d)).
Fixpoint put_digits (up : bool) (b : Z) (fuel : nat) (n : Z) (acc : string) : string :=
  match fuel with
  | O => acc
  | S k => let acc' := String (digit_char up (n mod b)) acc in
           if n / b =? 0 then acc' else put_digits up b k (n / b) acc'
  end.
Definition in_base (up : bool) (b n : Z) : string := put_digits up b (S (Z.to_nat (Z.log2 n))) n "".

(** Stages 1 and 2: what filling with internal adjustment goes after, and the rest. In octal and hexadecimal, the value
    is converted to the unsigned type of the same size; the sign + is for signed types in decimal. *)
Definition int_parts (f : fmt) (t : ity) (z : Z) : string * string :=
  match f_base f with
  | BDec => (if z <? 0 then "-"%string else if f_pos f && is_signed t then "+"%string else ""%string, dec (Z.abs z))
  | BOct => let n := z mod modulus t in
            (""%string,
             String.append (if f_showbase f && negb (n =? 0) then "0"%string else ""%string) (in_base (f_upper f) 8 n))
  | BHex => let n := z mod modulus t in
            (if f_showbase f && negb (n =? 0) then if f_upper f then "0X"%string else "0x"%string else ""%string,
             in_base (f_upper f) 16 n)
  end.

(** Stage 3, and [ostream.formatted.reqmts] for text: filled up to the width, which is then reset. *)
Fixpoint fills (c : ascii) (n : nat) : string := match n with O => ""%string | S k => String c (fills c k) end.
Definition pad (f : fmt) (pre body : string) : string :=
  let fl := fills (f_fill f) (f_width f - (String.length pre + String.length body)) in
  match f_adjust f with
  | ALeft => (pre ++ body ++ fl)%string
  | AInternal => (pre ++ fl ++ body)%string
  | ARight => (fl ++ pre ++ body)%string
  end.

(** What an operator<< inserts: text or a character, an integer (those of 8 bits are characters), or
    std::showpos and std::noshowpos. *)
Inductive insertion := PText (s : string) | PInt (t : ity) (z : Z) | PPos (b : bool).
Definition insert (o : stream) (p : insertion) : stream :=
  let '(s, f) := o in
  match p with
  | PText x => ((s ++ pad f "" x)%string, with_width f 0)
  | PInt I8 z | PInt U8 z =>
      ((s ++ pad f "" (String (ascii_of_nat (Z.to_nat (z mod 256))) ""))%string, with_width f 0)
  | PInt t z => let '(a, b) := int_parts f t z in ((s ++ pad f a b)%string, with_width f 0)
  | PPos b => (s, with_pos f b)
  end.
Definition inserts (o : stream) (ps : list insertion) : stream := fold_left insert ps o.

(** operator<< of constant, include/kwk/utility/fixed.hpp 81-84, or the insertion of an integer. *)
Definition num_pieces (a : knum) : list insertion :=
  let t := cty (nint a) in let v := cval (nint a) in
  if is_fixed a then [PInt (promote t) v; PText "_c"] else [PInt t v].

(** operator<< of shape and stride, include/kwk/utility/container/shape.hpp 318-323 and stride.hpp 110-115. *)
Definition extent_pieces (d : desc) (v : cint) : list insertion :=
  PText " " :: PInt (promote (cty v)) (cval v) :: (if is_dynamic d then [] else [PText "_c"]).
Fixpoint extents_pieces (ds : list desc) (vs : list cint) : list insertion :=
  match ds, vs with
  | d :: ds, v :: vs => extent_pieces d v ++ extents_pieces ds vs
  | _, _ => []
  end.
Definition shape_pieces (p : prefilled) : outcome (list insertion) :=
  vs <- to_values p ;; Ok (PText "[" :: extents_pieces (pdesc p) vs ++ [PText " ]"]).

(** operator<< of position, include/kwk/utility/position.hpp 43-53. *)
Fixpoint index_pieces (l : list Z) : list insertion :=
  match l with
  | [] => []
  | [i] => [PInt I32 i]
  | i :: l => PInt I32 i :: PText ", " :: index_pieces l
  end.
Definition position_pieces (l : list Z) : list insertion :=
  PText "position<" :: PInt U64 (Z.of_nat (length l)) :: PText ">(" :: index_pieces l ++ [PText ")"].

(** operator<< of ratio, include/kwk/utility/ratio.hpp 21-24. *)
Definition ratio_pieces (n d : knum) : list insertion := num_pieces n ++ PText "/" :: num_pieces d.

(** operator<< of end_t, include/kwk/utility/end.hpp 41-47. *)
Definition end_pieces (t : tend) : list insertion :=
  (if ceqb (nint (t_fac t)) (int 1) then [PText "end"] else num_pieces (t_fac t) ++ [PText " * end"]) ++
  (if ceqb (nint (t_div t)) (int 1) then [] else PText "/" :: num_pieces (t_div t)) ++
  (if ceqb (nint (t_off t)) (int 0) then [] else PPos true :: num_pieces (t_off t) ++ [PPos false]).

(** operator<< of slicers, include/kwk/utility/slicer.hpp 146-172, as in SliceText.v. *)
Definition bound_pieces (b : vbound) : list insertion :=
  match b with VInt a => num_pieces a | VEnd t => end_pieces t end.
Definition start_pieces (s : tslicer) : outcome (list insertion) :=
  match ts_begin s, ts_len s, ts_stop s with
  | Some b, _, _ => v <- bvalue b ;; Ok (bound_pieces v)
  | None, Some l, Some e =>
      v <- bvalue e ;; w <- bvalue l ;; x <- vmul w (factor s) ;; y <- vsub v x ;; Ok (bound_pieces y)
  | None, _, _ => Ok [PText "begin"]
  end.
Definition stop_pieces (s : tslicer) : outcome (list insertion) :=
  match ts_stop s, ts_len s, ts_begin s with
  | Some e, _, _ => v <- bvalue e ;; Ok (bound_pieces v)
  | None, Some l, Some b =>
      v <- bvalue b ;; w <- bvalue l ;; x <- vmul w (factor s) ;; y <- vadd v x ;; Ok (bound_pieces y)
  | None, Some l, None => w <- bvalue l ;; x <- vmul w (factor s) ;; Ok (bound_pieces x)
  | None, None, _ => Ok [PText "end"]
  end.
Definition slicer_pieces (s : tslicer) : outcome (list insertion) :=
  a <- start_pieces s ;;
  b <- stop_pieces s ;;
  Ok (a ++ PText ":" :: (match ts_step s with Some k => num_pieces k ++ [PText ":"] | None => [] end) ++ b).

(** operator<< of axes, include/kwk/settings/axis.hpp 73-85. [tyname]: the name of a type (settings/type.hpp 25-28). *)
Definition id_pieces (i : axis_id) : list insertion :=
  match i with
  | AIdx k => if k <? 0 then [PText "implicit<"; PInt I32 (- k - 1); PText ">"] else [PText "along<"; PInt I32 k; PText ">"]
  | AName s => [PText s]
  end.
Definition content_pieces (tyname : ity -> string) (c : content) : list insertion :=
  match c with
  | CJoker => [PText "_"]
  | CType t => [PText (tyname t)]
  | CStatic v => [PInt (promote (cty v)) (cval v)]
  end.
Definition axis_pieces (tyname : ity -> string) (a : desc) : list insertion :=
  id_pieces (aid a) ++ PText "[" :: content_pieces tyname (acont a) ++ [PText "]"].

(** operator<< of containers, include/kwk/container/container.hpp 85-114. [ins f e]: what the insertion of an element
    writes in a stream of format [f]; as the standard ones it resets the width and changes nothing else. *)
Definition insert_elem {T} (ins : fmt -> T -> string) (o : stream) (e : T) : stream :=
  let '(s, f) := o in ((s ++ ins f e)%string, with_width f 0).
Definition stream_elem {T} (ins : fmt -> T -> string) (spaces : string) (shp : shape) (p : ptr) (idx : list cint)
    (sm : stream * mem T) : outcome (stream * mem T) :=
  let '(os, m) := sm in
  let order := length shp in
  let brk := if (3 <=? order)%nat
             then match skipn (order - 2) idx, nth_error idx (order - 3) with
                  | [a; b], Some k => (ceqb a (int 0) && ceqb b (int 0)) && clt (int 0) k
                  | _, _ => false
                  end
             else false in
  let os := if brk then insert os (PText nl) else os in
  let b := last idx (int 0) in
  let os := if ceqb b (int 0) then inserts os [PText spaces; PText "[ "] else os in
  e <- load m p ;;
  let os := insert (insert_elem ins os e) (PText " ") in
  n <- csub (last shp (int 0)) (int 1) ;;
  Ok (if ceqb b n then insert os (PText ("]" ++ nl)) else os, m).
Definition stream_container {T} (ins : fmt -> T -> string) (label : option string) (m : mem T) (c : container) (o : stream)
  : outcome stream :=
  let spaces := match label with Some _ => "  "%string | None => ""%string end in
  let os := match label with Some l => inserts o [PText l; PText (":" ++ nl)] | None => o end in
  e <- c_empty c ;;
  if e then Ok (inserts os [PText spaces; PText "[ ]"])
  else sm <- for_each_index (stream_elem ins spaces (c_shape c)) c (os, m) ;; Ok (fst sm).
