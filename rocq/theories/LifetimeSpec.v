(** Specification vocabulary for tables of objects. *)
From Coq Require Import List Bool.
From Verif Require Import Outcome Alloc AllocSpec Lifetime.
Import ListNotations.

(** Tables as values: each variable is a list of [n] elements of its own. [None] as a result: the program
    uses a table that does not exist, constructs one that does, reads past a source or writes past the end. *)
Definition table_step {T} (ec : eclass T) (n : nat) (e : nat -> option (list T)) (o : sop T)
  : option (nat -> option (list T)) :=
  match o with
  | SDefault v => match e v with None => Some (set e v (Some (repeat (e_default ec) n))) | _ => None end
  | SFrom v xs =>
      match e v with
      | None => if Nat.leb n (length xs) then Some (set e v (Some (firstn n xs))) else None
      | _ => None
      end
  | SCopy v w => match e v, e w with None, Some l => Some (set e v (Some l)) | _, _ => None end
  | SMove v w =>
      match e v, e w with
      | None, Some l => Some (set (set e w (Some (map (e_moved ec) l))) v (Some l))
      | _, _ => None
      end
  | SCopyAssign v w => match e v, e w with Some _, Some l => Some (set e v (Some l)) | _, _ => None end
  | SMoveAssign v w =>
      match e v, e w with
      | Some _, Some l =>
          Some (if Nat.eqb v w then set e v (Some (map (e_self ec) l))
                else set (set e w (Some (map (e_moved ec) l))) v (Some l))
      | _, _ => None
      end
  | SSwap v w =>
      match e v, e w with Some k, Some l => Some (set (set e v (Some l)) w (Some k)) | _, _ => None end
  | SWrite v i x =>
      match e v with
      | Some l => if Nat.ltb i (length l) then Some (set e v (Some (firstn i l ++ x :: skipn (S i) l))) else None
      | None => None
      end
  | SDestroy v => match e v with Some _ => Some (set e v None) | None => None end
  end.
Fixpoint table_runs {T} (ec : eclass T) (n : nat) (e : nat -> option (list T)) (os : list (sop T))
  : option (nat -> option (list T)) :=
  match os with
  | [] => Some e
  | o :: os' => match table_step ec n e o with Some e' => table_runs ec n e' os' | None => None end
  end.

(** Each variable has a block of its own, whose objects are alive and hold the given values; no other
    object is alive. *)
Definition tables_hold {T} (n : nat) (s : sstate T) (e : nat -> option (list T)) : Prop :=
  (forall v, match e v, s_vars s v with
             | None, None => True
             | Some l, Some b => length l = n /\ nth_error (s_slots s) b = Some (map Some l)
             | _, _ => False
             end) /\
  (forall v w b, s_vars s v = Some b -> s_vars s w = Some b -> v = w) /\
  (forall b i x, slot (s_slots s) b i = Some (Some x) -> exists v, s_vars s v = Some b).
