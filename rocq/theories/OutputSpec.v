(** Layout of the text of a container. *)
From Coq Require Import ZArith Ascii String List.
From Verif Require Import Outcome CInt Spec.
Import ListNotations.
Open Scope Z_scope.

(** The end of a line. *)
Definition eol : string := String (ascii_of_nat 10) EmptyString.

(** A line: the elements, each followed by a space, between brackets. *)
Definition line (spaces : string) (es : list string) : string :=
  (spaces ++ "[ " ++ String.concat "" (map (fun e => e ++ " ") es) ++ "]" ++ eol)%string.

(** [text spaces ns f]: the text of the elements [f is_] of a box: one line per innermost line; the
    matrices made of the last two axes are separated by empty lines along the third axis from the last. *)
Fixpoint text (spaces : string) (ns : list Z) (f : list Z -> string) : string :=
  match ns with
  | [] => ""%string
  | n :: ns' =>
      let parts := map (fun i => text spaces ns' (fun is_ => f (i :: is_))) (zrange 0 (Z.to_nat n)) in
      match ns' with
      | [] => line spaces (map (fun i => f [i]) (zrange 0 (Z.to_nat n)))
      | [_; _] => String.concat eol parts
      | _ => String.concat "" parts
      end
  end.

(** What precedes the elements. *)
Definition heading (label : option string) : string :=
  match label with Some l => (l ++ ":" ++ eol)%string | None => ""%string end.
Definition indent (label : option string) : string :=
  match label with Some _ => "  "%string | None => ""%string end.

(** Texts without a character. *)
Fixpoint free (c : ascii) (s : string) : Prop :=
  match s with EmptyString => True | String x s => x <> c /\ free c s end.
