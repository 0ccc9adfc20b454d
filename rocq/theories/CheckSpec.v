(** What assertions may do to a call: nothing, or stop the program. *)
From Verif Require Import Outcome.

(** [checked] is the call with assertions, [plain] the one without. *)
Definition only_stops {A : Type} (checked plain : outcome A) : Prop := checked = plain \/ checked = Abort.
Definition confirms {A : Type} (checked plain : outcome A) : Prop := forall r, checked = Ok r -> plain = Ok r.
