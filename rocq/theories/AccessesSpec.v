(** Specification of the accesses of calls (C97). *)
From Coq Require Import ZArith List Bool.
From Verif Require Import Outcome CInt Spec ShapeSpec Memory Container ContainerSpec Program Accesses.
Import ListNotations.
Open Scope Z_scope.

(** The accesses [l], made in this order from memory [m], read what is there and lead to [m']. *)
Inductive replay {T} : mem T -> list (access T) -> mem T -> Prop :=
| replay_nil m : replay m [] m
| replay_sees m p v l m' : load m p = Ok v -> replay m l m' -> replay m (Sees p v :: l) m'
| replay_sets m p v l m1 m' : store m p v = Ok m1 -> replay m1 l m' -> replay m (Sets p v :: l) m'.

(** One coordinate after the other, each with some accesses and a state that it passes on. *)
Inductive in_turn {T S} (P : list Z -> S -> list (access T) -> S -> Prop) : list (list Z) -> S -> list (access T) -> S -> Prop :=
| turn_nil s : in_turn P [] s [] s
| turn_cons i is_ s l1 s1 l2 s2 : P i s l1 s1 -> in_turn P is_ s1 l2 s2 -> in_turn P (i :: is_) s (l1 ++ l2) s2.

(** The same until one of them says so. *)
Inductive until_one {T S} (P : list Z -> S -> list (access T) -> bool * S -> Prop) : list (list Z) -> S -> list (access T) -> bool * S -> Prop :=
| until_nil s : until_one P [] s [] (false, s)
| until_here i is_ s l s1 : P i s l (true, s1) -> until_one P (i :: is_) s l (true, s1)
| until_later i is_ s l1 s1 l2 r : P i s l1 (false, s1) -> until_one P is_ s1 l2 r -> until_one P (i :: is_) s (l1 ++ l2) r.

(** The elements of [cs] at a coordinate are read, from the first container to the last. *)
Definition sees_all {T} (cs : list container) (i : list Z) (vs : list T) (l : list (access T)) : Prop :=
  length vs = length cs /\ l = map (fun cv => Sees (elem (fst cv) i) (snd cv)) (combine cs vs).

(** The accesses of a callable of for_each to the elements it is given. *)
Inductive does {S T} (ps : list ptr) : elem_fun S T -> list (access T) -> S -> Prop :=
| does_done s : does ps (Done s) [] s
| does_rd i p v k l s : nth_error ps i = Some p -> does ps (k v) l s -> does ps (Rd i k) (Sees p v :: l) s
| does_wr i p v k l s : nth_error ps i = Some p -> does ps k l s -> does ps (Wr i v k) (Sets p v :: l) s.

(** How many elements are read and written. *)
Definition reads {T} (l : list (access T)) : Z := Z.of_nat (length (filter (fun a => match a with Sees _ _ => true | Sets _ _ => false end) l)).
Definition writes {T} (l : list (access T)) : Z := Z.of_nat (length (filter (fun a => match a with Sees _ _ => false | Sets _ _ => true end) l)).

(** An element of [c] is read, and [f] denies (accepts) its value. *)
Definition sees_not {T} (f : T -> bool) (c : container) (i : list Z) (a : access T) : Prop := exists v, a = Sees (elem c i) v /\ f v = false.
Definition sees_one {T} (f : T -> bool) (c : container) (i : list Z) (a : access T) : Prop := exists v, a = Sees (elem c i) v /\ f v = true.
(** The elements at the coordinates [is_] are read in this order up to the first that [f] accepts, if [found]. *)
Definition sees_until {T} (f : T -> bool) (c : container) (is_ : list (list Z)) (found : bool) (l : list (access T)) : Prop :=
  if found then exists before here after l' a, is_ = before ++ here :: after /\ l = l' ++ [a] /\
                  Forall2 (sees_not f c) before l' /\ sees_one f c here a
  else Forall2 (sees_not f c) is_ l.

(** The coordinate [i] as the library passes it: with the types of the extents. *)
Definition typed (c : container) (i : list Z) (js : list cint) : Prop := vals js = i /\ map cty js = map cty (c_shape c).
Definition some {A} (o : option A) : bool := match o with Some _ => true | None => false end.
(** [l] reads at most [k] elements more than the halvings of [n], and writes none. *)
Definition few {T} (k n : Z) (l : list (access T)) : Prop := writes l = 0 /\ reads l <= k + (if n <=? 0 then 0 else 1 + Z.log2 n).
