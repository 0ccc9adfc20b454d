(** Meaning of interpolation. *)
From Coq Require Import ZArith QArith Qround List.
From Verif Require Import Outcome CInt Spec ShapeSpec Memory Container ContainerSpec AlgoSpec.
Import ListNotations.
Open Scope Z_scope.

(** Fractional part. *)
Definition frac_part (p : Q) : Q := (p - inject_Z (Qfloor p))%Q.

(** Multilinear interpolation of a function on the integer grid: along the first axis, between the
    interpolations on the two nearest hyperplanes. *)
Fixpoint multilinear (ps : list Q) (f : list Z -> Q) : Q :=
  match ps with
  | [] => f []
  | p :: ps =>
      ((1 - frac_part p) * multilinear ps (fun is_ => f (Qfloor p :: is_)%list) +
       frac_part p * multilinear ps (fun is_ => f ((Qfloor p + 1)%Z :: is_)))%Q
  end.

(** The 2^n neighbours of a point. *)
Fixpoint neighbours (ps : list Q) : list (list Z) :=
  match ps with
  | [] => [[]]
  | p :: ps => map (cons (Qfloor p)) (neighbours ps) ++ map (cons (Qfloor p + 1)) (neighbours ps)
  end.

(** A point of the box, strictly before the last grid line on every axis. *)
Definition interior (ns : list Z) (ps : list Q) : Prop :=
  Forall2 (fun n p => (0 <= p)%Q /\ (p < inject_Z (n - 1))%Q) ns ps.

(** A function of points that is affine along each axis. *)
Definition affine_in_each (g : list Q -> Q) : Prop :=
  (forall a b, Forall2 Qeq a b -> (g a == g b)%Q) /\
  forall pre x y t post,
    (g (pre ++ ((1 - t) * x + t * y) :: post) == (1 - t) * g (pre ++ x :: post) + t * g (pre ++ y :: post))%Q.
