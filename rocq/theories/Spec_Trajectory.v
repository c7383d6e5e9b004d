(** What following a line should give. *)
From Coq Require Import List Reals.
From Verif Require Import Model_Trajectory.
Import ListNotations.
Local Open Scope R_scope.
(** The direction of r e_r + θ e_θ at the position p, where e_r points away from the origin and e_θ is e_r turned by a right angle. *)
Definition direction (p : pt) (r θ : R) : pt :=
  let '(x, y) := p in
  let n := sqrt (x ^ 2 + y ^ 2) * sqrt (r ^ 2 + θ ^ 2) in
  ((r * x - θ * y) / n, (r * y + θ * x) / n).
Definition distance (p q : pt) : R := sqrt ((fst q - fst p) ^ 2 + (snd q - snd p) ^ 2).
(** The points reached from a point with its direction by steps of length s, until the step is cut to a hundredth; after a cut the
    point reached is there twice, and steps continue with the new length. *)
Inductive steps (s : R) : pt * pt -> list (pt * pt) -> Prop :=
| no_more : forall a, steps s a []
| one_step : forall v p v' l, steps s (v', move p s v) l -> steps s (v, p) ((v', move p s v) :: l)
| cut_last : forall v p v', steps s (v, p) [(v', move p (s / 100) v)]
| cut_step : forall v p v' l, steps (s / 100) (v', move p (s / 100) v) l ->
    steps s (v, p) ((v', move p (s / 100) v) :: (v', move p (s / 100) v) :: l).
