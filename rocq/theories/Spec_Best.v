(** Vocabulary of C135: the curves that the acceptance tests of a solution are about. *)
From Coq Require Import Reals.
Open Scope R_scope.

Definition not_negative (a b : R) (f : R -> R) : Prop := forall x, a <= x <= b -> 0 <= f x.
(** Nowhere between [a] and [b] does the gas slow down. *)
Definition rises (a b : R) (v : R -> R) : Prop := forall x1 x2, a <= x1 -> x1 < x2 -> x2 <= b -> v x1 <= v x2.
(** While the speed is between [c] and the sound speed, the curve does not bend upwards: no middle value is below the mean of the
    values at the same distance on both sides. *)
Definition bends_down (c a b : R) (v : R -> R) : Prop :=
  forall x h, 0 < h -> a <= x - h -> x + h <= b -> c < v (x - h) -> v (x + h) < 1 -> v (x - h) + v (x + h) <= 2 * v x.
