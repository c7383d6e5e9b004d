(** Vocabulary of C127: how an error behaves at small angles. *)
From Coq Require Import Reals.
Open Scope R_scope.

(** The quantity is [c] times the square of the angle, up to a remainder that is small compared with the square. *)
Definition square_law (h : R -> R) (c : R) : Prop :=
  forall η, 0 < η -> exists δ, 0 < δ /\ forall θ, Rabs θ < δ -> Rabs (h θ - c * θ ^ 2) <= η * θ ^ 2.

(** The quantity is at most a multiple of the third power of the angle. *)
Definition third_order_small (h : R -> R) : Prop :=
  exists K δ, 0 < δ /\ forall θ, 0 < θ < δ -> Rabs (h θ) <= K * θ ^ 3.
