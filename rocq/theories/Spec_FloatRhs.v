(** Specification for the denominators of the right-hand side in floating-point arithmetic. *)
From Coq Require Import ZArith Reals.
From Flocq Require Import Core.
From Verif Require Import Model_Float.
Local Open Scope R_scope.

(** A power function as C libraries have it: the square, with an error of at most a sixteenth of a unit in the last place, rounded. *)
Definition squares (emin prec : Z) (sq : R -> R) : Prop :=
  forall x, exists δ, Rabs δ <= bpow radix2 (- prec - 4) /\ sq x = rounded emin prec (x ^ 2 * (1 + δ)).
(** A format like those of IEEE 754: four bits or more, and a range of exponents that is not too small. *)
Definition sensible_format (emin prec : Z) : Prop := (4 <= prec /\ emin <= - 3 * prec)%Z.
(** The square of the number does not underflow. *)
Definition square_normal (emin prec : Z) (x : R) : Prop := exists k, (emin + prec <= 2 * k)%Z /\ bpow radix2 k <= Rabs x.
