(** Specification for the wave speeds in floating-point arithmetic. *)
From Coq Require Import ZArith Reals.
From Flocq Require Import Core.
Local Open Scope R_scope.

(** The exact squares of the speeds of the slow and of the fast wave, in units of the sound speed, for a given square of the Alfvén speed and of the
    cosine of the angle between the field and the direction of the wave: the roots of the dispersion relation. *)
Definition dispersion (v_a_sq cos_sq x : R) : Prop := x ^ 2 - (v_a_sq + 1) * x + v_a_sq * cos_sq = 0.
Definition exact_slow (v_a_sq cos_sq x : R) : Prop := dispersion v_a_sq cos_sq x /\ forall y, dispersion v_a_sq cos_sq y -> x <= y.
(** The Alfvén speed is far from the speed of sound, compared with the square root of the unit roundoff. *)
Definition far_from_sound (prec : Z) (v_a_sq : R) : Prop := 4 * bpow radix2 (- prec) * (v_a_sq + 1) ^ 2 <= (v_a_sq - 1) ^ 2.
(** The Python float 4 * pi is 12.566...: nothing else about it matters. *)
Definition twelve_and_a_half (four_pi : R) : Prop := 12 < four_pi < 13.
