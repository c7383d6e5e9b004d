(** Specification for the grid of angles in floating-point arithmetic. *)
From Coq Require Import ZArith Reals.
From Flocq Require Import Core.
Local Open Scope R_scope.

(** The larger of the two end angles, in degrees. *)
Definition widest (start stop : R) : R := Rmax (Rabs start) (Rabs stop).
(** The format has eleven bits or more and a wide range of exponents; the angles are not all tiny; and the grid is not so fine that
    the format has no room for it: a step is the larger end angle times 32 of the format's unit roundoffs 2^-prec, or more. *)
Definition grid_fits (emin prec : Z) (start stop : R) (num : nat) : Prop :=
  (11 <= prec /\ emin + 2 * prec + 8 <= 0)%Z /\ (2 <= num)%nat /\ start < stop /\
  bpow radix2 (emin + 2 * prec + 8) <= widest start stop /\
  32 * bpow radix2 (- prec) * widest start stop <= (stop - start) / INR (num - 1).
