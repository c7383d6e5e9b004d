(** Floating-point arithmetic for the stepping solver (src/disc_solver/float_handling.py:10-17).

    FLOAT_TYPE is the type SUNDIALS was built with: single, double, extended or quadruple precision.  The model is any binary format of
    precision [prec] and least exponent [emin], with rounding to nearest, ties to even, as in IEEE 754.  Numbers are the reals of the
    format.  Simplification: no overflow, infinities, NaN or signed zero. *)
From Coq Require Import ZArith Reals.
From Flocq Require Import Core.
From Verif Require Import Model_Array Model_Stepper.
Local Open Scope R_scope.

Section Float.
Variables emin prec : Z.
(** The result of an operation is its exact value, rounded. *)
Definition rounded (x : R) : R := round radix2 (FLT_exp emin prec) ZnearestE x.
(** The operations on γ and the step size: stepper.py:126, 132 (halves), 284-301 (sums, differences and comparisons) and 324 (the
    initial step, 0.1 * γ; [tenth] is the number 0.1 is rounded to). *)
Definition float_arith (tenth : R) : arith :=
  mk_arith R (fun x y => rounded (x + y)) (fun x y => rounded (x - y)) Reqb 0 (fun x => rounded (x / 2)) (fun x => rounded (tenth * x)).
End Float.
