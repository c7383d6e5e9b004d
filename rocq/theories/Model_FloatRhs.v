(** The denominators of the right-hand side in floating-point arithmetic.

    Every operation gives its exact result, rounded (Model_Float.v).  [sq] is numpy's x ** 2, which calls the power function of the C
    library: Spec_FloatRhs.v says what is asked of it.  Simplification: no overflow, infinities, NaN or signed zero. *)
From Coq Require Import ZArith Reals.
From Verif Require Import Model_Float.
Local Open Scope R_scope.

Section FloatRhs.
Variables emin prec : Z.
Variable sq : R -> R.
Definition f_add (x y : R) : R := rounded emin prec (x + y).
Definition f_sub (x y : R) : R := rounded emin prec (x - y).
Definition f_mul (x y : R) : R := rounded emin prec (x * y).
Definition f_div (x y : R) : R := rounded emin prec (x / y).
Definition f_sqrt (x : R) : R := rounded emin prec (sqrt x).
(** solution.py:146. *)
Definition f_B_mag (B_r B_φ B_θ : R) : R := f_sqrt (f_add (f_add (sq B_r) (sq B_φ)) (sq B_θ)).
(** solution.py:147, one component; in the code the three are computed side by side. *)
Definition f_unit (B_r B_φ B_θ B : R) : R := f_div B (f_B_mag B_r B_φ B_θ).
(** deriv_funcs.py:147 and 135-141: the denominator of C and of A. *)
Definition f_denominator (η_O η_A b_φ : R) : R := f_add η_O (f_mul η_A (f_sub 1 (sq b_φ))).
(** deriv_funcs.py:68: the denominator of the derivative of B_r. *)
Definition f_denominator_B_r (η_O η_A b_φ : R) : R := f_add η_O (f_mul (f_mul η_A (f_sub 1 b_φ)) (f_add 1 b_φ)).
(** deriv_funcs.py:143-147. *)
Definition f_C (η_O η_A η_H b_θ b_r b_φ : R) : R :=
  f_div (f_sub (f_mul η_H b_θ) (f_mul (f_mul η_A b_r) b_φ)) (f_denominator η_O η_A b_φ).
(** deriv_funcs.py:15-19. *)
Definition f_Z_5 (η_O η_A η_H b_r b_θ b_φ C : R) : R :=
  f_add (f_add η_O (f_mul η_A (f_sub 1 (sq b_r)))) (f_mul C (f_sub (f_mul η_H b_θ) (f_mul (f_mul η_A b_r) b_φ))).
(** solution.py:208: what the polar momentum balance is divided by. *)
Definition f_sonic (v_θ : R) : R := f_mul (f_sub 1 v_θ) (f_add 1 v_θ).
End FloatRhs.
