(** The jump of a shock in floating-point arithmetic.

    Every operation gives its exact result, rounded (Model_Float.v); [sq] is numpy's x ** 2 (Spec_FloatRhs.v).  Simplification: no
    overflow, infinities or NaN. *)
From Coq Require Import ZArith Reals.
From Verif Require Import Model_Float Model_FloatRhs.
Local Open Scope R_scope.

Section FloatShock.
Variables emin prec : Z.
Variable sq : R -> R.
(** shock.py:25-29. *)
Definition f_v_θ_post (v_θ_pre : R) : R := f_div emin prec 1 v_θ_pre.
(** shock.py:32-36. *)
Definition f_ρ_post (v_θ_pre ρ_pre : R) : R := f_mul emin prec ρ_pre (sq v_θ_pre).
End FloatShock.
