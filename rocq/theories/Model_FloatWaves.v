(** The wave speeds in floating-point arithmetic.

    Every operation gives its exact result, rounded (Model_Float.v); [sq] is numpy's x ** 2 (Spec_FloatRhs.v); [four_pi] is the Python
    float 4 * pi.  [None] is a NaN, the square root of a negative number.  Simplification: no overflow and no division by zero; one row of
    values; the sound speed has its default, 1. *)
From Coq Require Import ZArith Reals.
From Verif Require Import Model_Float Model_FloatRhs.
Local Open Scope R_scope.

Section FloatWaves.
Variables emin prec : Z.
Variable sq : R -> R.
Variable four_pi : R.
Notation "x +. y" := (f_add emin prec x y) (at level 50, left associativity).
Notation "x -. y" := (f_sub emin prec x y) (at level 50, left associativity).
Notation "x *. y" := (f_mul emin prec x y) (at level 40, left associativity).
Notation "x /. y" := (f_div emin prec x y) (at level 40, left associativity).
(** critical_points.py:21. *)
Definition f_B_sq (B_r B_φ B_θ : R) : R := sq B_r +. sq B_φ +. sq B_θ.
(** critical_points.py:25. *)
Definition f_cos_sq_psi (B_r B_φ B_θ : R) : R := sq B_θ /. f_B_sq B_r B_φ B_θ.
(** critical_points.py:27. *)
Definition f_v_a_sq (B_r B_φ B_θ ρ : R) : R := f_B_sq B_r B_φ B_θ /. (four_pi *. ρ).
(** critical_points.py:30-31 and 37-38: what the square root is taken of, for given [v_a_sq] and [cos_sq_psi]. *)
Definition f_radicand (v_a_sq cos_sq_psi : R) : R := sq (v_a_sq +. 1) -. 4 *. v_a_sq *. 1 *. cos_sq_psi.
(** numpy.sqrt. *)
Definition f_np_sqrt (x : R) : option R := if Rlt_dec x 0 then None else Some (f_sqrt emin prec x).
(** critical_points.py:28-41: slow, alfven, fast, for given [v_a_sq] and [cos_sq_psi]. *)
Definition f_speeds (v_a_sq cos_sq_psi : R) : option R * R * option R :=
  let root := f_np_sqrt (f_radicand v_a_sq cos_sq_psi) in
  (option_map (fun r => 1 / 2 *. (v_a_sq +. 1 -. r)) root, v_a_sq *. cos_sq_psi, option_map (fun r => 1 / 2 *. (v_a_sq +. 1 +. r)) root).
(** critical_points.py:12-41. *)
Definition f_mhd_wave_speeds (B_r B_φ B_θ ρ : R) : option R * R * option R :=
  f_speeds (f_v_a_sq B_r B_φ B_θ ρ) (f_cos_sq_psi B_r B_φ B_θ).
(** critical_points.py:54 and 58-60: a Mach number, for a wave speed that is not zero. *)
Definition f_mach (v_θ speed_sq : R) : R := f_sqrt emin prec (sq v_θ /. speed_sq).
End FloatWaves.
