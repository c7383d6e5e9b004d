(** Vocabulary of C144: the second derivative of B_φ that the full equations give for a state and given derivatives of everything else, and where the
    formula of the hydrostatic methods departs from it. *)
From Coq Require Import Reals.
From Verif Require Import Model_Index Model_Deriv Model_Ode Spec_HydroUnique.
Open Scope R_scope.

Section At.
Variables (θ : R) (p d : vec).
(** The derivatives of the components of the direction of the field. *)
Definition unit_rate (i : nat) : R := B_unit_deriv_1 (p iB_r) (p iB_φ) (p iB_θ) (d iB_r) (d iB_φ) (d iB_θ) (unit p i) (d i).
(** What solve/solution.py puts into the slot of B_φ' (Model_Ode.v), for v_θ = 0 at every angle and γ = 0, as the hydrostatic methods assume. *)
Definition full_second_derivative : R :=
  dderiv_B_φ_soln (p iB_r) (p iB_φ) (p iB_θ) (p iη_O) (p iη_H) (p iη_A) θ (p iv_r) 0 (p iv_φ) (d iv_r) 0 (d iv_φ) (d iB_r) (d iB_θ) (d iB_φ) 0
    (d iη_O) (d iη_A) (d iη_H) (unit p iB_r) (unit p iB_φ) (unit p iB_θ) (unit_rate iB_r) (unit_rate iB_φ) (unit_rate iB_θ) (the_C p)
    (A_func (p iη_O) (p iη_A) (p iη_H) (unit p iB_θ) (unit p iB_r) (unit p iB_φ) (d iη_O) (d iη_A) (d iη_H) (unit_rate iB_θ) (unit_rate iB_r) (unit_rate iB_φ)).
(** What the full equations divide by. *)
Definition full_coefficient : R :=
  p iη_O + p iη_A * (1 - unit p iB_r ^ 2) + the_C p * (p iη_H * unit p iB_θ + p iη_A * unit p iB_r * unit p iB_φ).
(** The resistance to the radial current, the coupling of the radial to the azimuthal current, and their derivatives. *)
Definition resistance : R := p iη_O + p iη_A * (1 - unit p iB_r ^ 2).
Definition resistance_rate : R := d iη_O + d iη_A * (1 - unit p iB_r ^ 2) - 2 * p iη_A * unit p iB_r * unit_rate iB_r.
Definition coupling : R := p iη_H * unit p iB_θ + p iη_A * unit p iB_r * unit p iB_φ.
Definition coupling_rate : R := d iη_H * unit p iB_θ + p iη_H * unit_rate iB_θ + d iη_A * unit p iB_r * unit p iB_φ +
  p iη_A * unit_rate iB_r * unit p iB_φ + p iη_A * unit p iB_r * unit_rate iB_φ.
(** The slips in the formula both methods share (hydrostatic.py:262-330): the coupling is not differentiated, tan θ is left out where the
    resistance is multiplied by it (so that its derivative is wrong as well), and the electric field of the motion is left out of E_θ. *)
Definition shared_slips : R :=
  - d iB_φ * (the_C p * (coupling - coupling_rate) + (1 - tan θ) * resistance)
  - p iB_φ * ((1 - tan θ) * resistance_rate - sec θ ^ 2 * resistance)
  + 3 / 4 * (p iv_r * p iB_φ - p iv_φ * p iB_r).
End At.
