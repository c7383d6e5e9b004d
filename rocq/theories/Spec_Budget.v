(** What passes through a cone θ = const and what passes radially between two cones, per unit radius.

    In the self-similar fluid (Spec_MHD) mass flows upwards through the cone at latitude θ at the rate ρ v_θ cos θ per ring, and
    radially at the rate ρ v_r cos θ per unit of latitude; likewise the magnetic flux and, with the lever arm cos θ, the angular
    momentum carried by the gas and by the field. *)
From Coq Require Import Reals.
From Verif Require Import Model_Index Model_Ode Spec_Ode.
Open Scope R_scope.

Definition mass_up (p : vec) (θ : R) : R := p iρ * p iv_θ * cos θ.
Definition mass_out (p : vec) (θ : R) : R := p iρ * p iv_r * cos θ.
Definition flux_up (p : vec) (θ : R) : R := p iB_θ * cos θ.
Definition flux_out (p : vec) (θ : R) : R := p iB_r * cos θ.
Definition torque_up (a_0 : R) (p : vec) (θ : R) : R := (p iρ * p iv_θ * p iv_φ - a_0 * p iB_θ * p iB_φ) * cos θ ^ 2.
Definition torque_out (a_0 : R) (p : vec) (θ : R) : R := (p iρ * p iv_r * p iv_φ - a_0 * p iB_r * p iB_φ) * cos θ ^ 2.

(** A solution inside the interval that is continuous up to its ends. *)
Definition solves_between (o : ode_args) (y : R -> vec) (a b : R) : Prop :=
  a < b /\ oa_θ_scale o = 1 /\ (forall x, a < x < b -> cos x <> 0 /\ solves_at o y x) /\
  (forall i x, (i < ODE_LEN)%nat -> a <= x <= b -> continuity_pt (fun t => y t i) x).
