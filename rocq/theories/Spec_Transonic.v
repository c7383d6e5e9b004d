(** Vocabulary of C133: what drives the gas along θ, and the sonic point. *)
From Coq Require Import Reals.
From Verif Require Import Model_Index Model_Ode Spec_Ode Spec_Unique.
Open Scope R_scope.

(** The terms of the polar momentum balance (C05) other than (1 - v_θ²) v_θ': inflow, the centrifugal and pressure terms of the
    curved streamlines, and the magnetic force. The slopes of the field are those the system gives; they do not depend on v_θ'. *)
Definition polar_drive (o : ode_args) (x : R) (p : vec) : R :=
  let θ := x * oa_θ_scale o in
  let d := fst (rhs_derivs o θ p) in
  p iv_r / 2 * (p iv_θ ^ 2 - 4 * oa_γ o) + p iv_θ * (tan θ * (p iv_φ ^ 2 + 1)
    + oa_a_0 o / p iρ * ((1 / 4 - oa_γ o) * p iB_θ * p iB_r + p iB_r * d iB_r + p iB_φ * d iB_φ - p iB_φ ^ 2 * tan θ)).
(** The vertical speed of the curve changes at the rate the system gives. *)
Definition polar_motion (o : ode_args) (y : R -> vec) (x : R) : Prop :=
  derivable_pt_lim (fun t => y t iv_θ) x (fst (rhs_derivs o (x * oa_θ_scale o) (y x)) iv_θ).
(** At the angle [c] the gas moves with the sound speed, all else is regular, and no quantity jumps. *)
Definition sonic_at (o : ode_args) (y : R -> vec) (c : R) : Prop :=
  y c iv_θ = 1 /\ cos (c * oa_θ_scale o) <> 0 /\ 0 < y c iB_r ^ 2 + y c iB_φ ^ 2 + y c iB_θ ^ 2 /\ y c iρ <> 0 /\
  0 < y c iη_O /\ 0 <= y c iη_A /\ forall i, (i < ODE_LEN)%nat -> continuity_pt (fun t => y t i) c.
(** ∫ (1 - v²) dv *)
Definition sonic_work (v : R) : R := v - v ^ 3 / 3.
