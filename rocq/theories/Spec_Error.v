(** Vocabulary of C126: states with a safety margin, and curves that follow the system up to a given error. *)
From Coq Require Import Reals.
From Verif Require Import Model_Index Model_Ode Spec_Ode.
Open Scope R_scope.

(** The state keeps a distance [m] from everything singular (Spec_Unique.v: the axis, no field, no gas, no Ohmic diffusion, gas
    at rest vertically, gas at the sound speed) and no slot exceeds [M]. *)
Definition margin (o : ode_args) (m M x : R) (p : vec) : Prop :=
  m <= Rabs (cos (x * oa_θ_scale o)) /\ m <= p iB_r ^ 2 + p iB_φ ^ 2 + p iB_θ ^ 2 /\ m <= Rabs (p iρ) /\
  m <= p iη_O /\ 0 <= p iη_A /\
  (oa_with_taylor o = false -> m <= Rabs (p iv_θ)) /\ (oa_deriv_v_θ_func o = None -> m <= Rabs (1 - p iv_θ ^ 2)) /\
  (forall i, (i < ODE_LEN)%nat -> Rabs (p i) <= M).

(** The slopes of the curve are those the code computes, up to ε in each slot; [solves_at] is the case ε = 0. *)
Definition almost_solves_at (o : ode_args) (z : R -> vec) (ε x : R) : Prop :=
  exists d e w, rhs_equation o x (z x) = Rhs_ok d e /\
    forall i, (i < ODE_LEN)%nat -> derivable_pt_lim (fun t => z t i) x (w i) /\ Rabs (w i - d i) <= ε.
