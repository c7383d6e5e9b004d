(** Vocabulary for the statements about the midplane and the Taylor start. *)
From Coq Require Import Reals List.
From Verif Require Import Model_Index Model_Midplane Model_Ode Spec_MHD.
Open Scope R_scope.

(** The radial momentum balance at the midplane as a condition on the rotation speed [w]: there v_θ = 0, so the
    advection term vanishes and centrifugal, pressure, gravity and magnetic forces must balance.  The azimuthal
    balance gives B_φ' = w v_r / (2 a_0), and E_φ = 0 gives B_r'. *)
Definition midplane_balance (v_r a_0 K γ η_P η_H w : R) : Prop :=
  let B_φ' := w * v_r / (2 * a_0) in
  let B_r' := γ - 1 / 4 - (η_H * B_φ' + v_r) / η_P in
  v_r ^ 2 / 2 + 5 / 2 - 2 * γ + w ^ 2 - K + a_0 * (B_r' + (1 / 4 - γ)) = 0.

(** The system the solver builds for given initial conditions: Taylor mode on or off, no angular scaling. *)
Definition system_of (c : conditions) (use_E_r with_taylor η_derivs : bool) : ode_args :=
  mk_ode_args (c_γ c) (c_a_0 c) (c_norm_kepler_sq c) (c_init_con c) 1 with_taylor η_derivs false use_E_r
    None false.

(** Strictly increasing list. *)
Fixpoint increasing (l : list R) : Prop :=
  match l with
  | nil => True
  | a :: l' => match l' with nil => True | b :: _ => a < b end /\ increasing l'
  end.

(** [f1], [f2], [f3] are the first three derivatives of [f] everywhere, and the third is constant. *)
Definition cubic_with_derivatives (f f1 f2 f3 : R -> R) : Prop :=
  (forall t, derivable_pt_lim f t (f1 t)) /\ (forall t, derivable_pt_lim f1 t (f2 t)) /\
  (forall t, derivable_pt_lim f2 t (f3 t)) /\ (forall t, derivable_pt_lim f3 t 0).

(** A curve of states through the midplane that is twice differentiable there: [y'] are its derivatives on
    (-ε, ε), [y''] the second derivatives at the midplane. *)
Definition twice_differentiable (y y' : R -> vec) (y'' : vec) (ε : R) : Prop :=
  0 < ε /\
  (forall θ i, Rabs θ < ε -> (i < ODE_LEN)%nat -> derivable_pt_lim (fun t => y t i) θ (y' θ i)) /\
  (forall i, (i < ODE_LEN)%nat -> derivable_pt_lim (fun t => y' t i) 0 (y'' i)).
(** The curve starts from the initial state with the first-order Taylor coefficients as derivatives. *)
Definition starts_regularly (c : conditions) (y y' : R -> vec) : Prop :=
  (forall i, (i < ODE_LEN)%nat -> y 0 i = c_init_con c i) /\
  forall i, (i < ODE_LEN)%nat -> y' 0 i = get_taylor_first_order (c_init_con c) (c_γ c) (c_a_0 c) i.

(** Steady Faraday's law for the radial electric field profile, at radius 1: E_r' = (γ - 3/4) E_θ, with E_θ
    given by generalised Ohm's law (Spec_MHD.v) and the current of the self-similar field. *)
Definition faraday_E_r (γ θ : R) (p p' : vec) : Prop :=
  p' iE_r = (γ - 3 / 4) *
    ohm_E_θ (p iv_r) (p iv_φ) (p iv_θ) (p iB_r) (p iB_φ) (p iB_θ)
      (p iB_φ * tan θ - p' iB_φ) (p' iB_r + p iB_θ * (1 / 4 - γ)) (- p iB_φ * (1 / 4 - γ))
      (p iη_O) (p iη_A) (p iη_H).
