(** Vocabulary for the statements about diffusivities and electric fields. *)
From Coq Require Import Reals.
From Verif Require Import Model_Index Model_Deriv Model_Ode Model_Validate.
Open Scope R_scope.

(** B²/ρ of a state. *)
Definition B_sq_over_ρ (p : vec) : R := (p iB_r ^ 2 + p iB_φ ^ 2 + p iB_θ ^ 2) / p iρ.
(** |B| of a state. *)
Definition B_mag_of (p : vec) : R := sqrt (p iB_r ^ 2 + p iB_φ ^ 2 + p iB_θ ^ 2).

(** Two combinations that appear in the electric field: with b = B/|B|,
    M is the coefficient of B_φ in (η_O + η_A(1-b_φ²)) J_φ and
    N is the coefficient of B_φ in E_r coming from J_r and J_θ. *)
Definition M_of (γ θ η_A η_H b_r b_φ b_θ : R) : R :=
  η_A * b_φ * (b_r * tan θ - b_θ * (1 / 4 - γ)) + η_H * (b_r * (1 / 4 - γ) + b_θ * tan θ).
Definition N_of (γ θ η_O η_A η_H b_r b_φ b_θ : R) : R :=
  tan θ * (η_O + η_A * (1 - b_r ^ 2)) + (1 / 4 - γ) * (η_H * b_φ + η_A * b_r * b_θ).

(** E_r and E_θ as the validation command computes them (validate_plot.py:247-271) for the state [y t] and
    the derivatives the right-hand side returns for it. *)
Definition E_r_along (o : ode_args) (y : R -> vec) (t : R) : R :=
  fst (fst (va_E (get_values (mk_ic (oa_γ o) (oa_a_0 o) (oa_norm_kepler_sq o)) t (y t)
                    (fst (rhs_derivs o t (y t)))))).
Definition E_θ_along (o : ode_args) (y : R -> vec) (t : R) : R :=
  snd (fst (va_E (get_values (mk_ic (oa_γ o) (oa_a_0 o) (oa_norm_kepler_sq o)) t (y t)
                    (fst (rhs_derivs o t (y t)))))).
(** N along a curve. *)
Definition N_along (o : ode_args) (y : R -> vec) (t : R) : R :=
  N_of (oa_γ o) t (y t iη_O) (y t iη_A) (y t iη_H) (y t iB_r / B_mag_of (y t))
    (y t iB_φ / B_mag_of (y t)) (y t iB_θ / B_mag_of (y t)).
(** The coefficient of B_φ'' in dE_r/dθ (the denominator in the B_φ'' formula). *)
Definition Z_along (y : R -> vec) (t : R) : R :=
  let p := y t in
  let b_r := p iB_r / B_mag_of p in
  let b_φ := p iB_φ / B_mag_of p in
  let b_θ := p iB_θ / B_mag_of p in
  p iη_O + p iη_A * (1 - b_r ^ 2)
  + (p iη_H * b_θ - p iη_A * b_r * b_φ) / (p iη_O + p iη_A * (1 - b_φ ^ 2))
    * (p iη_H * b_θ + p iη_A * b_r * b_φ).
