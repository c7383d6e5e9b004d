(** The validation command's equation residuals.

    Models src/disc_solver/analyse/j_e_plot.py lines 21-54 and src/disc_solver/analyse/validate_plot.py lines
    179-371, one angle at a time: numpy operates row by row on the stored arrays, and the model is the
    operation on one row.  The numerical-gradient fallback (validate_plot.py:195-204) is not modelled:
    [params]/[derivs] are the stored internal-data rows. *)
From Coq Require Import Reals.
From Verif Require Import Model_Index Model_Deriv.
Open Scope R_scope.

(** j_e_plot.py:21-29. *)
Definition J_func (γ θ B_θ B_φ deriv_B_φ deriv_B_r : R) : R * R * R :=
  (J_r_func θ B_φ deriv_B_φ, J_θ_func γ B_φ, J_φ_func γ B_θ deriv_B_r).

(** j_e_plot.py:32-54. *)
Definition E_func
  (v_r v_θ v_φ B_r B_θ B_φ J_r J_θ J_φ η_O η_A η_H : R) : R * R * R :=
  let B_mag := sqrt (B_r ^ 2 + B_φ ^ 2 + B_θ ^ 2) in
  let b_r := B_r / B_mag in
  let b_φ := B_φ / B_mag in
  let b_θ := B_θ / B_mag in
  (E_r_func v_θ v_φ B_θ B_φ J_r J_θ J_φ η_O η_A η_H b_r b_θ b_φ,
   E_θ_func v_r v_φ B_r B_φ J_r J_θ J_φ η_O η_A η_H b_r b_θ b_φ,
   E_φ_func v_r v_θ B_r B_θ J_r J_θ J_φ η_O η_A η_H b_r b_θ b_φ).

(** The [initial_conditions] namespace of validate_plot.py:206-209. *)
Record validate_ic := mk_validate_ic { vi_a_0 : R; vi_γ : R; vi_β : R; vi_norm_kepler_sq : R }.
Definition mk_ic (γ a_0 norm_kepler_sq : R) : validate_ic :=
  mk_validate_ic a_0 γ (5 / 4 - γ) norm_kepler_sq.

(** One row of the namespace of validate_plot.py:211-242 together with its angle. *)
Record values := mk_values {
  va_angle : R;
  va_B_r : R; va_B_φ : R; va_B_θ : R; va_v_r : R; va_v_φ : R; va_v_θ : R; va_ρ : R;
  va_η_O : R; va_η_A : R; va_η_H : R;
  vd_B_r : R; vd_B_φ : R; vd_B_θ : R; vd_v_r : R; vd_v_φ : R; vd_v_θ : R; vd_ρ : R;
  vd_B_φ_prime : R; vd_η_O : R; vd_η_A : R; vd_η_H : R;
  va_norm_B_r : R; va_norm_B_φ : R; va_norm_B_θ : R;
  va_J : R * R * R; va_E : R * R * R; va_E_dash : R * R * R }.

(** validate_plot.py:179-244 on one row. *)
Definition get_values (ic : validate_ic) (angle : R) (params derivs : vec) : values :=
  let B_r := params iB_r in
  let B_φ := params iB_φ in
  let B_θ := params iB_θ in
  let v_r := params iv_r in
  let v_φ := params iv_φ in
  let v_θ := params iv_θ in
  let η_O := params iη_O in
  let η_A := params iη_A in
  let η_H := params iη_H in
  let B_mag := sqrt (B_r ^ 2 + B_φ ^ 2 + B_θ ^ 2) in
  let '(J_r, J_θ, J_φ) := J_func (vi_γ ic) angle B_θ B_φ (derivs iB_φ) (derivs iB_r) in
  let '(E_r, E_θ, E_φ) := E_func v_r v_θ v_φ B_r B_θ B_φ J_r J_θ J_φ η_O η_A η_H in
  let E_r_dash := E_r + v_φ * B_θ - v_θ * B_φ in
  let E_θ_dash := E_θ + v_r * B_φ - v_φ * B_r in
  let E_φ_dash := E_φ + v_θ * B_r - v_r * B_θ in
  mk_values angle B_r B_φ B_θ v_r v_φ v_θ (params iρ) η_O η_A η_H
    (derivs iB_r) (derivs iB_φ) (derivs iB_θ) (derivs iv_r) (derivs iv_φ) (derivs iv_θ) (derivs iρ)
    (derivs iB_φ_prime) (derivs iη_O) (derivs iη_A) (derivs iη_H)
    (B_r / B_mag) (B_φ / B_mag) (B_θ / B_mag)
    (J_r, J_θ, J_φ) (E_r, E_θ, E_φ) (E_r_dash, E_θ_dash, E_φ_dash).

(** validate_plot.py:274-282. *)
Definition validate_continuity (ic : validate_ic) (v : values) : R :=
  (5 / 2 - 2 * vi_β ic) * va_v_r v + vd_v_θ v
  + va_v_θ v / va_ρ v * (vd_ρ v - va_ρ v * tan (va_angle v)).

(** validate_plot.py:285-292. *)
Definition validate_solenoid (ic : validate_ic) (v : values) : R :=
  vd_B_θ v - ((vi_β ic - 2) * va_B_r v + va_B_θ v * tan (va_angle v)).

(** validate_plot.py:295-308. *)
Definition validate_radial_momentum (ic : validate_ic) (v : values) : R :=
  va_v_θ v * vd_v_r v - 1 / 2 * va_v_r v ^ 2 - va_v_θ v ^ 2 - va_v_φ v ^ 2
  + vi_norm_kepler_sq ic - 2 * vi_β ic
  - vi_a_0 ic / va_ρ v * (
      va_B_θ v * vd_B_r v + (vi_β ic - 1) * (va_B_θ v ^ 2 + va_B_φ v ^ 2)).

(** validate_plot.py:311-323. *)
Definition validate_azimuthal_mometum (ic : validate_ic) (v : values) : R :=
  va_v_θ v * vd_v_φ v + 1 / 2 * va_v_r v * va_v_φ v
  - tan (va_angle v) * va_v_θ v * va_v_φ v
  - vi_a_0 ic / va_ρ v * (
      va_B_θ v * vd_B_φ v + (1 - vi_β ic) * va_B_r v * va_B_φ v
      - tan (va_angle v) * va_B_θ v * va_B_φ v).

(** validate_plot.py:326-339. *)
Definition validate_polar_momentum (ic : validate_ic) (v : values) : R :=
  va_v_r v * va_v_θ v / 2 + va_v_θ v * vd_v_θ v + tan (va_angle v) * va_v_φ v ^ 2
  + vd_ρ v / va_ρ v + vi_a_0 ic / va_ρ v * (
      (vi_β ic - 1) * va_B_θ v * va_B_r v + va_B_r v * vd_B_r v + va_B_φ v * vd_B_φ v
      - va_B_φ v ^ 2 * tan (va_angle v)).

(** validate_plot.py:342-363. *)
Definition validate_polar_induction (ic : validate_ic) (v : values) : R :=
  va_v_θ v * va_B_r v - va_v_r v * va_B_θ v
  + (va_B_θ v * (1 - vi_β ic) - vd_B_r v) * (va_η_O v + va_η_A v * (1 - va_norm_B_φ v ^ 2))
  + vd_B_φ v * (va_η_H v * va_norm_B_θ v - va_η_A v * va_norm_B_r v * va_norm_B_φ v)
  + va_B_φ v * (
      va_η_H v * (va_norm_B_r v * (1 - vi_β ic) - va_norm_B_θ v * tan (va_angle v))
      - va_η_A v * va_norm_B_φ v * (
          va_norm_B_θ v * (1 - vi_β ic) - va_norm_B_r v * tan (va_angle v))).

(** validate_plot.py:366-371. *)
Definition validate_E_φ (ic : validate_ic) (v : values) : R := snd (va_E v).
