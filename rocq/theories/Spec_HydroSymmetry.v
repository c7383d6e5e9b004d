(** Vocabulary of C145: the same disc with its field in another unit, possibly of the other sign, for the hydrostatic methods. *)
From Coq Require Import Reals.
From Verif Require Import Model_Index Model_Ode Model_Hydro Model_ModHydro.
Open Scope R_scope.

(** The field in units of 1/[λ], which may be negative, and the density in units of 1/[μ].  The Hall effect has the sign of the field; velocities and
    diffusivities keep their units. *)
Definition hall_sign (λ : R) : R := if Rlt_dec λ 0 then -1 else 1.
Definition rescaled (λ μ : R) (p : vec) : vec := fun i =>
  match i with
  | 0 => (λ * p iB_r)%R | 1 => (λ * p iB_φ)%R | 2 => (λ * p iB_θ)%R | 3 => p iv_r | 4 => p iv_φ | 5 => p iv_θ | 6 => (μ * p iρ)%R
  | 7 => (λ * p iB_φ_prime)%R | 8 => p iη_O | 9 => p iη_A | 10 => (hall_sign λ * p iη_H)%R | _ => p i
  end%nat.
(** The diffusivities at the start are per B²/ρ (Model_Hydro.v), so they change with the units as a_0 does. *)
Definition rescaled_start (λ μ : R) (c : vec) : vec :=
  let k := μ / λ ^ 2 in upd iη_O (k * c iη_O) (upd iη_A (k * c iη_A) (upd iη_H (hall_sign λ * (k * c iη_H)) c)).
Definition hydro_rescaled (λ μ : R) (h : hydro_args) : hydro_args :=
  mk_hydro_args (μ / λ ^ 2 * ha_a_0 h) (ha_norm_kepler_sq h) (rescaled_start λ μ (ha_init_con h)) (ha_θ_scale h) (ha_η_derivs h) (ha_store_internal h) (ha_no_v_deriv h).
Definition mod_rescaled (λ μ : R) (m : mod_hydro_args) : mod_hydro_args :=
  mk_mod_hydro_args (μ / λ ^ 2 * ma_a_0 m) (ma_norm_kepler_sq m) (rescaled_start λ μ (ma_init_con m)) (ma_θ_scale m) (ma_η_derivs m) (ma_store_internal m) (ma_use_E_r m).
