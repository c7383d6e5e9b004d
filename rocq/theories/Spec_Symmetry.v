(** Symmetries that the equations of a self-similar disc should have: what a mirrored, reversed or rescaled disc is. *)
From Coq Require Import Reals.
From Verif Require Import Model_Index Model_Ode.
Open Scope R_scope.

(** The disc seen in the mirror of the midplane (θ → -θ): the vertical velocity and the field along the disc change sign. *)
Definition mirror (p : vec) : vec := fun i =>
  match i with
  | 0 => (- p iB_r)%R | 1 => (- p iB_φ)%R | 2 => p iB_θ | 3 => p iv_r | 4 => p iv_φ | 5 => (- p iv_θ)%R | 6 => p iρ
  | 7 => p iB_φ_prime (* B_φ' or E_r *) | 8 => p iη_O | 9 => p iη_A | 10 => p iη_H | _ => p i
  end%nat.
(** The disc with the field reversed; the sign of the Hall effect goes with the field. *)
Definition reversed (p : vec) : vec := fun i =>
  match i with
  | 0 => (- p iB_r)%R | 1 => (- p iB_φ)%R | 2 => (- p iB_θ)%R | 3 => p iv_r | 4 => p iv_φ | 5 => p iv_θ | 6 => p iρ
  | 7 => (- p iB_φ_prime)%R | 8 => p iη_O | 9 => p iη_A | 10 => (- p iη_H)%R | _ => p i
  end%nat.
(** The disc that rotates the other way round. *)
Definition counter_rotating (p : vec) : vec := fun i =>
  match i with
  | 0 => p iB_r | 1 => (- p iB_φ)%R | 2 => p iB_θ | 3 => p iv_r | 4 => (- p iv_φ)%R | 5 => p iv_θ | 6 => p iρ
  | 7 => (- p iB_φ_prime)%R | 8 => p iη_O | 9 => p iη_A | 10 => (- p iη_H)%R | _ => p i
  end%nat.
(** The same disc in other units of field ([λ]) and density ([μ]); velocities and diffusivities keep theirs. *)
Definition in_units (λ μ : R) (p : vec) : vec := fun i =>
  match i with
  | 0 => (λ * p iB_r)%R | 1 => (λ * p iB_φ)%R | 2 => (λ * p iB_θ)%R | 3 => p iv_r | 4 => p iv_φ | 5 => p iv_θ | 6 => (μ * p iρ
)%R  | 7 => (λ * p iB_φ_prime)%R | 8 => p iη_O | 9 => p iη_A | 10 => p iη_H | _ => p i
  end%nat.

(** The settings of the system for such a disc: its initial state is changed likewise. *)
Definition for_disc (change : vec -> vec) (o : ode_args) : ode_args :=
  mk_ode_args (oa_γ o) (oa_a_0 o) (oa_norm_kepler_sq o) (change (oa_init_con o)) (oa_θ_scale o)
    (oa_with_taylor o) (oa_η_derivs o) (oa_store_internal o) (oa_use_E_r o) (oa_deriv_v_θ_func o) (oa_derivs_post_solution o).
(** Without the checks of density and velocity, as the derivatives of a finished solution are computed: below the midplane the
    vertical velocity is negative. *)
Definition unchecked (o : ode_args) : ode_args :=
  mk_ode_args (oa_γ o) (oa_a_0 o) (oa_norm_kepler_sq o) (oa_init_con o) (oa_θ_scale o)
    (oa_with_taylor o) (oa_η_derivs o) (oa_store_internal o) (oa_use_E_r o) (oa_deriv_v_θ_func o) true.
(** a_0 and the diffusivities per B²/ρ in the other units. *)
Definition args_in_units (λ μ : R) (o : ode_args) : ode_args :=
  let k := μ / λ ^ 2 in
  mk_ode_args (oa_γ o) (k * oa_a_0 o) (oa_norm_kepler_sq o)
    (upd iη_O (k * oa_init_con o iη_O) (upd iη_A (k * oa_init_con o iη_A) (upd iη_H (k * oa_init_con o iη_H) (oa_init_con o)))) (oa_θ_scale o)
    (oa_with_taylor o) (oa_η_derivs o) (oa_store_internal o) (oa_use_E_r o) (oa_deriv_v_θ_func o) (oa_derivs_post_solution o).
