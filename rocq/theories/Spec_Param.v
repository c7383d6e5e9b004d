(** Vocabulary of C128: two set-ups of the solver that differ in their physical parameters only. *)
From Coq Require Import Reals.
From Verif Require Import Model_Index Model_Ode.
Open Scope R_scope.

(** The same equations are solved, in the same variables: only γ, a_0, the Keplerian speed and the state in the midplane may differ. *)
Definition same_system (o o' : ode_args) : Prop :=
  oa_θ_scale o' = oa_θ_scale o /\ oa_with_taylor o' = oa_with_taylor o /\ oa_η_derivs o' = oa_η_derivs o /\
  oa_use_E_r o' = oa_use_E_r o /\ oa_deriv_v_θ_func o' = oa_deriv_v_θ_func o /\ oa_derivs_post_solution o' = oa_derivs_post_solution o.

(** No parameter exceeds [M]. *)
Definition parameters_within (M : R) (o : ode_args) : Prop :=
  Rabs (oa_γ o) <= M /\ Rabs (oa_a_0 o) <= M /\ sqrt (oa_norm_kepler_sq o) <= M /\
  Rabs (oa_init_con o iη_O) <= M /\ Rabs (oa_init_con o iη_A) <= M /\ Rabs (oa_init_con o iη_H) <= M.

(** How far the parameters are apart: γ, a_0, the Keplerian speed in units of the sound speed, the diffusivities in the midplane. *)
Definition parameter_gap (o o' : ode_args) : R :=
  Rabs (oa_γ o - oa_γ o') + Rabs (oa_a_0 o - oa_a_0 o') + Rabs (sqrt (oa_norm_kepler_sq o) - sqrt (oa_norm_kepler_sq o')) +
  Rabs (oa_init_con o iη_O - oa_init_con o' iη_O) + Rabs (oa_init_con o iη_A - oa_init_con o' iη_A) +
  Rabs (oa_init_con o iη_H - oa_init_con o' iη_H).

(** C130: set-ups and starts within [δ] of the given ones, which do not switch ambipolar diffusion on. *)
Definition nearby (o : ode_args) (p0 : vec) (δ : R) (o' : ode_args) (p : vec) : Prop :=
  same_system o o' /\ parameter_gap o o' < δ /\ (oa_init_con o iη_A = 0 -> oa_init_con o' iη_A = 0) /\ 0 <= p iη_A /\
  forall i, (i < ODE_LEN)%nat -> Rabs (p i - p0 i) < δ.
