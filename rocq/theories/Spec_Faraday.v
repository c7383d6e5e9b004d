(** Steady Faraday's law for the electric field of a fluid: statements only, no reference to the code. *)
From Coq Require Import Reals.
From Verif Require Import Spec_MHD.
Open Scope R_scope.

(** [E_θ] is, along the cone at latitude [θ], the polar electric field generalised Ohm's law gives for the fluid. *)
Definition ohmic_E_θ (F : fluid) (E_θ : field) (θ : R) : Prop := forall r, 0 < r -> exists j_r j_φ j_θ,
  curl_is (f_B_r F) (f_B_φ F) (f_B_θ F) r θ j_r j_φ j_θ /\
  E_θ r θ = ohm_E_θ (f_v_r F r θ) (f_v_φ F r θ) (f_v_θ F r θ) (f_B_r F r θ) (f_B_φ F r θ) (f_B_θ F r θ)
              j_r j_φ j_θ (f_η_O F r θ) (f_η_A F r θ) (f_η_H F r θ).
(** The azimuthal component of curl E vanishes at (r, θ): ∂_θ E_r = ∂_r (r E_θ). *)
Definition faraday_φ (E_r E_θ : field) (r θ : R) : Prop :=
  exists a b, pd_θ E_r r θ a /\ pd_r (fun r θ => r * E_θ r θ) r θ b /\ (a - b) / r = 0.
