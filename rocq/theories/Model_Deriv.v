(** Derivative helper functions and current/electric field functions, over the reals.

    Models src/disc_solver/solve/deriv_funcs.py (all functions) and src/disc_solver/solve/j_e_funcs.py
    (all functions).  Floating point numbers are modelled as reals: no rounding.  The keyword arguments
    [tan], [sec], [sqrt] are modelled by their defaults (numpy's). *)
From Coq Require Import Reals.
Open Scope R_scope.

(** utils.py:120-124, sec. *)
Definition sec (angle : R) : R := 1 / cos angle.

(** deriv_funcs.py:15-19. *)
Definition Z_5_func (η_O η_A η_H b_r b_θ b_φ C : R) : R :=
  η_O + η_A * (1 - b_r ^ 2) + C * (η_H * b_θ - η_A * b_r * b_φ).

(** deriv_funcs.py:22-43. *)
Definition deriv_B_φ_func
  (θ γ B_r B_θ B_φ v_r v_φ v_θ η_O η_A η_H E_r b_r b_φ b_θ C Z_5 : R) : R :=
  (C * (v_θ * B_r - v_r * B_θ) - E_r - v_φ * B_θ + B_φ * (
     v_θ + tan θ * (η_O + η_A * (1 - b_r ^ 2)) + (1 / 4 - γ) * (
       η_H * b_φ + η_A * b_r * b_θ
     ) - C * (
       η_A * b_φ * (b_r * tan θ - b_θ * (1 / 4 - γ))
       + η_H * (b_r * (1 / 4 - γ) + b_θ * tan θ)
     )
   )) / Z_5.

(** deriv_funcs.py:46-70. *)
Definition deriv_B_r_func
  (θ γ B_r B_θ B_φ v_r v_θ deriv_B_φ η_O η_A η_H b_r b_φ b_θ : R) : R :=
  (v_θ * B_r - v_r * B_θ - deriv_B_φ * (η_H * b_θ + η_A * b_r * b_φ)
   + B_φ * (
       η_A * b_φ * (b_r * tan θ - b_θ * (1 / 4 - γ))
       + η_H * (b_r * (1 / 4 - γ) + b_θ * tan θ)
     )) / (η_O + η_A * (1 - b_φ) * (1 + b_φ))
  - B_θ * (1 / 4 - γ).

(** j_e_funcs.py:8-12. *)
Definition J_r_func (θ B_φ deriv_B_φ : R) : R := B_φ * tan θ - deriv_B_φ.

(** j_e_funcs.py:15-19. *)
Definition J_θ_func (γ B_φ : R) : R := - B_φ * (1 / 4 - γ).

(** j_e_funcs.py:22-26. *)
Definition J_φ_func (γ B_θ deriv_B_r : R) : R := deriv_B_r + B_θ * (1 / 4 - γ).

(** j_e_funcs.py:29-41. *)
Definition E_r_func
  (v_θ v_φ B_θ B_φ J_r J_θ J_φ η_O η_A η_H b_r b_θ b_φ : R) : R :=
  (η_O * J_r + η_H * (J_φ * b_θ - J_θ * b_φ)
   - η_A * (J_φ * b_r * b_φ + J_θ * b_r * b_θ - J_r * (1 - b_r ^ 2)))
  - v_φ * B_θ + v_θ * B_φ.

(** j_e_funcs.py:44-56. *)
Definition E_θ_func
  (v_r v_φ B_r B_φ J_r J_θ J_φ η_O η_A η_H b_r b_θ b_φ : R) : R :=
  (η_O * J_θ + η_H * (J_r * b_φ - J_φ * b_r)
   - η_A * (J_r * b_r * b_θ + J_φ * b_θ * b_φ - J_θ * (1 - b_θ ^ 2)))
  - v_r * B_φ + v_φ * B_r.

(** j_e_funcs.py:59-71. *)
Definition E_φ_func
  (v_r v_θ B_r B_θ J_r J_θ J_φ η_O η_A η_H b_r b_θ b_φ : R) : R :=
  (η_O * J_φ + η_H * (J_θ * b_r - J_r * b_θ)
   - η_A * (J_θ * b_θ * b_φ + J_r * b_r * b_φ - J_φ * (1 - b_φ ^ 2)))
  - v_θ * B_r + v_r * B_θ.

(** deriv_funcs.py:73-82. *)
Definition deriv_E_r_func
  (γ v_r v_φ B_r B_φ η_O η_A η_H b_r b_θ b_φ J_r J_θ J_φ : R) : R :=
  (γ - 3 / 4) * E_θ_func v_r v_φ B_r B_φ J_r J_θ J_φ η_O η_A η_H b_r b_θ b_φ.

(** deriv_funcs.py:85-96. *)
Definition deriv_η_skw_func
  (ρ B_r B_φ B_θ deriv_ρ deriv_B_r deriv_B_φ deriv_B_θ : R) : R :=
  let B_sq := B_r ^ 2 + B_φ ^ 2 + B_θ ^ 2 in
  (2 * (B_r * deriv_B_r + B_φ * deriv_B_φ + B_θ * deriv_B_θ)
   - B_sq * deriv_ρ / ρ) / ρ.

(** The component expression of the list comprehension at deriv_funcs.py:107-119. *)
Definition B_unit_deriv_1
  (B_r B_φ B_θ deriv_B_r deriv_B_φ deriv_B_θ B_unit B_deriv : R) : R :=
  let B_mag := sqrt (B_r ^ 2 + B_φ ^ 2 + B_θ ^ 2) in
  1 / B_mag * (B_deriv - B_unit / B_mag * (
    B_r * deriv_B_r + B_φ * deriv_B_φ + B_θ * deriv_B_θ)).

(** deriv_funcs.py:99-119; the three-element list is a triple (r, φ, θ). *)
Definition B_unit_derivs
  (B_r B_φ B_θ deriv_B_r deriv_B_φ deriv_B_θ b_r b_φ b_θ : R) : R * R * R :=
  let d := B_unit_deriv_1 B_r B_φ B_θ deriv_B_r deriv_B_φ deriv_B_θ in
  (d b_r deriv_B_r, d b_φ deriv_B_φ, d b_θ deriv_B_θ).

(** deriv_funcs.py:122-140. *)
Definition A_func
  (η_O η_A η_H b_θ b_r b_φ deriv_η_O deriv_η_A deriv_η_H
   deriv_b_θ deriv_b_r deriv_b_φ : R) : R :=
  (deriv_η_H * b_θ + η_H * deriv_b_θ - deriv_η_A * b_r * b_φ
   - η_A * deriv_b_r * b_φ - η_A * b_r * deriv_b_φ)
  / (η_O + η_A * (1 - b_φ ^ 2))
  - ((deriv_η_O + deriv_η_A * (1 - b_φ ^ 2) - 2 * η_A * b_φ * deriv_b_φ)
     * (η_H * b_θ - η_A * b_r * b_φ))
    / ((η_O + η_A * (1 - b_φ ^ 2)) ^ 2).

(** deriv_funcs.py:143-147. *)
Definition C_func (η_O η_A η_H b_θ b_r b_φ : R) : R :=
  (η_H * b_θ - η_A * b_r * b_φ) / (η_O + η_A * (1 - b_φ ^ 2)).

(** deriv_funcs.py:150-224. *)
Definition dderiv_B_φ_soln
  (B_r B_φ B_θ η_O η_H η_A θ v_r v_θ v_φ deriv_v_r deriv_v_θ deriv_v_φ
   deriv_B_r deriv_B_θ deriv_B_φ γ deriv_η_O deriv_η_A deriv_η_H
   b_r b_φ b_θ deriv_b_r deriv_b_φ deriv_b_θ C A : R) : R :=
  (
    deriv_v_θ * B_φ + v_θ * deriv_B_φ - deriv_v_φ * B_θ - v_φ * deriv_B_θ
    + A * (
        v_θ * B_r - v_r * B_θ + B_φ * (
          η_A * b_φ * (b_r * tan θ - b_θ * (1 / 4 - γ))
          + η_H * (b_r * (1 / 4 - γ) + b_θ * tan θ)
        )
      )
    + C * (
        deriv_v_θ * B_r - deriv_v_r * B_θ + v_θ * deriv_B_r
        - v_r * deriv_B_θ + deriv_B_φ * (
          η_A * b_φ * (b_r * tan θ - b_θ * (1 / 4 - γ))
          + η_H * (b_r * (1 / 4 - γ) + b_θ * tan θ)
        ) + B_φ * (
          deriv_η_A * b_φ * (b_r * tan θ - b_θ * (1 / 4 - γ))
          + η_A * deriv_b_φ * (b_r * tan θ - b_θ * (1 / 4 - γ))
          + η_A * b_φ * (
              deriv_b_r * tan θ - deriv_b_θ * (1 / 4 - γ)
              + b_r * (1 + tan θ ^ 2))
          + deriv_η_H * (b_r * (1 / 4 - γ) + b_θ * tan θ)
          + η_H * (
              deriv_b_r * (1 / 4 - γ) + deriv_b_θ * tan θ
              + b_θ * (1 + tan θ ^ 2))
        )
      )
    - deriv_B_φ * (
        deriv_η_O + deriv_η_A * (1 - b_r ^ 2)
        - 2 * η_A * b_r * deriv_b_r + A * (η_H * b_θ + η_A * b_r * b_φ)
        + C * (
            deriv_η_H * b_θ + η_H * deriv_b_θ + deriv_η_A * b_r * b_φ
            + η_A * deriv_b_r * b_φ + η_A * b_r * deriv_b_φ
          )
        + η_O * tan θ + η_A * ((1 - b_r ^ 2) * tan θ + b_r * b_θ * (1 / 4 - γ))
        + (1 / 4 - γ) * η_H * b_φ
      )
    - B_φ * (
        deriv_η_O * tan θ + η_O * sec θ ^ 2 + deriv_η_A * (
          (1 - b_r ^ 2) * tan θ + b_r * b_θ * (1 / 4 - γ)
        ) + (1 / 4 - γ) * deriv_η_H * b_φ - η_A * (
          2 * b_r * deriv_b_r * tan θ - (1 - b_r ^ 2) * sec θ ^ 2
          - deriv_b_r * b_θ * (1 / 4 - γ) - b_r * deriv_b_θ * (1 / 4 - γ)
        ) + (1 / 4 - γ) * η_H * deriv_b_φ
      )
    - (3 / 4 - γ) * (
        (deriv_B_r + B_θ * (1 / 4 - γ)) * (η_H * b_r + η_A * b_θ * b_φ)
        + deriv_B_φ * (η_H * b_φ - η_A * b_r * b_θ)
        + B_φ * (
            η_O * (1 / 4 - γ) + η_A * (
              (1 / 4 - γ) * (1 - b_θ ^ 2) + tan θ * b_r * b_θ
            ) - η_H * b_φ * tan θ
          )
        + v_r * B_φ - v_φ * B_r
      )
  ) / (η_O + η_A * (1 - b_r ^ 2) + C * (η_H * b_θ + η_A * b_r * b_φ)).
