(** Independent specification: steady, axisymmetric, non-ideal MHD in spherical coordinates, and the
    self-similar power-law fields built from profiles in the angle.

    Nothing in this file refers to the model of the code; it is the physics a user of the solver relies on.

    Coordinates are (r, φ, θ) where θ is the latitude (the angle measured from the disc midplane, which is
    what the code calls θ); (r, φ, θ) is right-handed, with scale factors 1, r cos θ, r.  All fields are
    axisymmetric, so they are functions of r and θ only. *)
From Coq Require Import Reals.
Open Scope R_scope.

Definition field := R -> R -> R.

(** Partial derivatives at a point. *)
Definition pd_r (f : field) (r θ l : R) : Prop := derivable_pt_lim (fun s => f s θ) r l.
Definition pd_θ (f : field) (r θ l : R) : Prop := derivable_pt_lim (fun t => f r t) θ l.

(** div F = l at (r, θ):  1/r² ∂_r(r² F_r) + 1/(r cos θ) ∂_θ(cos θ F_θ). *)
Definition divergence_is (F_r F_θ : field) (r θ l : R) : Prop :=
  exists a b,
    pd_r (fun r θ => r ^ 2 * F_r r θ) r θ a /\
    pd_θ (fun r θ => cos θ * F_θ r θ) r θ b /\
    l = a / r ^ 2 + b / (r * cos θ).

(** curl F = (c_r, c_φ, c_θ) at (r, θ). *)
Definition curl_is (F_r F_φ F_θ : field) (r θ c_r c_φ c_θ : R) : Prop :=
  exists a b c d,
    pd_θ (fun r θ => cos θ * F_φ r θ) r θ a /\
    pd_θ F_r r θ b /\
    pd_r (fun r θ => r * F_θ r θ) r θ c /\
    pd_r (fun r θ => r * F_φ r θ) r θ d /\
    c_r = - a / (r * cos θ) /\ c_φ = (b - c) / r /\ c_θ = d / r.

(** (v·∇)v = (a_r, a_φ, a_θ) at (r, θ). *)
Definition advection_is (v_r v_φ v_θ : field) (r θ a_r a_φ a_θ : R) : Prop :=
  exists rr rt pr pt tr tt,
    pd_r v_r r θ rr /\ pd_θ v_r r θ rt /\
    pd_r v_φ r θ pr /\ pd_θ v_φ r θ pt /\
    pd_r v_θ r θ tr /\ pd_θ v_θ r θ tt /\
    a_r = v_r r θ * rr + v_θ r θ / r * rt - (v_θ r θ ^ 2 + v_φ r θ ^ 2) / r /\
    a_φ = v_r r θ * pr + v_θ r θ / r * pt + v_φ r θ * v_r r θ / r
          - v_θ r θ * v_φ r θ * tan θ / r /\
    a_θ = v_r r θ * tr + v_θ r θ / r * tt + v_r r θ * v_θ r θ / r + v_φ r θ ^ 2 * tan θ / r.

(** grad p = (g_r, 0, g_θ). *)
Definition gradient_is (p : field) (r θ g_r g_θ : R) : Prop :=
  exists a b, pd_r p r θ a /\ pd_θ p r θ b /\ g_r = a /\ g_θ = b / r.

(** The vector product in the right-handed (r, φ, θ) basis. *)
Definition cross_r (a_r a_φ a_θ b_r b_φ b_θ : R) : R := a_φ * b_θ - a_θ * b_φ.
Definition cross_φ (a_r a_φ a_θ b_r b_φ b_θ : R) : R := a_θ * b_r - a_r * b_θ.
Definition cross_θ (a_r a_φ a_θ b_r b_φ b_θ : R) : R := a_r * b_φ - a_φ * b_r.
Definition dot (a_r a_φ a_θ b_r b_φ b_θ : R) : R := a_r * b_r + a_φ * b_φ + a_θ * b_θ.

(** The fluid: the six vector components, the density and the three diffusivities. *)
Record fluid := mk_fluid {
  f_B_r : field; f_B_φ : field; f_B_θ : field;
  f_v_r : field; f_v_φ : field; f_v_θ : field;
  f_ρ : field; f_η_O : field; f_η_A : field; f_η_H : field }.

(** Mass conservation div(ρ v) = 0. *)
Definition mass_conserved (F : fluid) (r θ : R) : Prop :=
  divergence_is (fun r θ => f_ρ F r θ * f_v_r F r θ) (fun r θ => f_ρ F r θ * f_v_θ F r θ) r θ 0.

(** No magnetic monopoles, div B = 0. *)
Definition solenoidal (F : fluid) (r θ : R) : Prop :=
  divergence_is (f_B_r F) (f_B_θ F) r θ 0.

(** Isothermal-on-spheres pressure p = ρ c_s² with c_s² = 1/r in units where c_s = 1 at r = 1. *)
Definition pressure (F : fluid) : field := fun r θ => f_ρ F r θ / r.

(** The momentum equation  ρ (v·∇)v = -∇p - ρ K/r² r̂ + a_0 (∇×B)×B, one predicate per component.
    K is the squared Keplerian speed over the squared sound speed, a_0 the squared Alfvén number. *)
Definition momentum_r (K a_0 : R) (F : fluid) (r θ : R) : Prop :=
  exists a_r a_φ a_θ g_r g_θ j_r j_φ j_θ,
    advection_is (f_v_r F) (f_v_φ F) (f_v_θ F) r θ a_r a_φ a_θ /\
    gradient_is (pressure F) r θ g_r g_θ /\
    curl_is (f_B_r F) (f_B_φ F) (f_B_θ F) r θ j_r j_φ j_θ /\
    f_ρ F r θ * a_r = - g_r - f_ρ F r θ * K / r ^ 2
      + a_0 * cross_r j_r j_φ j_θ (f_B_r F r θ) (f_B_φ F r θ) (f_B_θ F r θ).
Definition momentum_φ (a_0 : R) (F : fluid) (r θ : R) : Prop :=
  exists a_r a_φ a_θ j_r j_φ j_θ,
    advection_is (f_v_r F) (f_v_φ F) (f_v_θ F) r θ a_r a_φ a_θ /\
    curl_is (f_B_r F) (f_B_φ F) (f_B_θ F) r θ j_r j_φ j_θ /\
    f_ρ F r θ * a_φ =
      a_0 * cross_φ j_r j_φ j_θ (f_B_r F r θ) (f_B_φ F r θ) (f_B_θ F r θ).
Definition momentum_θ (a_0 : R) (F : fluid) (r θ : R) : Prop :=
  exists a_r a_φ a_θ g_r g_θ j_r j_φ j_θ,
    advection_is (f_v_r F) (f_v_φ F) (f_v_θ F) r θ a_r a_φ a_θ /\
    gradient_is (pressure F) r θ g_r g_θ /\
    curl_is (f_B_r F) (f_B_φ F) (f_B_θ F) r θ j_r j_φ j_θ /\
    f_ρ F r θ * a_θ = - g_θ
      + a_0 * cross_θ j_r j_φ j_θ (f_B_r F r θ) (f_B_φ F r θ) (f_B_θ F r θ).

(** Generalised Ohm's law: E = -v×B + η_O J + η_H J×b - η_A (J×b)×b, with b = B/|B|, J = ∇×B.
    This is the electric field (E_r, E_φ, E_θ) for given values of v, B, J and η at a point. *)
Definition norm3 (x y z : R) : R := sqrt (x ^ 2 + y ^ 2 + z ^ 2).
Definition ohm_E (comp : R -> R -> R -> R -> R -> R -> R) (j : R)
  (v_r v_φ v_θ B_r B_φ B_θ J_r J_φ J_θ η_O η_A η_H : R) : R :=
  let m := norm3 B_r B_φ B_θ in
  let b_r := B_r / m in
  let b_φ := B_φ / m in
  let b_θ := B_θ / m in
  let x_r := cross_r J_r J_φ J_θ b_r b_φ b_θ in
  let x_φ := cross_φ J_r J_φ J_θ b_r b_φ b_θ in
  let x_θ := cross_θ J_r J_φ J_θ b_r b_φ b_θ in
  - comp v_r v_φ v_θ B_r B_φ B_θ + η_O * j + η_H * comp J_r J_φ J_θ b_r b_φ b_θ
  - η_A * comp x_r x_φ x_θ b_r b_φ b_θ.
Definition ohm_E_r (v_r v_φ v_θ B_r B_φ B_θ J_r J_φ J_θ η_O η_A η_H : R) : R :=
  ohm_E cross_r J_r v_r v_φ v_θ B_r B_φ B_θ J_r J_φ J_θ η_O η_A η_H.
Definition ohm_E_φ (v_r v_φ v_θ B_r B_φ B_θ J_r J_φ J_θ η_O η_A η_H : R) : R :=
  ohm_E cross_φ J_φ v_r v_φ v_θ B_r B_φ B_θ J_r J_φ J_θ η_O η_A η_H.
Definition ohm_E_θ (v_r v_φ v_θ B_r B_φ B_θ J_r J_φ J_θ η_O η_A η_H : R) : R :=
  ohm_E cross_θ J_θ v_r v_φ v_θ B_r B_φ B_θ J_r J_φ J_θ η_O η_A η_H.

(** The azimuthal electric field of a fluid vanishes at (r, θ) (the two poloidal components of steady
    Faraday's law for a power-law field force this). *)
Definition E_φ_vanishes (F : fluid) (r θ : R) : Prop :=
  exists j_r j_φ j_θ,
    curl_is (f_B_r F) (f_B_φ F) (f_B_θ F) r θ j_r j_φ j_θ /\
    ohm_E_φ (f_v_r F r θ) (f_v_φ F r θ) (f_v_θ F r θ) (f_B_r F r θ) (f_B_φ F r θ) (f_B_θ F r θ)
      j_r j_φ j_θ (f_η_O F r θ) (f_η_A F r θ) (f_η_H F r θ) = 0.

(** Radially self-similar fluid built from eleven profiles (the last slot of the state, B_φ' or E_r, is not
    a fluid variable).  Exponents: velocity r^{-1/2}, density r^{2γ-3/2}, magnetic field r^{γ-5/4},
    diffusivity r^{1/2}. *)
Definition self_similar (k : R) (f : R -> R) : field := fun r θ => Rpower r k * f θ.
Definition self_similar_fluid (γ : R)
  (B_r B_φ B_θ v_r v_φ v_θ ρ η_O η_A η_H : R -> R) : fluid :=
  mk_fluid
    (self_similar (γ - 5 / 4) B_r) (self_similar (γ - 5 / 4) B_φ) (self_similar (γ - 5 / 4) B_θ)
    (self_similar (- 1 / 2) v_r) (self_similar (- 1 / 2) v_φ) (self_similar (- 1 / 2) v_θ)
    (self_similar (2 * γ - 3 / 2) ρ)
    (self_similar (1 / 2) η_O) (self_similar (1 / 2) η_A) (self_similar (1 / 2) η_H).
