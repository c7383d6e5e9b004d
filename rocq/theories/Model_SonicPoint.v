(** v_θ' at the sonic point.

    Models src/disc_solver/solve/sonic_point.py (all functions); all but the last definition are the output of
    tools/py2coq.py.  Floating point numbers are modelled as reals. *)
From Coq Require Import Reals.
From Verif Require Import Model_Deriv.
Open Scope R_scope.

(** sonic_point.py:175-179. *)
Definition S_1_func
  (v_r v_θ γ : R) : R :=
  - v_r / (2 * v_θ) * (v_θ ^ 2 - 4 * γ).

(** sonic_point.py:182-200. *)
Definition S_1_dash_up_func
  (a_0 ρ B_r B_φ B_θ θ v_φ deriv_v_φ deriv_B_r deriv_B_θ deriv_B_φ γ dderiv_B_r_up dderiv_B_φ_up deriv_ρ_up : R) : R :=
  (1 + tan θ ^ 2) * (v_φ ^ 2 + 1) + 2 * v_φ * deriv_v_φ * tan θ + a_0 / ρ * ((1 / 4 - γ) * deriv_B_θ * B_r + (1 / 4 - γ) * B_θ * deriv_B_r +
  deriv_B_r ^ 2 + B_r * dderiv_B_r_up + deriv_B_φ ^ 2 + B_φ * dderiv_B_φ_up - 2 * B_φ * deriv_B_φ * tan θ - B_φ ^ 2 * (1 + tan θ ^ 2) - deriv_ρ_up /
  ρ * ((1 / 4 - γ) * B_θ * B_r + B_r * deriv_B_r + B_φ * deriv_B_φ - B_φ ^ 2 * tan θ)).

(** sonic_point.py:203-215. *)
Definition S_1_dash_down_func
  (a_0 ρ B_r B_φ B_θ θ deriv_B_r deriv_B_φ γ dderiv_B_r_down dderiv_B_φ_down deriv_ρ_down : R) : R :=
  a_0 / ρ * (B_r * dderiv_B_r_down + B_φ * dderiv_B_φ_down - deriv_ρ_down / ρ * ((1 / 4 - γ) * B_θ * B_r + B_r * deriv_B_r + B_φ * deriv_B_φ - B_φ ^
  2 * tan θ)).

(** sonic_point.py:218-224. *)
Definition deriv_ρ_up_func
  (ρ v_r v_θ γ θ : R) : R :=
  - ρ * (2 * γ * v_r / v_θ - tan θ).

(** sonic_point.py:227-231. *)
Definition deriv_ρ_down_func
  (ρ v_θ : R) : R :=
  - ρ / v_θ.

(** sonic_point.py:234-282. *)
Definition dderiv_B_r_up_func
  (η_O η_A η_H b_θ b_r b_φ deriv_η_O_up deriv_η_A_up deriv_η_H_up deriv_b_θ deriv_b_r deriv_b_φ B_r B_φ B_θ θ v_r v_θ deriv_v_r deriv_B_r deriv_B_θ
  deriv_B_φ γ dderiv_B_φ_up : R) : R :=
  1 / (η_O + η_A * (1 - b_φ ^ 2)) * (v_θ * deriv_B_r - deriv_v_r * B_θ - v_r * deriv_B_θ - dderiv_B_φ_up * (η_H * b_θ + η_A * b_r * b_φ) - deriv_B_φ
  * (deriv_η_H_up * b_θ + η_H * deriv_b_θ + deriv_η_A_up * b_r * b_φ + η_A * deriv_b_r * b_φ + η_A * b_r * deriv_b_φ - η_A * b_φ * (b_r * tan θ - b_θ
  * (1 / 4 - γ)) - η_H * (b_r * (1 / 4 - γ) + b_θ * tan θ)) + B_φ * (deriv_η_A_up * b_φ * (b_r * tan θ - b_θ * (1 / 4 - γ)) + η_A * deriv_b_φ * (b_r
  * tan θ - b_θ * (1 / 4 - γ)) + η_A * b_φ * (deriv_b_r * tan θ + b_r * (1 + tan θ ^ 2) - deriv_b_θ * (1 / 4 - γ)) + deriv_η_H_up * (b_r * (1 / 4 -
  γ) + b_θ * tan θ) + η_H * (deriv_b_r * (1 / 4 - γ) + deriv_b_θ * tan θ + b_θ * (1 + tan θ ^ 2)))) - (deriv_η_O_up + deriv_η_A_up * (1 - b_φ ^ 2) -
  2 * η_A * b_φ * deriv_b_φ) / (η_O + η_A * (1 - b_φ ^ 2)) ^ 2 * (v_θ * B_r - v_r * B_θ - deriv_B_φ * (η_H * b_θ + η_A * b_r * b_φ) + B_φ * (η_A *
  b_φ * (b_r * tan θ - b_θ * (1 / 4 - γ)) + η_H * (b_r * (1 / 4 - γ) + b_θ * tan θ))) - deriv_B_θ * (1 / 4 - γ).

(** sonic_point.py:285-318. *)
Definition dderiv_B_r_down_func
  (η_O η_A η_H b_θ b_r b_φ deriv_η_O_down deriv_η_A_down deriv_η_H_down B_r B_φ B_θ θ v_r v_θ deriv_B_φ γ dderiv_B_φ_down : R) : R :=
  1 / (η_O + η_A * (1 - b_φ ^ 2)) * (B_r - dderiv_B_φ_down * (η_H * b_θ + η_A * b_r * b_φ) - deriv_B_φ * (deriv_η_H_down * b_θ + deriv_η_A_down * b_r
  * b_φ) + B_φ * (deriv_η_A_down * b_φ * (b_r * tan θ - b_θ * (1 / 4 - γ)) + deriv_η_H_down * (b_r * (1 / 4 - γ) + b_θ * tan θ))) - (deriv_η_O_down +
  deriv_η_A_down * (1 - b_φ ^ 2)) / (η_O + η_A * (1 - b_φ ^ 2)) ^ 2 * (v_θ * B_r - v_r * B_θ - deriv_B_φ * (η_H * b_θ + η_A * b_r * b_φ) + B_φ * (η_A
  * b_φ * (b_r * tan θ - b_θ * (1 / 4 - γ)) + η_H * (b_r * (1 / 4 - γ) + b_θ * tan θ))).

(** sonic_point.py:321-391. *)
Definition dderiv_B_φ_up_func
  (η_O η_A η_H b_θ b_r b_φ deriv_η_O_up deriv_η_A_up deriv_η_H_up deriv_b_θ deriv_b_r deriv_b_φ B_r B_φ B_θ θ v_r v_φ v_θ deriv_v_r deriv_v_φ
  deriv_B_r deriv_B_θ deriv_B_φ γ E_r C A_up deriv_E_r Z_5 Z_5_up : R) : R :=
  (C * (v_θ * deriv_B_r - deriv_v_r * B_θ - v_r * deriv_B_θ) + A_up * (v_θ * B_r - v_r * B_θ) - deriv_E_r - deriv_v_φ * B_θ - v_φ * deriv_B_θ +
  deriv_B_φ * (v_θ + tan θ * (η_O + η_A * (1 - b_r ^ 2)) + (1 / 4 - γ) * (η_H * b_φ + η_A * b_r * b_θ) - C * (η_A * b_φ * (b_r * tan θ - b_θ * (1 / 4
  - γ)) + η_H * (b_r * (1 / 4 - γ) + b_θ * tan θ))) + B_φ * ((1 + tan θ ^ 2) * (η_O + η_A * (1 - b_r ^ 2)) + tan θ * (deriv_η_O_up + deriv_η_A_up *
  (1 - b_r ^ 2) - 2 * η_A * b_r * deriv_b_r) + (1 / 4 - γ) * (deriv_η_H_up * b_φ + η_H * deriv_b_φ + deriv_η_A_up * b_r * b_θ + η_A * deriv_b_r * b_θ
  + η_A * b_r * deriv_b_θ) - A_up * (η_A * b_φ * (b_r * tan θ - b_θ * (1 / 4 - γ)) + η_H * (b_r * (1 / 4 - γ) + b_θ * tan θ)) - C * (deriv_η_A_up *
  b_φ * (b_r * tan θ - b_θ * (1 / 4 - γ)) + η_A * deriv_b_φ * (b_r * tan θ - b_θ * (1 / 4 - γ)) + η_A * b_φ * (deriv_b_r * tan θ + b_r * (1 + tan θ ^
  2) - deriv_b_θ * (1 / 4 - γ)) + η_H * (deriv_b_r * (1 / 4 - γ) + deriv_b_θ * tan θ + b_θ * (1 + tan θ ^ 2)) + deriv_η_H_up * (b_r * (1 / 4 - γ) +
  b_θ * tan θ)))) / Z_5 - Z_5_up / Z_5 ^ 2 * (C * (v_θ * B_r - v_r * B_θ) - E_r - v_φ * B_θ + B_φ * (v_θ + tan θ * (η_O + η_A * (1 - b_r ^ 2)) + (1 /
  4 - γ) * (η_H * b_φ + η_A * b_r * b_θ) - C * (η_A * b_φ * (b_r * tan θ - b_θ * (1 / 4 - γ)) + η_H * (b_r * (1 / 4 - γ) + b_θ * tan θ)))).

(** sonic_point.py:394-438. *)
Definition dderiv_B_φ_down_func
  (η_O η_A η_H b_θ b_r b_φ deriv_η_O_down deriv_η_A_down deriv_η_H_down B_r B_φ B_θ θ v_r v_φ v_θ γ E_r C A_down Z_5 Z_5_down : R) : R :=
  (A_down * (v_θ * B_r - v_r * B_θ) + B_φ * (1 + tan θ * (deriv_η_O_down + deriv_η_A_down * (1 - b_r ^ 2)) + (1 / 4 - γ) * (deriv_η_H_down * b_φ +
  deriv_η_A_down * b_r * b_θ) - A_down * (η_A * b_φ * (b_r * tan θ - b_θ * (1 / 4 - γ)) + η_H * (b_r * (1 / 4 - γ) + b_θ * tan θ)) - C *
  (deriv_η_A_down * b_φ * (b_r * tan θ - b_θ * (1 / 4 - γ)) + deriv_η_H_down * (b_r * (1 / 4 - γ) + b_θ * tan θ)))) / Z_5 - Z_5_down / Z_5 ^ 2 * (C *
  (v_θ * B_r - v_r * B_θ) - E_r - v_φ * B_θ + B_φ * (v_θ + tan θ * (η_O + η_A * (1 - b_r ^ 2)) + (1 / 4 - γ) * (η_H * b_φ + η_A * b_r * b_θ) - C *
  (η_A * b_φ * (b_r * tan θ - b_θ * (1 / 4 - γ)) + η_H * (b_r * (1 / 4 - γ) + b_θ * tan θ)))).

(** sonic_point.py:441-460. *)
Definition A_up_func
  (η_O η_A η_H b_θ b_r b_φ deriv_η_O_up deriv_η_A_up deriv_η_H_up deriv_b_θ deriv_b_r deriv_b_φ : R) : R :=
  (deriv_η_H_up * b_θ + η_H * deriv_b_θ - deriv_η_A_up * b_r * b_φ - η_A * deriv_b_r * b_φ - η_A * b_r * deriv_b_φ) / (η_O + η_A * (1 - b_φ ^ 2)) -
  (deriv_η_O_up + deriv_η_A_up * (1 - b_φ ^ 2) - 2 * η_A * b_φ * deriv_b_φ) * (η_H * b_θ - η_A * b_r * b_φ) / (η_O + η_A * (1 - b_φ ^ 2)) ^ 2.

(** sonic_point.py:463-481. *)
Definition A_down_func
  (η_O η_A η_H b_θ b_r b_φ deriv_η_O_down deriv_η_A_down deriv_η_H_down deriv_b_φ : R) : R :=
  (deriv_η_H_down * b_θ - deriv_η_A_down * b_r * b_φ) / (η_O + η_A * (1 - b_φ ^ 2)) - (deriv_η_O_down + deriv_η_A_down * (1 - b_φ ^ 2) - 2 * η_A *
  b_φ * deriv_b_φ) * (η_H * b_θ - η_A * b_r * b_φ) / (η_O + η_A * (1 - b_φ ^ 2)) ^ 2.

(** sonic_point.py:484-495. *)
Definition deriv_η_up_func
  (ρ B_r B_φ B_θ deriv_ρ_up deriv_B_r deriv_B_φ deriv_B_θ : R) : R :=
  let B_sq := B_r ^ 2 + B_φ ^ 2 + B_θ ^ 2 in
  (2 * (B_r * deriv_B_r + B_φ * deriv_B_φ + B_θ * deriv_B_θ) - B_sq * deriv_ρ_up / ρ) / ρ.

(** sonic_point.py:498-504. *)
Definition deriv_η_down_func
  (ρ B_r B_φ B_θ deriv_ρ_down : R) : R :=
  let B_sq := B_r ^ 2 + B_φ ^ 2 + B_θ ^ 2 in
  - deriv_ρ_down * B_sq / ρ ^ 2.

(** sonic_point.py:507-520. *)
Definition Z_5_up_func
  (η_H η_A b_r b_φ b_θ A_up C deriv_η_O_up deriv_η_A_up deriv_η_H_up deriv_b_θ deriv_b_r deriv_b_φ : R) : R :=
  deriv_η_O_up + deriv_η_A_up * (1 - b_r ^ 2) - η_A * deriv_b_r * b_r + A_up * (η_H * b_θ - η_A * b_r * b_φ) + C * (deriv_η_H_up * b_θ + η_H *
  deriv_b_θ - deriv_η_A_up * b_r * b_φ - η_A * deriv_b_r * b_φ - η_A * b_r * deriv_b_φ).

(** sonic_point.py:523-535. *)
Definition Z_5_down_func
  (η_H η_A b_r b_φ b_θ A_down C deriv_η_O_down deriv_η_A_down deriv_η_H_down : R) : R :=
  deriv_η_O_down + deriv_η_A_down * (1 - b_r ^ 2) + A_down * (η_H * b_θ - η_A * b_r * b_φ) + C * (deriv_η_H_down * b_θ - deriv_η_A_down * b_r * b_φ).

(** The results of solve_quadratic (root_solver), the pair it returns for a, b, c; complex results are not modelled. *)
Definition quadratic := R -> R -> R -> R * R.
(** sonic_point.py:163-172, the choice of a root; [None] is SolverError. *)
Definition choose_root (x : R * R) : option R :=
  let '(x1, x2) := x in
  if Rlt_dec 0 x1 then if Rlt_dec 0 x2 then None else Some x1
  else if Rlt_dec 0 x2 then Some x2
  else None.
(** sonic_point.py:18-161: the coefficients a, b, c of the quadratic; E_r and η_derivs are moved last; [E_r_given] = None is Python's None. *)
Definition sonic_coefficients
  (a_0 ρ B_r B_φ B_θ η_O η_H η_A θ v_r v_φ v_θ deriv_v_r deriv_v_φ deriv_B_r deriv_B_θ deriv_B_φ γ η_O_0 η_A_0 η_H_0 b_r b_θ b_φ : R) (E_r_given :
  option R) (η_derivs : bool) : R * R * R :=
  let E_r := match E_r_given with Some E_r => E_r | None => E_r_func v_θ v_φ B_θ B_φ (J_r_func θ B_φ deriv_B_φ) (J_θ_func γ B_φ) (J_φ_func γ B_θ
  deriv_B_r) η_O η_A η_H b_r b_θ b_φ end in
  let '(deriv_b_r, deriv_b_φ, deriv_b_θ) := B_unit_derivs B_r B_φ B_θ deriv_B_r deriv_B_φ deriv_B_θ b_r b_φ b_θ in
  let J_r := J_r_func θ B_φ deriv_B_φ in
  let J_θ := J_θ_func γ B_φ in
  let J_φ := J_φ_func γ B_θ deriv_B_r in
  let deriv_E_r := deriv_E_r_func γ v_r v_φ B_r B_φ η_O η_A η_H b_r b_θ b_φ J_r J_θ J_φ in
  let C := C_func η_O η_A η_H b_θ b_r b_φ in
  let Z_5 := Z_5_func η_O η_A η_H b_r b_θ b_φ C in
  let S_1 := S_1_func v_r v_θ γ in
  let deriv_ρ_up := deriv_ρ_up_func ρ v_r v_θ γ θ in
  let deriv_ρ_down := deriv_ρ_down_func ρ v_θ in
  let deriv_η_scale_up := deriv_η_up_func ρ B_r B_φ B_θ deriv_ρ_up deriv_B_r deriv_B_φ deriv_B_θ in
  let deriv_η_scale_down := deriv_η_down_func ρ B_r B_φ B_θ deriv_ρ_down in
  let deriv_η_O_up := if η_derivs then deriv_η_scale_up * η_O_0 else 0 in
  let deriv_η_A_up := if η_derivs then deriv_η_scale_up * η_A_0 else 0 in
  let deriv_η_H_up := if η_derivs then deriv_η_scale_up * η_H_0 else 0 in
  let deriv_η_O_down := if η_derivs then deriv_η_scale_down * η_O_0 else 0 in
  let deriv_η_A_down := if η_derivs then deriv_η_scale_down * η_A_0 else 0 in
  let deriv_η_H_down := if η_derivs then deriv_η_scale_down * η_H_0 else 0 in
  let A_up := A_up_func η_O η_A η_H b_θ b_r b_φ deriv_η_O_up deriv_η_A_up deriv_η_H_up deriv_b_θ deriv_b_r deriv_b_φ in
  let A_down := A_down_func η_O η_A η_H b_θ b_r b_φ deriv_η_O_down deriv_η_A_down deriv_η_H_down deriv_b_φ in
  let Z_5_up := Z_5_up_func η_H η_A b_r b_φ b_θ A_up C deriv_η_O_up deriv_η_A_up deriv_η_H_up deriv_b_θ deriv_b_r deriv_b_φ in
  let Z_5_down := Z_5_down_func η_H η_A b_r b_φ b_θ A_down C deriv_η_O_down deriv_η_A_down deriv_η_H_down in
  let dderiv_B_φ_up := dderiv_B_φ_up_func η_O η_A η_H b_θ b_r b_φ deriv_η_O_up deriv_η_A_up deriv_η_H_up deriv_b_θ deriv_b_r deriv_b_φ B_r B_φ B_θ θ
  v_r v_φ v_θ deriv_v_r deriv_v_φ deriv_B_r deriv_B_θ deriv_B_φ γ E_r C A_up deriv_E_r Z_5 Z_5_up in
  let dderiv_B_φ_down := dderiv_B_φ_down_func η_O η_A η_H b_θ b_r b_φ deriv_η_O_down deriv_η_A_down deriv_η_H_down B_r B_φ B_θ θ v_r v_φ v_θ γ E_r C
  A_down Z_5 Z_5_down in
  let dderiv_B_r_up := dderiv_B_r_up_func η_O η_A η_H b_θ b_r b_φ deriv_η_O_up deriv_η_A_up deriv_η_H_up deriv_b_θ deriv_b_r deriv_b_φ B_r B_φ B_θ θ
  v_r v_θ deriv_v_r deriv_B_r deriv_B_θ deriv_B_φ γ dderiv_B_φ_up in
  let dderiv_B_r_down := dderiv_B_r_down_func η_O η_A η_H b_θ b_r b_φ deriv_η_O_down deriv_η_A_down deriv_η_H_down B_r B_φ B_θ θ v_r v_θ deriv_B_φ γ
  dderiv_B_φ_down in
  let S_1_dash_up := S_1_dash_up_func a_0 ρ B_r B_φ B_θ θ v_φ deriv_v_φ deriv_B_r deriv_B_θ deriv_B_φ γ dderiv_B_r_up dderiv_B_φ_up deriv_ρ_up in
  let S_1_dash_down := S_1_dash_down_func a_0 ρ B_r B_φ B_θ θ deriv_B_r deriv_B_φ γ dderiv_B_r_down dderiv_B_φ_down deriv_ρ_down in
  let a := 2 * v_θ in
  let b := v_r * v_θ + S_1 + v_θ * S_1_dash_down in
  let c := deriv_v_r / 2 * (v_θ ^ 2 - 4 * γ) + v_θ * S_1_dash_up in
  (a, b, c).
(** sonic_point.py:18-172; v_θ defaults to 1. *)
Definition deriv_v_θ_sonic (solve_quadratic : quadratic)
  (a_0 ρ B_r B_φ B_θ η_O η_H η_A θ v_r v_φ v_θ deriv_v_r deriv_v_φ deriv_B_r deriv_B_θ deriv_B_φ γ η_O_0 η_A_0 η_H_0 b_r b_θ b_φ : R) (E_r_given :
  option R) (η_derivs : bool) : option R :=
  let '(a, b, c) := sonic_coefficients
    a_0 ρ B_r B_φ B_θ η_O η_H η_A θ v_r v_φ v_θ deriv_v_r deriv_v_φ deriv_B_r deriv_B_θ deriv_B_φ γ η_O_0 η_A_0 η_H_0 b_r b_θ b_φ E_r_given η_derivs
    in
  choose_root (solve_quadratic a b c).
