(** The hydrostatic method.

    Models src/disc_solver/solve/hydrostatic.py (all functions).  The functions of lines 99-348 and the lets of the
    right-hand side are the output of tools/gen_hydro.py.  Floating point numbers are modelled as reals: a division by
    zero is 0, not nan.  Not modelled: logging, error texts, the tolerances (passed to the integrator unchanged). *)
From Coq Require Import String List Bool ZArith Reals.
From Verif Require Import Lib_Py Model_Index Model_Deriv Model_Ode Model_Midplane Model_Containers Model_Record.
From Verif Require Model_Solution.
Import ListNotations.
Open Scope R_scope. Open Scope list_scope.

(** hydrostatic.py:43-96.  [None] is SolverError("Input implies NaN"); the only source of NaN is the square root of v_φ. *)
Definition hydrostatic_define_conditions (inp : cond_input) : option conditions :=
  let ρ := 1 in
  let B_θ := 1 in
  let v_θ := 0 in
  let B_r := 0 in
  let B_φ := 0 in
  let v_r := - in_v_rin_on_c_s inp in
  let a_0 := in_v_a_on_c_s inp ^ 2 in
  let norm_kepler_sq := 1 / in_c_s_on_v_k inp ^ 2 in
  let η_O := in_η_O inp in
  let η_A := in_η_A inp in
  let η_H := in_η_H inp in
  let η_P := η_O + η_A in
  let η_perp_sq := η_P ^ 2 + η_H ^ 2 in
  match v_φ_boundary_func v_r η_H η_P norm_kepler_sq a_0 0 with
  | None => None
  | Some v_φ =>
      let init_con :=
        upd iη_H η_H (upd iη_A η_A (upd iη_O η_O (upd iρ ρ (upd iv_θ v_θ
        (upd iv_φ v_φ (upd iv_r v_r (upd iB_θ B_θ (upd iB_φ B_φ (upd iB_r B_r zeros))))))))) in
      let init_con :=
        if in_use_E_r inp then upd iE_r (E_r_boundary_func v_r v_φ η_P η_H η_perp_sq a_0) init_con
        else upd iB_φ_prime (B_φ_prime_boundary_func v_r v_φ a_0) init_con in
      let angles := map radians (linspace (in_start inp) (in_stop inp) (in_num_angles inp)) in
      Some (mk_conditions norm_kepler_sq a_0 init_con angles 0)
  end.

(** hydrostatic.py:99-117. *)
Definition X_dash_func
  (η_O η_A η_H b_θ b_r b_φ deriv_η_O deriv_η_A deriv_η_H deriv_b_θ deriv_b_r deriv_b_φ : R) : R :=
  (deriv_η_H * b_θ + η_H * deriv_b_θ + deriv_η_A * b_r * b_φ + η_A * deriv_b_r * b_φ + η_A * b_r * deriv_b_φ) / (η_O + η_A * (1 - b_φ ^ 2)) - (η_H *
  b_θ - η_A * b_r * b_φ) * (deriv_η_O + deriv_η_A * (1 - b_φ ^ 2) - 2 * η_A * b_φ * deriv_b_φ) / (η_O + η_A * (1 - b_φ ^ 2)) ^ 2.

(** hydrostatic.py:120-124. *)
Definition X_func
  (η_O η_A η_H b_θ b_r b_φ : R) : R :=
  (η_H * b_θ + η_A * b_r * b_φ) / (η_O + η_A * (1 - b_φ ^ 2)).

(** hydrostatic.py:127-131. *)
Definition b_func
  (X v_r : R) : R :=
  - X * v_r / 2.

(** hydrostatic.py:134-150. *)
Definition c_func
  (θ norm_kepler_sq a_0 X v_r B_φ B_θ B_r ρ η_A η_O η_H b_φ b_r b_θ : R) : R :=
  v_r ^ 2 / 2 + 5 / 2 - norm_kepler_sq + a_0 / ρ * (B_φ ^ 2 / 4 - X * B_φ * (1 / 4 * B_r + B_θ * tan θ) - B_θ / (η_O + η_A * (1 - b_φ ^ 2)) * (v_r *
  B_θ - B_φ * (η_A * b_φ * (b_r * tan θ - b_θ / 4) + η_H * (b_r / 4 + b_θ * tan θ)))).

(** hydrostatic.py:153-166. *)
Definition Z_1_func
  (θ a_0 B_φ B_θ B_r ρ deriv_B_r deriv_B_φ deriv_B_θ v_φ deriv_ρ : R) : R :=
  2 * a_0 / (v_φ * ρ) * (deriv_B_θ * (deriv_B_φ - B_φ * tan θ) - (deriv_B_r * B_φ + B_r * deriv_B_φ) / 4 - B_θ * deriv_B_φ * tan θ - B_θ * B_φ * sec
  θ ^ 2 - deriv_ρ / ρ * (B_θ * deriv_B_φ - B_r * B_φ / 4 - B_θ * B_φ * tan θ)).

(** hydrostatic.py:169-223. *)
Definition Z_2_func
  (θ a_0 X v_r B_φ B_θ B_r ρ η_A η_O η_H b_φ b_r b_θ X_dash deriv_B_r deriv_B_φ deriv_B_θ deriv_ρ b c deriv_b_θ deriv_b_φ deriv_b_r deriv_η_O
  deriv_η_A deriv_η_H : R) : R :=
  v_r * X_dash / 4 + (v_r ^ 2 * X * X_dash / 16 + a_0 * deriv_ρ / ρ ^ 2 * (B_φ ^ 2 / 4 - X * B_φ * (B_r / 4 + B_θ * tan θ) - B_θ / (η_O + η_A * (1 -
  b_φ ^ 2)) * (v_r * B_θ - B_φ * (η_A * b_φ * (b_θ / 4 + b_r * tan θ) + η_H * (b_r / 4 + b_θ * tan θ)))) - a_0 / ρ * (deriv_B_φ * B_φ / 2 - (X_dash *
  B_φ + X * deriv_B_φ) * (B_r / 4 + B_θ * tan θ) - X * B_φ * (deriv_B_r / 4 + deriv_B_θ * tan θ + B_θ * sec θ ^ 2) - (deriv_B_θ * (η_O + η_A * (1 -
  b_φ ^ 2)) - B_θ * (deriv_η_O + deriv_η_A * (1 - b_φ ^ 2) - 2 * η_A * b_φ * deriv_b_φ)) / (η_O + η_A * (1 - b_φ ^ 2)) ^ 2 * (v_r * B_θ - B_φ * (η_A
  * b_φ * (b_θ / 4 + b_r * tan θ) + η_H * (b_r / 4 + b_θ * tan θ))) - B_θ / (η_O + η_A * (1 - b_φ ^ 2)) * (deriv_B_θ * v_r - deriv_B_φ * (η_A * b_φ *
  (b_θ / 4 + b_r * tan θ) + η_H * (b_θ * tan θ - b_r / 4)) - B_φ * ((deriv_η_A * b_φ + η_A * deriv_b_φ) * (b_r * tan θ - b_θ / 4) + η_A * b_φ *
  (deriv_b_r * tan θ + b_r * sec θ ^ 2 - deriv_b_θ / 4) + deriv_η_H * (b_r / 4 + b_θ * tan θ) + η_H * (deriv_b_r / 4 + deriv_b_θ * tan θ + b_θ * sec
  θ ^ 2))))) / sqrt (b ^ 2 - 4 * c).

(** hydrostatic.py:226-234. *)
Definition Z_3_func
  (X v_r a_0 B_θ ρ η_O η_A b_φ b c : R) : R :=
  X / 4 + (v_r * (X ^ 2 / 16 - 1) + 2 * a_0 * B_θ ^ 2 / (ρ * (η_O + η_A * (1 - b_φ ^ 2)))) / sqrt (b ^ 2 - 4 * c).

(** hydrostatic.py:237-241. *)
Definition Z_4_func
  (B_θ B_r B_φ deriv_B_φ θ : R) : R :=
  B_θ * deriv_B_φ - B_r * B_φ / 4 - B_θ * B_φ * tan θ.

(** hydrostatic.py:244-250. *)
Definition Z_6_func
  (C Z_3 Z_4 Z_5 a_0 B_θ v_φ ρ : R) : R :=
  Z_5 + 2 * a_0 * B_θ ^ 2 * v_φ * (C + Z_3) / (v_φ ^ 2 * ρ + 2 * a_0 * Z_3 * Z_4).

(** hydrostatic.py:253-259. *)
Definition Z_7_func
  (C Z_1 Z_2 Z_3 Z_4 a_0 v_φ ρ : R) : R :=
  Z_2 + (C + Z_3) * (Z_1 * v_φ ^ 2 * ρ - Z_2 * Z_4) / (v_φ ^ 2 * ρ + 2 * a_0 * Z_3 * Z_4).

(** hydrostatic.py:262-330. *)
Definition dderiv_B_φ_func
  (A b_r b_θ B_θ b_φ B_φ C deriv_b_r deriv_B_r deriv_b_θ deriv_B_θ deriv_b_φ deriv_B_φ deriv_η_A deriv_η_H deriv_η_O v_r v_φ Z_6 Z_7 η_A η_H η_O θ :
  R) : R :=
  (A * (B_φ * (η_A * b_φ * (b_r * tan θ - b_θ / 4) + η_H * (b_r / 4 + b_θ * tan θ)) - v_r * B_θ) - v_φ * deriv_B_θ + C * (deriv_B_φ * (η_A * b_φ *
  (b_r * tan θ - b_θ / 4) + η_H * (b_r / 4 + b_θ * tan θ)) - v_r * deriv_B_θ + B_φ * (deriv_η_A * b_φ * (b_r * tan θ - b_θ / 4) + η_A * deriv_b_φ *
  (b_r * tan θ - b_θ / 4) + η_A * b_φ * (deriv_b_r * tan θ - deriv_b_θ / 4 + b_r * (1 + tan θ ^ 2)) + deriv_η_H * (b_r / 4 + b_θ * tan θ) + η_H *
  (deriv_b_r / 4 + deriv_b_θ * tan θ + b_θ * (1 + tan θ ^ 2)))) - deriv_B_φ * (deriv_η_O + deriv_η_A * (1 - b_r ^ 2) - 2 * η_A * b_r * deriv_b_r + A
  * (η_H * b_θ + η_A * b_r * b_φ) + C * (η_H * b_θ + η_A * b_r * b_φ) + η_O + η_A * (1 - b_r ^ 2 + b_r * b_θ / 4) + η_H * b_φ / 4) - B_φ * (deriv_η_O
  + deriv_η_A * (1 - b_r ^ 2 + b_r * b_θ / 4) + deriv_η_H * b_φ / 4 - η_A * (2 * b_r * deriv_b_r - deriv_b_r * b_θ / 4 - b_r * deriv_b_θ / 4) + η_H *
  deriv_b_φ / 4) - 3 / 4 * ((deriv_B_r + B_θ / 4) * (η_H * b_r + η_A * b_θ * b_φ) + deriv_B_φ * (η_H * b_φ - η_A * b_r * b_θ) + B_φ * (η_O / 4 + η_A
  * ((1 - b_θ ^ 2) / 4 + tan θ * b_r * b_θ) - η_H * b_φ * tan θ)) - B_θ * Z_7) / Z_6.

(** hydrostatic.py:333-337. *)
Definition deriv_v_φ_func
  (Z_2 deriv_v_r Z_3 : R) : R :=
  Z_2 + deriv_v_r * Z_3.

(** hydrostatic.py:340-348. *)
Definition deriv_v_r_func
  (Z_1 Z_2 Z_3 Z_4 v_φ ρ a_0 dderiv_B_φ B_θ : R) : R :=
  (Z_1 * v_φ ^ 2 * ρ + 2 * a_0 * (v_φ * B_θ * dderiv_B_φ - Z_2 * Z_4)) / (v_φ ^ 2 * ρ + 2 * a_0 * Z_3 * Z_4).

(** The arguments of ode_system (hydrostatic.py:351-354). *)
Record hydro_args := mk_hydro_args {
  ha_a_0 : R; ha_norm_kepler_sq : R; ha_init_con : vec; ha_θ_scale : R; ha_η_derivs : bool; ha_store_internal : bool;
  ha_no_v_deriv : bool }.
(** What a call of the right-hand side does: 1 with a problem recorded at that angle, 1 without, or 0 with the derivatives. *)
Inductive hydro_result := Hy_negative_density (θ : R) | Hy_negative_discriminant | Hy_ok (derivs : vec) (θ : R).
(** derivs[VELOCITY_INDEXES] = 0 (utils.py:94). *)
Definition zero_velocities (d : vec) : vec := upd iv_θ 0 (upd iv_φ 0 (upd iv_r 0 d)).

(** hydrostatic.py:372-553 ([rhs_equation] without the record of its calls). *)
Definition hydro_rhs (h : hydro_args) (x : R) (params : vec) : hydro_result :=
  let a_0 := ha_a_0 h in
  let norm_kepler_sq := ha_norm_kepler_sq h in
  let η_derivs := ha_η_derivs h in
  let η_O_0 := ha_init_con h iη_O in
  let η_A_0 := ha_init_con h iη_A in
  let η_H_0 := ha_init_con h iη_H in
  let θ := scaled_to_rad_num x (ha_θ_scale h) in
  let B_r := params iB_r in
  let B_φ := params iB_φ in
  let B_θ := params iB_θ in
  let v_r := params iv_r in
  let v_φ := params iv_φ in
  let ρ := params iρ in
  let η_O := params iη_O in
  let η_A := params iη_A in
  let η_H := params iη_H in
  let B_φ_prime := params iB_φ_prime in
  if Rlt_dec ρ 0 then Hy_negative_density θ else
  let B_mag := sqrt (B_r ^ 2 + B_φ ^ 2 + B_θ ^ 2) in
  let b_r := B_r / B_mag in
  let b_φ := B_φ / B_mag in
  let b_θ := B_θ / B_mag in
  let X := X_func η_O η_A η_H b_θ b_r b_φ in
  let b := b_func X v_r in
  let c := c_func θ norm_kepler_sq a_0 X v_r B_φ B_θ B_r ρ η_A η_O η_H b_φ b_r b_θ in
  if Rlt_dec (b ^ 2 - 4 * c) 0 then Hy_negative_discriminant else
  let deriv_B_φ := B_φ_prime in
  let deriv_B_θ := B_θ * tan θ - 3 / 4 * B_r in
  let deriv_B_r := (B_φ * (η_A * b_φ * (b_r * tan θ - b_θ / 4) + η_H * (b_r / 4 + b_θ * tan θ)) - deriv_B_φ * (η_H * b_θ + η_A * b_r * b_φ) - v_r *
  B_θ) / (η_O + η_A * (1 - b_φ) * (1 + b_φ)) - B_θ / 4 in
  let deriv_ρ := - ρ * v_φ ^ 2 * tan θ - a_0 * (B_θ * B_r / 4 + B_r * deriv_B_r + B_φ * deriv_B_φ - B_φ ^ 2 * tan θ) in
  let deriv_η_scale := deriv_η_skw_func ρ B_r B_φ B_θ deriv_ρ deriv_B_r deriv_B_φ deriv_B_θ in
  let deriv_η_O := if η_derivs then deriv_η_scale * η_O_0 else 0 in
  let deriv_η_A := if η_derivs then deriv_η_scale * η_A_0 else 0 in
  let deriv_η_H := if η_derivs then deriv_η_scale * η_H_0 else 0 in
  let '(deriv_b_r, deriv_b_φ, deriv_b_θ) := B_unit_derivs B_r B_φ B_θ deriv_B_r deriv_B_φ deriv_B_θ b_r b_φ b_θ in
  let C := C_func η_O η_A η_H b_θ b_r b_φ in
  let A := A_func η_O η_A η_H b_θ b_r b_φ deriv_η_O deriv_η_A deriv_η_H deriv_b_θ deriv_b_r deriv_b_φ in
  let X_dash := X_dash_func η_O η_A η_H b_θ b_r b_φ deriv_η_O deriv_η_A deriv_η_H deriv_b_θ deriv_b_r deriv_b_φ in
  let Z_1 := Z_1_func θ a_0 B_φ B_θ B_r ρ deriv_B_r deriv_B_φ deriv_B_θ v_φ deriv_ρ in
  let Z_2 := Z_2_func θ a_0 X v_r B_φ B_θ B_r ρ η_A η_O η_H b_φ b_r b_θ X_dash deriv_B_r deriv_B_φ deriv_B_θ deriv_ρ b c deriv_b_θ deriv_b_φ
  deriv_b_r deriv_η_O deriv_η_A deriv_η_H in
  let Z_3 := Z_3_func X v_r a_0 B_θ ρ η_O η_A b_φ b c in
  let Z_4 := Z_4_func B_θ B_r B_φ deriv_B_φ θ in
  let Z_5 := Z_5_func η_O η_A η_H b_r b_θ b_φ C in
  let Z_6 := Z_6_func C Z_3 Z_4 Z_5 a_0 B_θ v_φ ρ in
  let Z_7 := Z_7_func C Z_1 Z_2 Z_3 Z_4 a_0 v_φ ρ in
  let dderiv_B_φ := dderiv_B_φ_func A b_r b_θ B_θ b_φ B_φ C deriv_b_r deriv_B_r deriv_b_θ deriv_B_θ deriv_b_φ deriv_B_φ deriv_η_A deriv_η_H deriv_η_O
  v_r v_φ Z_6 Z_7 η_A η_H η_O θ in
  let deriv_v_r := deriv_v_r_func Z_1 Z_2 Z_3 Z_4 v_φ ρ a_0 dderiv_B_φ B_θ in
  let deriv_v_φ := deriv_v_φ_func Z_2 deriv_v_r Z_3 in
  let d := zeros in
  let d := upd iB_r deriv_B_r d in
  let d := upd iB_φ deriv_B_φ d in
  let d := upd iB_θ deriv_B_θ d in
  let d := upd iv_r deriv_v_r d in
  let d := upd iv_φ deriv_v_φ d in
  let d := upd iρ deriv_ρ d in
  let d := upd iB_φ_prime dderiv_B_φ d in
  let d := upd iη_O deriv_η_O d in
  let d := upd iη_A deriv_η_A d in
  let d := upd iη_H deriv_η_H d in
  let d := upd iv_θ 0 d in
  let d := if ha_no_v_deriv h then zero_velocities d else d in
  Hy_ok d θ.

