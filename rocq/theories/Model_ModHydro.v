(** The modified hydrostatic method.

    Models src/disc_solver/solve/mod_hydro.py (all functions).  The functions of lines 105-307, the coefficients of the cubic
    and the lets of the right-hand side are the output of tools/gen_hydro.py.  Floating point numbers are modelled as
    reals: a division by zero is 0, not nan.  root_solver's CubicTracker is an argument: from the root it holds and the
    coefficients it answers a root, which it then holds.  Not modelled: logging, tolerances (passed unchanged). *)
From Coq Require Import String List Bool ZArith Reals.
From Verif Require Import Lib_Py Model_Index Model_Deriv Model_Ode Model_Midplane Model_Hydro.
From Verif Require Model_Solution.
Import ListNotations.
Open Scope R_scope. Open Scope list_scope.

(** mod_hydro.py:49-102.  No nan arises over the reals with nonzero denominators, so the check for it never fails. *)
Definition mod_hydro_define_conditions (inp : cond_input) : conditions :=
  let ρ := 1 in
  let B_θ := 1 in
  let v_θ := 0 in
  let B_r := 0 in
  let B_φ := 0 in
  let v_r := - in_v_rin_on_c_s inp in
  let a_0 := in_v_a_on_c_s inp ^ 2 in
  let norm_kepler_sq := 1 / in_c_s_on_v_k inp ^ 2 in
  let η_O := in_η_O inp in
  let η_A := in_η_A inp in
  let η_H := in_η_H inp in
  let η_P := η_O + η_A in
  let η_perp_sq := η_P ^ 2 + η_H ^ 2 in
  let v_φ := (2 * norm_kepler_sq - 5 / 2 + v_r * (a_0 / η_P - v_r / 2)) / (2 * sqrt norm_kepler_sq - v_r * η_H / (2 * η_P)) in
  let init_con :=
    upd iη_H η_H (upd iη_A η_A (upd iη_O η_O (upd iρ ρ (upd iv_θ v_θ
    (upd iv_φ v_φ (upd iv_r v_r (upd iB_θ B_θ (upd iB_φ B_φ (upd iB_r B_r zeros))))))))) in
  let init_con :=
    if in_use_E_r inp then upd iE_r (E_r_boundary_func v_r v_φ η_P η_H η_perp_sq a_0) init_con
    else upd iB_φ_prime (B_φ_prime_boundary_func v_r v_φ a_0) init_con in
  let angles := map radians (linspace (in_start inp) (in_stop inp) (in_num_angles inp)) in
  mk_conditions norm_kepler_sq a_0 init_con angles 0.

(** mod_hydro.py:105-163. *)
Definition Z_2_func
  (θ a_0 X v_r B_φ B_θ ρ η_A η_O η_H b_φ b_r b_θ X_dash deriv_B_φ deriv_B_θ deriv_b_θ deriv_b_φ deriv_b_r deriv_η_O deriv_η_A deriv_η_H deriv_ρ
  norm_kepler : R) : R :=
  - a_0 / ρ * (deriv_B_φ * B_φ / 2 - deriv_B_θ * deriv_B_φ * X - B_θ * deriv_B_φ * X_dash - deriv_ρ / ρ * (B_φ ^ 2 / 4 - X * deriv_B_φ * B_θ - B_θ /
  (η_O + η_A * (1 - b_φ ^ 2)) * (v_r * B_θ - B_φ * (η_A * b_φ * (b_r * tan θ - b_θ / 4) + η_H * (b_r / 4 + b_θ * tan θ)))) - B_θ / (η_O + η_A * (1 -
  b_φ ^ 2)) * (v_r * deriv_B_θ - deriv_B_φ * (η_A * b_φ * (b_r * tan θ - b_θ / 4) + η_H * (b_r / 4 + b_θ * tan θ)) - B_φ * (deriv_η_A * b_φ * (b_r *
  tan θ - b_θ / 4) + η_A * deriv_b_φ * (b_r * tan θ - b_θ / 4) + η_A * b_φ * (deriv_b_r * tan θ + b_r * (tan θ ^ 2 + 1) - deriv_b_θ / 4) + deriv_η_H
  * (b_r / 4 + b_θ * tan θ) + η_H * (deriv_b_r / 4 + deriv_b_θ * tan θ + b_θ * (tan θ ^ 2 + 1)))) - (deriv_B_θ / (η_O + η_A * (1 - b_φ ^ 2)) - B_θ *
  (deriv_η_O + deriv_η_A * (1 - b_φ ^ 2) - 2 * η_A * deriv_b_φ * b_φ) / (η_O + η_A * (1 - b_φ ^ 2)) ^ 2) * (v_r * B_θ - B_φ * (η_A * b_φ * (b_r * tan
  θ - b_θ / 4) + η_H * (b_r / 4 + b_θ * tan θ)))) / (2 * norm_kepler).

(** mod_hydro.py:166-170. *)
Definition Z_3_func
  (v_r B_θ norm_kepler η_O η_A b_φ : R) : R :=
  B_θ ^ 2 / (η_O + η_A * (1 - b_φ ^ 2)) - v_r / (2 * norm_kepler).

(** mod_hydro.py:173-181. *)
Definition Z_6_func
  (a_0 X v_r B_θ ρ Z_3 Z_5 norm_kepler C v_φ Z_4 : R) : R :=
  Z_5 + B_θ ^ 2 * (X / (2 * norm_kepler) + a_0 * (C + Z_3) * (2 * v_φ - Z_4 * X / norm_kepler) / (v_φ ^ 2 * ρ - Z_3 * Z_4 * a_0 * v_r)).

(** mod_hydro.py:184-192. *)
Definition Z_7_func
  (a_0 X v_r B_θ ρ Z_5 norm_kepler C v_φ Z_4 : R) : R :=
  Z_5 + B_θ ^ 2 * (X / norm_kepler + a_0 * (C - v_r / (2 * norm_kepler)) * (2 * norm_kepler * v_φ - Z_4 * X) / (v_φ ^ 2 * ρ * norm_kepler - Z_4 * a_0
  * v_r)).

(** mod_hydro.py:195-211. *)
Definition Z_8_func
  (θ b_r b_θ b_φ B_φ η_O η_A η_H E_r Z_5 C : R) : R :=
  (- E_r + B_φ * (tan θ * (η_O + η_A * (1 - b_r ^ 2)) + (η_H * b_φ + η_A * b_r * b_θ) / 4 - C * (η_A * b_φ * (b_r * tan θ - b_θ / 4) + η_H * (b_r / 4
  + b_θ * tan θ)))) / Z_5.

(** mod_hydro.py:214-218. *)
Definition deriv_B_φ_func
  (Z_5 Z_8 v_r v_φ B_θ C : R) : R :=
  - B_θ / Z_5 * (v_φ + C * v_r) + Z_8.

(** mod_hydro.py:221-230. *)
Definition v_φ_func
  (θ a_0 ρ Z_5 Z_8 v_r B_r B_θ B_φ C : R) : R :=
  (B_θ * Z_8 - B_θ ^ 2 * C * v_r / Z_5 - B_r * B_φ / 4 - B_θ * B_φ * tan θ) / (B_θ ^ 2 / Z_5 + v_r * ρ / (2 * a_0)).

(** mod_hydro.py:287-293. *)
Definition deriv_v_φ_func
  (Z_2 deriv_v_r dderiv_B_φ norm_kepler v_r X B_θ : R) : R :=
  Z_2 - deriv_v_r * v_r / (2 * norm_kepler) + dderiv_B_φ * B_θ * X / (2 * norm_kepler).

(** mod_hydro.py:296-307. *)
Definition deriv_v_r_func
  (Z_1 Z_2 Z_4 v_φ ρ a_0 dderiv_B_φ B_θ norm_kepler X v_r : R) : R :=
  (Z_1 * v_φ ^ 2 * ρ * norm_kepler - 2 * Z_2 * Z_4 * a_0 * norm_kepler + dderiv_B_φ * a_0 * B_θ * (2 * v_φ * norm_kepler - Z_4 * X)) / (v_φ ^ 2 * ρ *
  norm_kepler - Z_4 * a_0 * v_r).

(** root_solver.CubicTracker.solve_root: held root -> coefficients, highest power first -> the root, which is then held. *)
Definition cubic_tracker := R -> R -> R -> R -> R -> R.
(** mod_hydro.py:241-282: the coefficients [a_3, a_2, a_1, a_0]; the last assignment rebinds the argument a_0. *)
Definition v_r_coefficients
  (θ a_0 norm_kepler ρ Z_5 Z_8 B_r B_θ B_φ b_r b_θ b_φ η_O η_A η_H C X : R) : R * R * R * R :=
  let a_3 := ρ / (8 * norm_kepler * a_0) in
  let a_2 := B_θ ^ 2 / (4 * norm_kepler) * ((1 + C * X) / Z_5 - 1 / (η_O + η_A * (1 - b_φ ^ 2))) in
  let a_1 := - B_θ ^ 2 * C / Z_5 * (1 + a_0 * B_θ ^ 2 * X / (2 * norm_kepler * ρ * Z_5)) - ρ / (2 * a_0) * (norm_kepler - (5 / 2 + a_0 / ρ * (B_φ ^ 2
  / 4 - Z_8 * B_θ * X + B_θ * B_φ / (η_O + η_A * (1 - b_φ ^ 2)) * (η_A * b_φ * (b_r * tan θ - b_θ / 4) + η_H * (b_r / 4 + b_θ * tan θ)))) / (2 *
  norm_kepler)) + B_θ ^ 4 * a_0 / (2 * norm_kepler * Z_5 * ρ) * (C * X / Z_5 - 1 / (η_O + η_A * (1 - b_φ ^ 2))) in
  let a_0 := (B_θ * Z_8 - B_r * B_φ / 4 - B_θ * B_φ * tan θ) * (1 + a_0 * B_θ ^ 2 * X / (2 * norm_kepler * ρ * Z_5)) - B_θ ^ 2 / Z_5 * (norm_kepler -
  (5 / 2 + a_0 / ρ * (B_φ ^ 2 / 4 - Z_8 * B_θ * X + B_θ * B_φ / (η_O + η_A * (1 - b_φ ^ 2)) * (η_A * b_φ * (b_r * tan θ - b_θ / 4) + η_H * (b_r / 4 +
  b_θ * tan θ)))) / (2 * norm_kepler)) in
  (a_3, a_2, a_1, a_0).
(** mod_hydro.py:233-284: v_r and the root the tracker then holds. *)
Definition v_r_func (solve_root : cubic_tracker) (root : R)
  (θ a_0 norm_kepler ρ Z_5 Z_8 B_r B_θ B_φ b_r b_θ b_φ η_O η_A η_H C X : R) : R * R :=
  let '(a_3, a_2, a_1, a_0) := v_r_coefficients θ a_0 norm_kepler ρ Z_5 Z_8 B_r B_θ B_φ b_r b_θ b_φ η_O η_A η_H C X in
  let v_r := solve_root root a_3 a_2 a_1 a_0 in
  (v_r, v_r).

(** The arguments of ode_system (mod_hydro.py:371-374). *)
Record mod_hydro_args := mk_mod_hydro_args {
  ma_a_0 : R; ma_norm_kepler_sq : R; ma_init_con : vec; ma_θ_scale : R; ma_η_derivs : bool; ma_store_internal : bool;
  ma_use_E_r : bool }.

(** mod_hydro.py:325-363, [single_solve] inside [fix_solution]: the row as rewritten and the root the tracker then holds. *)
Definition single_solve (solve_root : cubic_tracker) (a_0 norm_kepler root : R) (params : vec) (θ : R) : vec * R :=
  let B_r := params iB_r in
  let B_φ := params iB_φ in
  let B_θ := params iB_θ in
  let ρ := params iρ in
  let η_O := params iη_O in
  let η_A := params iη_A in
  let η_H := params iη_H in
  let E_r := params iE_r in
  let B_mag := sqrt (B_r ^ 2 + B_φ ^ 2 + B_θ ^ 2) in
  let b_r := B_r / B_mag in
  let b_φ := B_φ / B_mag in
  let b_θ := B_θ / B_mag in
  let C := C_func η_O η_A η_H b_θ b_r b_φ in
  let X := X_func η_O η_A η_H b_θ b_r b_φ in
  let Z_5 := Z_5_func η_O η_A η_H b_r b_θ b_φ C in
  let Z_8 := Z_8_func θ b_r b_θ b_φ B_φ η_O η_A η_H E_r Z_5 C in
  let '(v_r, root) := v_r_func solve_root root θ a_0 norm_kepler ρ Z_5 Z_8 B_r B_θ B_φ b_r b_θ b_φ η_O η_A η_H C X in
  let v_φ := v_φ_func θ a_0 ρ Z_5 Z_8 v_r B_r B_θ B_φ C in
  (upd iv_φ v_φ (upd iv_r v_r params), root).
(** mod_hydro.py:365-366: the rows in order, one tracker throughout. *)
Fixpoint fix_rows (solve_root : cubic_tracker) (a_0 norm_kepler root : R) (rows : list (R * vec)) : list vec :=
  match rows with
  | [] => []
  | (θ, params) :: rest =>
      let '(row, root) := single_solve solve_root a_0 norm_kepler root params θ in
      row :: fix_rows solve_root a_0 norm_kepler root rest
  end.
(** mod_hydro.py:310-368, [fix_solution] on the angles and states of the integrator (zip stops at the shorter: rows beyond are kept). *)
Definition fix_solution (solve_root : cubic_tracker) (m : mod_hydro_args) (t : list R) (y : list vec) : list vec :=
  if ma_use_E_r m then
    fix_rows solve_root (ma_a_0 m) (sqrt (ma_norm_kepler_sq m)) (ma_init_con m iv_r)
      (combine (map (fun x => scaled_to_rad_num x (ma_θ_scale m)) t) y) ++ skipn (List.length t) y
  else y.

(** What a call of the right-hand side does: 1 with a problem recorded, or 0 with the derivatives, the state array as it leaves it
    and the root its tracker then holds. *)
Inductive mod_hydro_result := Mh_negative_density (θ : R) | Mh_ok (derivs params : vec) (root θ : R).

(** mod_hydro.py:397-605 ([rhs_equation] without the record of its calls). *)
Definition mod_hydro_rhs (solve_root : cubic_tracker) (m : mod_hydro_args) (root x : R) (params : vec) : mod_hydro_result :=
  let a_0 := ma_a_0 m in
  let norm_kepler := sqrt (ma_norm_kepler_sq m) in
  let η_derivs := ma_η_derivs m in
  let η_O_0 := ma_init_con m iη_O in
  let η_A_0 := ma_init_con m iη_A in
  let η_H_0 := ma_init_con m iη_H in
  let θ := scaled_to_rad_num x (ma_θ_scale m) in
  let B_r := params iB_r in
  let B_φ := params iB_φ in
  let B_θ := params iB_θ in
  let v_r := params iv_r in
  let v_φ := params iv_φ in
  let ρ := params iρ in
  let η_O := params iη_O in
  let η_A := params iη_A in
  let η_H := params iη_H in
  if Rlt_dec ρ 0 then Mh_negative_density θ else
  let B_mag := sqrt (B_r ^ 2 + B_φ ^ 2 + B_θ ^ 2) in
  let b_r := B_r / B_mag in
  let b_φ := B_φ / B_mag in
  let b_θ := B_θ / B_mag in
  let C := C_func η_O η_A η_H b_θ b_r b_φ in
  let X := X_func η_O η_A η_H b_θ b_r b_φ in
  let Z_5 := Z_5_func η_O η_A η_H b_r b_θ b_φ C in
  let deriv_B_θ := B_θ * tan θ - 3 / 4 * B_r in
  let '(v_r, v_φ, deriv_B_φ, params, root) :=
    if ma_use_E_r m then
      let E_r := params iE_r in
    let Z_8 := Z_8_func θ b_r b_θ b_φ B_φ η_O η_A η_H E_r Z_5 C in
    let '(v_r, root) := v_r_func solve_root root θ a_0 norm_kepler ρ Z_5 Z_8 B_r B_θ B_φ b_r b_θ b_φ η_O η_A η_H C X in
    let v_φ := v_φ_func θ a_0 ρ Z_5 Z_8 v_r B_r B_θ B_φ C in
    let deriv_B_φ := deriv_B_φ_func Z_5 Z_8 v_r v_φ B_θ C in
      (v_r, v_φ, deriv_B_φ, upd iv_φ v_φ (upd iv_r v_r params), root)
    else (v_r, v_φ, params iB_φ_prime, params, root) in
  let deriv_B_r := (B_φ * (η_A * b_φ * (b_r * tan θ - b_θ / 4) + η_H * (b_r / 4 + b_θ * tan θ)) - deriv_B_φ * (η_H * b_θ + η_A * b_r * b_φ) - v_r *
  B_θ) / (η_O + η_A * (1 - b_φ) * (1 + b_φ)) - B_θ / 4 in
  let deriv_ρ := - ρ * v_φ ^ 2 * tan θ - a_0 * (B_θ * B_r / 4 + B_r * deriv_B_r + B_φ * deriv_B_φ - B_φ ^ 2 * tan θ) in
  let deriv_η_scale := deriv_η_skw_func ρ B_r B_φ B_θ deriv_ρ deriv_B_r deriv_B_φ deriv_B_θ in
  let deriv_η_O := if η_derivs then deriv_η_scale * η_O_0 else 0 in
  let deriv_η_A := if η_derivs then deriv_η_scale * η_A_0 else 0 in
  let deriv_η_H := if η_derivs then deriv_η_scale * η_H_0 else 0 in
  let d := zeros in
  let d := upd iB_r deriv_B_r d in
  let d := upd iB_φ deriv_B_φ d in
  let d := upd iB_θ deriv_B_θ d in
  let d := upd iρ deriv_ρ d in
  let d := upd iη_O deriv_η_O d in
  let d := upd iη_A deriv_η_A d in
  let d := upd iη_H deriv_η_H d in
  let d := upd iv_θ 0 d in
  if ma_use_E_r m then
    let J_r := J_r_func θ B_φ deriv_B_φ in
    let J_θ := J_θ_func 0 B_φ in
    let J_φ := J_φ_func 0 B_θ deriv_B_r in
    let deriv_E_r := deriv_E_r_func 0 v_r v_φ B_r B_φ η_O η_A η_H b_r b_θ b_φ J_r J_θ J_φ in
    Mh_ok (upd iE_r deriv_E_r (upd iv_φ 0 (upd iv_r 0 d))) params root θ
  else
    let '(deriv_b_r, deriv_b_φ, deriv_b_θ) := B_unit_derivs B_r B_φ B_θ deriv_B_r deriv_B_φ deriv_B_θ b_r b_φ b_θ in
    let A := A_func η_O η_A η_H b_θ b_r b_φ deriv_η_O deriv_η_A deriv_η_H deriv_b_θ deriv_b_r deriv_b_φ in
    let X_dash := X_dash_func η_O η_A η_H b_θ b_r b_φ deriv_η_O deriv_η_A deriv_η_H deriv_b_θ deriv_b_r deriv_b_φ in
    let Z_1 := Z_1_func θ a_0 B_φ B_θ B_r ρ deriv_B_r deriv_B_φ deriv_B_θ v_φ deriv_ρ in
    let Z_2 := Z_2_func θ a_0 X v_r B_φ B_θ ρ η_A η_O η_H b_φ b_r b_θ X_dash deriv_B_φ deriv_B_θ deriv_b_θ deriv_b_φ deriv_b_r deriv_η_O deriv_η_A
    deriv_η_H deriv_ρ norm_kepler in
    let Z_3 := Z_3_func v_r B_θ norm_kepler η_O η_A b_φ in
    let Z_4 := Z_4_func B_θ B_r B_φ deriv_B_φ θ in
    let Z_6 := Z_6_func a_0 X v_r B_θ ρ Z_3 Z_5 norm_kepler C v_φ Z_4 in
    let Z_7 := Z_7_func a_0 X v_r B_θ ρ Z_5 norm_kepler C v_φ Z_4 in
    let dderiv_B_φ := dderiv_B_φ_func A b_r b_θ B_θ b_φ B_φ C deriv_b_r deriv_B_r deriv_b_θ deriv_B_θ deriv_b_φ deriv_B_φ deriv_η_A deriv_η_H deriv_η_O
    v_r v_φ Z_6 Z_7 η_A η_H η_O θ in
    let deriv_v_r := deriv_v_r_func Z_1 Z_2 Z_4 v_φ ρ a_0 dderiv_B_φ B_θ norm_kepler X v_r in
    let deriv_v_φ := deriv_v_φ_func Z_2 deriv_v_r dderiv_B_φ norm_kepler v_r X B_θ in
    Mh_ok (upd iB_φ_prime dderiv_B_φ (upd iv_φ deriv_v_φ (upd iv_r deriv_v_r d))) params root θ.

