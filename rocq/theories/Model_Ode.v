(** The ODE system.

    Models src/disc_solver/solve/solution.py lines 53-303 ([ode_system] and the closure [rhs_equation]),
    335-366 ([jump_across_sonic]), 413-414 and 423-460 ([taylor_jump] and the angle part of
    [taylor_solution]), and src/disc_solver/solve/utils.py lines 116-145. *)
From Coq Require Import Reals List Bool.
From Verif Require Import Model_Index Model_Deriv Model_Midplane.
Open Scope R_scope.

(** solve/utils.py:130-136 and 139-145; [None] models Python's None. *)
Definition rad_to_scaled (obj : option R) (θ_scale : R) : option R :=
  match obj with None => None | Some x => Some (x / θ_scale) end.
Definition scaled_to_rad (obj : option R) (θ_scale : R) : option R :=
  match obj with None => None | Some x => Some (x * θ_scale) end.
(** The same two functions on a present number. *)
Definition rad_to_scaled_num (x θ_scale : R) : R := x / θ_scale.
Definition scaled_to_rad_num (x θ_scale : R) : R := x * θ_scale.

(** solve/utils.py:116-127: the root function written to [out[0]]. *)
Definition velocity_stop (target_velocity : R) (params : vec) : R :=
  target_velocity - params iv_θ.

(** Arguments of [ode_system] captured by the closure (solution.py:53-58).
    [v_θ_sonic_crit]/[after_sonic] are dropped: they are only assigned to, never read, by the closure. *)
Record ode_args := mk_ode_args {
  oa_γ : R; oa_a_0 : R; oa_norm_kepler_sq : R; oa_init_con : vec; oa_θ_scale : R;
  oa_with_taylor : bool; oa_η_derivs : bool; oa_store_internal : bool; oa_use_E_r : bool;
  oa_deriv_v_θ_func : option (R -> R);   (* interpolated replacement for v_θ' *)
  oa_derivs_post_solution : bool }.

(** One entry appended to the InternalData lists (solution.py:283-292). *)
Record internal_entry := mk_internal_entry {
  ie_params : vec; ie_derivs : vec; ie_angle : R;
  ie_v_r_normal : R; ie_v_φ_normal : R; ie_ρ_normal : R;
  ie_v_r_taylor : R; ie_v_φ_taylor : R; ie_ρ_taylor : R }.

(** The observable result of one call of [rhs_equation]: the status code it returns together with its
    effects (solution.py:135-144 for the two rejections, 264-302 for success). *)
Inductive rhs_result :=
| Rhs_negative_density  (θ : R)     (* return 1;  problems[θ].append("negative density") if stored *)
| Rhs_negative_velocity (θ : R)     (* return -1; problems[θ].append("negative velocity") if stored *)
| Rhs_ok (derivs : vec) (stored : option internal_entry). (* return 0; derivs written *)

Definition rhs_code (r : rhs_result) : Z :=
  match r with
  | Rhs_negative_density _ => 1 | Rhs_negative_velocity _ => -1 | Rhs_ok _ _ => 0 end%Z.

(** solution.py:172-177: numerator over v_θ. *)
Definition deriv_v_r_normal_expr
  (γ a_0 norm_kepler v_r v_θ v_φ ρ B_θ B_φ deriv_B_r : R) : R :=
  (v_r ^ 2 / 2 + v_θ ^ 2 + 5 / 2 - 2 * γ
   + (v_φ - norm_kepler) * (v_φ + norm_kepler) + a_0 / ρ * (
       B_θ * deriv_B_r + (1 / 4 - γ) * (B_θ ^ 2 + B_φ ^ 2))) / v_θ.

(** solution.py:185-190. *)
Definition deriv_v_φ_normal_expr
  (θ γ a_0 v_r v_θ v_φ ρ B_r B_θ B_φ deriv_B_φ : R) : R :=
  (v_φ * v_θ * tan θ - v_φ * v_r / 2 + a_0 / ρ * (
     B_θ * deriv_B_φ - (1 / 4 - γ) * B_r * B_φ - B_θ * B_φ * tan θ)) / v_θ.

(** solution.py:201-208. *)
Definition deriv_v_θ_expr
  (θ γ a_0 v_r v_θ v_φ ρ B_r B_θ B_φ deriv_B_r deriv_B_φ : R) : R :=
  (v_r / 2 * (v_θ ^ 2 - 4 * γ) + v_θ * (
     tan θ * (v_φ ^ 2 + 1) + a_0 / ρ * (
       (1 / 4 - γ) * B_θ * B_r + B_r * deriv_B_r + B_φ * deriv_B_φ - B_φ ^ 2 * tan θ)))
  / ((1 - v_θ) * (1 + v_θ)).

(** solution.py:212-216. *)
Definition deriv_ρ_normal_expr (θ γ v_r v_θ ρ deriv_v_θ : R) : R :=
  - ρ * ((2 * γ * v_r + deriv_v_θ) / v_θ - tan θ).

(** The derivatives computed by solution.py:146-278 for an accepted state: the array written to [derivs]
    and the entry appended to the internal data. *)
Definition rhs_derivs (o : ode_args) (θ : R) (params : vec) : vec * internal_entry :=
  let γ := oa_γ o in
  let a_0 := oa_a_0 o in
  let init_con := oa_init_con o in
  (* solution.py:66-78 *)
  let taylor_derivs := taylor_series γ a_0 init_con (oa_η_derivs o) (oa_use_E_r o) in
  let dderiv_v_rM := taylor_derivs iv_r in
  let dderiv_v_φM := taylor_derivs iv_φ in
  let dderiv_ρ_M := taylor_derivs iρ in
  let norm_kepler := sqrt (oa_norm_kepler_sq o) in
  let η_O_0 := init_con iη_O in
  let η_A_0 := init_con iη_A in
  let η_H_0 := init_con iη_H in
  (* 99-132; the two branches differ only in the array rank *)
  let B_r := params iB_r in
  let B_φ := params iB_φ in
  let B_θ := params iB_θ in
  let v_r := params iv_r in
  let v_φ := params iv_φ in
  let v_θ := params iv_θ in
  let ρ := params iρ in
  let η_O := params iη_O in
  let η_A := params iη_A in
  let η_H := params iη_H in
  (* 146-147 *)
  let B_mag := sqrt (B_r ^ 2 + B_φ ^ 2 + B_θ ^ 2) in
  let b_r := B_r / B_mag in
  let b_φ := B_φ / B_mag in
  let b_θ := B_θ / B_mag in
  (* 149-152 *)
  let C := C_func η_O η_A η_H b_θ b_r b_φ in
  let Z_5 := Z_5_func η_O η_A η_H b_r b_θ b_φ C in
  (* 154-161 *)
  let deriv_B_φ :=
    if oa_use_E_r o then
      deriv_B_φ_func θ γ B_r B_θ B_φ v_r v_φ v_θ η_O η_A η_H (params iE_r) b_r b_φ b_θ C Z_5
    else params iB_φ_prime in
  (* 163-166 *)
  let deriv_B_r :=
    deriv_B_r_func θ γ B_r B_θ B_φ v_r v_θ deriv_B_φ η_O η_A η_H b_r b_φ b_θ in
  (* 168 *)
  let deriv_B_θ := B_θ * tan θ - (γ + 3 / 4) * B_r in
  (* 170-181 *)
  let deriv_v_r_taylor := θ * dderiv_v_rM in
  let deriv_v_r_normal :=
    deriv_v_r_normal_expr γ a_0 norm_kepler v_r v_θ v_φ ρ B_θ B_φ deriv_B_r in
  let deriv_v_r := if oa_with_taylor o then deriv_v_r_taylor else deriv_v_r_normal in
  (* 183-193 *)
  let deriv_v_φ_taylor := θ * dderiv_v_φM in
  let deriv_v_φ_normal :=
    deriv_v_φ_normal_expr θ γ a_0 v_r v_θ v_φ ρ B_r B_θ B_φ deriv_B_φ in
  let deriv_v_φ := if oa_with_taylor o then deriv_v_φ_taylor else deriv_v_φ_normal in
  (* 195-208 *)
  let deriv_v_θ :=
    match oa_deriv_v_θ_func o with
    | Some f => f θ
    | None => deriv_v_θ_expr θ γ a_0 v_r v_θ v_φ ρ B_r B_θ B_φ deriv_B_r deriv_B_φ
    end in
  (* 210-217 *)
  let deriv_ρ_taylor := θ * dderiv_ρ_M in
  let deriv_ρ_normal := deriv_ρ_normal_expr θ γ v_r v_θ ρ deriv_v_θ in
  let deriv_ρ := if oa_with_taylor o then deriv_ρ_taylor else deriv_ρ_normal in
  (* 219-230 *)
  let deriv_η_scale :=
    deriv_η_skw_func ρ B_r B_φ B_θ deriv_ρ deriv_B_r deriv_B_φ deriv_B_θ in
  let deriv_η_O := if oa_η_derivs o then deriv_η_scale * η_O_0 else 0 in
  let deriv_η_A := if oa_η_derivs o then deriv_η_scale * η_A_0 else 0 in
  let deriv_η_H := if oa_η_derivs o then deriv_η_scale * η_H_0 else 0 in
  (* 232-262 *)
  let slot7 :=
    if oa_use_E_r o then
      let J_r := J_r_func θ B_φ deriv_B_φ in
      let J_θ := J_θ_func γ B_φ in
      let J_φ := J_φ_func γ B_θ deriv_B_r in
      deriv_E_r_func γ v_r v_φ B_r B_φ η_O η_A η_H b_r b_θ b_φ J_r J_θ J_φ
    else
      let '(deriv_b_r, deriv_b_φ, deriv_b_θ) :=
        B_unit_derivs B_r B_φ B_θ deriv_B_r deriv_B_φ deriv_B_θ b_r b_φ b_θ in
      let A := A_func η_O η_A η_H b_θ b_r b_φ deriv_η_O deriv_η_A deriv_η_H
                 deriv_b_θ deriv_b_r deriv_b_φ in
      dderiv_B_φ_soln B_r B_φ B_θ η_O η_H η_A θ v_r v_θ v_φ deriv_v_r deriv_v_θ deriv_v_φ
        deriv_B_r deriv_B_θ deriv_B_φ γ deriv_η_O deriv_η_A deriv_η_H
        b_r b_φ b_θ deriv_b_r deriv_b_φ deriv_b_θ C A in
  (* 264-278 *)
  let d := zeros in
  let d := upd iB_r deriv_B_r d in
  let d := upd iB_φ deriv_B_φ d in
  let d := upd iB_θ deriv_B_θ d in
  let d := upd iv_r deriv_v_r d in
  let d := upd iv_φ deriv_v_φ d in
  let d := upd iv_θ deriv_v_θ d in
  let d := upd iρ deriv_ρ d in
  let d := upd iη_O deriv_η_O d in
  let d := upd iη_A deriv_η_A d in
  let d := upd iη_H deriv_η_H d in
  let d := if oa_use_E_r o then upd iE_r slot7 d else upd iB_φ_prime slot7 d in
  (d, mk_internal_entry params d θ deriv_v_r_normal deriv_v_φ_normal deriv_ρ_normal
        deriv_v_r_taylor deriv_v_φ_taylor deriv_ρ_taylor).

(** solution.py:93-302, [rhs_equation]. *)
Definition rhs_equation (o : ode_args) (x : R) (params : vec) : rhs_result :=
  let θ := scaled_to_rad_num x (oa_θ_scale o) in
  if andb (negb (oa_derivs_post_solution o))
          (if Rlt_dec (params iρ) 0 then true else false) then Rhs_negative_density θ
  else if andb (negb (oa_derivs_post_solution o))
          (if Rlt_dec (params iv_θ) 0 then true else false) then Rhs_negative_velocity θ
  else
    let '(d, e) := rhs_derivs o θ params in
    Rhs_ok d (if oa_store_internal o then Some e else None).

(** numpy boolean-mask selection [angles[angles > a]] / [>=]. *)
Definition angles_gt (a : R) (angles : list R) : list R :=
  filter (fun x => if Rlt_dec a x then true else false) angles.
Definition angles_ge (a : R) (angles : list R) : list R :=
  filter (fun x => if Rle_dec a x then true else false) angles.

(** solution.py:335-366, [jump_across_sonic].  [initial_angle], [initial_values]: last point of the base
    solution.  The system is rebuilt with store_internal=False, with_taylor=False.
    If the system rejects the state, its return code is ignored (line 355) and [derivs] stays zero;
    the division then yields an infinity or NaN, which the reals cannot represent: [None].  (Not distinguished: for a
    positive jump the quotient is +inf, and -inf if the computed derivative is the negative zero of the floats.) *)
Definition jump_across_sonic
  (initial_angle : R) (initial_values : vec) (angles : list R) (system_initial_conditions : vec)
  (γ a_0 norm_kepler_sq : R) (η_derivs : bool) (θ_scale : R) (use_E_r : bool)
  (jump_before_sonic : R) (jump_after_sonic : option R) : option (list R * vec) :=
  let jump_after := match jump_after_sonic with None => jump_before_sonic | Some a => a end in
  let system := mk_ode_args γ a_0 norm_kepler_sq system_initial_conditions θ_scale
                  false η_derivs false use_E_r None false in
  match rhs_equation system initial_angle initial_values with
  | Rhs_ok derivs _ =>
      if Req_EM_T (derivs iv_θ) 0 then None
      else
        let dθ := (jump_before_sonic + jump_after) / derivs iv_θ in
        let final_angle := initial_angle + dθ in
        Some (final_angle :: angles_gt (rad_to_scaled_num final_angle θ_scale) angles,
              fun i => initial_values i + derivs i * dθ)
  | _ => None
  end.

(** The fields of the TaylorSolution tuple used by [solution] (solution.py:455-460). *)
Record taylor_solution_t := mk_taylor_solution {
  ts_angles : list R; ts_params : list vec; ts_new_angles : list R;
  ts_new_initial_conditions : vec; ts_angle_stopped : R }.

(** solution.py:432-433 (and 413-414): numpy's [insert] returns a new array, whose value is discarded. *)
Definition taylor_new_angles (angles : list R) (taylor_stop_angle : R) : list R :=
  angles_gt taylor_stop_angle angles.

(** solution.py:423-460, [taylor_jump]. *)
Definition taylor_jump
  (angles : list R) (init_con : vec) (γ a_0 taylor_stop_angle : R) (η_derivs : bool)
  (θ_scale : R) (use_E_r : bool) : taylor_solution_t :=
  let t := rad_to_scaled_num taylor_stop_angle θ_scale in
  let new_angles := taylor_new_angles angles t in
  let f1 := get_taylor_first_order init_con γ a_0 in
  let f2 := get_taylor_second_order init_con γ a_0 η_derivs use_E_r in
  let f3 := get_taylor_third_order init_con γ a_0 η_derivs use_E_r in
  let taylor_values : vec :=
    fun i => init_con i + t * (f1 i + t / 2 * (f2 i + t / 3 * f3 i)) in
  mk_taylor_solution
    (map (fun x => scaled_to_rad_num x θ_scale) (0 :: t :: nil))
    (init_con :: taylor_values :: nil) new_angles taylor_values t.
