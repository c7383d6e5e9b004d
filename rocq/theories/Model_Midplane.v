(** Midplane boundary values and Taylor coefficients, over the reals.

    Models src/disc_solver/solve/config.py lines 20-108 (boundary functions and [define_conditions]) and
    src/disc_solver/solve/deriv_midplane.py (all functions; the log calls are dropped). *)
From Coq Require Import Reals List.
From Verif Require Import Model_Index.
Open Scope R_scope.

(** ** solve/config.py *)

(** The radicand of config.py:25-31. *)
Definition v_φ_radicand (v_r η_H η_P norm_kepler_sq a_0 γ : R) : R :=
  norm_kepler_sq - 5 / 2 + 2 * γ + v_r * (
    a_0 / η_P + v_r / 2 * (η_H ^ 2 / (8 * η_P ^ 2) - 1)).

(** config.py:20-33.  numpy's sqrt of a negative number is NaN (with a warning); [None] models NaN.
    (math.sqrt's ValueError, also handled there, cannot be raised by numpy.) *)
Definition v_φ_boundary_func (v_r η_H η_P norm_kepler_sq a_0 γ : R) : option R :=
  if Rlt_dec (v_φ_radicand v_r η_H η_P norm_kepler_sq a_0 γ) 0 then None
  else Some (v_r * η_H / (4 * η_P)
             + sqrt (v_φ_radicand v_r η_H η_P norm_kepler_sq a_0 γ)).

(** config.py:36-40. *)
Definition B_φ_prime_boundary_func (v_r v_φ a_0 : R) : R := v_φ * v_r / (2 * a_0).

(** config.py:43-47. *)
Definition E_r_boundary_func (v_r v_φ η_P η_H η_perp_sq a_0 : R) : R :=
  - v_φ - v_r / η_P * (η_H + η_perp_sq * v_φ / (2 * a_0)).

(** The numeric fields of SolutionInput read by [define_conditions]. *)
Record cond_input := mk_cond_input {
  in_v_rin_on_c_s : R; in_v_a_on_c_s : R; in_c_s_on_v_k : R; in_γ : R;
  in_η_O : R; in_η_A : R; in_η_H : R; in_use_E_r : bool;
  in_start : R; in_stop : R; in_num_angles : nat }.

(** What [define_conditions] passes to InitialConditions (config.py:105-108). *)
Record conditions := mk_conditions {
  c_norm_kepler_sq : R; c_a_0 : R; c_init_con : vec; c_angles : list R; c_γ : R }.

(** numpy.linspace(start, stop, num) followed by numpy.radians, config.py:98. *)
Definition linspace (start stop : R) (num : nat) : list R :=
  map (fun k => start + INR k * ((stop - start) / INR (num - 1))) (seq 0 num).
Definition radians (d : R) : R := d * PI / 180.

(** config.py:50-108.  [None] = SolverError("Input implies NaN: ..."); over the reals with nonzero
    denominators the only source of NaN is the square root. *)
Definition define_conditions (inp : cond_input) : option conditions :=
  let ρ := 1 in
  let B_θ := 1 in
  let v_θ := 0 in
  let B_r := 0 in
  let B_φ := 0 in
  let v_r := - in_v_rin_on_c_s inp in
  let a_0 := in_v_a_on_c_s inp ^ 2 in
  let norm_kepler_sq := 1 / in_c_s_on_v_k inp ^ 2 in
  let γ := in_γ inp in
  let η_O := in_η_O inp in
  let η_A := in_η_A inp in
  let η_H := in_η_H inp in
  let η_P := η_O + η_A in
  let η_perp_sq := η_P ^ 2 + η_H ^ 2 in
  match v_φ_boundary_func v_r η_H η_P norm_kepler_sq a_0 γ with
  | None => None
  | Some v_φ =>
      let init_con :=
        upd iη_H η_H (upd iη_A η_A (upd iη_O η_O (upd iρ ρ (upd iv_θ v_θ
        (upd iv_φ v_φ (upd iv_r v_r (upd iB_θ B_θ (upd iB_φ B_φ (upd iB_r B_r zeros))))))))) in
      let init_con :=
        if in_use_E_r inp then
          upd iE_r (E_r_boundary_func v_r v_φ η_P η_H η_perp_sq a_0) init_con
        else
          upd iB_φ_prime (B_φ_prime_boundary_func v_r v_φ a_0) init_con in
      let angles := map radians (linspace (in_start inp) (in_stop inp) (in_num_angles inp)) in
      Some (mk_conditions norm_kepler_sq a_0 init_con angles γ)
  end.

(** ** solve/deriv_midplane.py *)

(** deriv_midplane.py:18-22. *)
Definition dderiv_b_θ_midplane (deriv_B_r deriv_B_φ : R) : R :=
  - (deriv_B_r ^ 2 + deriv_B_φ ^ 2).

(** deriv_midplane.py:25-29. *)
Definition midplane_C_func (η_H η_P : R) : R := η_H / η_P.

(** deriv_midplane.py:32-43. *)
Definition midplane_deriv_A_func
  (dderiv_η_H dderiv_b_θ C η_A deriv_b_φ deriv_b_r η_P η_H dderiv_η_P : R) : R :=
  (dderiv_η_H + η_H * dderiv_b_θ - 2 * η_A * deriv_b_r * deriv_b_φ
   - C * (dderiv_η_P - 2 * η_A * deriv_b_φ ^ 2)) / η_P.

(** deriv_midplane.py:46-50. *)
Definition midplane_Z_5_func (η_perp_sq η_P : R) : R := η_perp_sq / η_P.

(** deriv_midplane.py:53-62. *)
Definition dderiv_Z_5_midplane
  (dderiv_η_P η_A deriv_b_φ deriv_A η_H C dderiv_η_H dderiv_b_θ deriv_b_r : R) : R :=
  dderiv_η_P - 2 * η_A * deriv_b_φ ^ 2 + deriv_A * η_H
  + C * (dderiv_η_H + η_H * dderiv_b_θ - 2 * η_A * deriv_b_r * deriv_b_φ).

(** deriv_midplane.py:65-71. *)
Definition Y_1_func (v_r v_φ deriv_B_r deriv_B_φ γ a_0 : R) : R :=
  v_φ ^ 2 + a_0 * (deriv_B_r * (1 / 4 - γ + deriv_B_r) + deriv_B_φ ^ 2)
  - v_r ^ 2 * γ * (1 - 4 * γ) / 2.

(** deriv_midplane.py:74-85. *)
Definition Y_2_func
  (deriv_B_r deriv_v_θ v_r dderiv_B_θ deriv_B_φ dderiv_η_H η_H
   deriv_b_r γ dderiv_b_θ dderiv_η_P η_A η_P : R) : R :=
  (deriv_v_θ * deriv_B_r - v_r * dderiv_B_θ - deriv_B_φ * (
     dderiv_η_H + η_H * (deriv_b_r * (1 / 4 - γ) + 1 + dderiv_b_θ)
   ) - (dderiv_η_P - 2 * η_A * deriv_b_r ^ 2) * (deriv_B_r + 1 / 4 - γ)) / η_P
  - dderiv_B_θ * (1 / 4 - γ).

(** deriv_midplane.py:88-105. *)
Definition Y_3_func
  (deriv_A v_r C deriv_v_θ deriv_B_r dderiv_B_θ dderiv_E_r v_φ
   deriv_B_φ η_P γ η_H deriv_b_φ η_A deriv_b_r dderiv_Z_5 Z_5 : R) : R :=
  - (deriv_A * v_r - C * (deriv_v_θ * deriv_B_r - v_r * dderiv_B_θ)
     + dderiv_E_r + v_φ * dderiv_B_θ - deriv_B_φ * (
         deriv_v_θ + η_P + (1 / 4 - γ) * (η_H * deriv_b_φ + η_A * deriv_b_r)
         + C * (η_A * deriv_b_φ * (1 / 4 - γ) - η_H * (deriv_b_r * (1 / 4 - γ) + 1))
       ) + deriv_B_φ * dderiv_Z_5) / Z_5.

(** deriv_midplane.py:108-114. *)
Definition Y_4_func (a_0 v_r v_φ deriv_B_r deriv_B_φ γ Y_2 Y_1 : R) : R :=
  2 * a_0 * (Y_2 - deriv_B_φ * (deriv_B_r * (5 / 4 - γ) - Y_1)) - 4 * γ * v_r * v_φ.

(** deriv_midplane.py:117-121. *)
Definition Y_5_func (a_0 v_r γ Z_5 : R) : R := v_r * (1 - 8 * γ) + 2 * a_0 / Z_5.

(** deriv_midplane.py:124-132. *)
Definition Y_6_func (v_φ Y_5 a_0 C Z_5 γ v_r η_P η_H : R) : R :=
  v_φ / Y_5 * (2 * a_0 * C / Z_5 + v_φ) - (4 * γ + 1) * v_r / 2
  - a_0 / (2 * η_P) * (C * η_H / Z_5 - 1 - η_H * (2 * a_0 * C / Z_5 + v_φ) / (Z_5 * Y_5)).

(** deriv_midplane.py:135-143. *)
Definition dderiv_E_r_midplane (v_r v_φ deriv_B_r deriv_B_φ γ η_H η_P : R) : R :=
  - (3 / 4 - γ) * (
    deriv_B_r * (v_φ - η_H * (1 / 4 - γ)) - deriv_B_φ * (v_r + η_P * (1 / 4 - γ))
    - η_H * (deriv_B_φ ^ 2 + deriv_B_r ^ 2)).

(** deriv_midplane.py:146-160. *)
Definition dderiv_v_r_midplane
  (a_0 Y_3 Y_2 Y_1 Y_6 Y_5 Y_4 η_H η_P Z_5 v_φ v_r γ dderiv_B_θ deriv_B_r deriv_B_φ : R) : R :=
  (a_0 / 2 * (Y_3 - Y_2 * η_H / η_P + η_H * Y_4 / (η_P * Y_5 * Z_5))
   + v_φ * Y_4 / Y_5 + 4 * γ ^ 2 * v_r ^ 2 + a_0 / 2 * (
       dderiv_B_θ * deriv_B_r + 2 * deriv_B_φ ^ 2 * (1 / 4 - γ)
       + 2 * dderiv_B_θ * (1 / 4 - γ) + Y_1 * (deriv_B_r + (1 / 4 - γ)))) / Y_6.

(** deriv_midplane.py:163-167. *)
Definition dderiv_v_φ_midplane (a_0 v_φ dderiv_v_r C Z_5 Y_5 Y_4 : R) : R :=
  Y_4 / Y_5 - dderiv_v_r / Y_5 * (2 * a_0 * C / Z_5 + v_φ).

(** deriv_midplane.py:170-174. *)
Definition ddderiv_B_φ_midplane (dderiv_v_r dderiv_v_φ Y_2 C Z_5 : R) : R :=
  Y_2 - (C * dderiv_v_r + dderiv_v_φ) / Z_5.

(** deriv_midplane.py:177-181. *)
Definition ddderiv_B_r_midplane (Y_3 η_H η_P dderiv_v_r dderiv_B_φ_prime : R) : R :=
  Y_3 - (η_H * dderiv_B_φ_prime + dderiv_v_r) / η_P.

(** deriv_midplane.py:184-188. *)
Definition ddderiv_v_θ_midplane (dderiv_ρ dderiv_v_r v_r γ : R) : R :=
  4 * γ * v_r * (dderiv_ρ - 1 - dderiv_v_r / (2 * v_r)).

(** deriv_midplane.py:191-195. *)
Definition dderiv_η_skw_midplane (dderiv_ρ deriv_B_r deriv_B_φ dderiv_B_θ : R) : R :=
  2 * (deriv_B_r ^ 2 + deriv_B_φ ^ 2 + dderiv_B_θ) - dderiv_ρ.

(** deriv_midplane.py:198-202. *)
Definition deriv_B_r_midplane_func (γ deriv_B_φ η_H η_P v_r : R) : R :=
  γ - 1 / 4 - (deriv_B_φ * η_H + v_r) / η_P.

(** deriv_midplane.py:205-346. *)
Definition taylor_series (γ a_0 : R) (init_con : vec) (η_derivs use_E_r : bool) : vec :=
  let v_r := init_con iv_r in
  let v_φ := init_con iv_φ in
  let η_O := init_con iη_O in
  let η_A := init_con iη_A in
  let η_H := init_con iη_H in
  let deriv_B_φ := B_φ_prime_boundary_func v_r v_φ a_0 in
  let η_P := η_O + η_A in
  let η_perp_sq := η_P ^ 2 + η_H ^ 2 in
  let deriv_v_θ := - 2 * γ * v_r in
  let deriv_B_r := deriv_B_r_midplane_func γ deriv_B_φ η_H η_P v_r in
  let dderiv_B_θ := 1 - (γ + 3 / 4) * deriv_B_r in
  let dderiv_E_r := dderiv_E_r_midplane v_r v_φ deriv_B_r deriv_B_φ γ η_H η_P in
  let Y_1 := Y_1_func v_r v_φ deriv_B_r deriv_B_φ γ a_0 in
  let dderiv_ρ := - Y_1 in
  let dderiv_η_scale :=
    if η_derivs then dderiv_η_skw_midplane dderiv_ρ deriv_B_r deriv_B_φ dderiv_B_θ else 0 in
  let dderiv_η_O := dderiv_η_scale * η_O in
  let dderiv_η_A := dderiv_η_scale * η_A in
  let dderiv_η_H := dderiv_η_scale * η_H in
  let dderiv_η_P := dderiv_η_O + dderiv_η_A in
  let dderiv_b_θ := dderiv_b_θ_midplane deriv_B_r deriv_B_φ in
  let deriv_b_r := deriv_B_r in
  let deriv_b_φ := deriv_B_φ in
  let C := midplane_C_func η_H η_P in
  let deriv_A := midplane_deriv_A_func dderiv_η_H dderiv_b_θ C η_A deriv_b_φ deriv_b_r
                   η_P η_H dderiv_η_P in
  let Z_5 := midplane_Z_5_func η_perp_sq η_P in
  let dderiv_Z_5 := dderiv_Z_5_midplane dderiv_η_P η_A deriv_b_φ deriv_A η_H C dderiv_η_H
                      dderiv_b_θ deriv_b_r in
  let Y_2 := Y_2_func deriv_B_r deriv_v_θ v_r dderiv_B_θ deriv_B_φ dderiv_η_H η_H
               deriv_b_r γ dderiv_b_θ dderiv_η_P η_A η_P in
  let Y_3 := Y_3_func deriv_A v_r C deriv_v_θ deriv_B_r dderiv_B_θ dderiv_E_r v_φ
               deriv_B_φ η_P γ η_H deriv_b_φ η_A deriv_b_r dderiv_Z_5 Z_5 in
  let Y_4 := Y_4_func a_0 v_r v_φ deriv_B_r deriv_B_φ γ Y_2 Y_1 in
  let Y_5 := Y_5_func a_0 v_r γ Z_5 in
  let Y_6 := Y_6_func v_φ Y_5 a_0 C Z_5 γ v_r η_P η_H in
  let dderiv_v_r := dderiv_v_r_midplane a_0 Y_3 Y_2 Y_1 Y_6 Y_5 Y_4 η_H η_P Z_5 v_φ v_r γ
                      dderiv_B_θ deriv_B_r deriv_B_φ in
  let dderiv_v_φ := dderiv_v_φ_midplane a_0 v_φ dderiv_v_r C Z_5 Y_5 Y_4 in
  let dderiv_B_φ_prime := ddderiv_B_φ_midplane dderiv_v_r dderiv_v_φ Y_2 C Z_5 in
  let ddderiv_B_r := ddderiv_B_r_midplane Y_3 η_H η_P dderiv_v_r dderiv_B_φ_prime in
  let ddderiv_v_θ := ddderiv_v_θ_midplane dderiv_ρ dderiv_v_r v_r γ in
  let derivs := zeros in
  let derivs := upd iB_θ dderiv_B_θ derivs in
  let derivs := upd iB_r ddderiv_B_r derivs in
  let derivs := upd iρ dderiv_ρ derivs in
  let derivs := upd iv_r dderiv_v_r derivs in
  let derivs := upd iv_φ dderiv_v_φ derivs in
  let derivs := upd iv_θ ddderiv_v_θ derivs in
  let derivs := upd iB_φ dderiv_B_φ_prime derivs in
  let derivs := if use_E_r then upd iE_r dderiv_E_r derivs
                else upd iB_φ_prime dderiv_B_φ_prime derivs in
  let derivs := upd iη_O dderiv_η_O derivs in
  let derivs := upd iη_A dderiv_η_A derivs in
  let derivs := upd iη_H dderiv_η_H derivs in
  derivs.

(** deriv_midplane.py:349-373. *)
Definition get_taylor_first_order (init_con : vec) (γ a_0 : R) : vec :=
  let v_r := init_con iv_r in
  let v_φ := init_con iv_φ in
  let η_O := init_con iη_O in
  let η_A := init_con iη_A in
  let η_H := init_con iη_H in
  let η_P := η_O + η_A in
  let B_φ_prime := B_φ_prime_boundary_func v_r v_φ a_0 in
  let first_order := zeros in
  let first_order := upd iB_r (deriv_B_r_midplane_func γ B_φ_prime η_H η_P v_r) first_order in
  let first_order := upd iB_φ B_φ_prime first_order in
  let first_order := upd iv_θ (- 2 * γ * v_r) first_order in
  first_order.

(** deriv_midplane.py:376-404. *)
Definition get_taylor_second_order
  (init_con : vec) (γ a_0 : R) (η_derivs use_E_r : bool) : vec :=
  let derivs := taylor_series γ a_0 init_con η_derivs use_E_r in
  let s := zeros in
  let s := upd iB_θ (derivs iB_θ) s in
  let s := upd iρ (derivs iρ) s in
  let s := upd iv_r (derivs iv_r) s in
  let s := upd iv_φ (derivs iv_φ) s in
  let s := upd iη_O (derivs iη_O) s in
  let s := upd iη_A (derivs iη_A) s in
  let s := upd iη_H (derivs iη_H) s in
  if use_E_r then upd iE_r (derivs iE_r) s
  else upd iB_φ_prime (derivs iB_φ_prime) s.

(** deriv_midplane.py:407-426; line 423 stores the v_φ coefficient in the v_θ slot. *)
Definition get_taylor_third_order
  (init_con : vec) (γ a_0 : R) (η_derivs use_E_r : bool) : vec :=
  let derivs := taylor_series γ a_0 init_con η_derivs use_E_r in
  let t := zeros in
  let t := upd iB_r (derivs iB_r) t in
  let t := upd iB_φ (derivs iB_φ) t in
  let t := upd iv_θ (derivs iv_φ) t in
  t.
