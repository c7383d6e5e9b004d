(** Shock jump, MHD wave speeds, rescaling and coordinate changes of stored solutions.

    Models src/disc_solver/solve/shock.py lines 25-58, src/disc_solver/critical_points.py lines 12-62 and
    src/disc_solver/utils.py lines 134-146, 180-326.  Arrays over the angular grid are modelled at one grid
    point (numpy applies the same expression to every row); a freshly allocated NaN array is a vector of [None],
    so an entry that is never written stays visible. *)
From Coq Require Import Reals List.
From Verif Require Import Model_Index.
Import ListNotations.
Open Scope R_scope.

(** shock.py:25-29. *)
Definition get_v_θ_post (v_θ_pre : R) : R := 1 / v_θ_pre.
(** shock.py:32-36. *)
Definition get_ρ_post (v_θ_pre ρ_pre : R) : R := ρ_pre * v_θ_pre ^ 2.
(** shock.py:45-51: the vector put in the modified initial conditions. *)
Definition post_jump_values (pre : vec) : vec :=
  let v_θ_pre := pre iv_θ in
  let ρ_pre := pre iρ in
  let v_θ_post := get_v_θ_post v_θ_pre in
  let ρ_post := get_ρ_post v_θ_pre ρ_pre in
  upd iρ ρ_post (upd iv_θ v_θ_post pre).
(** shock.py:55: angles[angles >= jump_θ]. *)
Definition post_jump_angles (angles : list R) (jump_θ : R) : list R :=
  filter (fun a => if Rle_dec jump_θ a then true else false) angles.

(** critical_points.py:12-41; returns (slow, alfven, fast), all squared speeds. *)
Definition mhd_wave_speeds (values : vec) (sound_speed : R) : R * R * R :=
  let B_r := values iB_r in
  let B_φ := values iB_φ in
  let B_θ := values iB_θ in
  let ρ := values iρ in
  let B_sq := B_r ^ 2 + B_φ ^ 2 + B_θ ^ 2 in
  let cos_sq_psi := (B_θ ^ 2) / B_sq in
  let v_a_sq := B_sq / (4 * PI * ρ) in
  let slow := 1 / 2 * (v_a_sq + sound_speed ^ 2 - sqrt (
      (v_a_sq + sound_speed ^ 2) ^ 2 - 4 * v_a_sq * sound_speed ^ 2 * cos_sq_psi)) in
  let alfven := v_a_sq * cos_sq_psi in
  let fast := 1 / 2 * (v_a_sq + sound_speed ^ 2 + sqrt (
      (v_a_sq + sound_speed ^ 2) ^ 2 - 4 * v_a_sq * sound_speed ^ 2 * cos_sq_psi)) in
  (slow, alfven, fast).

(** critical_points.py:44-62 at one grid point; (slow, sonic, alfven, fast) Mach numbers. *)
Definition get_mach_numbers (soln : vec) : R * R * R * R :=
  let v_θ := soln iv_θ in
  let v_sq := v_θ ^ 2 in
  let '(slow, alfven, fast) := mhd_wave_speeds soln 1 in
  let slow_mach := sqrt (v_sq / slow) in
  let alfven_mach := sqrt (v_sq / alfven) in
  let fast_mach := sqrt (v_sq / fast) in
  let sonic_mach := v_θ in
  (slow_mach, sonic_mach, alfven_mach, fast_mach).

(** A partially written vector: [None] is the NaN of numpy.full. *)
Definition pvec := arr (option R).
Definition np_full_nan : pvec := fun _ => None.
(** [out[idxs] = k * soln[idxs]]. *)
Definition write_scaled (k : R) (soln : vec) (idxs : list nat) (out : pvec) : pvec :=
  fold_left (fun o i => upd i (Some (k * soln i)) o) idxs out.

(** Result of a conversion: DiscSolverError or a vector. *)
Inductive conv (A : Type) := Conv_ok (a : A) | Conv_error.
Arguments Conv_ok {A}. Arguments Conv_error {A}.

(** utils.py:180-220 (the two branches on ndim do the same thing row by row). *)
Definition scale_solution_to_radii (soln : vec) (new_r γ : R) (use_E_r : bool) : conv pvec :=
  let v_scale := 1 / sqrt new_r in
  let B_scale := Rpower new_r (γ - 5 / 4) in
  let ρ_scale := Rpower new_r (2 * γ - 3 / 2) in
  let η_scale := sqrt new_r in
  let s := np_full_nan in
  let s := write_scaled v_scale soln VELOCITY_INDEXES s in
  let s := write_scaled B_scale soln MAGNETIC_INDEXES s in
  let s := upd iρ (Some (ρ_scale * soln iρ)) s in
  let s := write_scaled η_scale soln DIFFUSIVE_INDEXES s in
  if use_E_r then Conv_error
  else Conv_ok (upd iB_φ_prime (Some (B_scale * soln iB_φ_prime)) s).

(** utils.py:223-227 and 230-235. *)
Definition get_heights (angle c_s_on_v_k : R) : R := tan angle / c_s_on_v_k.
Definition get_vertical_scaling (angle c_s_on_v_k : R) : R :=
  let heights := get_heights angle c_s_on_v_k in sqrt (1 + heights ^ 2).

(** utils.py:238-247. *)
Definition convert_solution_to_vertical (angle : R) (soln : vec) (γ c_s_on_v_k : R) (use_E_r : bool)
  : conv (R * pvec) :=
  let heights := get_heights angle c_s_on_v_k in
  let scaling := get_vertical_scaling angle c_s_on_v_k in
  match scale_solution_to_radii soln scaling γ use_E_r with
  | Conv_ok s => Conv_ok (heights, s)
  | Conv_error => Conv_error
  end.

(** utils.py:250-257. *)
Definition spherical_r_θ_to_cylindrical_R_z (r_var θ_var angle : R) : R * R :=
  (r_var * cos angle - θ_var * sin angle, θ_var * cos angle + r_var * sin angle).

(** The same on possibly-NaN entries: NaN in either argument gives NaN in both results. *)
Definition rotate_opt (r_var θ_var : option R) (angle : R) : option R * option R :=
  match r_var, θ_var with
  | Some a, Some b =>
      let '(x, z) := spherical_r_θ_to_cylindrical_R_z a b angle in (Some x, Some z)
  | _, _ => (None, None)
  end.

(** utils.py:260-326. *)
Definition convert_spherical_to_cylindrical (angle : R) (soln : vec) (use_E_r : bool) (γ c_s_on_v_k : R)
  : conv (R * pvec) :=
  if use_E_r then Conv_error else
  match convert_solution_to_vertical angle soln γ c_s_on_v_k use_E_r with
  | Conv_error => Conv_error
  | Conv_ok (heights, soln) =>
      let n := np_full_nan in
      let n := upd cv_φ (soln iv_φ) n in
      let n := upd cB_φ (soln iB_φ) n in
      let n := upd cρ (soln iρ) n in
      let n := upd cη_O (soln iη_O) n in
      let n := upd cη_A (soln iη_A) n in
      let n := upd cη_H (soln iη_H) n in
      let '(v_R, v_z) := rotate_opt (soln iv_r) (soln iv_θ) angle in
      let n := upd cv_r v_R n in
      let n := upd cv_z v_z n in
      let '(B_R, B_z) := rotate_opt (soln iB_r) (soln iB_θ) angle in
      let n := upd cB_r B_R n in
      let n := upd cB_z B_z n in
      Conv_ok (heights, upd cB_φ_prime (soln iB_φ_prime) n)
  end.

(** utils.py:134-146; the physical constant G, the radius, mass and density are arguments. *)
Record normalisation := mk_norm { n_v : R; n_B : R; n_ρ : R; n_η : R }.
Definition get_normalisation (c_s_on_v_k v_a_on_c_s G radius mass density : R) : normalisation :=
  let kepler_sq := G * mass / radius in
  let c_s := c_s_on_v_k * sqrt kepler_sq in
  let v_a := v_a_on_c_s * c_s in
  mk_norm c_s (v_a * 2 * sqrt (PI * density)) density (radius * c_s).
