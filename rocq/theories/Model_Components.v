(** The component plot: src/disc_solver/analyse/component_plot.py:75-80 (E_r refused) and 122-257 (compute_components), at one row.

    The mapping is an association list in the order of the source; numpy applies each expression to every selected row. *)
From Coq Require Import Reals List Bool String.
From Verif Require Import Model_Index Model_Deriv Model_Ode.
Import ListNotations.
Open Scope string_scope.
Open Scope list_scope.
Open Scope R_scope.

Record comp_cons := mk_comp_cons { cc_γ : R; cc_a_0 : R; cc_norm_kepler_sq : R }.
Definition comps := list (string * R).
(** component_plot.py:122-257. *)
Definition compute_components (c : comp_cons) (angle : R) (row : vec) : list (string * comps) :=
  let B_r := row iB_r in
  let B_φ := row iB_φ in
  let B_θ := row iB_θ in
  let v_r := row iv_r in
  let v_φ := row iv_φ in
  let v_θ := row iv_θ in
  let ρ := row iρ in
  let deriv_B_φ := row iB_φ_prime in
  let η_O := row iη_O in
  let η_A := row iη_A in
  let η_H := row iη_H in
  let γ := cc_γ c in
  let a_0 := cc_a_0 c in
  let norm_kepler := sqrt (cc_norm_kepler_sq c) in
  let B_mag := sqrt (B_r ^ 2 + B_φ ^ 2 + B_θ ^ 2) in
  let b_r := B_r / B_mag in
  let b_φ := B_φ / B_mag in
  let b_θ := B_θ / B_mag in
  (* 151-154 *)
  let deriv_B_r := deriv_B_r_func angle γ B_r B_θ B_φ v_r v_θ deriv_B_φ η_O η_A η_H b_r b_φ b_θ in
  (* 156-163 *)
  let deriv_v_θ :=
    (v_r / 2 * (v_θ ^ 2 - 4 * γ) + v_θ * (
       tan angle * (v_φ ^ 2 + 1) + a_0 / ρ * (
         (1 / 4 - γ) * B_θ * B_r + B_r * deriv_B_r + B_φ * deriv_B_φ - B_φ ^ 2 * tan angle)))
    / ((1 - v_θ) * (1 + v_θ)) in
  [ ("radial momentum",
     [ ("radial terms", v_r ^ 2 + v_θ ^ 2 + 5 / 2 - 2 * γ);
       ("keplerian terms", (v_φ - norm_kepler) * (v_φ + norm_kepler));
       ("magnetic terms", a_0 / ρ * (B_θ * deriv_B_r + (1 / 4 - γ) * (B_θ ^ 2 + B_φ ^ 2)));
       ("all terms", v_r ^ 2 / 2 + v_θ ^ 2 + 5 / 2 - 2 * γ + (v_φ - norm_kepler) * (v_φ + norm_kepler)
          + a_0 / ρ * (B_θ * deriv_B_r + (1 / 4 - γ) * (B_θ ^ 2 + B_φ ^ 2))) ]);
    ("azimuthal momentum",
     [ ("non-magnetic terms", v_φ * v_θ * tan angle - v_φ * v_r / 2);
       ("magnetic terms", a_0 / ρ * (B_θ * deriv_B_φ - (1 / 4 - γ) * B_r * B_φ - B_θ * B_φ * tan angle));
       ("all terms", v_φ * v_θ * tan angle - v_φ * v_r / 2
          + a_0 / ρ * (B_θ * deriv_B_φ - (1 / 4 - γ) * B_r * B_φ - B_θ * B_φ * tan angle)) ]);
    ("polar momentum",
     [ ("no-B no-v_φ terms", v_r / 2 * (v_θ ^ 2 - 4 * γ));
       ("no-B v_φ terms", v_θ * tan angle * (v_φ ^ 2 + 1));
       ("magnetic terms", v_θ * a_0 / ρ * (
          (1 / 4 - γ) * B_θ * B_r + B_r * deriv_B_r + B_φ * deriv_B_φ - B_φ ^ 2 * tan angle));
       ("all terms", v_r / 2 * (v_θ ^ 2 - 4 * γ) + v_θ * (
          tan angle * (v_φ ^ 2 + 1) + a_0 / ρ * (
            (1 / 4 - γ) * B_θ * B_r + B_r * deriv_B_r + B_φ * deriv_B_φ - B_φ ^ 2 * tan angle))) ]);
    ("continuity",
     [ ("tan term", v_θ * tan angle);
       ("non-tan terms", - (2 * γ * v_r + deriv_v_θ));
       ("all terms", - (2 * γ * v_r + deriv_v_θ) + v_θ * tan angle) ]);
    ("solenoid condition",
     [ ("B_θ terms", B_θ * tan angle);
       ("B_r terms", - (γ + 3 / 4) * B_r);
       ("all terms", B_θ * tan angle - (γ + 3 / 4) * B_r) ]);
    ("polar induction",
     [ ("v terms", (v_θ * B_r - v_r * B_θ) / (η_O + η_A * (1 - b_φ) * (1 + b_φ)));
       ("no-η terms", - B_θ * (1 / 4 - γ));
       ("$B_φ'$ terms", - deriv_B_φ * (η_H * b_θ + η_A * b_r * b_φ) / (η_O + η_A * (1 - b_φ) * (1 + b_φ)));
       ("$B_φ$ terms", B_φ * (
          η_A * b_φ * (b_r * tan angle - b_θ * (1 / 4 - γ)) + η_H * (b_r * (1 / 4 - γ) + b_θ * tan angle))
          / (η_O + η_A * (1 - b_φ) * (1 + b_φ)));
       ("all terms", (v_θ * B_r - v_r * B_θ - deriv_B_φ * (η_H * b_θ + η_A * b_r * b_φ) + B_φ * (
          η_A * b_φ * (b_r * tan angle - b_θ * (1 / 4 - γ)) + η_H * (b_r * (1 / 4 - γ) + b_θ * tan angle)))
          / (η_O + η_A * (1 - b_φ) * (1 + b_φ)) - B_θ * (1 / 4 - γ)) ]) ].

(** component_plot.py:79-93: what is plotted for one row, None for an AnalysisError.  [only] is the selected equation. *)
Definition lookup (k : string) (l : list (string * comps)) : option comps :=
  option_map snd (find (fun p => String.eqb (fst p) k) l).
Definition plotted (use_E_r : bool) (only : option string) (c : comp_cons) (angle : R) (row : vec) : option (list comps) :=
  if use_E_r then None else
  match only with
  | Some k => match lookup k (compute_components c angle row) with Some cs => Some [cs] | None => None end
  | None => Some (map snd (compute_components c angle row))
  end.
