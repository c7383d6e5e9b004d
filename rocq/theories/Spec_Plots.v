(** Independent specification of the plots: which samples a curve shows, and what the axis labels promise. *)
From Coq Require Import Reals List Bool String.
From Verif Require Import Model_Index.
Import ListNotations.
Open Scope string_scope.
Open Scope list_scope.
Open Scope R_scope.

(** An angle in degrees. *)
Definition deg (θ : R) : R := θ * 180 / PI.
Definition between (lo hi x : R) : bool := if Rle_dec lo x then if Rle_dec x hi then true else false else false.
(** The samples (abscissa, value) of those pairs whose abscissa lies in [lo, hi], in their order. *)
Definition curve {A B V : Type} (x : A -> R) (q : A -> B -> V) (lo hi : R) (l : list (A * B)) : list (R * V) :=
  map (fun p => (x (fst p), q (fst p) (snd p))) (filter (fun p => between lo hi (x (fst p))) l).

(** The eight quantities of a state and the axis label of each; [v_k] is the Keplerian speed in units of the sound speed and
    slot 7 holds B_φ' or, in an E_r run, E_r. *)
Definition quantities (v_k : R) (is_E_r : bool) : list (string * (vec -> R)) :=
  [ ("$B_r/B_0$", fun y => y iB_r);
    ("$B_φ/B_0$", fun y => y iB_φ);
    ("$B_θ/B_0$", fun y => y iB_θ);
    ("$v_r/c_s$", fun y => y iv_r);
    ("$(v_φ - v_k)/c_s$", fun y => y iv_φ - v_k);
    ("$v_θ/c_s$", fun y => y iv_θ);
    ("$ρ/ρ_0$", fun y => y iρ);
    (if is_E_r then "$E_r/E_0$" else "$B_φ'/B_0$", fun y => y iB_φ_prime) ].
(** The scale of the vertical axis: logarithmic for the density, as asked for v_θ, linear otherwise. *)
Definition axis_scale (v_θ_scale label : string) : string :=
  if String.eqb label "$ρ/ρ_0$" then "log" else if String.eqb label "$v_θ/c_s$" then v_θ_scale else "linear".

(** The eight quantities of the vertical plot at a sample (θ, y), [k] being the radius it was rescaled to: fields, velocities and
    density of a self-similar flow scale as k^(γ - 5/4), k^(-1/2) and k^(2γ - 3/2); r and θ components are turned into
    cylindrical ones. *)
Definition vertical_quantities (γ v_k : R) (k : R -> R) : list (string * (R -> vec -> R)) :=
  let B θ x := Rpower (k θ) (γ - 5 / 4) * x in
  let v θ x := x / sqrt (k θ) in
  [ ("$B_r/B_0$", fun θ y => B θ (y iB_r * cos θ - y iB_θ * sin θ));
    ("$B_φ/B_0$", fun θ y => B θ (y iB_φ));
    ("$B_z/B_0$", fun θ y => B θ (y iB_θ * cos θ + y iB_r * sin θ));
    ("$v_r/c_s$", fun θ y => v θ (y iv_r * cos θ - y iv_θ * sin θ));
    ("$(v_φ - v_k)/c_s$", fun θ y => v θ (y iv_φ - v_k));
    ("$v_z/c_s$", fun θ y => v θ (y iv_θ * cos θ + y iv_r * sin θ));
    ("$ρ/ρ_0$", fun θ y => Rpower (k θ) (2 * γ - 3 / 2) * y iρ);
    ("$B_φ'/B_0$", fun θ y => B θ (y iB_φ_prime)) ].
