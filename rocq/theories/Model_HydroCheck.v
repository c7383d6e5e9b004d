(** The hydro-check command.

    Models src/disc_solver/analyse/hydro_check_plot.py lines 60-134 and 169-206, one row at a time like Model_Validate, whose
    [get_values] it uses.  Lines 137-166 (validate_radial_momentum_hydro) are never called.  Not modelled: drawing, the text
    around the numbers printed. *)
From Coq Require Import String List Bool Reals.
From Verif Require Import Lib_Py Model_Index Model_Validate Model_Hydro.
Import ListNotations.
Open Scope string_scope. Open Scope R_scope. Open Scope list_scope.

(** hydro_check_plot.py:111-121. *)
Definition check_azimuthal (ic : validate_ic) (v : values) : R :=
  1 / 2 * va_v_r v * va_v_φ v - vi_a_0 ic / va_ρ v * (
    va_B_θ v * vd_B_φ v + (1 - vi_β ic) * va_B_r v * va_B_φ v - tan (va_angle v) * va_B_θ v * va_B_φ v).
(** hydro_check_plot.py:124-130. *)
Definition check_approximate (ic : validate_ic) (v : values) : R :=
  1 - 2 * vi_a_0 ic * va_B_θ v * vd_B_φ v / (va_ρ v * va_v_r v * va_v_φ v).
(** hydro_check_plot.py:169-206. *)
Definition check_radial (ic : validate_ic) (v : values) : R :=
  let b_r := va_norm_B_r v in
  let b_φ := va_norm_B_φ v in
  let b_θ := va_norm_B_θ v in
  let X := X_func (va_η_O v) (va_η_A v) (va_η_H v) b_θ b_r b_φ in
  let norm_kepler := sqrt (vi_norm_kepler_sq ic) in
  norm_kepler - va_v_φ v - (
    1 / 2 * va_v_r v ^ 2 + 5 / 2 + vi_a_0 ic / va_ρ v * (
      va_B_φ v ^ 2 / 4 - X * vd_B_φ v * va_B_θ v - va_B_θ v / (va_η_O v + va_η_A v * (1 - b_φ ^ 2)) * (
        va_v_r v * va_B_θ v - va_B_φ v * (
          va_η_A v * b_φ * (b_r * tan (va_angle v) - b_θ / 4) + va_η_H v * (b_r / 4 + b_θ * tan (va_angle v)))))
  ) / (2 * norm_kepler).

(** hydro_check_plot.py:69-82: the names and the functions of the curves. *)
Definition param_names : list (string * (validate_ic -> values -> R)) :=
  [("azimuthal momentum", check_azimuthal); ("approximate momenta", check_approximate); ("radial momentum (approx method)", check_radial)].
Definition degrees (x : R) : R := x * 180 / PI.
(** hydro_check_plot.py:87-89. *)
Definition in_range (start stop : R) (v : values) : bool :=
  if Rle_dec start (degrees (va_angle v)) then if Rle_dec (degrees (va_angle v)) stop then true else false else false.
(** max(sequence): ValueError if it is empty. *)
Fixpoint max_from (m : R) (l : list R) : R := match l with [] => m | x :: t => max_from (if Rlt_dec m x then x else m) t end.
Definition py_max (l : list R) : res R := match l with [] => Raise ValueError | x :: t => Ok (max_from x t) end.
(** hydro_check_plot.py:96-100: the name and the number printed, for each curve in turn. *)
Fixpoint print_all (ic : validate_ic) (rows : list values) (curves : list (string * (validate_ic -> values -> R))) : res (list (string * R)) :=
  match curves with
  | [] => Ok []
  | (name, func) :: t => let! m := py_max (map (fun v => Rabs (func ic v)) rows) in let! l := print_all ic rows t in Ok ((name, m) :: l)
  end.
(** hydro_check_plot.py:60-108.  [rows]: get_values of a solution with internal data, or None without.  AnalysisError is [OtherError]. *)
Definition generate_hydro_check (use_E_r : bool) (ic : validate_ic) (rows : option (list values)) (start stop : R) : res (list (string * R)) :=
  if use_E_r then Raise OtherError else
  match rows with
  | None => Raise OtherError
  | Some rows => print_all ic (filter (in_range start stop) rows) param_names
  end.
