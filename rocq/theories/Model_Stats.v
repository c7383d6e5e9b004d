(** Statistics of solutions: src/disc_solver/analyse/stats.py:66-203 and src/disc_solver/analyse/phys_ratio_plot.py:140-193.

    Rows are exact reals; where the code handles NaN (nanmax, nanargmax) the columns are lists of [num].  scipy's Simpson rule is an argument
    [simps].  Conversions to numpy scalar types are dropped. *)
From Coq Require Import Reals List Bool String.
From Verif Require Import Model_Index Model_Array Model_Waves Model_Critical Model_Validate.
Import ListNotations.
Open Scope R_scope.

Definition degrees (x : R) : R := x * 180 / PI.

(** Python's max over an array of numbers: the first greatest item; ValueError on an empty one. *)
Fixpoint max_from (m : R) (l : list R) : R :=
  match l with [] => m | x :: t => max_from (if Rltb m x then x else m) t end.
Definition py_max (l : list R) : py R :=
  match l with [] => ValueError | x :: t => Ret (max_from x t) end.

(** stats.py:66-93: one entry of the result; [res] is one of the seven residuals of the validation command, the rows are the
    (angle, parameters, derivatives) of the internal data. *)
Definition max_difference (res : validate_ic -> values -> R) (ic : validate_ic) (rows : list (R * vec * vec)) : py R :=
  py_max (map (fun p => res ic (get_values ic (fst (fst p)) (snd (fst p)) (snd p))) rows).

(** numpy.nanmax (NaN with a warning if all are NaN) and numpy.nanargmax (ValueError if all are NaN); both ValueError on an empty array. *)
Fixpoint numbers (l : list num) : list R :=
  match l with [] => [] | Some x :: t => x :: numbers t | None :: t => numbers t end.
Definition nanmax (l : list num) : py num :=
  match l with
  | [] => ValueError
  | _ => match numbers l with [] => Ret None | x :: t => Ret (Some (max_from x t)) end
  end.
Definition nanargmax (l : list num) : py nat :=
  match numbers l with
  | [] => ValueError
  | x :: t => match find_index (fun v => neq v (Some (max_from x t))) l with Some i => Ret i | None => Unmodelled end
  end.
(** stats.py:121-130. *)
Definition get_max_mach_degrees (angles : list R) (mach : list num) : py num :=
  match nanargmax mach with
  | Ret idx => match nth_error angles idx with Some a => Ret (Some (degrees a)) | None => IndexError end
  | ValueError => Ret None
  | IndexError => IndexError | Unmodelled => Unmodelled
  end.
(** stats.py:132-143, for one Mach number. *)
Definition max_mach (angles : list R) (mach : list num) : py (num * num) :=
  pybind (nanmax mach) (fun m => pybind (get_max_mach_degrees angles mach) (fun a => Ret (m, a))).

(** stats.py:146-153 at one row, and 192: max over rows. *)
Definition B_poloidal_vs_B_toroidal (row : vec) : R := row iB_φ / sqrt (row iB_r ^ 2 + row iB_θ ^ 2).
Definition max_B_p_on_B_t (rows : list vec) : py R := py_max (map B_poloidal_vs_B_toroidal rows).

(** stats.py:169-176, with upto_degrees = 20, and 179-183, with cutoff = 10. *)
Definition is_v_θ_monotonic (soln : list (R * vec)) : bool :=
  is_monotonically_increasing (map (fun p => Some (snd p iv_θ)) (filter (fun p => Rleb (degrees (fst p)) 20) soln)).
Definition does_v_θ_end_low (soln : list (R * vec)) : py bool :=
  match rev soln with [] => IndexError | p :: _ => Ret (Rleb (snd p iv_θ) 10) end.
(** stats.py:193; the angles are numbers, so that nanmax is max. *)
Definition max_angle_reached (soln : list (R * vec)) : py R :=
  pybind (py_max (map fst soln)) (fun a => Ret (degrees a)).

Section Flux.
(** scipy.integrate.simps(y, x). *)
Variable simps : list R -> list R -> R.
(** phys_ratio_plot.py:154-169. *)
Definition compute_M_dot_out (γ : R) (soln : list (R * vec)) (r_in r_out : R) : py R :=
  let scaling := (Rpower r_out (2 * γ) - Rpower r_in (2 * γ)) / (2 * γ) in
  match rev soln with
  | [] => IndexError
  | p :: _ => Ret (4 * PI * scaling * (snd p iρ * snd p iv_θ))
  end.
(** phys_ratio_plot.py:172-186. *)
Definition compute_M_dot_in (γ : R) (soln : list (R * vec)) (r_in r_out : R) : R :=
  - 4 * PI * simps (map (fun p => snd p iρ * snd p iv_r) soln) (map fst soln)
  * (Rpower r_in (2 * γ - 1) - Rpower r_out (2 * γ - 1)).
(** phys_ratio_plot.py:140-151; the defaults of r_in and r_out are 0.1 and 100. *)
Definition compute_M_dot_out_on_M_dot_in (γ : R) (soln : list (R * vec)) : py R :=
  pybind (compute_M_dot_out γ soln (1 / 10) 100) (fun out => Ret (out / compute_M_dot_in γ soln (1 / 10) 100)).
End Flux.
(** phys_ratio_plot.py:189-193. *)
Definition compute_Σ (soln : list (R * vec)) : R := fold_right Rplus 0 (map (fun p => snd p iρ) soln).
