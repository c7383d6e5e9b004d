(** The remaining plots, and the speed of the jet.

    Models analyse/diverge_plot.py lines 93-182, analyse/j_e_plot.py 102-203, analyse/validate_plot.py 67-176,
    analyse/phys_ratio_plot.py 80-137 and analyse/stats.py 96-113, on the drawing primitives of [Model_Plots]. *)
From Coq Require Import Reals List Bool String.
From Verif Require Import Lib_Py Model_Index Model_Deriv Model_Waves Model_Array Model_Critical Model_Validate Model_Stats Model_Filter Model_Plots.
Import ListNotations.
Open Scope string_scope.
Open Scope list_scope.
Open Scope R_scope.

(** ax.plot(degrees(angles[indexes]), values[indexes]) with indexes = (start <= degrees(angles)) & (degrees(angles) <= stop). *)
Definition masked_line (start stop : R) (angles : list R) (label color : option string) (values : list Model_Plots.num) : res line :=
  let mask := map (fun θ => in_range start stop (Model_Plots.degrees θ)) angles in
  let! x := mask_list mask angles in
  let! y := mask_list mask values in
  let! pts := points (map Model_Plots.degrees x) y in
  Ok (mk_line label color pts).
Fixpoint all_lines (l : list (res line)) : res (list line) :=
  match l with [] => Ok [] | a :: t => let! a := a in let! t := all_lines t in Ok (a :: t) end.

(** diverge_plot.py:93-149: the lines of one solution, then of all. *)
Definition diverge_lines (slow alfven fast : bool) (start stop : R) (p : (string * psoln) * string) : list (res line) :=
  let '((name, s), color) := p in
  let draw label values := masked_line start stop (ps_angles s) (Some label) (Some color) values in
  [draw name (column (ps_rows s) iv_θ)]
  ++ (if slow then [draw "slow" (wave_curve (fun w => fst (fst w)) (ps_rows s))] else [])
  ++ (if alfven then [draw "alfven" (wave_curve (fun w => snd (fst w)) (ps_rows s))] else [])
  ++ (if fast then [draw "fast" (wave_curve snd (ps_rows s))] else []).
Definition generate_diverge_plot (slow alfven fast : bool) (start stop : R) (colors : nat -> list string) (sols : list (string * psoln)) : res panel :=
  let! ls := all_lines (flat_map (diverge_lines slow alfven fast start stop) (combine sols (colors (List.length sols)))) in
  Ok (mk_panel "$v_θ / c_s$" "linear" ls).
(** diverge_plot.py:152-178: the figure and its title; an empty title asks for none. *)
Definition diverge_plot (slow alfven fast : bool) (start stop : R) (colors : nat -> list string) (filename : string)
    (title : option string) (solution_filter : option (list string)) (sols : list (string * psoln)) : res (panel * option string) :=
  let! sols := match solution_filter with None => Ok sols | Some ids => select ids sols end in
  let! fig := generate_diverge_plot slow alfven fast start stop colors sols in
  Ok (fig, match title with
           | None => Some ("Comparison of v_θ for " ++ filename)%string
           | Some t => if String.eqb t "" then None else Some t
           end).

(** j_e_plot.py:112-148 at one sample: (J_r, J_θ, J_φ) and (E_r, E_θ, E_φ). *)
Definition j_e_values (γ θ : R) (y : vec) : (R * R * R) * (R * R * R) :=
  let B_mag := sqrt (y iB_r ^ 2 + y iB_φ ^ 2 + y iB_θ ^ 2) in
  let b_r := y iB_r / B_mag in
  let b_φ := y iB_φ / B_mag in
  let b_θ := y iB_θ / B_mag in
  let deriv_B_φ := y iB_φ_prime in
  let deriv_B_r := deriv_B_r_func θ γ (y iB_r) (y iB_θ) (y iB_φ) (y iv_r) (y iv_θ) deriv_B_φ (y iη_O) (y iη_A) (y iη_H) b_r b_φ b_θ in
  let '(J_r, J_θ, J_φ) := J_func γ θ (y iB_θ) (y iB_φ) deriv_B_φ deriv_B_r in
  ((J_r, J_θ, J_φ), E_func (y iv_r) (y iv_θ) (y iv_φ) (y iB_r) (y iB_θ) (y iB_φ) J_r J_θ J_φ (y iη_O) (y iη_A) (y iη_H)).
(** j_e_plot.py:102-203: six panels.  AnalysisError is [OtherError]. *)
Definition generate_j_e_plot (start stop γ : R) (s : psoln) (use_E_r : bool) : res figure :=
  if use_E_r then Raise OtherError else
  let rows := combine (ps_angles s) (ps_rows s) in
  let panel_of label (q : (R * R * R) * (R * R * R) -> R) :=
    let! l := masked_line start stop (ps_angles s) None None (map (fun p => Some (q (j_e_values γ (fst p) (snd p)))) rows) in
    Ok (mk_panel label "linear" [l]) in
  let! p1 := panel_of "$J_r$" (fun v => fst (fst (fst v))) in
  let! p2 := panel_of "$J_θ$" (fun v => snd (fst (fst v))) in
  let! p3 := panel_of "$J_φ$" (fun v => snd (fst v)) in
  let! p4 := panel_of "$E_r$" (fun v => fst (fst (snd v))) in
  let! p5 := panel_of "$E_θ$" (fun v => snd (fst (snd v))) in
  let! p6 := panel_of "$E_φ$" (fun v => snd (snd v)) in
  Ok [p1; p2; p3; p4; p5; p6].

(** validate_plot.py:76-106. *)
Definition param_names : list (string * (validate_ic -> values -> R)) :=
  [("continuity", validate_continuity); ("solenoid", validate_solenoid); ("radial momentum", validate_radial_momentum);
   ("azimuthal momentum", validate_azimuthal_mometum); ("polar momentum", validate_polar_momentum);
   ("polar induction", validate_polar_induction); ("E_φ", validate_E_φ)].
(** max(absolute(difference)): ValueError for no samples. *)
Definition printed_max (l : list R) : res R :=
  match py_max (map Rabs l) with Ret m => Ok m | _ => Raise Lib_Py.ValueError end.
(** validate_plot.py:67-176: four panels and what is printed.  The internal data are the (angle, parameters, derivatives)
    rows. *)
Fixpoint validate_curves (start stop : R) (ic : validate_ic) (data : list (R * vec * vec)) (l : list (string * (validate_ic -> values -> R)))
    : res (list line * list (string * R)) :=
  match l with
  | [] => Ok ([], [])
  | (name, func) :: t =>
      let angles := map (fun p => fst (fst p)) data in
      let mask := map (fun θ => in_range start stop (Model_Plots.degrees θ)) angles in
      let! difference := mask_list mask (map (fun p => func ic (get_values ic (fst (fst p)) (snd (fst p)) (snd p))) data) in
      let! m := printed_max difference in
      let! x := mask_list mask angles in
      let! pts := points (map Model_Plots.degrees x) (map Some difference) in
      let! r := validate_curves start stop ic data t in
      Ok (mk_line (Some name) None pts :: fst r, (name, m) :: snd r)
  end.
Definition value_line (start stop : R) (ic : validate_ic) (data : list (R * vec * vec)) (label : string) (q : values -> R) : res line :=
  masked_line start stop (map (fun p => fst (fst p)) data) (Some label) None
    (map (fun p => Some (q (get_values ic (fst (fst p)) (snd (fst p)) (snd p)))) data).
Definition generate_validate_plot (start stop : R) (use_E_r : bool) (ic : validate_ic) (internal : option (list (R * vec * vec)))
    : res (figure * list (string * R)) :=
  if use_E_r then Raise OtherError else
  match internal with
  | None => Raise OtherError
  | Some data =>
      let line label q := value_line start stop ic data label q in
      let! r := validate_curves start stop ic data param_names in
      let! e := all_lines [line "$E_r$" (fun v => fst (fst (va_E v))); line "$E_θ$" (fun v => snd (fst (va_E v)))] in
      let! d := all_lines [line "$E_r'$" (fun v => fst (fst (va_E_dash v))); line "$E_θ'$" (fun v => snd (fst (va_E_dash v)));
                           line "$E_φ'$" (fun v => snd (va_E_dash v))] in
      let! j := all_lines [line "$J_r$" (fun v => fst (fst (va_J v))); line "$J_θ$" (fun v => snd (fst (va_J v)));
                           line "$J_φ$" (fun v => snd (va_J v))] in
      Ok ([mk_panel "" "linear" (fst r); mk_panel "" "linear" e; mk_panel "" "linear" d; mk_panel "" "linear" j], snd r)
  end.

(** phys_ratio_plot.py:105-116: a mapping from numbers to markers, in the order in which the numbers came, and the count. *)
Fixpoint rfind (x : R) (m : list (R * string)) : option string :=
  match m with [] => None | (y, v) :: t => if Req_EM_T x y then Some v else rfind x t end.
Definition assign (markers : nat -> string) (modulus : nat) (x : R) (st : list (R * string) * nat) : string * (list (R * string) * nat) :=
  let '(m, count) := st in
  match rfind x m with
  | Some v => (v, st)
  | None => (markers count, (m ++ [(x, markers count)], Nat.modulo (count + 1) modulus))
  end.
Definition color_number (n : nat) : string := ("C" ++ str_of_nat n)%string.
Definition MARKER_LIST : list string :=
  ["."; "o"; "v"; "^"; "<"; ">"; "1"; "2"; "3"; "4"; "8"; "s"; "p"; "*"; "h"; "H"; "+"; "x"; "D"; "d"; "P"; "X"].
(** What the plot reads of a solution: η_A, a_0 and v_r of the initial conditions, c_s_on_v_k, γ, and the samples. *)
Record rsoln := mk_rsoln { rs_η_A : R; rs_a_0 : R; rs_v_r : R; rs_c_s_on_v_k : R; rs_γ : R; rs_samples : list (R * vec) }.
(** One point in each of the two panels: name, marker, colour, abscissa, B_z²/Σ and M_dot_out/M_dot_in. *)
Record rpoint := mk_rpoint { rp_name : string; rp_marker : string; rp_color : string; rp_x : R; rp_B : R; rp_M : R }.
(** phys_ratio_plot.py:80-137, with the two mappings that are printed. *)
Fixpoint ratio_points (simps : list R -> list R -> R) (start stop : R) (sols : list (string * rsoln))
    (vm am : list (R * string) * nat) : py (list rpoint * list (R * string) * list (R * string)) :=
  match sols with
  | [] => Ret ([], fst vm, fst am)
  | (name, s) :: t =>
      let '(m_color, vm) := assign color_number 10 (rs_v_r s) vm in
      let '(m_marker, am) := assign (fun n => nth n MARKER_LIST "") (List.length MARKER_LIST) (rs_a_0 s) am in
      let shown := filter (fun p => in_range start stop (Model_Plots.degrees (fst p))) (rs_samples s) in
      let Σ := compute_Σ shown in
      pybind (compute_M_dot_out_on_M_dot_in simps (rs_γ s) shown) (fun ratio =>
      pybind (ratio_points simps start stop t vm am) (fun r =>
      let '(l, v, a) := r in
      Ret (mk_rpoint name m_marker m_color (rs_η_A s / rs_c_s_on_v_k s) (rs_a_0 s / Σ) ratio :: l, v, a)))
  end.
Definition generate_ratio_plot (simps : list R -> list R -> R) (start stop : R) (sols : list (string * rsoln)) :=
  ratio_points simps start stop sols ([], 0%nat) ([], 0%nat).

(** stats.py:96-113. *)
Definition compute_max_vert_jet_velocity (s : psoln) : py (Model_Plots.num * R) :=
  match convert_rows (ps_angles s) (ps_rows s) (ps_γ s) (ps_c_s_on_v_k s) false with
  | Raise _ => ValueError
  | Ok conv =>
      pybind (nanargmax (map (fun hv => snd hv cv_z) conv)) (fun idx =>
      match nth_error conv idx with
      | Some hv => Ret (snd hv cv_z, fst hv)
      | None => IndexError
      end)
  end.
