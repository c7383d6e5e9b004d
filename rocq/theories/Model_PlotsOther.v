(** The plots with panels of their own.

    Models analyse/combine_plot.py lines 92-208, conserve_plot.py 53-80, surface_density_plot.py 61-79, taylor_plot.py 75-178,
    acc_plot.py 16-19 and 67-93, sonic_ratio_plot.py 61-96 and v_deriv_cmp.py 62-95, on the drawing primitives of [Model_Plots]. *)
From Coq Require Import Reals List Bool String.
From Verif Require Import Lib_Py Model_Index Model_Waves Model_Plots.
Import ListNotations.
Open Scope string_scope.
Open Scope list_scope.
Open Scope R_scope.

(** A line of combine_plot: a column of the solution or given data, and an optional offset. *)
Record cline := mk_cline { cl_label : string; cl_data : list num; cl_offset : num }.
Definition index_line (rows : list vec) (label : string) (i : nat) : cline := mk_cline label (column rows i) (Some 0).
Definition num_scale (k : R) (a : num) : num := match a with Some x => Some (x * k) | None => None end.
(** combine_plot.py:188-203: one axis. *)
Definition combine_axis (start stop : R) (angles : list R) (normalisation : R) (y_label scale : string) (lines : list cline) : res panel :=
  let mask := map (fun θ => in_range start stop (degrees θ)) angles in
  let! ls := lines_of (fun l =>
      let! x := mask_list mask angles in
      let! d := mask_list mask (cl_data l) in
      let! pts := points (map degrees x) (map (fun v => num_sub (num_scale normalisation v) (cl_offset l)) d) in
      Ok (mk_line (Some (cl_label l)) None pts)) lines in
  Ok (mk_panel y_label scale ls).
(** combine_plot.py:92-208.  KM is constants.KM, [n] is get_normalisation(inp). *)
Definition generate_plot_combine (slow alfven fast sonic : bool) (start stop KM : R) (n : normalisation) (s : psoln) : res figure :=
  let rows := ps_rows s in
  let velocity :=
    [index_line rows "$v_r$" iv_r;
     mk_cline "$v_φ - v_k$" (column rows iv_φ) (match np_sqrt (ps_kepler_sq s) with Some k => Some (k * n_v n / KM) | None => None end);
     index_line rows "$v_θ$" iv_θ]
    ++ (if slow then [mk_cline "slow" (wave_curve (fun w => fst (fst w)) rows) (Some 0)] else [])
    ++ (if alfven then [mk_cline "alfven" (wave_curve (fun w => snd (fst w)) rows) (Some 0)] else [])
    ++ (if fast then [mk_cline "fast" (wave_curve snd rows) (Some 0)] else [])
    ++ (if sonic then [mk_cline "$c_s$" (map (fun _ => Some 1) rows) (Some 0)] else []) in
  let! p1 := combine_axis start stop (ps_angles s) (n_v n / KM) "Velocity Field (km/s)" "linear" velocity in
  let! p2 := combine_axis start stop (ps_angles s) (n_ρ n) "Density (g cm$^{-3}$)" "log" [index_line rows "$ρ$" iρ] in
  let! p3 := combine_axis start stop (ps_angles s) (n_B n) "Magnetic Field (G)" "linear"
               [index_line rows "$B_r$" iB_r; index_line rows "$B_φ$" iB_φ; index_line rows "$B_θ$" iB_θ] in
  Ok [p1; p2; p3].

(** conserve_plot.py:53-78: all solutions of a file. *)
Definition generate_conserve_plot (start stop : R) (colors : nat -> list string) (sols : list (string * psoln)) : res panel :=
  let! ls := lines_of (fun sc : (string * psoln) * string =>
      let s := snd (fst sc) in
      let mask := map (fun θ => in_range start stop (degrees θ)) (ps_angles s) in
      let! x := mask_list mask (ps_angles s) in
      let! y := mask_list mask (map (fun row : vec => Some (row iρ * row iv_θ)) (ps_rows s)) in
      let! pts := points (map degrees x) y in
      Ok (mk_line (Some (fst (fst sc))) (Some (snd sc)) pts)) (combine sols (colors (List.length sols))) in
  Ok (mk_panel "$ρ v_θ / c_s$" "linear" ls).

(** numpy.cumsum. *)
Fixpoint cumsum_from (acc : R) (l : list R) : list R :=
  match l with [] => [] | x :: t => (acc + x) :: cumsum_from (acc + x) t end.
(** surface_density_plot.py:61-79. *)
Definition generate_surface_density_plot (start stop : R) (s : psoln) : res panel :=
  let mask := map (fun θ => in_range start stop (degrees θ)) (ps_angles s) in
  let cum_σ := map Some (cumsum_from 0 (map (fun row : vec => row iρ) (ps_rows s))) in
  let! x := mask_list mask (ps_angles s) in
  let! y := mask_list mask cum_σ in
  let! pts := points (map degrees x) y in
  Ok (mk_panel "σ" "linear" [mk_line None None pts]).

(** The internal data taylor_plot reads: the angles and, for v_r, v_φ and ρ, the derivative by either formula. *)
Record taylor_data := mk_taylor { td_angles : list R; td_series : list (string * (list R * list R)) }.   (* title, (normal, taylor) *)
(** abs(a / b), elementwise; [None] where b = 0 (inf or NaN in numpy).  ValueError for arrays of different lengths. *)
Fixpoint abs_ratio (a b : list R) : res (list num) :=
  match a, b with
  | [], [] => Ok []
  | x :: a, y :: b => let! r := abs_ratio a b in Ok ((if Req_EM_T y 0 then None else Some (Rabs (x / y))) :: r)
  | _, _ => Raise ValueError
  end.
(** taylor_plot.py:97-156: the values of one series, by sign. *)
Definition sign_lines (angles : list R) (values : list R) : res (list line) :=
  let pos := map (fun v => if Rle_dec 0 v then true else false) values in
  let neg := map (fun v => if Rlt_dec v 0 then true else false) values in
  let! x1 := mask_list pos angles in
  let! y1 := mask_list pos values in
  let! l1 := points x1 (map Some y1) in
  let! x2 := mask_list neg angles in
  let! y2 := mask_list neg values in
  let! l2 := points x2 (map (fun v => Some (- v)) y2) in
  Ok [mk_line None (Some "C0") l1; mk_line None (Some "C1") l2].
(** taylor_plot.py:75-178; start and stop are accepted and not used.  AnalysisError is [OtherError]. *)
Fixpoint taylor_axes (show_values : bool) (deriv_angles : list R) (series : list (string * (list R * list R))) : res figure :=
  match series with
  | [] => Ok []
  | (title, (normal, taylor)) :: t =>
      let! ls := if show_values
                 then let! a := sign_lines deriv_angles normal in let! b := sign_lines deriv_angles taylor in Ok (a ++ b)
                 else let! r := abs_ratio normal taylor in
                      let! pts := points (map degrees deriv_angles) r in Ok [mk_line None None pts] in
      let! r := taylor_axes show_values deriv_angles t in
      Ok (mk_panel title "log" ls :: r)
  end.
Definition generate_taylor_plot (show_values : bool) (start stop : R) (internal : option taylor_data) : res figure :=
  match internal with
  | None => Raise OtherError
  | Some d => let deriv_angles := map degrees (td_angles d) in taylor_axes show_values deriv_angles (td_series d)
  end.

(** acc_plot.py:16-19. *)
Definition ACC_CONSTANT (AU KM M_SUN YEAR : R) : R := (AU ^ 2 / (30 * KM)) / (M_SUN / YEAR).
Definition WIND_CONSTANT (AU M_SUN YEAR : R) : R := (PI * AU ^ 2) / (M_SUN / YEAR).
(** acc_plot.py:67-93; start and stop are accepted and not used. *)
Definition generate_acc_plot (AU KM M_SUN YEAR start stop : R) (n : normalisation) (s : psoln) : res figure :=
  let xpos := map (fun θ => if Rlt_dec (degrees θ) 1 then true else false) (ps_angles s) in
  let acc_in := map (fun row : vec => Some (row iB_θ * n_B n * (row iB_φ * n_B n) * ACC_CONSTANT AU KM M_SUN YEAR)) (ps_rows s) in
  let acc_wind := map (fun row : vec => Some (row iv_θ * n_v n * (row iρ * n_ρ n) * WIND_CONSTANT AU M_SUN YEAR)) (ps_rows s) in
  let! x := mask_list xpos (ps_angles s) in
  let! y1 := mask_list xpos acc_in in
  let! l1 := points (map degrees x) y1 in
  let! y2 := mask_list xpos acc_wind in
  let! l2 := points (map degrees x) y2 in
  Ok [mk_panel "" "linear" [mk_line None None l1]; mk_panel "" "linear" [mk_line None None l2]].

(** sonic_ratio_plot.py:61-96: two axes, one line per solution in each. *)
Definition ratio_axis (start stop : R) (label : string) (f : R * R * R * R -> R) (l : list ((string * psoln) * string)) : res panel :=
  let! ls := lines_of (fun sc : (string * psoln) * string =>
      let s := snd (fst sc) in
      let mask := map (fun θ => in_range start stop (degrees θ)) (ps_angles s) in
      let! x := mask_list mask (ps_angles s) in
      let! y := mask_list mask (map (fun row => Some (f (get_mach_numbers row))) (ps_rows s)) in
      let! pts := points (map degrees x) y in
      Ok (mk_line (Some (fst (fst sc))) (Some (snd sc)) pts)) l in
  Ok (mk_panel label "linear" ls).
Definition generate_sonic_ratio_plot (start stop : R) (colors : nat -> list string) (num_solutions : nat) (sols : list (string * psoln)) : res figure :=
  let l := combine sols (colors num_solutions) in
  let! p1 := ratio_axis start stop "$v_θ/v_a$" (fun m => snd (fst m)) l in
  let! p2 := ratio_axis start stop "$v_θ/v_f$" snd l in
  Ok [p1; p2].

(** v_deriv_cmp.py:62-95. *)
Definition generate_v_deriv_plot (start stop : R) (colors : nat -> list string) (num_solutions : nat) (sols : list (string * psoln)) : res panel :=
  let! ls := lines_of (fun sc : (string * psoln) * string =>
      match ps_internal (snd (fst sc)) with
      | None => Raise OtherError
      | Some (angles, params, derivs) =>
          let mask := map (fun θ => in_range start stop (degrees θ)) angles in
          let! x := mask_list mask angles in
          let! y := mask_list mask (column derivs iv_θ) in
          let! pts := points (map degrees x) y in
          Ok (mk_line (Some (fst (fst sc))) (Some (snd sc)) pts)
      end) (combine sols (colors num_solutions)) in
  Ok (mk_panel "$v_θ'$" "linear" ls).
