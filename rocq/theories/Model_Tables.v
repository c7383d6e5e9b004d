(** Tables over many result files: the ds-stats and ds-dumpcsv commands and ds-dump.

    Models src/disc_solver/analyse/stats.py:33-63, 66-203 (the names of the entries), 206-309 and analyse/dump_csv.py:49-62.  The values of
    the statistics are an argument here (they are modelled in Model_Stats and Model_Critical), and so is what reading a file answers. *)
From Coq Require Import String List Bool.
From Verif Require Import Lib_Py Model_Format Model_Inputs Model_Csv.
Import ListNotations.
Open Scope string_scope. Open Scope list_scope.

(** stats.py:33-63. *)
Definition FIELD_NAMES : list string := SOLUTION_INPUT_FIELDS ++ [
  "max_slow_mach"; "max_slow_mach_angle_degrees"; "max_sonic_mach"; "max_sonic_mach_angle_degrees";
  "max_alfven_mach"; "max_alfven_mach_angle_degrees"; "max_fast_mach"; "max_fast_mach_angle_degrees";
  "slow_sonic_point"; "sonic_sonic_point"; "alfven_sonic_point"; "fast_sonic_point";
  "M_dot_out_on_M_dot_in"; "Σ"; "max_B_p_on_B_t"; "max_jet_v_z"; "max_jet_v_z_height";
  "max_diff_continuity"; "max_diff_solenoid"; "max_diff_radial_momentum"; "max_diff_azimuthal_momentum";
  "max_diff_polar_momentum"; "max_diff_polar_induction"; "max_diff_E_φ";
  "filename"; "solution_name"; "max_angle_reached_degrees"; "v_θ_starts_monotonic"; "v_θ_ends_low" ].

(** The names of the entries that each of STATS_FUNCS (stats.py:206-209) answers: stats.py:134-143, 161-166, 196-203, 110-113, 71-93. *)
Definition STATS_FUNCS : list (list string) := [
  [ "max_slow_mach"; "max_slow_mach_angle_degrees"; "max_sonic_mach"; "max_sonic_mach_angle_degrees";
    "max_alfven_mach"; "max_alfven_mach_angle_degrees"; "max_fast_mach"; "max_fast_mach_angle_degrees" ];
  [ "slow_sonic_point"; "sonic_sonic_point"; "alfven_sonic_point"; "fast_sonic_point" ];
  [ "M_dot_out_on_M_dot_in"; "Σ"; "max_B_p_on_B_t"; "max_angle_reached_degrees"; "v_θ_starts_monotonic"; "v_θ_ends_low" ];
  [ "max_jet_v_z"; "max_jet_v_z_height" ];
  [ "max_diff_continuity"; "max_diff_solenoid"; "max_diff_radial_momentum"; "max_diff_azimuthal_momentum";
    "max_diff_polar_momentum"; "max_diff_polar_induction"; "max_diff_E_φ" ] ].

Section Tables.
Context {Soln : Type}.
Variable E : env.
(** soln.solution_input.asdict() *)
Variable input_of : Soln -> dict val.
(** The value function number i answers under a name, or the exception it ends in. *)
Variable stat : nat -> Soln -> res (string -> val).

(** What reading a result file leads to: the solutions that run.solutions.items() yields, and then the final solution or an exception (a missing run or
    final solution, an unreadable file). *)
Inductive file_end := Final (final : option Soln) | Broken (e : exn).
Variable read : string -> list (string * option Soln) * file_end.

(** stats.py:279-298: both handlers go on with the next file. *)
Definition solutions_in (file : string) : list (string * string * option Soln) :=
  let '(items, stop) := read file in
  map (fun p => (file, fst p, snd p)) items ++
  match stop with Final final => [(file, "final", final)] | Broken _ => [] end.
Definition get_all_solutions (files : list string) : list (string * string * option Soln) := flat_map solutions_in files.
(** stats.py:301-309; [lines] is standard input, if it is asked for. *)
Definition get_all_files (solution_files lines : list string) (with_stdin : bool) : list string :=
  solution_files ++ (if with_stdin then map strip lines else []).

(** stats.py:212-222. *)
Fixpoint update_all (i : nat) (funcs : list (list string)) (soln : Soln) (stats : dict val) : res (dict val) :=
  match funcs with
  | [] => Ok stats
  | keys :: t => let! f := stat i soln in update_all (S i) t soln (dupdate stats (map (fun k => (k, f k)) keys))
  end.
Definition compute_solution_stats (soln : Soln) (metadata : dict val) : res (dict val) :=
  update_all 0 STATS_FUNCS soln (dupdate [] metadata).

(** The loops of stats.py:234-252 and 264-276: the text written and the exception that ends the loop, if one does. *)
Fixpoint write_loop (row : string -> string -> Soln -> res string) (solutions : list (string * string * option Soln)) : string * option exn :=
  match solutions with
  | [] => ("", None)
  | (filename, soln_name, None) :: t => write_loop row t
  | (filename, soln_name, Some soln) :: t =>
      match row filename soln_name soln with
      | Ok line => let '(rest, e) := write_loop row t in ((line ++ rest)%string, e)
      | Raise ValueError => write_loop row t
      | Raise e => ("", Some e)
      end
  end.
Definition stats_row (filename soln_name : string) (soln : Soln) : res string :=
  let soln_info := dupdate [("filename", VText filename); ("solution_name", VText soln_name)] (input_of soln) in
  let! stats := compute_solution_stats soln soln_info in
  dict_row E FIELD_NAMES stats.
Definition inputs_row (filename soln_name : string) (soln : Soln) : res string := dict_row E SOLUTION_INPUT_FIELDS (input_of soln).
(** stats.py:225-252 and 255-276: what the file [old] holds afterwards (mode 'a'). *)
Definition write_stats (old : string) (solutions : list (string * string * option Soln)) : string * option exn :=
  let '(rows, e) := write_loop stats_row solutions in ((old ++ csv_row FIELD_NAMES ++ rows)%string, e).
Definition write_inputs (old : string) (solutions : list (string * string * option Soln)) : string * option exn :=
  let '(rows, e) := write_loop inputs_row solutions in ((old ++ csv_row SOLUTION_INPUT_FIELDS ++ rows)%string, e).
(** dump_csv.py:49-62, for the solution found. *)
Definition dump_csv (old : string) (soln : Soln) (with_header : bool) : string * option exn :=
  let head := if with_header then csv_row SOLUTION_INPUT_FIELDS else "" in
  match dict_row E SOLUTION_INPUT_FIELDS (input_of soln) with
  | Ok line => ((old ++ head ++ line)%string, None)
  | Raise e => ((old ++ head)%string, Some e)
  end.
End Tables.
