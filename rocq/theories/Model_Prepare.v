(** What the solving commands do before they open their output file: src/disc_solver/solve/__init__.py:42-77 (ds-soln),
    solve/resolve.py:27-70 (ds-resoln) and solve/hdf5runner.py:41-94 (ds-hdf5runner), put together with Model_Inputs (the inputs)
    and Model_Solve (the file and the method).

    A solution is abstract; [s_input] is its solution_input.  A file read gives the run that was written to it (what storing changes
    is the matter of C46-C48).  Not modelled: the time of a run, the memory usage reports, printing and logging. *)
From Coq Require Import String List Bool ZArith.
From Verif Require Import Lib_Py Model_FormatTables Model_Format Model_Run Model_Inputs Model_Solve Model_Mcmc.
Import ListNotations.
Open Scope string_scope. Open Scope list_scope.

(** The fields of a Run that say where it came from (file_format/_containers.py:600-612). *)
Record run_info := mk_info {
  ri_config_input : val; ri_config_filename : option string; ri_version : string; ri_float_type : string;
  ri_sonic_method : string; ri_use_E_r : val }.

(** What the commands take from their surroundings: the version and float type of the program that runs, the text of the current
    time, and how the file named second is found in the directory named first (expanded_path(output_dir / output_file)). *)
Record place := mk_place { p_version : string; p_float_type : string; p_now : string; p_join : string -> string -> string }.

(** config_input.label + str(arrow.now()) + ... + ".hdf5": only a text can be added to a text. *)
Definition default_name (P : place) (config_input : val) (process_name : string) : res string :=
  let! label := getattr "label" config_input in
  match label with
  | VText s => Ok (s ++ p_now P ++ process_name ++ ".hdf5")%string
  | _ => Raise TypeError
  end.
(** solve/__init__.py:62-64. *)
Definition output_name (P : place) (output_dir : string) (output_file : option string) (config_input : val) (process_name : string) : res string :=
  let! name := match output_file with Some f => Ok f | None => default_name P config_input process_name end in
  Ok (p_join P output_dir name).

Section Prepare.
Context {Sol : Type}.
Variables (E : env) (T : text_tools) (P : place) (s_input : Sol -> val).
Notation run := (run Sol run_info).

(** Run(...), _containers.py:600-616. *)
Definition fresh_run (info : run_info) (based_on_filename based_on_name : option string) : run :=
  mk_run info Unset [] false based_on_filename based_on_name.

(** solve/__init__.py:49-60. *)
Definition prepare_soln (f : cfg_file) (config_file : string) (overrides : option (dict val)) (sonic_method : string) : res (run * val) :=
  let! config_input := get_input_from_conffile E f overrides in
  let! soln_input := to_soln_input E T config_input in
  let! use_E_r := getattr "use_E_r" soln_input in
  Ok (fresh_run (mk_info config_input (Some config_file) (p_version P) (p_float_type P) sonic_method use_E_r) None None, soln_input).
(** solve/__init__.py:42-77: the name of the file and success, or what is raised. *)
Definition soln (methods : @method_map Sol run_info val) (f : cfg_file) (config_file : string) (overrides : option (dict val))
    (sonic_method output_dir : string) (output_file : option string) (fs : files) : files * res (string * bool) :=
  match (let! prepared := prepare_soln f config_file overrides sonic_method in
         let! name := output_name P output_dir output_file (ri_config_input (r_info (fst prepared))) "" in
         Ok (prepared, name)) with
  | Raise e => (fs, Raise e)
  | Ok (prepared, name) =>
      match solve methods (Ok prepared) sonic_method name fs with
      | (fs, Ok succeeded) => (fs, Ok (name, succeeded))
      | (fs, Raise e) => (fs, Raise e)
      end
  end.

(** resolve.py:34-36 and .solution_input: the old run and the input stored with the solution asked for.  None and the placeholder
    of a final solution that was never set have no such attribute. *)
Definition old_solution (soln_filename soln_range : string) (fs : files) : res (run * val) :=
  match dget soln_filename fs with
  | None => Raise OtherError       (* FileNotFoundError *)
  | Some old_run =>
      let! s := get_solutions old_run (Some soln_range) in
      match s with
      | Final s => Ok (old_run, s_input s)
      | _ => Raise AttributeError
      end
  end.
(** resolve.py:34-52. *)
Definition prepare_resoln (soln_filename soln_range : string) (overrides : option (dict val)) (sonic_method : string) (fs : files)
  : res (run * (run * val)) :=
  let! (old_run, solution_input) := old_solution soln_filename soln_range fs in
  let! (new_config_input, new_soln_input) := new_inputs_with_overrides E T (ri_config_input (r_info old_run)) solution_input overrides in
  let! use_E_r := getattr "use_E_r" new_soln_input in
  Ok (old_run,
      (fresh_run (mk_info new_config_input (ri_config_filename (r_info old_run)) (p_version P) (p_float_type P) sonic_method use_E_r)
         (Some soln_filename) (Some soln_range), new_soln_input)).
(** resolve.py:27-70. *)
Definition resoln (methods : @method_map Sol run_info val) (soln_filename soln_range : string) (overrides : option (dict val))
    (sonic_method output_dir : string) (output_file : option string) (fs : files) : files * res (string * bool) :=
  match (let! (old_run, prepared) := prepare_resoln soln_filename soln_range overrides sonic_method fs in
         let! name := output_name P output_dir output_file (ri_config_input (r_info old_run)) "" in
         Ok (prepared, name)) with
  | Raise e => (fs, Raise e)
  | Ok (prepared, name) =>
      match solve methods (Ok prepared) sonic_method name fs with
      | (fs, Ok succeeded) => (fs, Ok (name, succeeded))
      | (fs, Raise e) => (fs, Raise e)
      end
  end.

(** input_dict.pop(key, None): the texts of a CSV row, or None. *)
Definition pop_text (key : string) (d : dict string) : option string * dict string :=
  (dget key d, filter (fun kv => negb (String.eqb (fst kv) key)) d).
(** hdf5runner.py:49-67. *)
Definition prepare_row (row : dict string) (overrides : option (dict val)) (sonic_method : string) : res (run * val) :=
  let '(soln_filename, row) := pop_text "filename" row in
  let '(soln_range, row) := pop_text "solution_name" row in
  let! c := construct E "ConfigInput" (map (fun kv => (fst kv, VText (snd kv))) row) in
  let! config_input := add_overrides E overrides c in
  let! soln_input := to_soln_input E T config_input in
  let! use_E_r := getattr "use_E_r" soln_input in
  Ok (fresh_run (mk_info config_input None (p_version P) (p_float_type P) sonic_method use_E_r) soln_filename soln_range, soln_input).
(** hdf5runner.py:41-94. *)
Definition row_solved (methods : @method_map Sol run_info val) (row : dict string) (overrides : option (dict val))
    (sonic_method output_dir : string) (output_file : option string) (process_name : string) (fs : files) : files * res (option bool) :=
  match dget sonic_method methods with
  | None => (fs, Raise SolverError)
  | Some _ =>
      match (let! prepared := prepare_row row overrides sonic_method in
             let! name := output_name P output_dir output_file (ri_config_input (r_info (fst prepared))) process_name in
             Ok (prepared, name)) with
      | Raise e => (fs, Raise e)
      | Ok (prepared, name) => hdf5_one methods sonic_method (Ok prepared) name fs
      end
  end.
End Prepare.
