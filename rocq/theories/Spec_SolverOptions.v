(** What the options of the commands that solve mean to a user: the table of each command, in the vocabulary of Spec_Options.
    In a row, [Drawing k] stands for the parameter [k] of the function that does the work; [Logging] for the messages; [Nothing]
    for an option that is accepted and has no effect. *)
From Coq Require Import String List Bool ZArith Reals.
From Verif Require Import Lib_Py Model_Options Spec_Options Model_Logging Model_SolverOptions.
Import ListNotations.
Open Scope string_scope. Open Scope list_scope.

Definition method_words := ["step"; "single"; "mcmc"; "sonic_root"; "hydrostatic"; "mod_hydro"; "fast_crosser"].
Definition method_doc (default : string) : doc := row "--sonic-method" (OneOf method_words) (Drawing "sonic_method") (VStr default).
Definition internal_doc (default : bool) : doc :=
  mk_doc [("--store-internal", Switch true); ("--no-store-internal", Switch false)] (Drawing "store_internal") (VBool default).
Definition internal_alternatives := ["--store-internal"; "--no-store-internal"].
Definition file_doc (t : target) (default : value) : doc := row "--output-file" AText t default.
Definition dir_doc (t : target) : doc := row "--output-dir" AText t (VStr ".").
Definition workers_doc : doc := row "--nworkers" AnInteger (Drawing "nworkers") VNone.
Definition label_doc : doc := row "--label" AText (Drawing "label") (VStr "").
(** The logging options, with no effect. *)
Definition silent_docs : list doc := map (fun d => mk_doc (doc_flags d) Nothing (doc_default d)) logging_docs.

Definition soln_docs : list doc :=
  logging_docs ++ [method_doc "single"; file_doc (Drawing "output_file") VNone; dir_doc (Drawing "output_dir"); internal_doc true].
Definition csv_docs : list doc :=
  silent_docs ++ [method_doc "step"; file_doc (Drawing "output_file") (VStr "-"); dir_doc Nothing; internal_doc false; workers_doc].
Definition hdf5_docs : list doc :=
  silent_docs ++ [method_doc "single"; file_doc Nothing VNone; dir_doc (Drawing "output_dir"); internal_doc true; workers_doc; label_doc].

(** A command: its table; the function; the parameters for its positional arguments; the parameters that are paths. *)
Record solver_doc := mk_solver_doc { sd_rows : list doc; sd_function : string; sd_positionals : list string; sd_paths : list string;
                                     sd_logs : bool }.
Definition solver_commands : list (solver_command * solver_doc) :=
  [(soln_command, mk_solver_doc soln_docs "solve" ["config_file"] ["output_dir"; "config_file"] true);
   (resoln_command, mk_solver_doc soln_docs "resolve" ["soln_filename"; "soln_range"] ["output_dir"; "soln_filename"] true);
   (csvrunner_command, mk_solver_doc csv_docs "csvrunner" ["input_file"] [] false);
   (hdf5runner_command, mk_solver_doc hdf5_docs "hdf5runner" ["input_file"] ["output_dir"; "input_file"] false)].

(** The (field, value) pairs given with --override, in order. *)
Definition override_flag := "--override".
Definition overrides_given (given : list (string * list string)) : list (string * string) :=
  flat_map (fun g => if String.eqb (fst g) override_flag then match snd g with [s; t] => [(s, t)] | _ => [] end else []) given.
Definition allowed_or_override (rd : readers) (docs : list doc) (g : string * list string) : Prop :=
  allowed rd docs g \/ (fst g = override_flag /\ List.length (snd g) = 2%nat).

(** A path is expanded. *)
Definition as_path (expanded : string -> string) (paths : list string) (k : string) (v : value) : value :=
  if in_dec string_dec k paths then match v with VStr s => VStr (expanded s) | _ => v end else v.

(** The logging asked for. *)
Definition level_word (v : value) : option level :=
  match v with
  | VStr "critical" => Some CRITICAL | VStr "error" => Some ERROR | VStr "warning" => Some WARNING
  | VStr "notice" => Some NOTICE | VStr "info" => Some INFO | VStr "debug" => Some DEBUG
  | _ => None
  end.
Definition yes (v : value) : bool := match v with VBool true => true | _ => false end.
Definition logging_asked (rd : readers) (given : list (string * list string)) : log_args :=
  mk_log_args (match asked rd (row "--log-file" AText Logging VNone) given with VStr s => Some s | _ => None end)
    (level_word (asked rd (row "--log-file-level" (OneOf log_words) Logging (VStr "debug")) given))
    (level_word (asked rd (row "--stderr-level" (OneOf log_words) Logging (VStr "notice")) given))
    (yes (asked rd (row "--quiet" (Switch true) Logging (VBool false)) given))
    (yes (asked rd (row "--verbose" (Switch true) Logging (VBool false)) given)).

(** Two command lines that agree except for options of [flags]. *)
Definition without (flags : list string) (given : list (string * list string)) : list (string * list string) :=
  filter (fun g => negb (existsb (String.eqb (fst g)) flags)) given.
Definition log_flags := ["--log-file"; "--log-file-level"; "--stderr-level"; "--quiet"; "--verbose"].
