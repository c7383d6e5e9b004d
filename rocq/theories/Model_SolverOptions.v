(** The command lines of the commands that solve: ds-soln, ds-resoln, ds-csvrunner and ds-hdf5runner.

    Models solve/utils.py 82-113 and 165-177, solve/__init__.py 80-99, solve/resolve.py 73-94, solve/csvrunner.py 86-89 and
    119-138, solve/hdf5runner.py 97-100 and 117-136, utils.py 351-379.  argparse is that of Model_Options, here without
    argument_default=SUPPRESS, so that an option without default is None if it is not given.  expanded_path (utils.py 149-153)
    and the joining of two paths are arguments of the model.  The sub-options "-n" and "-l" are taken as "--nworkers" and
    "--label". *)
From Coq Require Import String List Bool ZArith Reals.
From Verif Require Import Lib_Py Model_Options Model_Logging.
From Verif Require Model_Format Model_Inputs Model_Run Model_Solve.
Import ListNotations.
Open Scope string_scope. Open Scope list_scope.

(** An option without default, in a parser whose argument_default is None. *)
Definition plain (o : opt) : opt :=
  match o_default o with None => mk_opt (o_flag o) (o_dest o) (o_action o) (Some VNone) | Some _ => o end.

(** solve/utils.py 82-106; store_false has True as default, which counts only for a destination that has none. *)
Definition solver_options (store_internal : bool) (sonic_method : string) (output_file : value) : list opt :=
  [mk_opt "--sonic-method" "sonic_method"
          (One (Choice ["step"; "single"; "mcmc"; "sonic_root"; "hydrostatic"; "mod_hydro"; "fast_crosser"])) (Some (VStr sonic_method));
   mk_opt "--output-file" "output_file" (One Text) (Some output_file);
   mk_opt "--output-dir" "output_dir" (One Text) (Some (VStr "."));
   mk_opt "--store-internal" "store_internal" (Flag true) (Some (VBool store_internal));
   mk_opt "--no-store-internal" "store_internal" (Flag false) (Some (VBool true));
   mk_opt "--override" "override" AppendTwo (Some (VList []))].
Definition internal_group := ["--store-internal"; "--no-store-internal"].
(** solve/utils.py 109-113 *)
Definition worker_options : list opt := [mk_opt "--nworkers" "nworkers" (One Whole) (Some VNone)].

(** utils.py 351-379 and the first lines of the main functions. *)
Definition solver_parser (positionals : list string) (opts : list opt) : parser :=
  mk_parser (map (fun p => (p, Text)) positionals) (map plain logging_options ++ opts) [stderr_group; internal_group].

Record solver_command := mk_solver_command {
  sc_parser : parser;
  sc_paths : list string;                 (* arguments with type=expanded_path *)
  sc_function : string;                   (* the function main calls *)
  sc_passed : list (string * string);     (* its keywords, and the attributes of args given for them; overrides apart *)
  sc_signature : signature;               (* its keyword parameters; overrides apart *)
  sc_logs : bool }.                       (* whether it is called under log_handler(args) *)

(** solve/__init__.py 42-45, 80-99 *)
Definition soln_command : solver_command :=
  mk_solver_command (solver_parser ["config_file"] (solver_options true "single" VNone)) ["output_dir"; "config_file"] "solve"
    [("output_file", "output_file"); ("sonic_method", "sonic_method"); ("config_file", "config_file");
     ("output_dir", "output_dir"); ("store_internal", "store_internal")]
    [("output_file", None); ("sonic_method", None); ("config_file", None); ("output_dir", None); ("store_internal", None)]
    true.
(** solve/resolve.py 27-30, 73-94 *)
Definition resoln_command : solver_command :=
  mk_solver_command (solver_parser ["soln_filename"; "soln_range"] (solver_options true "single" VNone))
    ["output_dir"; "soln_filename"] "resolve"
    [("soln_filename", "soln_filename"); ("soln_range", "soln_range"); ("output_file", "output_file");
     ("sonic_method", "sonic_method"); ("output_dir", "output_dir"); ("store_internal", "store_internal")]
    [("output_file", None); ("sonic_method", None); ("soln_filename", None); ("soln_range", None); ("output_dir", None);
     ("store_internal", None)]
    true.
(** solve/csvrunner.py 86-89, 119-138 *)
Definition csvrunner_command : solver_command :=
  mk_solver_command (solver_parser ["input_file"] (solver_options false "step" (VStr "-") ++ worker_options)) ["output_dir"] "csvrunner"
    [("input_file", "input_file"); ("nworkers", "nworkers"); ("sonic_method", "sonic_method");
     ("store_internal", "store_internal"); ("output_file", "output_file")]
    [("output_file", None); ("input_file", None); ("nworkers", Some VNone); ("store_internal", None); ("sonic_method", None);
     ("label", Some (VStr ""))]
    false.
(** solve/hdf5runner.py 97-100, 117-136 *)
Definition hdf5runner_command : solver_command :=
  mk_solver_command
    (solver_parser ["input_file"]
       (solver_options true "single" VNone ++ worker_options ++ [mk_opt "--label" "label" (One Text) (Some (VStr ""))]))
    ["output_dir"; "input_file"] "hdf5runner"
    [("output_dir", "output_dir"); ("input_file", "input_file"); ("nworkers", "nworkers"); ("sonic_method", "sonic_method");
     ("store_internal", "store_internal"); ("label", "label")]
    [("output_file", Some VNone); ("input_file", None); ("nworkers", Some VNone); ("output_dir", None); ("store_internal", None);
     ("sonic_method", None); ("label", Some (VStr ""))]
    false.

(** What main calls: the function, its keyword arguments, the overrides, and the logging options it runs under. *)
Record started := mk_started {
  s_function : string; s_args : values; s_overrides : dict Model_Format.val; s_logging : option log_args }.
Inductive ending := Usage | Started (r : res started).

(** args.k *)
Definition attr (k : string) (args : values) : res value :=
  match dget k args with Some v => Ok v | None => Raise AttributeError end.
Fixpoint attrs (l : list (string * string)) (args : values) : res values :=
  match l with
  | [] => Ok []
  | (k, a) :: t => let! v := attr a args in let! r := attrs t args in Ok ((k, v) :: r)
  end.
(** (name, value) for each of args.override *)
Definition overrides_of (v : value) : list (string * string) :=
  match v with
  | VList l => map (fun p => match p with VList [VStr s; VStr t] => (s, t) | _ => ("", "") end) l
  | _ => []
  end.
(** level=word.upper() of logging.py 45-56; the words are those of the parser. *)
Definition level_of (v : option value) : option level :=
  match v with
  | Some (VStr s) =>
      dget s [("critical", CRITICAL); ("error", ERROR); ("warning", WARNING); ("notice", NOTICE); ("info", INFO); ("debug", DEBUG)]
  | _ => None
  end.
(** if args.get(k) *)
Definition truth (v : option value) : bool := match v with Some (VBool b) => b | _ => false end.
(** logging.py 38-56: what log_handler takes from the arguments. *)
Definition logging_of (args : values) : log_args :=
  mk_log_args (match dget "log_file" args with Some (VStr s) => Some s | _ => None end)
              (level_of (dget "log_file_level" args)) (level_of (dget "stderr_level" args))
              (truth (dget "quiet" args)) (truth (dget "verbose" args)).

Section Run.
Variables (rd : readers) (expanded : string -> string).

(** type=expanded_path: of the given text, or of a default that is a text. *)
Definition expand_value (v : value) : value := match v with VStr s => VStr (expanded s) | v => v end.
Definition expand_paths (paths : list string) (args : values) : values :=
  map (fun p => if existsb (String.eqb (fst p)) paths then (fst p, expand_value (snd p)) else p) args.

Definition run_solver (c : solver_command) (cl : command_line) : ending :=
  match parse_args rd (sc_parser c) cl with
  | None => Usage
  | Some ns => Started (
      let args := expand_paths (sc_paths c) ns in
      let! o := attr "override" args in
      let! overrides := Model_Inputs.validate_overrides (overrides_of o) in
      let! kw := attrs (sc_passed c) args in
      let! a := bind (sc_signature c) kw in
      Ok (mk_started (sc_function c) a overrides (if sc_logs c then Some (logging_of args) else None)))
  end.

(** Messages are handled by the handlers of log_handler on top of those active before, or only by those. *)
Definition messages_of (s : started) (outer : list handler) (ms : list message) : list (sink * message) :=
  match s_logging s with Some a => written a outer ms | None => flat_map (call_handlers outer) ms end.

(** ** ds-soln and ds-resoln as a whole *)
Context {Sol I Inp : Type}.
Variables (join : string -> string -> string)                              (* output_dir / output_file *)
          (prepare : values -> dict Model_Format.val -> res (Model_Run.run Sol I * Inp))  (* inputs and run, before the file is opened *)
          (label_of : Model_Run.run Sol I -> string) (now : string)        (* str(arrow.now()) *)
          (methods : bool -> Model_Solve.method_map (Sol := Sol) (I := I) (Inp := Inp)).

(** solve/__init__.py 62-64, resolve.py 55-59 *)
Definition output_name (args : values) (prepared : res (Model_Run.run Sol I * Inp)) : string :=
  let file := match get "output_file" VNone args with
              | VStr f => f
              | _ => match prepared with Ok (r, _) => (label_of r ++ now ++ ".hdf5")%string | Raise _ => "" end
              end in
  expanded (join (match get "output_dir" VNone args with VStr d => d | _ => "" end) file).
(** The files afterwards and the exit status: 2 for a usage error, 1 for an exception, else int(not succeeded). *)
Definition solver_main (c : solver_command) (cl : command_line) (fs : Model_Solve.files) : Model_Solve.files (Sol := Sol) (I := I) * Z :=
  match run_solver c cl with
  | Usage => (fs, 2%Z)
  | Started (Raise _) => (fs, 1%Z)
  | Started (Ok s) =>
      let prepared := prepare (s_args s) (s_overrides s) in
      let method := match get "sonic_method" VNone (s_args s) with VStr m => m | _ => "" end in
      let '(fs, out) := Model_Solve.solve (methods (truth (dget "store_internal" (s_args s)))) prepared method
                          (output_name (s_args s) prepared) fs in
      (fs, match out with Ok succeeded => if succeeded then 0%Z else 1%Z | Raise _ => 1%Z end)
  end.
End Run.
