(** The command lines of the analysis commands: how a parsed option reaches the function that draws.

    Models analyse/utils.py (the option groups 253-287, their extraction 290-327, the three entry point wrappers
    330-458, analysis_func_wrapper 461-472, the two plot wrappers 143-226), logging.py 19-38 (the logging options every
    command has), utils.py 351-379 (main_entry_point_wrapper), and, for each command installed by setup.py 49-90, its
    parser, its argument extraction, its main function, and the signatures of its plot and drawing functions.

    argparse is modelled as follows (no line of /repo): a command line is its positional arguments and the list of its
    option occurrences in order, each with the texts given to it.  Abbreviated options, "-q"/"-v"/"-r" and
    "--opt=value" are taken as the same occurrence of the full option name.  Usage errors, --help and --version exit
    before anything is read ([Exit]).  An option without default is absent from the namespace unless given
    (argument_default=SUPPRESS), a text default is read like a given text.  Python keyword calls are [bind]: a repeated,
    unknown or missing keyword is a TypeError.  Reading a number from a text is an argument of the model. *)
From Coq Require Import String List Bool ZArith Reals.
From Verif Require Import Lib_Py Model_Filter.
Import ListNotations.
Open Scope string_scope. Open Scope list_scope.

Inductive value :=
| VNone | VBool (b : bool) | VStr (s : string) | VNum (r : R) | VInt (z : Z) | VList (l : list value)
| VDict (d : list (string * value)).

Definition values := list (string * value).

(** float(s) / int(s) of a text; None is ValueError. *)
Record readers := mk_readers { num_of : string -> option R; int_of : string -> option Z }.

(** ** argparse *)

(** type= and choices=: [Text] no type; [Number] float; [Whole] int; [NumberOrNone] utils.py 36, a number or None when
    the text is not one; [Choice] one of the listed texts. *)
Inductive conversion := Text | Number | Whole | NumberOrNone | Choice (l : list string).
(** action= and nargs= *)
Inductive action := Flag (b : bool) | One (c : conversion) | Two (c : conversion) | AppendTwo.
Record opt := mk_opt { o_flag : string; o_dest : string; o_action : action; o_default : option value }.

Definition convert (rd : readers) (c : conversion) (s : string) : option value :=
  match c with
  | Text => Some (VStr s)
  | Number => match num_of rd s with Some r => Some (VNum r) | None => None end
  | Whole => match int_of rd s with Some z => Some (VInt z) | None => None end
  | NumberOrNone => Some (match num_of rd s with Some r => VNum r | None => VNone end)
  | Choice l => if existsb (String.eqb s) l then Some (VStr s) else None
  end.

(** The value an occurrence stores; [old] is the value stored so far. *)
Definition stored (rd : readers) (a : action) (old : option value) (texts : list string) : option value :=
  match a, texts with
  | Flag b, [] => Some (VBool b)
  | One c, [s] => convert rd c s
  | Two c, [s; t] =>
      match convert rd c s, convert rd c t with Some u, Some v => Some (VList [u; v]) | _, _ => None end
  | AppendTwo, [s; t] =>
      Some (VList (match old with Some (VList l) => l | _ => [] end ++ [VList [VStr s; VStr t]]))
  | _, _ => None
  end.

(** A text default goes through the conversion of the option. *)
Definition default_value (rd : readers) (o : opt) : option value :=
  match o_default o, o_action o with
  | Some (VStr s), One c => convert rd c s
  | d, _ => d
  end.

Record parser := mk_parser { p_positionals : list (string * conversion); p_options : list opt; p_exclusive : list (list string) }.

Record command_line := mk_command_line { cl_positionals : list string; cl_options : list (string * list string) }.

Fixpoint find_opt (flag : string) (l : list opt) : option opt :=
  match l with [] => None | o :: t => if String.eqb flag (o_flag o) then Some o else find_opt flag t end.

Fixpoint take_options (rd : readers) (opts : list opt) (given : list (string * list string)) (ns : values) : option values :=
  match given with
  | [] => Some ns
  | (flag, texts) :: t =>
      match find_opt flag opts with
      | None => None
      | Some o => match stored rd (o_action o) (dget (o_dest o) ns) texts with
                  | None => None
                  | Some v => take_options rd opts t (dset (o_dest o) v ns)
                  end
      end
  end.

Fixpoint take_positionals (rd : readers) (ps : list (string * conversion)) (texts : list string) (ns : values) : option values :=
  match ps, texts with
  | [], [] => Some ns
  | (p, c) :: ps', s :: t => match convert rd c s with Some v => take_positionals rd ps' t (dset p v ns) | None => None end
  | _, _ => None
  end.

(** Two different options of one exclusive group are a usage error. *)
Definition conflict (group : list string) (given : list (string * list string)) : bool :=
  existsb (fun a => existsb (fun b => negb (String.eqb a b) && existsb (String.eqb b) (map fst given)) group
                    && existsb (String.eqb a) (map fst given)) group.

Fixpoint defaults (rd : readers) (opts : list opt) (ns : values) : values :=
  match opts with
  | [] => ns
  | o :: t => defaults rd t (match default_value rd o with
                             | Some v => if dmem (o_dest o) ns then ns else dset (o_dest o) v ns
                             | None => ns
                             end)
  end.

(** parser.parse_args(argv); None: usage error, the process exits. *)
Definition parse_args (rd : readers) (p : parser) (cl : command_line) : option values :=
  if existsb (fun g => conflict g (cl_options cl)) (p_exclusive p) then None
  else match take_options rd (p_options p) (cl_options cl) (defaults rd (p_options p) []) with
       | Some ns => take_positionals rd (p_positionals p) (cl_positionals cl) ns
       | None => None
       end.

(** ** Options *)

(** logging.py 19-38 *)
Definition LOG_LEVELS := ["critical"; "error"; "warning"; "notice"; "info"; "debug"].
Definition logging_options : list opt :=
  [mk_opt "--log-file" "log_file" (One Text) None;
   mk_opt "--log-file-level" "log_file_level" (One (Choice LOG_LEVELS)) (Some (VStr "debug"));
   mk_opt "--stderr-level" "stderr_level" (One (Choice LOG_LEVELS)) (Some (VStr "notice"));
   mk_opt "--quiet" "quiet" (Flag true) (Some (VBool false));
   mk_opt "--verbose" "verbose" (Flag true) (Some (VBool false))].
Definition stderr_group := ["--stderr-level"; "--quiet"; "--verbose"].

(** analyse/utils.py 34 *)
Definition DEFAULT_MPL_STYLE := VStr "bmh".
(** analyse/utils.py 253-262 *)
Definition common_output_plot_options : list opt :=
  [mk_opt "--show" "show" (Flag true) (Some (VBool false));
   mk_opt "--filename" "filename" (One Text) (Some VNone);
   mk_opt "--figsize" "figsize" (Two NumberOrNone) (Some VNone)].
(** analyse/utils.py 265-275 *)
Definition common_plot_appearence_options : list opt :=
  [mk_opt "--title" "title" (One Text) (Some VNone);
   mk_opt "--style" "style" (One Text) (Some DEFAULT_MPL_STYLE);
   mk_opt "--no-show-version" "with_version" (Flag false) (Some (VBool true))].
(** analyse/utils.py 278-287 *)
Definition common_plotting_options : list opt :=
  common_output_plot_options ++ common_plot_appearence_options ++
  [mk_opt "--start" "start" (One NumberOrNone) (Some (VStr "0"));
   mk_opt "--stop" "stop" (One NumberOrNone) (Some (VStr "90"));
   mk_opt "--linestyle" "linestyle" (One Text) (Some (VStr "-"))].

(** args.get(k, d) *)
Definition get (k : string) (d : value) (args : values) : value := match dget k args with Some v => v | None => d end.

(** f( **a, **b ): the keywords of a call; a repeated keyword is a TypeError. *)
Fixpoint unique (kw : values) : bool :=
  match kw with [] => true | (k, _) :: t => negb (dmem k t) && unique t end.
Definition merged (l : list values) : res values :=
  if unique (concat l) then Ok (concat l) else Raise TypeError.

(** analyse/utils.py 290-298 *)
Definition get_common_plot_appearence_args (args : values) : res values :=
  let! title := dgetitem "title" args in
  let! style := dgetitem "style" args in
  let! with_version := dgetitem "with_version" args in
  Ok [("title", title); ("mpl_style", style); ("with_version", with_version)].
(** analyse/utils.py 305-307 *)
Definition figure_args (figsize : value) : list (string * value) :=
  match figsize with VNone => [] | v => [("figsize", v)] end.
(** analyse/utils.py 301-313 *)
Definition get_common_plot_output_args (args : values) : res values :=
  let figargs := figure_args (get "figsize" VNone args) in
  let! show := dgetitem "show" args in
  let! filename := dgetitem "filename" args in
  Ok [("show", show); ("plot_filename", filename); ("figargs", VDict figargs)].
(** analyse/utils.py 316-327 *)
Definition get_common_plot_args (args : values) : res values :=
  let! appearence := get_common_plot_appearence_args args in
  let! output := get_common_plot_output_args args in
  let! start := dgetitem "start" args in
  let! stop := dgetitem "stop" args in
  let! linestyle := dgetitem "linestyle" args in
  merged [appearence; output; [("start", start); ("stop", stop); ("linestyle", linestyle)]].

(** ** Keyword calls *)

(** Keyword parameters of a function; None: no default. *)
Definition signature := list (string * option value).

Fixpoint bind_params (s : signature) (kw : values) : res values :=
  match s with
  | [] => Ok []
  | (k, d) :: t =>
      match match dget k kw with Some v => Some v | None => d end with
      | Some v => let! r := bind_params t kw in Ok ((k, v) :: r)
      | None => Raise TypeError
      end
  end.
Definition accepted (s : signature) (kw : values) : bool := forallb (fun p => dmem (fst p) s) kw.
(** func( **kw ) with the given keyword parameters: the local variables of the call. *)
Definition bind (s : signature) (kw : values) : res values :=
  if unique kw && accepted s kw then bind_params s kw else Raise TypeError.
(** The same with a final **kwargs. *)
Definition bind_open (s : signature) (kw : values) : res (values * values) :=
  if unique kw then let! r := bind_params s kw in Ok (r, filter (fun p => negb (dmem (fst p) s)) kw) else Raise TypeError.

(** f(k1=x1, k2=x2, ...) where the x are local variables. *)
Fixpoint forward (l : list (string * string)) (locals : values) : res values :=
  match l with
  | [] => Ok []
  | (k, x) :: t =>
      match dget x locals with
      | Some v => let! r := forward t locals in Ok ((k, v) :: r)
      | None => Raise NameError
      end
  end.
Definition same (l : list string) : list (string * string) := map (fun k => (k, k)) l.

(** ** Commands *)

(** What the drawing function and the wrappers around it end up with. *)
Record drawn := mk_drawn {
  d_args : values;            (* keyword arguments of the drawing function *)
  d_locals : values;          (* parameters of the plot function that calls it *)
  d_range : value;            (* the solution asked for; for several, the list of (file, solution) *)
  d_title : value;            (* title given to the wrapper, VNone: the default title *)
  d_figargs : value; d_style : value; d_version : value;
  d_file : value; d_show : value; d_close : value }.

(** How the drawing function is wrapped: analyse/utils.py 143-178, 181-226, compute_jacobian.py 229-245 inside the
    first, or not at all (diverge_plot.py 152-182, conserve_plot.py 81-105). *)
Inductive wrapping := Single | SingleJacobian | Multiple | Unwrapped.

Record command := mk_command {
  c_parser : parser;
  c_split : values -> res (list (string * values));   (* cmd_parser_splitters *)
  c_main : list string;                               (* keyword parameters of the main function *)
  c_plot : signature;                                 (* keyword parameters of the plot function *)
  c_forward : list (string * string);                 (* keywords the plot function passes on *)
  c_wrapping : wrapping;
  c_draw : signature }.                               (* keyword parameters of the drawing function *)

(** analyse/utils.py 143-153 and 181-190: parameters taken by the wrappers themselves. *)
Definition single_params : signature :=
  [("title", Some VNone); ("filename", Some VNone); ("figargs", Some VNone); ("mpl_style", Some DEFAULT_MPL_STYLE);
   ("with_version", Some (VBool true))].
Definition multiple_params : signature :=
  [("title", Some VNone); ("figargs", Some VNone); ("mpl_style", Some DEFAULT_MPL_STYLE);
   ("with_version", Some (VBool true)); ("num_solutions", Some VNone)].
(** compute_jacobian.py 229-245; the Jacobians and angles it adds are arrays, here opaque. *)
Definition jacobian_params : signature := [("eps", None); ("use_E_r", None); ("θ_scale", Some (VNum 1))].

(** The drawing function under its wrapper; [use_E_r] is the flag of the file. *)
Definition draw (w : wrapping) (s : signature) (use_E_r : bool) (num : value) (kw : values) : res (values * values) :=
  match w with
  | Single =>
      let! (own, rest) := bind_open single_params kw in
      let! a := bind s (("use_E_r", VBool use_E_r) :: rest) in
      Ok (own, a)
  | SingleJacobian =>
      let! (own, rest) := bind_open single_params kw in
      let! (jac, rest) := bind_open jacobian_params (("use_E_r", VBool use_E_r) :: rest) in
      let! a := bind s (("jacobians", VNone) :: ("angles", VNone) :: rest) in
      Ok (own, jac ++ a)
  | Multiple =>
      let! (own, rest) := bind_open multiple_params kw in
      let n := match dget "num_solutions" own with Some VNone | None => num | Some v => v end in
      let! a := bind s (("num_solutions", n) :: rest) in
      Ok (own, a)
  | Unwrapped =>
      let! a := bind s kw in
      Ok ([], a)
  end.

(** main(...) (cmd_args come from the splitters), the plot function and the drawing function.  [extra]: the keywords
    the entry point adds for main; [added]: those added for the plot function; [pairs]: its positional argument when
    it draws several solutions. *)
Definition call_plot (c : command) (use_E_r : bool) (num : value) (pairs : option value) (extra added : values) (args : values)
    : res drawn :=
  let! cmd_args := c_split c args in
  let! _ := bind (map (fun k => (k, None)) (c_main c)) (extra ++ map (fun p => (fst p, VDict (snd p))) cmd_args) in
  let! kw := merged (added :: map snd cmd_args) in
  let! locals := bind (c_plot c) kw in
  let! passed := forward (c_forward c) locals in
  let! (own, drawing) := draw (c_wrapping c) (c_draw c) use_E_r num passed in
  let local k := get k VNone (own ++ locals) in
  Ok (mk_drawn drawing locals (match pairs with Some v => v | None => get "soln_range" VNone locals end) (local "title") (local "figargs") (local "mpl_style")
               (local "with_version") (get "plot_filename" VNone locals) (get "show" VNone locals) (get "close" VNone locals)).

(** Result of a command line: a usage error, or the call. *)
Inductive outcome := Exit | Called (r : res drawn).

(** analyse/utils.py 330-370 with 461-472: the two positionals, soln_range and filename are added. *)
Definition run_single (rd : readers) (c : command) (use_E_r : bool) (cl : command_line) : outcome :=
  match parse_args rd (c_parser c) cl with
  | None => Exit
  | Some args => Called (
      let! soln_file := dgetitem "soln_file" args in
      let! soln_range := dgetitem "soln_range" args in
      call_plot c use_E_r VNone None [("soln_range", soln_range)] [("soln_range", soln_range); ("filename", soln_file)] args)
  end.

(** len(soln_pairs) *)
Definition len (v : value) : value := match v with VList l => VInt (Z.of_nat (List.length l)) | _ => VNone end.
(** analyse/utils.py 373-411 with 229-250. *)
Definition run_multiple (rd : readers) (c : command) (cl : command_line) : outcome :=
  match parse_args rd (c_parser c) cl with
  | None => Exit
  | Some args => Called (
      let! pairs := dgetitem "soln_pairs" args in
      call_plot c false (len pairs) (Some pairs) [] [("num_solutions", len pairs)] args)
  end.

(** analyse/utils.py 414-458. *)
Definition run_all (rd : readers) (c : command) (cl : command_line) : outcome :=
  match parse_args rd (c_parser c) cl with
  | None => Exit
  | Some args => Called (
      let! soln_file := dgetitem "soln_file" args in
      call_plot c false VNone None [("solutions", VNone); ("filename", soln_file)] [("filename", soln_file)] args)
  end.

(** main_entry_point_wrapper (utils.py 351-379) and the first lines of the wrappers: the parser of a command. *)
Definition single_parser (opts : list opt) (groups : list (list string)) : parser :=
  mk_parser [("soln_file", Text); ("soln_range", Text)] (logging_options ++ opts) (stderr_group :: groups).
Definition multiple_parser (opts : list opt) : parser :=
  mk_parser [] (logging_options ++ mk_opt "--runs" "soln_pairs" AppendTwo None :: opts) [stderr_group].
Definition all_parser (opts : list opt) : parser :=
  mk_parser [("soln_file", Text)] (logging_options ++ opts) [stderr_group].

Definition switch (flag dest : string) : opt := mk_opt flag dest (Flag true) (Some (VBool false)).
Definition off : option value := Some (VBool false).
Definition on : option value := Some (VBool true).

(** Splitters {"common_plot_args": get_common_plot_args} and with "plot_args". *)
Definition split_common (args : values) : res (list (string * values)) :=
  let! common := get_common_plot_args args in Ok [("common_plot_args", common)].
Definition split_with (plot_args : values -> res values) (args : values) : res (list (string * values)) :=
  let! common := get_common_plot_args args in
  let! plot := plot_args args in
  Ok [("common_plot_args", common); ("plot_args", plot)].

(** Keyword parameters nearly every plot function of one solution has, and those it passes on, e.g. derivs_plot.py
    45-68. *)
Definition plot_params (linestyle : string) : signature :=
  [("soln_range", Some VNone); ("plot_filename", Some VNone); ("show", off); ("linestyle", Some (VStr linestyle));
   ("start", Some (VNum 0)); ("stop", Some (VNum 90)); ("figargs", Some VNone); ("title", Some VNone); ("close", on);
   ("filename", None); ("mpl_style", Some DEFAULT_MPL_STYLE); ("with_version", on)].
Definition passed_on : list (string * string) :=
  same ["linestyle"; "start"; "stop"; "figargs"; "title"; "filename"; "mpl_style"; "with_version"].
(** Keyword parameters of nearly every drawing function. *)
Definition draw_params (linestyle : string) : signature :=
  [("linestyle", Some (VStr linestyle)); ("start", Some (VNum 0)); ("stop", Some (VNum 90)); ("use_E_r", off)].

Definition simple_command (linestyle : string) : command :=
  mk_command (single_parser common_plotting_options []) split_common ["soln_range"; "common_plot_args"]
             (plot_params linestyle) passed_on Single (draw_params linestyle).

(** params_plot.py 15-61, validate_plot.py 24-70, hydro_check_plot.py 17-63, acc_plot.py 23-69,
    surface_density_plot.py 15-63: the same options, the same parameters, linestyle "." by default. *)
Definition params_command := simple_command ".".
Definition validate_command := simple_command ".".
Definition hydro_check_command := simple_command ".".
Definition acc_command := simple_command ".".
Definition surface_density_command := simple_command ".".
(** j_e_plot.py 57-105: linestyle "-". *)
Definition j_e_command := simple_command "-".

(** A command of one solution with further options. *)
Definition extended_command (linestyle : string) (opts : list opt) (groups : list (list string)) (plot_args : values -> values)
    (extra : signature) (w : wrapping) (draw_sig : signature) : command :=
  mk_command (single_parser (common_plotting_options ++ opts) groups) (split_with (fun args => Ok (plot_args args)))
             ["soln_range"; "common_plot_args"; "plot_args"] (plot_params linestyle ++ extra)
             (passed_on ++ same (map fst extra)) w draw_sig.

(** plot.py 19-99 *)
Definition plot_command : command :=
  extended_command "-"
    [mk_opt "--v_θ" "v_θ" (One (Choice ["log"; "linear"])) (Some (VStr "linear"));
     switch "--with-slow" "with_slow"; switch "--with-alfven" "with_alfven"; switch "--with-fast" "with_fast";
     switch "--with-sonic" "with_sonic"; switch "--portrait" "portrait"; switch "--hide-roots" "hide_roots";
     switch "--hide-sonic-angle" "hide_sonic_angle"] []
    (fun args =>
       [("v_θ_scale", get "v_θ" (VStr "linear") args); ("with_slow", get "with_slow" (VBool false) args);
        ("with_alfven", get "with_alfven" (VBool false) args); ("with_fast", get "with_fast" (VBool false) args);
        ("with_sonic", get "with_sonic" (VBool false) args); ("portrait", get "portrait" (VBool false) args);
        ("hide_roots", get "hide_roots" (VBool false) args);
        ("hide_sonic_angle", get "hide_sonic_angle" (VBool false) args)])
    [("with_slow", off); ("with_alfven", off); ("with_fast", off); ("with_sonic", off);
     ("v_θ_scale", Some (VStr "linear")); ("portrait", off); ("hide_roots", off); ("hide_sonic_angle", off)]
    Single
    (draw_params "-" ++
     [("with_slow", off); ("with_alfven", off); ("with_fast", off); ("with_sonic", off);
      ("v_θ_scale", Some (VStr "linear")); ("portrait", off); ("hide_roots", off); ("hide_sonic_angle", off)]).

(** combine_plot.py 23-95 *)
Definition combine_command : command :=
  extended_command "-"
    [switch "--with-slow" "with_slow"; switch "--with-alfven" "with_alfven"; switch "--with-fast" "with_fast";
     switch "--with-sonic" "with_sonic"] []
    (fun args =>
       [("with_slow", get "with_slow" (VBool false) args); ("with_alfven", get "with_alfven" (VBool false) args);
        ("with_fast", get "with_fast" (VBool false) args); ("with_sonic", get "with_sonic" (VBool false) args)])
    [("with_slow", off); ("with_alfven", off); ("with_fast", off); ("with_sonic", off)]
    Single
    (draw_params "-" ++ [("with_slow", off); ("with_alfven", off); ("with_fast", off); ("with_sonic", off)]).

(** vert_plot.py 19-79: the parser also has --v_θ. *)
Definition vert_command : command :=
  extended_command "-"
    [mk_opt "--v_θ" "v_θ" (One (Choice ["log"; "linear"])) (Some (VStr "linear")); switch "--with-sonic" "with_sonic"] []
    (fun args => [("with_sonic", get "with_sonic" (VBool false) args)])
    [("with_sonic", off)]
    Single (draw_params "-" ++ [("with_sonic", off)]).

(** derivs_plot.py 15-74 *)
Definition derivs_command : command :=
  extended_command "." [switch "--nolog" "nolog"] [] (fun args => [("nolog", get "nolog" (VBool false) args)])
    [("nolog", off)] Single (draw_params "." ++ [("nolog", off)]).

(** taylor_plot.py 15-78 *)
Definition taylor_command : command :=
  extended_command "." [switch "--show-values" "show_values"] []
    (fun args => [("show_values", get "show_values" (VBool false) args)])
    [("show_values", off)] Single (draw_params "." ++ [("show_values", off)]).

(** component_plot.py 17-74 *)
Definition component_command : command :=
  extended_command "-" [mk_opt "--only" "only" (One Text) (Some VNone)] []
    (fun args => [("only", get "only" VNone args)])
    [("only", Some VNone)] Single (draw_params "-" ++ [("only", Some VNone)]).

(** 1e-10 *)
Definition default_eps : R := (/ 10 ^ 10)%R.
Definition eps_option : opt := mk_opt "--eps" "eps" (One Number) (Some (VNum default_eps)).
(** compute_jacobian.py 395-397, 423-425, 477-479: keyword parameters of three drawing functions. *)
Definition jacobian_draw : signature :=
  [("jacobians", None); ("angles", None); ("start", Some (VNum 0)); ("stop", Some (VNum 90)); ("linestyle", Some (VStr ","))].
(** compute_jacobian.py 37-96, 142-159, 248-290, 318-335: ds-jacobian-eigenvalue-plot, ds-jacobian-eigenvector-plot and
    ds-jacobian-eigennorm-plot have the same options and parameters. *)
Definition jacobian_command : command :=
  extended_command "." [eps_option] [] (fun args => [("eps", get "eps" (VNum default_eps) args)])
    [("eps", None)] SingleJacobian jacobian_draw.

(** compute_jacobian.py 99-139, 293-315, 586-590 *)
Definition eigenvector_coef_command : command :=
  extended_command "."
    [eps_option;
     mk_opt "--critical-point" "critical_point" (One (Choice ["slow"; "sonic"; "alfven"; "fast"])) (Some (VStr "sonic"));
     mk_opt "--local-eigvecs" "local_eigvecs" (Flag true) None;
     mk_opt "--global-eigvecs" "local_eigvecs" (Flag false) None]
    [["--local-eigvecs"; "--global-eigvecs"]]
    (fun args => [("eps", get "eps" (VNum default_eps) args); ("critical_point", get "critical_point" (VStr "sonic") args);
                  ("local_eigvecs", get "local_eigvecs" (VBool true) args)])
    [("eps", None); ("local_eigvecs", on); ("critical_point", Some (VStr "sonic"))]
    Single
    [("start", Some (VNum 0)); ("stop", Some (VNum 90)); ("linestyle", Some (VStr ".")); ("eps", None);
     ("local_eigvecs", on); ("use_E_r", None); ("critical_point", Some (VStr "sonic"))].

(** Plots of several solutions: compare_plot.py 16-72 (which has --v_θ), sonic_ratio_plot.py 16-63,
    phys_ratio_plot.py 36-83, v_deriv_cmp.py 17-64. *)
Definition multiple_plot_params : signature :=
  [("plot_filename", Some VNone); ("show", off); ("linestyle", Some (VStr "-")); ("start", Some (VNum 0));
   ("stop", Some (VNum 90)); ("figargs", Some VNone); ("title", Some VNone); ("close", on);
   ("mpl_style", Some DEFAULT_MPL_STYLE); ("with_version", on); ("num_solutions", Some VNone)].
Definition multiple_passed_on : list (string * string) :=
  same ["linestyle"; "start"; "stop"; "figargs"; "title"; "mpl_style"; "with_version"; "num_solutions"].
Definition multiple_draw : signature :=
  [("num_solutions", None); ("linestyle", Some (VStr "-")); ("start", Some (VNum 0)); ("stop", Some (VNum 90))].
Definition ratio_command : command :=
  mk_command (multiple_parser common_plotting_options) split_common ["common_plot_args"] multiple_plot_params
             multiple_passed_on Multiple multiple_draw.
Definition compare_command : command :=
  mk_command (multiple_parser (common_plotting_options ++
                [mk_opt "--v_θ" "v_θ" (One (Choice ["log"; "linear"])) (Some (VStr "linear"))]))
             (split_with (fun args => Ok [("v_θ_scale", get "v_θ" (VStr "linear") args)]))
             ["common_plot_args"; "plot_args"] (multiple_plot_params ++ [("v_θ_scale", Some (VStr "linear"))])
             (multiple_passed_on ++ same ["v_θ_scale"]) Multiple
             (multiple_draw ++ [("v_θ_scale", Some (VStr "linear")); ("use_E_r", off)]).

(** diverge_plot.py 60-66: list(parse_solution_filter(text)) *)
Definition solution_filter (v : value) : res value :=
  match v with
  | VStr s => let! l := parse_solution_filter s in Ok (VList (map VStr l))
  | v => Ok v
  end.
(** Plots of all solutions of a file.  diverge_plot.py 29-91, 93-96, 152-182. *)
Definition diverge_command : command :=
  mk_command (all_parser (common_plotting_options ++
                [switch "--with-slow" "with_slow"; switch "--with-alfven" "with_alfven"; switch "--with-fast" "with_fast";
                 mk_opt "--solutions" "solutions" (One Text) (Some VNone);
                 mk_opt "--hide-legend" "show_legend" (Flag false) (Some (VBool true))]))
             (split_with (fun args =>
                let! filter := solution_filter (get "solutions" VNone args) in
                Ok [("with_slow", get "with_slow" (VBool false) args); ("with_alfven", get "with_alfven" (VBool false) args);
                 ("with_fast", get "with_fast" (VBool false) args); ("show_legend", get "show_legend" (VBool true) args);
                 ("solution_filter", filter)]))
             ["solutions"; "common_plot_args"; "plot_args"; "filename"]
             [("plot_filename", Some VNone); ("show", off); ("start", Some (VNum 0)); ("stop", Some (VNum 90));
              ("figargs", Some VNone); ("title", Some VNone); ("linestyle", Some (VStr "-")); ("with_slow", off); ("close", on);
              ("mpl_style", Some DEFAULT_MPL_STYLE); ("with_version", on); ("with_alfven", off); ("with_fast", off);
              ("filename", None); ("show_legend", on); ("solution_filter", Some VNone)]
             (same ["start"; "stop"; "figargs"; "linestyle"; "with_slow"; "with_alfven"; "with_fast"; "show_legend"])
             Unwrapped
             [("figargs", Some VNone); ("start", Some (VNum 0)); ("stop", Some (VNum 90)); ("linestyle", Some (VStr "-"));
              ("with_slow", off); ("with_alfven", off); ("with_fast", off); ("show_legend", on)].

(** conserve_plot.py 20-58, 81-105 *)
Definition conserve_command : command :=
  mk_command (all_parser common_plotting_options) (split_with (fun _ => Ok []))
             ["solutions"; "common_plot_args"; "plot_args"; "filename"]
             [("plot_filename", Some VNone); ("show", off); ("start", Some (VNum 0)); ("stop", Some (VNum 90));
              ("figargs", Some VNone); ("title", Some VNone); ("linestyle", Some (VStr "-")); ("close", on);
              ("mpl_style", Some DEFAULT_MPL_STYLE); ("use_E_r", off); ("with_version", on); ("filename", None)]
             (same ["start"; "stop"; "figargs"; "linestyle"]) Unwrapped
             [("figargs", Some VNone); ("start", Some (VNum 0)); ("stop", Some (VNum 90)); ("linestyle", Some (VStr "-"))].

(** ** Trajectories: trajectory.py *)

(** trajectory.py 21-26 *)
Definition DEFAULT_V_START_POSITION := VList [VNum 2; VNum (/ 10)%R].
Definition DEFAULT_B_START_POSITION := VList [VNum 1; VNum 0].
Definition DEFAULT_V_MAX_STEPS := VInt 100000.
Definition DEFAULT_B_MAX_STEPS := VInt 1000000.
Definition DEFAULT_V_STEP_SCALING := VNum (/ 10 ^ 6)%R.
Definition DEFAULT_B_STEP_SCALING := VNum (/ 10 ^ 3)%R.
(** trajectory.py 122-140 *)
Definition trajectory_options : list opt :=
  [mk_opt "--v-start-position" "v_start_position" (Two Text) None;
   mk_opt "--v-max-steps" "v_max_steps" (One Whole) (Some DEFAULT_V_MAX_STEPS);
   mk_opt "--v-step-scaling" "v_step_scaling" (One Number) (Some DEFAULT_V_STEP_SCALING);
   mk_opt "--B-start-position" "B_start_position" (Two Text) None;
   mk_opt "--B-max-steps" "B_max_steps" (One Whole) (Some DEFAULT_B_MAX_STEPS);
   mk_opt "--B-step-scaling" "B_step_scaling" (One Number) (Some DEFAULT_B_STEP_SCALING);
   mk_opt "--no-max-v-angle" "with_max_v_angle" (Flag false) (Some (VBool true))].
(** (float(p[0]), float(p[1])) of the two texts of an option *)
Definition position (rd : readers) (v : value) : res value :=
  match v with
  | VList [VStr s; VStr t] =>
      match num_of rd s, num_of rd t with
      | Some x, Some y => Ok (VList [VNum x; VNum y])
      | _, _ => Raise ValueError
      end
  | _ => Raise TypeError
  end.
(** trajectory.py 164-198 *)
Definition get_trajectory_args (rd : readers) (args : values) : res values :=
  let! v_start := match get "v_start_position" VNone args with VNone => Ok DEFAULT_V_START_POSITION | v => position rd v end in
  let! B_start := match get "B_start_position" VNone args with VNone => Ok DEFAULT_B_START_POSITION | v => position rd v end in
  Ok [("v_start_position", v_start); ("v_max_steps", get "v_max_steps" DEFAULT_V_MAX_STEPS args);
      ("v_step_scaling", get "v_step_scaling" DEFAULT_V_STEP_SCALING args); ("B_start_position", B_start);
      ("B_max_steps", get "B_max_steps" DEFAULT_B_MAX_STEPS args);
      ("B_step_scaling", get "B_step_scaling" DEFAULT_B_STEP_SCALING args);
      ("with_max_v_angle", get "with_max_v_angle" VNone args)].

(** trajectory.py 143-150, 313-374 *)
Definition trajectory_draw : signature :=
  [("v_start_position", Some DEFAULT_V_START_POSITION); ("B_start_position", Some DEFAULT_B_START_POSITION);
   ("v_max_steps", Some DEFAULT_V_MAX_STEPS); ("B_max_steps", Some DEFAULT_B_MAX_STEPS);
   ("v_step_scaling", Some DEFAULT_V_STEP_SCALING); ("B_step_scaling", Some DEFAULT_B_STEP_SCALING);
   ("with_max_v_angle", on)].
Definition flow_command (rd : readers) : command :=
  mk_command (single_parser (trajectory_options ++ common_plot_appearence_options ++ common_output_plot_options) [])
             (fun args =>
                let! out := get_common_plot_output_args args in
                let! app := get_common_plot_appearence_args args in
                let! traj := get_trajectory_args rd args in
                Ok [("common_plot_output_args", out); ("common_plot_appearence_args", app); ("plot_args", traj)])
             ["soln_range"; "common_plot_output_args"; "common_plot_appearence_args"; "plot_args"]
             ([("soln_range", Some VNone); ("plot_filename", Some VNone); ("show", off); ("figargs", Some VNone);
               ("title", Some VNone); ("close", on); ("filename", None); ("mpl_style", Some DEFAULT_MPL_STYLE);
               ("with_version", on)] ++ trajectory_draw)
             (same (["figargs"; "title"; "filename"; "mpl_style"; "with_version"] ++ map fst trajectory_draw)) Single
             (trajectory_draw ++
              [("use_E_r", off); ("with_slow", off); ("with_sonic", on); ("with_alfven", off); ("with_fast", off);
               ("with_45_line", off); ("with_max_soln_angle", off)]).

(** trajectory.py 153-161, 201-236: ds-flow-file; [Called (Ok locals)] is reached when save_trajectory starts. *)
Definition flow_file_parser : parser :=
  single_parser (trajectory_options ++
                 [mk_opt "--stats-output-file" "stats_output_file" (One Text) (Some (VStr "stats-out.csv"));
                  mk_opt "--B-output-file" "B_output_file" (One Text) (Some (VStr "B-out.csv"));
                  mk_opt "--v-output-file" "v_output_file" (One Text) (Some (VStr "v-out.csv"))]) [].
Definition save_trajectory_params : signature :=
  [("soln_range", Some VNone); ("stats_output_file", None); ("B_output_file", None); ("v_output_file", None);
   ("v_start_position", Some DEFAULT_V_START_POSITION); ("B_start_position", Some DEFAULT_B_START_POSITION);
   ("v_max_steps", Some DEFAULT_V_MAX_STEPS); ("B_max_steps", Some DEFAULT_B_MAX_STEPS);
   ("v_step_scaling", Some DEFAULT_V_STEP_SCALING); ("B_step_scaling", Some DEFAULT_B_STEP_SCALING); ("filename", None)].
Definition get_trajectory_out_args (args : values) : res values :=
  let! stats := dgetitem "stats_output_file" args in
  let! B := dgetitem "B_output_file" args in
  let! v := dgetitem "v_output_file" args in
  Ok [("stats_output_file", stats); ("B_output_file", B); ("v_output_file", v)].
Definition run_flow_file (rd : readers) (cl : command_line) : option (res values) :=
  match parse_args rd flow_file_parser cl with
  | None => None
  | Some args => Some (
      let! out := get_trajectory_out_args args in
      let! traj := get_trajectory_args rd args in
      let! soln_file := dgetitem "soln_file" args in
      let! soln_range := dgetitem "soln_range" args in
      let! kw := merged [[("soln_range", soln_range); ("filename", soln_file)]; out; traj] in
      bind save_trajectory_params kw)
  end.
