(** The plot commands: which solutions are read, what they are called, and what becomes of the figure.

    Models src/disc_solver/analyse/utils.py lines 144-248 and 330-471 (the wrappers of the commands and of the plot functions) and
    lines 512-526 (plot_output_wrapper), on top of [Model_Run].  Opening a file and reading its run is an argument, [load]; so is
    the function that draws.  Styles, figure sizes and line styles are left out: they only change the appearance. *)
From Coq Require Import String List Bool ZArith.
From Verif Require Import Lib_Py Model_Run.
Import ListNotations.
Open Scope string_scope. Open Scope list_scope.

(** The fields of a run that the wrappers read: config_filename, config_input.label and use_E_r. *)
Record run_info := mk_run_info { ri_config_filename : string; ri_label : string; ri_use_E_r : bool }.

Section Commands.
Context {Sol Fig : Type}.
Definition run := Model_Run.run Sol run_info.

(** A finished figure: what was drawn, its title, and whether the version is written below it. *)
Record drawing := mk_drawing { dr_fig : Fig; dr_title : option string; dr_version : bool }.
(** What a command leaves behind: a file with the figure, or a window that shows it. *)
Inductive effect := Saved (file : string) (d : drawing) | Shown (d : drawing).

(** utils.py:155-158 and 200-203: "{}:{}".format *)
Definition colon (a b : string) : string := (a ++ ":" ++ b)%string.
Definition default_filename (r : run) : string := colon (ri_config_filename (r_info r)) (ri_label (r_info r)).
Definition or_else {A : Type} (o : option A) (d : A) : A := match o with Some a => a | None => d end.

(** utils.py:143-178.  [func] draws a solution; given None, or the placeholder of a run without final solution, every plot
    function fails when it reads an attribute of it. *)
Definition single_solution_plotter (func : Sol -> bool -> res Fig) (h5file : run) (solution title filename : option string)
    (with_version : bool) : res drawing :=
  let solution := or_else solution "0" in
  let filename := or_else filename (default_filename h5file) in
  let! s := get_solutions h5file (Some solution) in
  let! fig := match s with Final s => func s (ri_use_E_r (r_info h5file)) | _ => Raise AttributeError end in
  Ok (mk_drawing fig (Some (or_else title (colon filename solution))) with_version).

(** A generator: the values it yields, in order; it ends after an exception. *)
Definition gen (A : Type) := list (res A).
Fixpoint consume {A : Type} (g : gen A) : res (list A) :=
  match g with
  | [] => Ok []
  | Raise e :: _ => Raise e
  | Ok a :: t => let! l := consume t in Ok (a :: l)
  end.
(** utils.py:200-211: the solutions with their names, and the (name, filename) pairs of the warnings.  The names of solutions are
    always given (line 205). *)
Fixpoint solution_loader (solns : gen (run * string * option string)) : gen (string * Sol) * list (string * string) :=
  match solns with
  | [] => ([], [])
  | Raise e :: _ => ([Raise e], [])
  | Ok (r, name, filename) :: t =>
      let filename := or_else filename (default_filename r) in
      match get_solutions r (Some name) with
      | Raise e => ([Raise e], [])
      | Ok FinalNone => let '(l, w) := solution_loader t in (l, (name, filename) :: w)
      | Ok Unset => ([Raise AttributeError], [])      (* the placeholder is yielded and fails when it is drawn *)
      | Ok (Final soln) => let '(l, w) := solution_loader t in (Ok (colon filename name, soln) :: l, w)
      end
  end.
(** utils.py:181-226.  [func] gets the number of solutions and the solutions.  The plot functions draw
    for … in zip(solutions, colors) with at least as many colours as solutions (C97), so they consume the generator. *)
Definition multiple_solution_plotter (func : nat -> list (string * Sol) -> res Fig) (num_solutions : nat)
    (solution_pairs : gen (run * string * option string)) (title : option string) (with_version : bool)
    : res drawing * list (string * string) :=
  let '(g, warnings) := solution_loader solution_pairs in
  (let! l := consume g in
   let! fig := func num_solutions l in
   Ok (mk_drawing fig title with_version), warnings).

(** utils.py:512-526: the effects and what is returned. *)
Definition plot_output_wrapper (file : option string) (show close : bool) (fig : drawing) : list effect * option drawing :=
  ((match file with Some f => [Saved f fig] | None => [] end) ++ (if show then [Shown fig] else []),
   if close then None else Some fig).

(** utils.py:252-283 and 297-311: the options of the commands. *)
Record out_args := mk_out_args { oa_filename : option string; oa_show : bool; oa_title : option string; oa_with_version : bool }.

(** utils.py:330-370 and 461-472 with a single_solution_plotter in between, as in plot.py:61-91: FILE RANGE [options].  The
    second component is what the command leaves behind. *)
Definition single_command (load : string -> res run) (func : Sol -> bool -> res Fig) (soln_file soln_range : string) (o : out_args)
    : res (option drawing) * list effect :=
  match (let! r := load soln_file in
         single_solution_plotter func r (Some soln_range) (oa_title o) (Some soln_file) (oa_with_version o)) with
  | Raise e => (Raise e, [])
  | Ok fig => let '(effects, ret) := plot_output_wrapper (oa_filename o) (oa_show o) true fig in (Ok ret, effects)
  end.

(** utils.py:241-244. *)
Fixpoint file_loader (load : string -> res run) (pairs : list (string * string)) : gen (run * string * option string) :=
  match pairs with
  | [] => []
  | (filename, index_str) :: t =>
      match load filename with
      | Raise e => [Raise e]
      | Ok r => Ok (r, index_str, Some filename) :: file_loader load t
      end
  end.
(** utils.py:373-411 and 230-249, as in compare_plot.py:42-68: -r FILE RANGE, any number of times.  Without any -r the key
    soln_pairs is missing, the parser having no defaults (lines 389 and 407). *)
Definition multi_command (load : string -> res run) (func : nat -> list (string * Sol) -> res Fig)
    (runs : list (string * string)) (o : out_args) : res (option drawing) * list effect * list (string * string) :=
  match runs with
  | [] => (Raise KeyError, [], [])
  | _ =>
      let '(d, warnings) := multiple_solution_plotter func (List.length runs) (file_loader load runs) (oa_title o) (oa_with_version o) in
      match d with
      | Raise e => (Raise e, [], warnings)
      | Ok fig => let '(effects, ret) := plot_output_wrapper (oa_filename o) (oa_show o) true fig in (Ok ret, effects, warnings)
      end
  end.

(** utils.py:414-458: all solutions of a file, sorted by number. *)
Fixpoint fetch (d : solutions Sol) (names : list string) : res (list (string * Sol)) :=
  match names with
  | [] => Ok []
  | n :: t => let! s := dgetitem n d in let! l := fetch d t in Ok ((n, s) :: l)
  end.
Definition all_solutions (load : string -> res run) (soln_file : string) : res (list (string * Sol)) :=
  let! r := load soln_file in
  let! names := sorted_by_int (dkeys (r_solutions r)) in
  fetch (r_solutions r) names.
End Commands.
Arguments run : clear implicits. Arguments drawing : clear implicits. Arguments effect : clear implicits.
