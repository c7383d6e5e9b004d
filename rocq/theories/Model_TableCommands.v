(** The command lines of ds-tocsv, ds-tocfg, ds-stats and ds-dumpcsv, and what they leave in the files.

    Models analyse/dump_csv.py 12-45, analyse/dump_config.py 9-52, analyse/stats.py 301-358 and utils.py 329-348
    (open_or_stream), on top of Model_Options (the command lines) and Model_Tables (the tables).

    A file system is the contents of the files by name; opening for writing empties a file, opening for appending keeps it, both
    create it.  What was written before an exception is in the file (open_or_stream does not close it then; the process ends and
    the text is written).  Opening always succeeds.  Reading a result file, the text of a configuration file and standard input
    are arguments; result files are read before any output here, while the commands over many files read them as they
    write (they do not write to a result file). *)
From Coq Require Import String List Bool.
From Verif Require Import Lib_Py Model_Format Model_Inputs Model_Csv Model_Tables Model_Options Model_Run.
Import ListNotations.
Open Scope string_scope. Open Scope list_scope.

Record world := mk_world { w_files : dict string; w_stdout : string }.
Inductive mode := Append | Write.
(** utils.py 329-348 with a text: [body] is given what the stream holds at that point and answers what it holds at the end. *)
Definition open_or_stream (w : world) (filename : string) (m : mode) (body : string -> string * option exn) : world * option exn :=
  if String.eqb filename "-" then
    let '(out, e) := body (w_stdout w) in (mk_world (w_files w) out, e)
  else
    let old := match m, dget filename (w_files w) with Append, Some s => s | _, _ => "" end in
    let '(out, e) := body old in (mk_world (dset filename out (w_files w)) (w_stdout w), e).

(** A text argument. *)
Definition text_arg (k : string) (args : values) : res string :=
  match dget k args with Some (VStr s) => Ok s | Some _ => Raise TypeError | None => Raise KeyError end.
Definition bool_arg (k : string) (args : values) : bool := match dget k args with Some (VBool b) => b | _ => false end.

Inductive table_outcome := TableUsage | Ran (r : world * option exn).

Section Commands.
Context {Soln : Type}.
Variables (E : env) (rd : readers).
Variable (I : Type).
(** Reading one result file for one solution; soln.solution_input; soln_file.config_input.label *)
Variable load : string -> res (run Soln I).
Variable input_of : Soln -> val.
Variable label_of : I -> res val.
(** The text configparser writes. *)
Variable render : cfg_file -> string.

Definition the_solution (s : final_state Soln) : res Soln := match s with Model_Run.Final s => Ok s | FinalNone | Unset => Raise AttributeError end.
(** The attributes of an input as a dict (attr.asdict, not recursing into values here). *)
Definition asdict (v : val) : dict val := match v with VObj _ fs => fs | _ => [] end.

(** dump_csv.py 12-18 *)
Definition tocsv_options : list opt := [mk_opt "--file" "file" (One Text) (Some (VStr "-")); switch "--with-header" "with_header"].
(** dump_config.py 9-14 *)
Definition tocfg_options : list opt := [mk_opt "--file" "file" (One Text) (Some (VStr "-"))].

(** dump_csv.py 49-62, given the arguments: nothing is opened unless the solution is found. *)
Definition dump_csv_file (w : world) (r : run Soln I) (soln_range output_file : string) (with_header : bool) : world * option exn :=
  match (let! s := get_solutions r (Some soln_range) in the_solution s) with
  | Raise e => (w, Some e)
  | Ok s => open_or_stream w output_file Append (fun old => dump_csv E (fun s => asdict (input_of s)) old s with_header)
  end.
(** dump_config.py 44-52: the file is opened, and emptied, before the conversion. *)
Definition dump_cfg_file (w : world) (r : run Soln I) (soln_range output_file : string) : world * option exn :=
  match (let! s := get_solutions r (Some soln_range) in the_solution s) with
  | Raise e => (w, Some e)
  | Ok s => open_or_stream w output_file Write (fun old =>
      match (let! label := label_of (r_info r) in let! c := to_config_input E label (input_of s) in to_conf_file c) with
      | Ok f => ((old ++ render f)%string, None)
      | Raise e => (old, Some e)
      end)
  end.

Definition fails (w : world) {A} (r : res A) (f : A -> world * option exn) : world * option exn :=
  match r with Ok a => f a | Raise e => (w, Some e) end.
(** dump_csv.py 21-45 and dump_config.py 17-40 under analyse/utils.py 330-370 and 461-472. *)
Definition tocsv (w : world) (cl : command_line) : table_outcome :=
  match parse_args rd (single_parser tocsv_options []) cl with
  | None => TableUsage
  | Some args => Ran (
      fails w (text_arg "soln_file" args) (fun soln_file =>
      fails w (text_arg "soln_range" args) (fun soln_range =>
      fails w (text_arg "file" args) (fun output_file =>
      fails w (load soln_file) (fun r => dump_csv_file w r soln_range output_file (bool_arg "with_header" args))))))
  end.
Definition tocfg (w : world) (cl : command_line) : table_outcome :=
  match parse_args rd (single_parser tocfg_options []) cl with
  | None => TableUsage
  | Some args => Ran (
      fails w (text_arg "soln_file" args) (fun soln_file =>
      fails w (text_arg "soln_range" args) (fun soln_range =>
      fails w (text_arg "file" args) (fun output_file =>
      fails w (load soln_file) (fun r => dump_cfg_file w r soln_range output_file)))))
  end.

(** stats.py 312-338: any number of file names (nargs='*'). *)
Definition many_file_options : list opt := [mk_opt "--file" "file" (One Text) (Some (VStr "-")); switch "--with-stdin" "with_stdin"].
Definition many_file_parser : parser := mk_parser [] (logging_options ++ many_file_options) [stderr_group].
Variable stat : nat -> Soln -> res (string -> val).
Variable read : string -> list (string * option Soln) * @file_end Soln.
(** stats.py 341-348, 351-358; [write] is write_stats or write_inputs. *)
Definition many_file_main (write : string -> list (string * string * option Soln) -> string * option exn) (w : world) (stdin : list string)
    (cl : command_line) : table_outcome :=
  match parse_args rd many_file_parser (mk_command_line [] (cl_options cl)) with
  | None => TableUsage
  | Some args => Ran (
      fails w (text_arg "file" args) (fun output_file =>
      let solutions := get_all_solutions read (get_all_files (cl_positionals cl) stdin (bool_arg "with_stdin" args)) in
      open_or_stream w output_file Append (fun old => write old solutions)))
  end.
Definition stats_main : world -> list string -> command_line -> table_outcome :=
  many_file_main (write_stats E (fun s => asdict (input_of s)) stat).
Definition dump_csv_inputs_main : world -> list string -> command_line -> table_outcome :=
  many_file_main (write_inputs E (fun s => asdict (input_of s))).
End Commands.
