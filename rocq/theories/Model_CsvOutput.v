(** What ds-csvrunner leaves in its output file and on standard output.

    Models solve/csvrunner.py 36-116 (the calls of print and the writes to the output, by the process that was started and by its
    workers) and the use of utils.py 329-348 there, on top of Model_Csv (the table) and Model_TableCommands (the streams).

    The workers' standard output is that of the process that was started.  What it has written before the workers start has been
    flushed (line 106); after that its texts and those of the workers come in any order that keeps its own.  Each call of print or
    writerow is taken to reach the stream in one piece.  The messages of a task after the first (sizes, the text of an error, an
    unfinished run) are an argument, and so is the text of a configuration. *)
From Coq Require Import String List Bool Permutation.
From Verif Require Import Lib_Py Model_Format Model_Inputs Model_Csv Model_TableCommands.
Import ListNotations.
Open Scope string_scope. Open Scope list_scope.

Inductive written := Table (text : string) | Message (text : string).
(** print(text). *)
Definition printed (text : string) : string := (text ++ String newline "")%string.
Definition no_solution_message : string := "No final solution found for input".
(** csvrunner.py 108-116: the row, or the message, for each result, and the exception that ends the loop. *)
Fixpoint result_writes (E : env) (results : list (res (option (dict val)))) : list written * option exn :=
  match results with
  | [] => ([], None)
  | Raise e :: _ => ([], Some e)
  | Ok None :: t => let '(rest, e) := result_writes E t in (Message (printed no_solution_message) :: rest, e)
  | Ok (Some d) :: t =>
      match dict_row E SOLUTION_INPUT_FIELDS d with
      | Raise e => ([], Some e)
      | Ok row => let '(rest, e) := result_writes E t in (Table row :: rest, e)
      end
  end.
Definition text_of_written (x : written) : string := match x with Table s | Message s => s end.
Definition tables (l : list written) : list string := flat_map (fun x => match x with Table s => [s] | Message _ => [] end) l.
Definition messages (l : list written) : list string := flat_map (fun x => match x with Table _ => [] | Message s => [s] end) l.
(** csvrunner.py 41-80: what one task prints.  [show] is the text of a configuration, [later] what is printed after it. *)
Definition task_prints (E : env) (show : val -> string) (later : dict val -> list string) (method : option solver) (overrides : option (dict val)) (input_dict : dict val) : list string :=
  match method with
  | None => []
  | Some _ =>
      match (let! c := construct E "ConfigInput" (dremove "solution_name" (dremove "filename" input_dict)) in add_overrides E overrides c) with
      | Raise _ => []
      | Ok config_input => map printed (("Config is " ++ show config_input)%string :: later input_dict)
      end
  end.
(** Two sequences of texts on one stream, each in its order. *)
Inductive merge : list string -> list string -> list string -> Prop :=
| merge_nil : merge [] [] []
| merge_left : forall x a b c, merge a b c -> merge (x :: a) b (x :: c)
| merge_right : forall x a b c, merge a b c -> merge a (x :: b) (x :: c).
(** csvrunner.py 88-116: from the files and the standard output [w], the command leaves [w'] and ends with [e].  The tasks are all
    finished by then (utils.py 393-394); the workers' texts [ws] are those of the tasks, in any order. *)
Definition csvrunner_leaves (E : env) (T : text_tools) (S : sniffer) (show : val -> string) (later : dict val -> list string)
  (method : option solver) (overrides : option (dict val)) (meta : list (string * string)) (input label output_file : string)
  (w w' : world) (e : option exn) : Prop :=
  match get_csv_inputs S input label with
  | Raise x => w' = w /\ e = Some x
  | Ok inputs =>
      let '(l, end_) := result_writes E (map (find_solution E T method overrides) inputs) in
      let head := (metadata meta ++ csv_row SOLUTION_INPUT_FIELDS)%string in
      exists ws chunks, Permutation ws (flat_map (task_prints E show later method overrides) inputs) /\
        if String.eqb output_file "-"
        then merge (map text_of_written l) ws chunks /\
             (w', e) = open_or_stream w output_file Append (fun old => ((old ++ head ++ String.concat "" chunks)%string, end_))
        else merge (messages l) ws chunks /\
             (w', e) = open_or_stream (mk_world (w_files w) (w_stdout w ++ String.concat "" chunks)) output_file Append
                         (fun old => ((old ++ head ++ String.concat "" (tables l))%string, end_))
  end.
