(** CSV files: comments, reading inputs, writing results, the batch runner.

    Models src/disc_solver/solve/utils.py:180-318 and solve/csvrunner.py:23-116.  Texts are byte strings (UTF-8); white
    space is ASCII white space only.

    The csv module (reader, writer, DictReader, DictWriter, Sniffer.has_header) is modelled from CPython's
    Modules/_csv.c and Lib/csv.py: it is part of the trusted reading.  Not modelled: the field size limit, the guess
    made by Sniffer.sniff (an argument), printing, memory measurements. *)
From Coq Require Import String List Bool ZArith Ascii Arith Reals.
From Verif Require Import Lib_Py Model_FormatTables Model_Format Model_Inputs.
Import ListNotations.
Open Scope string_scope. Open Scope list_scope.

(** ** Text files *)
Definition carriage_return : ascii := ascii_of_nat 13.
Definition double_quote : ascii := ascii_of_nat 34.
Definition is (a b : ascii) : bool := Ascii.eqb a b.
(** Text read by open(...): universal newlines. *)
Fixpoint universal_newlines (s : string) : string :=
  match s with
  | EmptyString => EmptyString
  | String c t =>
      if is c carriage_return
      then String newline (match t with
                           | String c2 t2 => if is c2 newline then universal_newlines t2 else universal_newlines t
                           | EmptyString => EmptyString
                           end)
      else String c (universal_newlines t)
  end.
(** Iterating over a text file: the lines with their line breaks. *)
Fixpoint split_lines (s : string) : list string :=
  match s with
  | EmptyString => []
  | String c t => if is c newline then String c "" :: split_lines t
                  else match split_lines t with l :: r => String c l :: r | [] => [String c ""] end
  end.

(** ** CSVReaderHelper *)
Definition comment_marker : string := "#".
(** utils.py:217-224 (the test). *)
Definition is_comment (line : string) : bool := String.prefix comment_marker (strip line).
Fixpoint drop_chars (n : nat) (s : string) : string :=
  match n, s with S n, String _ t => drop_chars n t | _, _ => s end.
(** utils.py:210-230: the lines yielded and the comments collected. *)
Fixpoint helper_iter (lines : list string) : list string * list string :=
  match lines with
  | [] => ([], [])
  | l :: t => let '(data, comments) := helper_iter t in
              if is_comment l then (data, drop_chars (String.length comment_marker) (strip l) :: comments)
              else (l :: data, comments)
  end.

(** ** csv.reader *)
Record dialect := mk_dialect { d_delimiter : ascii; d_quotechar : ascii; d_doublequote : bool; d_skipinitialspace : bool }.
Definition unix_dialect : dialect := mk_dialect "," double_quote true false.
Inductive parse_state := START_RECORD | START_FIELD | IN_FIELD | IN_QUOTED_FIELD | QUOTE_IN_QUOTED_FIELD | EAT_CRNL.
Record parser := mk_parser { p_state : parse_state; p_field : string; p_fields : list string }.
Definition p_init : parser := mk_parser START_RECORD "" [].
Definition p_add (p : parser) (c : ascii) (s : parse_state) : parser := mk_parser s (p_field p ++ String c "") (p_fields p).
Definition p_save (p : parser) (s : parse_state) : parser := mk_parser s "" (p_fields p ++ [p_field p]).
Definition p_goto (p : parser) (s : parse_state) : parser := mk_parser s (p_field p) (p_fields p).
Definition is_break (c : ascii) : bool := is c newline || is c carriage_return.
(** parse_process_char; None is the end-of-line marker. *)
Definition start_field (d : dialect) (p : parser) (c : option ascii) : parser :=
  match c with
  | None => p_save p START_RECORD
  | Some c =>
      if is_break c then p_save p EAT_CRNL
      else if is c (d_quotechar d) then p_goto p IN_QUOTED_FIELD
      else if is c " " && d_skipinitialspace d then p_goto p START_FIELD
      else if is c (d_delimiter d) then p_save p START_FIELD
      else p_add p c IN_FIELD
  end.
Definition process_char (d : dialect) (p : parser) (c : option ascii) : res parser :=
  match p_state p, c with
  | START_RECORD, None => Ok p
  | START_RECORD, Some a => Ok (if is_break a then p_goto p EAT_CRNL else start_field d p c)
  | START_FIELD, _ => Ok (start_field d p c)
  | IN_FIELD, None => Ok (p_save p START_RECORD)
  | IN_FIELD, Some a =>
      Ok (if is_break a then p_save p EAT_CRNL
          else if is a (d_delimiter d) then p_save p START_FIELD else p_add p a IN_FIELD)
  | IN_QUOTED_FIELD, None => Ok p
  | IN_QUOTED_FIELD, Some a =>
      Ok (if is a (d_quotechar d) then p_goto p (if d_doublequote d then QUOTE_IN_QUOTED_FIELD else IN_FIELD)
          else p_add p a IN_QUOTED_FIELD)
  | QUOTE_IN_QUOTED_FIELD, None => Ok (p_save p START_RECORD)
  | QUOTE_IN_QUOTED_FIELD, Some a =>
      Ok (if is a (d_quotechar d) then p_add p a IN_QUOTED_FIELD
          else if is a (d_delimiter d) then p_save p START_FIELD
          else if is_break a then p_save p EAT_CRNL
          else p_add p a IN_FIELD)
  | EAT_CRNL, None => Ok (p_goto p START_RECORD)
  | EAT_CRNL, Some a => if is_break a then Ok p else Raise OtherError
  end.
Fixpoint feed (d : dialect) (s : string) (p : parser) : res parser :=
  match s with
  | EmptyString => Ok p
  | String c t => let! p := process_char d p (Some c) in feed d t p
  end.
Definition at_record_start (p : parser) : bool := match p_state p with START_RECORD => true | _ => false end.
(** Reader_iternext when the lines run out within a record. *)
Definition finish (p : parser) : list (list string) :=
  if negb (String.eqb (p_field p) "") || match p_state p with IN_QUOTED_FIELD => true | _ => false end
  then [p_fields p ++ [p_field p]] else [].
(** list(reader(lines)). *)
Fixpoint read_records (d : dialect) (lines : list string) (p : parser) : res (list (list string)) :=
  match lines with
  | [] => Ok (finish p)
  | l :: t =>
      let! p1 := feed d l p in
      let! p2 := process_char d p1 None in
      if at_record_start p2 then let! rest := read_records d t p_init in Ok (p_fields p2 :: rest)
      else read_records d t p2
  end.
Definition csv_reader (d : dialect) (lines : list string) : res (list (list string)) := read_records d lines p_init.

(** ** Sniffer.has_header *)
Inductive col_type := TNone | TComplex | TLength (n : nat).
Record sniffer := mk_sniffer { sn_sniff : string -> res dialect; sn_is_complex : string -> bool }.
Definition type_of_cell (S : sniffer) (s : string) : col_type := if sn_is_complex S s then TComplex else TLength (String.length s).
Definition type_eqb (a b : col_type) : bool :=
  match a, b with TNone, TNone | TComplex, TComplex => true | TLength n, TLength m => Nat.eqb n m | _, _ => false end.
(** One row of the loop: columns whose type changes are dropped. *)
Definition check_row (S : sniffer) (row : list string) (cols : list (nat * col_type)) : list (nat * col_type) :=
  flat_map (fun e => let t := type_of_cell S (nth (fst e) row "") in
                     if type_eqb t (snd e) then [e] else match snd e with TNone => [(fst e, t)] | _ => [] end) cols.
Fixpoint check_rows (S : sniffer) (columns checked : nat) (rows : list (list string)) (cols : list (nat * col_type)) :=
  match rows with
  | [] => cols
  | row :: t => if (20 <? checked)%nat then cols
                else check_rows S columns (1 + checked) t (if Nat.eqb (length row) columns then check_row S row cols else cols)
  end.
(** The vote: None(header[col]) is a TypeError, which counts for a header. *)
Definition vote (S : sniffer) (header : list string) (e : nat * col_type) : Z :=
  let cell := nth (fst e) header "" in
  match snd e with
  | TLength n => if Nat.eqb (String.length cell) n then (-1)%Z else 1%Z
  | TComplex => if sn_is_complex S cell then (-1)%Z else 1%Z
  | TNone => 1%Z
  end.
Definition has_header (S : sniffer) (sample : string) : res bool :=
  let! d := sn_sniff S sample in
  let! rows := csv_reader d (split_lines sample) in
  match rows with
  | [] => Raise OtherError   (* StopIteration *)
  | header :: rows =>
      let cols := map (fun i => (i, TNone)) (seq 0 (length header)) in
      Ok (0 <? fold_right Z.add 0 (map (vote S header) (check_rows S (length header) 0 rows cols)))%Z
  end.

(** ** get_csv_inputs *)
Definition SOLUTION_IDENTIFICATION_FIELDS : list string := ["filename"; "solution_name"].
(** utils.py:232-239. *)
Definition has_csv_header (S : sniffer) (lines : list string) : res bool :=
  match fst (helper_iter lines) with
  | [] => Raise OtherError   (* StopIteration *)
  | l :: _ => has_header S l
  end.
(** DictReader's row: later columns of the same name win; missing values are None; surplus values go under the key
    None, which filter_csv_columns drops, so they are left out here. *)
Fixpoint zip_row (fieldnames : list string) (row : list string) (d : dict val) : dict val :=
  match fieldnames, row with
  | f :: fs, v :: r => zip_row fs r (dset f (VText v) d)
  | fs, [] => fold_left (fun d f => dset f VNone d) fs d
  | [], _ => d
  end.
Definition dict_rows (fieldnames : list string) (rows : list (list string)) : list (dict val) :=
  map (fun row => zip_row fieldnames row []) (filter (fun row => match row with [] => false | _ => true end) rows).
(** utils.py:180-188. *)
Definition add_labels (seq : list (dict val)) (label : string) : list (dict val) := map (dset "label" (VText label)) seq.
(** utils.py:191-198. *)
Definition filter_csv_columns (seq : list (dict val)) (columns : list string) : list (dict val) :=
  map (filter (fun e => str_in (fst e) columns)) seq.
(** utils.py:301-318. *)
Definition get_csv_inputs (S : sniffer) (text : string) (label : string) : res (list (dict val)) :=
  let lines := split_lines (universal_newlines text) in
  let! header := has_csv_header S lines in
  let! records := csv_reader unix_dialect (fst (helper_iter lines)) in
  let columns := CONFIG_FIELDS ++ SOLUTION_IDENTIFICATION_FIELDS in
  if header : bool
  then match records with
       | [] => Ok []
       | fieldnames :: rows => Ok (filter_csv_columns (add_labels (dict_rows fieldnames rows) label) columns)
       end
  else Ok (filter_csv_columns (add_labels (dict_rows SOLUTION_INPUT_FIELDS records) label) columns).

(** ** Writing *)
(** A field in the unix dialect (QUOTE_ALL, quotes doubled). *)
Fixpoint double_quotes (s : string) : string :=
  match s with
  | EmptyString => EmptyString
  | String c t => if is c double_quote then String c (String c (double_quotes t)) else String c (double_quotes t)
  end.
Definition quoted (s : string) : string := String double_quote (double_quotes s ++ String double_quote "").
Definition csv_row (fields : list string) : string := String.concat "," (map quoted fields) ++ String newline "".
(** utils.py:283-291 with the default marker. *)
Definition comment_line (comment : string) : string := comment_marker ++ comment ++ String newline "".
(** The text csv.writer writes for a value: nothing for None. *)
Definition csv_text (E : env) (v : val) : string := match v with VNone => "" | _ => text_of E v end.
(** DictWriter.writerow: a key that is no field name is a ValueError; missing keys are written empty. *)
Definition dict_row (E : env) (fieldnames : list string) (d : dict val) : res string :=
  if forallb (fun e => str_in (fst e) fieldnames) d
  then Ok (csv_row (map (fun f => match dget f d with Some v => csv_text E v | None => "" end) fieldnames))
  else Raise ValueError.

(** ** csvrunner *)
(** What a sonic solver leaves: whether it succeeded and the input of run.final_solution. *)
Definition solver := val -> res (bool * option val).
(** csvrunner.py:36-83; None is "no final solution". [method] is SONIC_METHOD_MAP.get(sonic_method). *)
Definition find_solution (E : env) (T : text_tools) (method : option solver) (overrides : option (dict val)) (input_dict : dict val)
  : res (option (dict val)) :=
  match method with
  | None => Raise SolverError
  | Some sonic_solver =>
      let input_dict := dremove "solution_name" (dremove "filename" input_dict) in
      let! c := construct E "ConfigInput" input_dict in
      let! config_input := add_overrides E overrides c in
      let! soln_input := to_soln_input E T config_input in
      match sonic_solver soln_input with
      | Raise SolverError => Ok None
      | Raise e => Raise e
      | Ok (false, _) | Ok (true, None) => Ok None
      | Ok (true, Some best) => let! d := fields_of best in Ok (Some d)
      end
  end.
(** The results pool.imap has to hand over once the tasks [finished] (by index, in any order) are done: those of the
    longest run of tasks from the first. *)
Fixpoint handed_over {A} (from : nat) (results : list A) (finished : list nat) : list A :=
  match results with
  | [] => []
  | r :: t => if existsb (Nat.eqb from) finished then r :: handed_over (1 + from) t finished else []
  end.
(** The loop of csvrunner.py:107-116: the text written and the exception that ends it. *)
Fixpoint write_results (E : env) (results : list (res (option (dict val)))) : string * option exn :=
  match results with
  | [] => ("", None)
  | Raise e :: _ => ("", Some e)
  | Ok None :: t => write_results E t
  | Ok (Some d) :: t =>
      match dict_row E SOLUTION_INPUT_FIELDS d with
      | Raise e => ("", Some e)
      | Ok row => let '(rest, e) := write_results E t in ((row ++ rest)%string, e)
      end
  end.
(** csvrunner.py:96-106: the comments and the header row. *)
Definition metadata (meta : list (string * string)) : string :=
  String.concat "" (map (fun e => comment_line (fst e ++ "=" ++ snd e)) meta).
(** The text appended to the output file once the tasks [finished] are done, and how the loop ended. *)
Definition csvrunner (E : env) (T : text_tools) (S : sniffer) (method : option solver) (overrides : option (dict val))
  (meta : list (string * string)) (input label : string) (finished : list nat) : res (string * option exn) :=
  let! inputs := get_csv_inputs S input label in
  let '(rows, e) := write_results E (handed_over 0 (map (find_solution E T method overrides) inputs) finished) in
  Ok ((metadata meta ++ csv_row SOLUTION_INPUT_FIELDS ++ rows)%string, e).
