(** What CSV files mean, independently of the reader: comment lines, what a file with comments and rows is, what an
    input row says. *)
From Coq Require Import String List Bool ZArith Ascii Arith Reals.
From Verif Require Import Lib_Py Model_Format Model_Inputs Spec_Inputs Model_Csv.
Import ListNotations.
Open Scope string_scope. Open Scope list_scope.

Fixpoint all_space (s : string) : bool := match s with EmptyString => true | String c t => is_space c && all_space t end.
(** [l] is a comment line with text [c]: white space, #, the text and trailing white space. *)
Definition comment_of (l c : string) : Prop :=
  exists pre post, all_space pre = true /\ l = (pre ++ "#" ++ post)%string /\ c = rstrip post.
(** The lines of a file split into data lines and comments, each in order. *)
Inductive split_comments : list string -> list string -> list string -> Prop :=
| sc_nil : split_comments [] [] []
| sc_comment : forall l c t data comments, comment_of l c -> split_comments t data comments -> split_comments (l :: t) data (c :: comments)
| sc_data : forall l t data comments, (forall c, ~ comment_of l c) -> split_comments t data comments -> split_comments (l :: t) (l :: data) comments.

Definition one_line (s : string) : Prop := has_char newline s = false /\ has_char carriage_return s = false.
(** No later line of a field of several lines looks like a comment, and it has no carriage return. *)
Definition keeps_in_csv (field : string) : Prop :=
  has_char carriage_return field = false /\
  forall pre sp post, field = (pre ++ String newline (sp ++ "#" ++ post))%string -> all_space sp = false.

(** What column [f] of a row says: the value at the last position with that name; None if the row is too short. *)
Fixpoint cell (f : string) (fieldnames row : list string) : option val :=
  match fieldnames with
  | [] => None
  | g :: t => match cell f t (tl row) with
              | Some v => Some v
              | None => if String.eqb f g then Some (match row with v :: _ => VText v | [] => VNone end) else None
              end
  end.
Definition allowed (f : string) : bool := str_in f (CONFIG_FIELDS ++ ["filename"; "solution_name"]).
Definition row_says (fieldnames : list string) (label : string) (row : list string) (d : dict val) : Prop :=
  NoDup (dkeys d) /\
  forall f, dget f d = if String.eqb f "label" then Some (VText label) else if allowed f then cell f fieldnames row else None.

(** A blank line (only a line break) or nothing. *)
Definition blank (l : string) : Prop := l = "" \/ l = String newline "".
(** csv.Sniffer.sniff finds no delimiter in a blank line. *)
Definition sniffs_nothing_blank (S : sniffer) : Prop := forall l, blank l -> exists e, sn_sniff S l = Raise e.

(** ** The batch runner *)
(** What a solver that was given an input leaves for the table. *)
Inductive outcome (m : solver) (s : val) : option (dict val) -> Prop :=
| oc_error : m s = Raise SolverError -> outcome m s None
| oc_failed : forall best, m s = Ok (false, best) -> outcome m s None
| oc_nothing : m s = Ok (true, None) -> outcome m s None
| oc_solved : forall c fs, m s = Ok (true, Some (VObj c fs)) -> outcome m s (Some fs).
(** The solver input that row [d] stands for. *)
Definition stands_for (E : env) (T : text_tools) (overrides : option (dict val)) (d : dict val) (s : val) : Prop :=
  exists c c', construct E "ConfigInput" (filter (fun e => negb (str_in (fst e) ["filename"; "solution_name"])) d) = Ok c /\
    add_overrides E overrides c = Ok c' /\ to_soln_input E T c' = Ok s.
(** The row written for a final input: its fields as text, None as nothing. *)
Definition result_row (E : env) (fs : dict val) : string :=
  csv_row (map (fun f => match dget f fs with None | Some VNone => "" | Some v => text_of E v end) SOLUTION_INPUT_FIELDS).
Definition of_solution_input (fs : dict val) : Prop := forall k, In k (dkeys fs) -> In k SOLUTION_INPUT_FIELDS.
Fixpoint rows_of (E : env) (outcomes : list (option (dict val))) : string :=
  match outcomes with [] => "" | None :: t => rows_of E t | Some fs :: t => (result_row E fs ++ rows_of E t)%string end.
(** [k] results can be handed over: the first [k] tasks are done, the next is not. *)
Definition ready (n : nat) (finished : list nat) (k : nat) : Prop :=
  k <= n /\ (forall i, i < k -> In i finished) /\ (k < n -> ~ In k finished).

(** A solver input of the right types all of whose fields survive being printed in a table: as [printable], but a slice
    is any slice that eval reads back, or None. *)
Record csv_printable (E : env) (T : text_tools) (x : string -> val) : Prop := {
  cp_float : forall f, In f float_fields -> exists r, x f = VNum r /\ float_reads E T r;
  cp_int : forall f, In f int_fields -> exists z, x f = VInt z /\ int_reads T z;
  cp_bools : bools_read T;
  cp_bool : forall f, In f bool_fields -> exists b, x f = VBool b;
  cp_opt : forall f, In f optional_float_fields -> x f = VNone \/ exists r, x f = VNum r /\ float_reads E T r;
  cp_range : x "interp_range" = VNone \/ exists z, x "interp_range" = VInt z /\ int_reads T z;
  cp_split : exists s, x "split_method" = VText s;
  cp_slice : x "interp_slice" = VNone \/
             exists a b s, x "interp_slice" = slice_obj a b s /\ String.prefix "slice(" (e_str E (x "interp_slice")) = true /\
                           e_eval E (e_str E (x "interp_slice")) = Ok (x "interp_slice");
  cp_mcmc : x "mcmc_vars" = VNone \/
            exists r a k, x "mcmc_vars" = mcmc_obj (VBool r) (VBool a) (VBool k) /\ (r || a || k) = true;
  cp_keeps : forall f, In f SOLUTION_INPUT_FIELDS -> x f <> VNone -> keeps_in_csv (text_of E (x f)) }.
