(** What the options of the analysis commands mean to a user: for every command, the options it takes, what text each
    takes, what it controls and what holds when it is not given.  Written from the help of the commands and the
    parameters of the drawing functions, without the functions of Model_Options that carry the values there. *)
From Coq Require Import String List Bool ZArith Reals.
From Verif Require Import Lib_Py Model_Options.
Import ListNotations.
Open Scope string_scope. Open Scope list_scope.

(** What is written after an option. *)
Inductive meaning :=
| Switch (b : bool)                (* nothing; the option stands for b *)
| AText | ANumber | AnInteger      (* one text / number / integer *)
| ALooseNumber                     (* one text; not a number: None *)
| OneOf (l : list string)          (* one of the listed words *)
| TwoLooseNumbers | TwoTexts.

Definition loose (rd : readers) (s : string) : value := match num_of rd s with Some r => VNum r | None => VNone end.

(** The value meant by the texts after an option; None: the command line is refused. *)
Definition read (rd : readers) (m : meaning) (texts : list string) : option value :=
  match m, texts with
  | Switch b, [] => Some (VBool b)
  | AText, [s] => Some (VStr s)
  | ANumber, [s] => match num_of rd s with Some r => Some (VNum r) | None => None end
  | AnInteger, [s] => match int_of rd s with Some z => Some (VInt z) | None => None end
  | ALooseNumber, [s] => Some (loose rd s)
  | OneOf l, [s] => if in_dec string_dec s l then Some (VStr s) else None
  | TwoLooseNumbers, [s; t] => Some (VList [loose rd s; loose rd t])
  | TwoTexts, [s; t] => Some (VList [VStr s; VStr t])
  | _, _ => None
  end.

(** What an option controls. *)
Inductive target :=
| Drawing (parameter : string)     (* a parameter of the function that draws *)
| Title | Style | Version | Figsize | OutputFile | Show
| Chosen                           (* the text choosing solutions (ds-diverge-plot) *)
| Logging                          (* messages only (C101) *)
| Nothing.

(** One row of the table: the option, or alternative options, with what follows each. *)
Record doc := mk_doc { doc_flags : list (string * meaning); doc_target : target; doc_default : value }.

(** The last of the given occurrences of an option of the row. *)
Definition last_given (d : doc) (given : list (string * list string)) : option (string * list string) :=
  find (fun g => existsb (String.eqb (fst g)) (map fst (doc_flags d))) (rev given).

(** The value asked for: that of the last occurrence, otherwise the default. *)
Definition asked (rd : readers) (d : doc) (given : list (string * list string)) : value :=
  match last_given d given with
  | Some (flag, texts) =>
      match dget flag (doc_flags d) with
      | Some m => match read rd m texts with Some v => v | None => VNone end
      | None => VNone
      end
  | None => doc_default d
  end.

(** An occurrence the table allows. *)
Definition allowed (rd : readers) (docs : list doc) (g : string * list string) : Prop :=
  exists d m, In d docs /\ dget (fst g) (doc_flags d) = Some m /\ read rd m (snd g) <> None.

(** Alternatives are not mixed: of the options of a group only one is given, however often. *)
Definition not_mixed (group : list string) (given : list (string * list string)) : Prop :=
  forall f g, In f group -> In g group -> In f (map fst given) -> In g (map fst given) -> f = g.

Definition row (flag : string) (m : meaning) (t : target) (v : value) : doc := mk_doc [(flag, m)] t v.

Definition log_words := ["critical"; "error"; "warning"; "notice"; "info"; "debug"].
Definition logging_docs : list doc :=
  [row "--log-file" AText Logging VNone; row "--log-file-level" (OneOf log_words) Logging (VStr "debug");
   row "--stderr-level" (OneOf log_words) Logging (VStr "notice");
   row "--quiet" (Switch true) Logging (VBool false); row "--verbose" (Switch true) Logging (VBool false)].
Definition log_alternatives := ["--stderr-level"; "--quiet"; "--verbose"].

Definition output_docs : list doc :=
  [row "--show" (Switch true) Show (VBool false); row "--filename" AText OutputFile VNone;
   row "--figsize" TwoLooseNumbers Figsize VNone].
Definition appearance_docs : list doc :=
  [row "--title" AText Title VNone; row "--style" AText Style (VStr "bmh");
   row "--no-show-version" (Switch false) Version (VBool true)].
Definition angle_docs : list doc :=
  [row "--start" ALooseNumber (Drawing "start") (VNum 0); row "--stop" ALooseNumber (Drawing "stop") (VNum 90);
   row "--linestyle" AText (Drawing "linestyle") (VStr "-")].
Definition common_docs : list doc := output_docs ++ appearance_docs ++ angle_docs.

Definition switch_doc (flag parameter : string) : doc := row flag (Switch true) (Drawing parameter) (VBool false).
Definition scale_doc : doc := row "--v_θ" (OneOf ["log"; "linear"]) (Drawing "v_θ_scale") (VStr "linear").
Definition wave_docs : list doc :=
  [switch_doc "--with-slow" "with_slow"; switch_doc "--with-alfven" "with_alfven"; switch_doc "--with-fast" "with_fast"].

Definition simple_docs : list doc := logging_docs ++ common_docs.
Definition plot_docs : list doc :=
  logging_docs ++ common_docs ++ scale_doc :: wave_docs ++
  [switch_doc "--with-sonic" "with_sonic"; switch_doc "--portrait" "portrait"; switch_doc "--hide-roots" "hide_roots";
   switch_doc "--hide-sonic-angle" "hide_sonic_angle"].
Definition combine_docs : list doc := logging_docs ++ common_docs ++ wave_docs ++ [switch_doc "--with-sonic" "with_sonic"].
Definition vert_docs : list doc :=
  logging_docs ++ common_docs ++
  [row "--v_θ" (OneOf ["log"; "linear"]) Nothing (VStr "linear"); switch_doc "--with-sonic" "with_sonic"].
Definition derivs_docs : list doc := logging_docs ++ common_docs ++ [switch_doc "--nolog" "nolog"].
Definition taylor_docs : list doc := logging_docs ++ common_docs ++ [switch_doc "--show-values" "show_values"].
Definition component_docs : list doc := logging_docs ++ common_docs ++ [row "--only" AText (Drawing "only") VNone].
Definition eps_doc : doc := row "--eps" ANumber (Drawing "eps") (VNum (/ 10 ^ 10)).
Definition jacobian_docs : list doc := logging_docs ++ common_docs ++ [eps_doc].
Definition coef_docs : list doc :=
  logging_docs ++ common_docs ++
  [eps_doc;
   row "--critical-point" (OneOf ["slow"; "sonic"; "alfven"; "fast"]) (Drawing "critical_point") (VStr "sonic");
   mk_doc [("--local-eigvecs", Switch true); ("--global-eigvecs", Switch false)] (Drawing "local_eigvecs") (VBool true)].
Definition coef_alternatives := ["--local-eigvecs"; "--global-eigvecs"].
Definition compare_docs : list doc := logging_docs ++ common_docs ++ [scale_doc].
Definition diverge_docs : list doc :=
  logging_docs ++ common_docs ++ wave_docs ++
  [row "--solutions" AText Chosen VNone; row "--hide-legend" (Switch false) (Drawing "show_legend") (VBool true)].
Definition trajectory_docs : list doc :=
  [row "--v-max-steps" AnInteger (Drawing "v_max_steps") (VInt 100000);
   row "--v-step-scaling" ANumber (Drawing "v_step_scaling") (VNum (/ 10 ^ 6));
   row "--B-max-steps" AnInteger (Drawing "B_max_steps") (VInt 1000000);
   row "--B-step-scaling" ANumber (Drawing "B_step_scaling") (VNum (/ 10 ^ 3));
   row "--no-max-v-angle" (Switch false) (Drawing "with_max_v_angle") (VBool true)].
Definition v_start_doc : doc := row "--v-start-position" TwoTexts (Drawing "v_start_position") VNone.
Definition B_start_doc : doc := row "--B-start-position" TwoTexts (Drawing "B_start_position") VNone.
Definition flow_docs : list doc :=
  logging_docs ++ output_docs ++ appearance_docs ++ trajectory_docs.

(** The commands of one solution: the table of each, and its groups of alternatives. *)
Definition single_commands : list (command * (list doc * list (list string))) :=
  [(plot_command, (plot_docs, [log_alternatives])); (combine_command, (combine_docs, [log_alternatives]));
   (vert_command, (vert_docs, [log_alternatives])); (derivs_command, (derivs_docs, [log_alternatives]));
   (taylor_command, (taylor_docs, [log_alternatives])); (component_command, (component_docs, [log_alternatives]));
   (params_command, (simple_docs, [log_alternatives])); (validate_command, (simple_docs, [log_alternatives]));
   (hydro_check_command, (simple_docs, [log_alternatives])); (acc_command, (simple_docs, [log_alternatives]));
   (surface_density_command, (simple_docs, [log_alternatives])); (j_e_command, (simple_docs, [log_alternatives]));
   (jacobian_command, (jacobian_docs, [log_alternatives]));
   (eigenvector_coef_command, (coef_docs, [log_alternatives; coef_alternatives]))].
(** Of several solutions, given with --runs. *)
Definition runs_flag := "--runs".
Definition multiple_commands : list (command * list doc) :=
  [(ratio_command, simple_docs); (compare_command, compare_docs)].

(** What is observed of a finished call. *)
Definition observed (d : drawn) (t : target) : option value :=
  match t with
  | Drawing k => dget k (d_args d)
  | Title => Some (d_title d) | Style => Some (d_style d) | Version => Some (d_version d)
  | Figsize => match d_figargs d with VDict [] => Some VNone | VDict [("figsize", v)] => Some v | _ => None end
  | OutputFile => Some (d_file d) | Show => Some (d_show d)
  | Chosen => dget "solution_filter" (d_locals d)
  | Logging | Nothing => None
  end.
Definition controls (t : target) : Prop := t <> Logging /\ t <> Nothing /\ t <> Chosen.

(** The (file, solution) pairs given with --runs, in order. *)
Definition runs_given (given : list (string * list string)) : list (list string) :=
  map snd (filter (fun g => String.eqb (fst g) runs_flag) given).
Definition texts (l : list string) : value := VList (map VStr l).
Definition allowed_or_runs (rd : readers) (docs : list doc) (g : string * list string) : Prop :=
  allowed rd docs g \/ (fst g = runs_flag /\ List.length (snd g) = 2%nat).

(** Of all solutions of a file. *)
Definition all_commands : list (command * list doc) := [(diverge_command, diverge_docs); (conserve_command, simple_docs)].

(** The readers understand the two texts used as defaults. *)
Definition decimal (rd : readers) : Prop := num_of rd "0" = Some 0%R /\ num_of rd "90" = Some 90%R.
