(** C107: the options of the commands that solve reach the solver, and those that do not. *)
From Coq Require Import String List Bool ZArith Reals Lra Lia.
From Verif Require Import Lib_Py Model_Options Spec_Options Proofs_Options Props_Options Model_Logging Model_SolverOptions Spec_SolverOptions.
From Verif Require Model_Format Model_FormatTables Model_Inputs Spec_Inputs Props_InputsFile Model_Run Model_Solve.
Import ListNotations.
Open Scope string_scope. Open Scope list_scope.

(** ** Usage errors *)
(** A table that has all options but those that collect pairs. *)
Definition tabulates_but (flag : string) (opts : list opt) (docs : list doc) : bool :=
  forallb (fun o => (String.eqb (o_flag o) flag && match o_action o with AppendTwo => true | _ => false end)
                    || existsb (fun d => is_meaning (meaning_of (o_action o)) (dget (o_flag o) (doc_flags d))) docs) opts
  && forallb (fun d => forallb (fun p => match find_opt (fst p) opts with
                                         | Some o => is_meaning (meaning_of (o_action o)) (dget (fst p) (doc_flags d))
                                         | None => false end) (doc_flags d)) docs
  && match find_opt flag opts with Some o => match o_action o with AppendTwo => true | _ => false end | None => false end.

Lemma taken_but : forall rd flag opts docs, tabulates_but flag opts docs = true -> forall g,
  taken rd opts g <-> (allowed rd docs g \/ (fst g = flag /\ List.length (snd g) = 2%nat)).
Proof.
  intros rd flag opts docs H g. unfold tabulates_but in H. apply andb_prop in H. destruct H as [H H3].
  apply andb_prop in H. destruct H as [H1 H2]. rewrite forallb_forall in H1, H2. split.
  - intros [o [Hf Hs]]. destruct (find_opt_in _ _ _ Hf) as [Hin Hfl]. specialize (H1 o Hin).
    apply orb_prop in H1. destruct H1 as [H1|H1].
    + right. apply andb_prop in H1. destruct H1 as [H1 H4]. apply String.eqb_eq in H1. split; [congruence|].
      destruct (o_action o); try discriminate. specialize (Hs None).
      destruct (snd g) as [|a [|b [|c l]]]; cbn in Hs; try congruence. reflexivity.
    + left. apply existsb_exists in H1. destruct H1 as [d [Hd Hm]]. apply is_meaning_eq in Hm. destruct Hm as [m [Ha Hm]].
      exists d, m. rewrite Hfl in Hm. split; [exact Hd|]. split; [exact Hm|]. rewrite <- (read_stored rd _ _ None _ Ha). apply Hs.
  - intros [[d [m [Hd [Hm Hr]]]]|[Hfl Hlen]].
    + specialize (H2 d Hd). rewrite forallb_forall in H2.
      specialize (H2 _ (dget_in _ _ _ Hm)). cbn in H2. destruct (find_opt (fst g) opts) as [o|] eqn:Hf; [|discriminate].
      apply is_meaning_eq in H2. destruct H2 as [m' [Ha Hb]]. rewrite Hm in Hb. injection Hb as <-.
      exists o. split; [exact Hf|]. intro acc. rewrite (read_stored rd _ _ acc _ Ha). exact Hr.
    + unfold taken. rewrite Hfl. destruct (find_opt flag opts) as [o|]; [|discriminate]. exists o. split; [reflexivity|].
      destruct (o_action o); try discriminate. intro acc.
      destruct (snd g) as [|a [|b [|c l]]]; cbn in Hlen; try discriminate.
Qed.

Lemma parse_iff_but : forall rd flag ps opts groups docs cl, tabulates_but flag opts docs = true ->
  (forall ns, (exists r, take_positionals rd ps (cl_positionals cl) ns = Some r) <-> List.length (cl_positionals cl) = List.length ps) ->
  (parse_args rd (mk_parser ps opts groups) cl <> None <->
   List.length (cl_positionals cl) = List.length ps /\
   Forall (fun g => allowed rd docs g \/ (fst g = flag /\ List.length (snd g) = 2%nat)) (cl_options cl) /\
   Forall (fun g => not_mixed g (cl_options cl)) groups).
Proof.
  intros rd flag ps opts groups docs cl Htab Hpos. unfold parse_args. cbn [p_exclusive p_options p_positionals].
  assert (Hex : existsb (fun g => conflict g (cl_options cl)) groups = false <-> Forall (fun g => not_mixed g (cl_options cl)) groups).
  { clear. induction groups as [|g groups IH]; cbn.
    - split; [constructor|reflexivity].
    - rewrite orb_false_iff, IH, conflict_spec. split.
      + intros [? ?]. constructor; assumption.
      + intro H. inversion H; auto. }
  assert (Hal : Forall (taken rd opts) (cl_options cl) <->
                Forall (fun g => allowed rd docs g \/ (fst g = flag /\ List.length (snd g) = 2%nat)) (cl_options cl)).
  { rewrite !Forall_forall. split; intros H g Hg; apply (taken_but rd flag opts docs Htab); auto. }
  split.
  - intro H. destruct (existsb _ _) eqn:E; [congruence|].
    destruct (take_options rd opts (cl_options cl) (defaults rd opts [])) as [ns|] eqn:Ht; [|congruence].
    destruct (take_options_some _ _ _ _ _ Ht) as [Hall _]. split; [|split].
    + apply (Hpos ns). destruct (take_positionals rd ps (cl_positionals cl) ns) as [r|]; [exists r; reflexivity|congruence].
    + apply Hal. exact Hall.
    + apply Hex. reflexivity.
  - intros [Hlen [Hall Hgr]]. apply Hex in Hgr. rewrite Hgr. apply Hal in Hall.
    destruct (take_options_ok rd opts (cl_options cl) (defaults rd opts []) Hall) as [ns Ht]. rewrite Ht.
    destruct (proj2 (Hpos ns) Hlen) as [r Hr]. rewrite Hr. discriminate.
Qed.

Lemma texts_ok : forall rd names given ns,
  (exists r, take_positionals rd (map (fun p => (p, Text)) names) given ns = Some r) <->
  List.length given = List.length (map (fun p : string => (p, Text)) names).
Proof.
  intros rd names. induction names as [|n names IH]; intros [|s given] ns; cbn.
  - split; [reflexivity|eexists; reflexivity].
  - split; [intros [? ?]; congruence|discriminate].
  - split; [intros [? ?]; congruence|discriminate].
  - rewrite IH. split; lia.
Qed.

(** A command line is refused as a usage error exactly when it does not have the positional arguments, or has an option the
    command does not take or whose text it cannot take, or mixes two alternatives; --override takes any two texts. *)
Theorem C107_usage : forall rd expanded c d, In (c, d) solver_commands -> forall cl,
  run_solver rd expanded c cl <> Usage <->
  List.length (cl_positionals cl) = List.length (sd_positionals d) /\
  Forall (allowed_or_override rd (sd_rows d)) (cl_options cl) /\
  not_mixed log_alternatives (cl_options cl) /\ not_mixed internal_alternatives (cl_options cl).
Proof.
  intros rd ex c d Hin cl.
  assert (Hrun : run_solver rd ex c cl <> Usage <-> parse_args rd (sc_parser c) cl <> None).
  { unfold run_solver. destruct (parse_args rd (sc_parser c) cl); split; intro; congruence. }
  rewrite Hrun. unfold solver_commands in Hin.
  assert (Hg : Forall (fun g => not_mixed g (cl_options cl)) [stderr_group; internal_group] <->
               not_mixed log_alternatives (cl_options cl) /\ not_mixed internal_alternatives (cl_options cl)).
  { split; [intro H; inversion H as [|? ? H1 H2]; inversion H2; subst; split; assumption|].
    intros [? ?]. repeat constructor; assumption. }
  destruct Hin as [Hin|[Hin|[Hin|[Hin|[]]]]]; injection Hin as <- <-;
    cbn [sc_parser sd_rows sd_positionals soln_command resoln_command csvrunner_command hdf5runner_command]; unfold solver_parser;
    match goal with |- parse_args _ (mk_parser _ ?o _) _ <> None <-> _ /\ Forall (allowed_or_override _ ?ds) _ /\ _ =>
       assert (Ht : tabulates_but override_flag o ds = true) by (vm_compute; reflexivity);
       rewrite (parse_iff_but rd override_flag _ _ _ ds cl Ht (texts_ok rd _ (cl_positionals cl))) end;
    rewrite map_length, Hg; reflexivity.
Qed.

(** ** What the namespace holds *)
Lemma override_fold : forall rd opts given init,
  find_opt override_flag opts = Some (mk_opt "--override" "override" AppendTwo (Some (VList []))) ->
  forallb (fun o => negb (String.eqb "override" (o_dest o)) || String.eqb (o_flag o) override_flag) opts = true ->
  Forall (taken rd opts) given ->
  fold_left (step rd opts "override") given (Some (VList init)) =
  Some (VList (init ++ map (fun p => VList [VStr (fst p); VStr (snd p)]) (overrides_given given))).
Proof.
  intros rd opts given init Hf Hu. revert init. induction given as [|g given IH]; intros init Hall.
  - cbn. rewrite app_nil_r. reflexivity.
  - inversion Hall as [|? ? [o [Ho Hs]] Hrest]; subst. cbn [fold_left overrides_given flat_map]. unfold step at 2. rewrite Ho.
    fold (overrides_given given). destruct (String.eqb_spec (fst g) override_flag) as [E|E].
    + rewrite E in Ho. rewrite Hf in Ho. injection Ho as <-. cbn [o_dest o_action] in *. cbn [String.eqb Ascii.eqb Bool.eqb].
      change (String.eqb "override" "override") with true. cbn iota.
      destruct g as [flag [|s [|t [|u l]]]]; cbn [fst snd] in *; try (exfalso; apply (Hs None); reflexivity).
      cbn [stored]. rewrite (IH _ Hrest), <- app_assoc. reflexivity.
    + rewrite forallb_forall in Hu. destruct (find_opt_in _ _ _ Ho) as [Hin Hfl]. specialize (Hu o Hin).
      rewrite Hfl in Hu. destruct (String.eqb_spec (fst g) override_flag); [contradiction|]. rewrite orb_false_r in Hu.
      apply negb_true_iff in Hu. rewrite Hu. apply IH. exact Hrest.
Qed.

Lemma override_args : forall rd p cl args,
  find_opt override_flag (p_options p) = Some (mk_opt "--override" "override" AppendTwo (Some (VList []))) ->
  forallb (fun o => negb (String.eqb "override" (o_dest o)) || String.eqb (o_flag o) override_flag) (p_options p) = true ->
  first_default rd (p_options p) "override" = Some (VList []) -> dmem "override" (p_positionals p) = false ->
  parse_args rd p cl = Some args ->
  dget "override" args = Some (VList (map (fun p => VList [VStr (fst p); VStr (snd p)]) (overrides_given (cl_options cl)))).
Proof.
  intros rd p cl args Hf Hu Hd Hp H. unfold parse_args in H. destruct (existsb _ _); [discriminate|].
  destruct (take_options rd (p_options p) (cl_options cl) (defaults rd (p_options p) [])) as [ns|] eqn:Ht; [|discriminate].
  rewrite (take_positionals_other _ _ _ _ _ _ H Hp). destruct (take_options_some _ _ _ _ _ Ht) as [Hall Hk].
  rewrite Hk, dget_defaults. cbn [dget]. rewrite Hd. apply (override_fold rd _ _ [] Hf Hu Hall).
Qed.

Lemma overrides_of_pairs : forall l, overrides_of (VList (map (fun p => VList [VStr (fst p); VStr (snd p)]) l)) = l.
Proof. intro l. cbn. rewrite map_map. rewrite <- (map_id l) at 2. apply map_ext. intros [a b]. reflexivity. Qed.

Lemma dget_expand : forall expanded paths args k, dget k (expand_paths expanded paths args) =
  option_map (as_path expanded paths k) (dget k args).
Proof.
  intros ex paths args k. induction args as [|[a v] args IH]; [reflexivity|]. cbn [expand_paths map fst snd].
  assert (Hm : existsb (String.eqb a) paths = if in_dec string_dec a paths then true else false).
  { destruct (in_dec string_dec a paths) as [Hi|Hi].
    - apply existsb_in. exact Hi.
    - apply not_true_iff_false. intro H. apply existsb_in in H. contradiction. }
  rewrite Hm. destruct (in_dec string_dec a paths) as [Hi|Hi]; cbn [dget fst];
    (destruct (String.eqb_spec k a) as [->|]; [cbn [option_map]; unfold as_path|exact IH]);
    destruct (in_dec string_dec a paths); try contradiction; reflexivity.
Qed.

Lemma positional_args : forall rd names opts groups cl args, NoDup names ->
  parse_args rd (mk_parser (map (fun p => (p, Text)) names) opts groups) cl = Some args ->
  forall k s, In (k, s) (combine names (cl_positionals cl)) -> dget k args = Some (VStr s).
Proof.
  intros rd names opts groups cl args Hnd H. unfold parse_args in H. destruct (existsb _ _); [discriminate|].
  cbn [p_options p_positionals] in H.
  destruct (take_options rd opts (cl_options cl) (defaults rd opts [])) as [ns|]; [|discriminate].
  revert ns H. generalize (cl_positionals cl). induction Hnd as [|n names Hn Hnd IH]; intros given ns H k s Hin; [destruct Hin|].
  destruct given as [|t given]; [destruct Hin|]. cbn in H. destruct Hin as [Hin|Hin].
  - injection Hin as -> ->. rewrite (take_positionals_other _ _ _ _ _ k H).
    + rewrite dget_dset, String.eqb_refl. reflexivity.
    + unfold dmem. clear -Hn. induction names as [|m names IH]; [reflexivity|]. cbn.
      destruct (String.eqb_spec k m) as [->|]; [exfalso; apply Hn; left; reflexivity|]. apply IH. intro. apply Hn. right. assumption.
  - exact (IH _ _ H k s Hin).
Qed.

Lemma level_word_of : forall v, level_of (Some v) = level_word v.
Proof.
  intros [| | s | | | |]; try reflexivity. unfold level_of, level_word. cbn [dget].
  repeat match goal with |- context [String.eqb s ?w] => destruct (String.eqb_spec s w) as [->|]; [reflexivity|] end.
  repeat (match goal with |- None = match s with _ => _ end => destruct s as [|[[] [] [] [] [] [] [] []] s] end; try reflexivity; try congruence).
Qed.

Lemma logging_asked_of : forall rd p cl args expanded paths, parse_args rd p cl = Some args ->
  describes (p_options p) "log_file" (row "--log-file" AText Logging VNone) = true ->
  describes (p_options p) "log_file_level" (row "--log-file-level" (OneOf log_words) Logging (VStr "debug")) = true ->
  describes (p_options p) "stderr_level" (row "--stderr-level" (OneOf log_words) Logging (VStr "notice")) = true ->
  describes (p_options p) "quiet" (row "--quiet" (Switch true) Logging (VBool false)) = true ->
  describes (p_options p) "verbose" (row "--verbose" (Switch true) Logging (VBool false)) = true ->
  forallb (fun k => negb (dmem k (p_positionals p)) && negb (existsb (String.eqb k) paths))
    ["log_file"; "log_file_level"; "stderr_level"; "quiet"; "verbose"] = true ->
  (first_default rd (p_options p) "log_file" = Some VNone \/ first_default rd (p_options p) "log_file" = None) ->
  first_default rd (p_options p) "log_file_level" = Some (VStr "debug") ->
  first_default rd (p_options p) "stderr_level" = Some (VStr "notice") ->
  first_default rd (p_options p) "quiet" = Some (VBool false) -> first_default rd (p_options p) "verbose" = Some (VBool false) ->
  logging_of (expand_paths expanded paths args) = logging_asked rd (cl_options cl).
Proof.
  intros rd p cl args ex paths Hp D1 D2 D3 D4 D5 Hk F1 F2 F3 F4 F5.
  cbn [forallb] in Hk. rewrite !andb_true_iff, !negb_true_iff in Hk.
  destruct Hk as [[P1 X1] [[P2 X2] [[P3 X3] [[P4 X4] [[P5 X5] _]]]]].
  assert (N : forall k v, existsb (String.eqb k) paths = false -> as_path ex paths k v = v).
  { intros k v H. unfold as_path. destruct (in_dec string_dec k paths) as [Hi|]; [|reflexivity].
    apply existsb_in in Hi. congruence. }
  unfold logging_of, logging_asked. rewrite !dget_expand.
  rewrite (args_default _ _ _ _ Hp _ _ D2 P2 F2), (args_default _ _ _ _ Hp _ _ D3 P3 F3),
          (args_default _ _ _ _ Hp _ _ D4 P4 F4), (args_default _ _ _ _ Hp _ _ D5 P5 F5).
  cbn [option_map]. rewrite (N _ _ X2), (N _ _ X3), (N _ _ X4), (N _ _ X5), !level_word_of.
  f_equal.
  - rewrite (args_row _ _ _ _ Hp _ _ D1 P1). unfold asked.
    destruct (last_given (row "--log-file" AText Logging VNone) (cl_options cl)) as [g|].
    + cbn [option_map]. rewrite (N _ _ X1). reflexivity.
    + cbn [doc_default row]. destruct F1 as [F1|F1]; rewrite F1; cbn [option_map]; [rewrite (N _ _ X1)|]; reflexivity.
  - unfold truth, yes. destruct (asked rd (row "--quiet" (Switch true) Logging (VBool false)) (cl_options cl)) as [|[]| | | | |]; reflexivity.
  - unfold truth, yes. destruct (asked rd (row "--verbose" (Switch true) Logging (VBool false)) (cl_options cl)) as [|[]| | | | |]; reflexivity.
Qed.

Lemma as_path_existsb : forall ex paths k v, as_path ex paths k v =
  if existsb (String.eqb k) paths then match v with VStr s => VStr (ex s) | _ => v end else v.
Proof.
  intros. unfold as_path. destruct (in_dec string_dec k paths) as [Hi|Hi].
  - apply existsb_in in Hi. rewrite Hi. reflexivity.
  - destruct (existsb (String.eqb k) paths) eqn:E; [|reflexivity]. apply existsb_in in E. contradiction.
Qed.
Ltac row_solver Hp k d :=
  let H := fresh "Hrow" in
  assert (H := args_default _ _ _ _ Hp k d eq_refl eq_refl eq_refl).
Ltac logging_row Hp ex ps :=
  let H := fresh "Hlog" in
  assert (H := logging_asked_of _ _ _ _ ex ps Hp eq_refl eq_refl eq_refl eq_refl eq_refl eq_refl (or_introl eq_refl) eq_refl eq_refl eq_refl eq_refl).
Ltac learn_overrides Hp c :=
  let H := fresh "Hov" in
  assert (H := override_args _ (sc_parser c) _ _ eq_refl eq_refl eq_refl eq_refl Hp).
Ltac learn_positional Hp names k s :=
  let H := fresh "Hpos" in
  assert (H := positional_args _ names _ _ _ _ ltac:(repeat constructor; cbn; intuition congruence) Hp k s).
Ltac finish_solver c :=
  unfold attr at 1; rewrite dget_expand;
  match goal with H : dget "override" ?a = Some _ |- _ => rewrite H end;
  cbn [option_map rbind]; rewrite as_path_existsb;
  cbn [c sc_paths existsb String.eqb Ascii.eqb Bool.eqb orb]; rewrite overrides_of_pairs;
  match goal with |- context [Model_Inputs.validate_overrides ?l] => destruct (Model_Inputs.validate_overrides l) as [o|e]; [|reflexivity] end;
  cbn [c rbind sc_passed sc_function sc_logs sc_signature attrs]; unfold attr; rewrite !dget_expand;
  repeat match goal with H : dget ?k ?a = Some _ |- context [dget ?k ?a] => rewrite H; clear H end;
  cbn [option_map]; rewrite !as_path_existsb;
  cbn [existsb String.eqb Ascii.eqb Bool.eqb orb rbind]; cbn -[asked];
  try match goal with H : logging_of _ = _ |- _ => cbn [c sc_paths] in H; rewrite H end; reflexivity.

Section Each.
Variables (rd : readers) (expanded : string -> string) (cl : command_line).
Definition path_value (v : value) : value := match v with VStr s => VStr (expanded s) | _ => v end.

Lemma soln_started : forall f, cl_positionals cl = [f] -> run_solver rd expanded soln_command cl <> Usage ->
  run_solver rd expanded soln_command cl = Started (
    let! o := Model_Inputs.validate_overrides (overrides_given (cl_options cl)) in
    Ok (mk_started "solve"
      [("output_file", asked rd (file_doc (Drawing "output_file") VNone) (cl_options cl));
       ("sonic_method", asked rd (method_doc "single") (cl_options cl));
       ("config_file", VStr (expanded f)); ("output_dir", path_value (asked rd (dir_doc (Drawing "output_dir")) (cl_options cl)));
       ("store_internal", asked rd (internal_doc true) (cl_options cl))] o (Some (logging_asked rd (cl_options cl))))).
Proof.
  intros f Hf Hrun. unfold run_solver in *. destruct (parse_args rd (sc_parser soln_command) cl) as [args|] eqn:Hp; [|congruence].
  clear Hrun. learn_overrides Hp soln_command. learn_positional Hp ["config_file"] "config_file" f.
  specialize (Hpos ltac:(rewrite Hf; left; reflexivity)).
  row_solver Hp "sonic_method" (method_doc "single"). row_solver Hp "output_file" (file_doc (Drawing "output_file") VNone).
  row_solver Hp "output_dir" (dir_doc (Drawing "output_dir")). row_solver Hp "store_internal" (internal_doc true).
  logging_row Hp expanded (sc_paths soln_command). finish_solver soln_command.
Qed.

Lemma resoln_started : forall f r, cl_positionals cl = [f; r] -> run_solver rd expanded resoln_command cl <> Usage ->
  run_solver rd expanded resoln_command cl = Started (
    let! o := Model_Inputs.validate_overrides (overrides_given (cl_options cl)) in
    Ok (mk_started "resolve"
      [("output_file", asked rd (file_doc (Drawing "output_file") VNone) (cl_options cl));
       ("sonic_method", asked rd (method_doc "single") (cl_options cl));
       ("soln_filename", VStr (expanded f)); ("soln_range", VStr r);
       ("output_dir", path_value (asked rd (dir_doc (Drawing "output_dir")) (cl_options cl)));
       ("store_internal", asked rd (internal_doc true) (cl_options cl))] o (Some (logging_asked rd (cl_options cl))))).
Proof.
  intros f r Hf Hrun. unfold run_solver in *. destruct (parse_args rd (sc_parser resoln_command) cl) as [args|] eqn:Hp; [|congruence].
  clear Hrun. learn_overrides Hp resoln_command. learn_positional Hp ["soln_filename"; "soln_range"] "soln_filename" f.
  specialize (Hpos ltac:(rewrite Hf; left; reflexivity)). learn_positional Hp ["soln_filename"; "soln_range"] "soln_range" r.
  specialize (Hpos0 ltac:(rewrite Hf; right; left; reflexivity)).
  row_solver Hp "sonic_method" (method_doc "single"). row_solver Hp "output_file" (file_doc (Drawing "output_file") VNone).
  row_solver Hp "output_dir" (dir_doc (Drawing "output_dir")). row_solver Hp "store_internal" (internal_doc true).
  logging_row Hp expanded (sc_paths resoln_command). finish_solver resoln_command.
Qed.

Lemma csvrunner_started : forall f, cl_positionals cl = [f] -> run_solver rd expanded csvrunner_command cl <> Usage ->
  run_solver rd expanded csvrunner_command cl = Started (
    let! o := Model_Inputs.validate_overrides (overrides_given (cl_options cl)) in
    Ok (mk_started "csvrunner"
      [("output_file", asked rd (file_doc (Drawing "output_file") (VStr "-")) (cl_options cl)); ("input_file", VStr f);
       ("nworkers", asked rd workers_doc (cl_options cl)); ("store_internal", asked rd (internal_doc false) (cl_options cl));
       ("sonic_method", asked rd (method_doc "step") (cl_options cl)); ("label", VStr "")] o None)).
Proof.
  intros f Hf Hrun. unfold run_solver in *. destruct (parse_args rd (sc_parser csvrunner_command) cl) as [args|] eqn:Hp; [|congruence].
  clear Hrun. learn_overrides Hp csvrunner_command. learn_positional Hp ["input_file"] "input_file" f.
  specialize (Hpos ltac:(rewrite Hf; left; reflexivity)).
  row_solver Hp "sonic_method" (method_doc "step"). row_solver Hp "output_file" (file_doc (Drawing "output_file") (VStr "-")).
  row_solver Hp "nworkers" workers_doc. row_solver Hp "store_internal" (internal_doc false).
  finish_solver csvrunner_command.
Qed.

Lemma hdf5runner_started : forall f, cl_positionals cl = [f] -> run_solver rd expanded hdf5runner_command cl <> Usage ->
  run_solver rd expanded hdf5runner_command cl = Started (
    let! o := Model_Inputs.validate_overrides (overrides_given (cl_options cl)) in
    Ok (mk_started "hdf5runner"
      [("output_file", VNone); ("input_file", VStr (expanded f)); ("nworkers", asked rd workers_doc (cl_options cl));
       ("output_dir", path_value (asked rd (dir_doc (Drawing "output_dir")) (cl_options cl)));
       ("store_internal", asked rd (internal_doc true) (cl_options cl));
       ("sonic_method", asked rd (method_doc "single") (cl_options cl)); ("label", asked rd label_doc (cl_options cl))] o None)).
Proof.
  intros f Hf Hrun. unfold run_solver in *. destruct (parse_args rd (sc_parser hdf5runner_command) cl) as [args|] eqn:Hp; [|congruence].
  clear Hrun. learn_overrides Hp hdf5runner_command. learn_positional Hp ["input_file"] "input_file" f.
  specialize (Hpos ltac:(rewrite Hf; left; reflexivity)).
  row_solver Hp "sonic_method" (method_doc "single"). row_solver Hp "output_dir" (dir_doc (Drawing "output_dir")).
  row_solver Hp "nworkers" workers_doc. row_solver Hp "store_internal" (internal_doc true). row_solver Hp "label" label_doc.
  finish_solver hdf5runner_command.
Qed.
End Each.

(** ** Options reach the solver *)
Ltac rows_of :=
  let rw := fresh "rw" in let k := fresh "k" in let Hin := fresh "Hin" in let Ht := fresh "Ht" in
  intros rw k Hin Ht; cbn in Hin;
  repeat (destruct Hin as [<-|Hin]; [cbn in Ht; try discriminate; try (injection Ht as <-; rewrite as_path_existsb; reflexivity)|]);
  contradiction.
Ltac positionals_of H :=
  let k := fresh "k" in let t := fresh "t" in let Hin := fresh "Hin" in
  intros k t Hin; rewrite H in Hin; cbn in Hin;
  repeat (destruct Hin as [Hin|Hin]; [injection Hin as <- <-; rewrite as_path_existsb; reflexivity|]); contradiction.

(** For every command that solves and every command line it does not refuse, with overrides of existing fields: the function
    that does the work is called; each parameter an option controls is what the last occurrence of the option says or the
    default, with paths expanded; the positional arguments are given to it; each overridden field has the value given last;
    and, for ds-soln and ds-resoln, messages are handled as the logging options ask. *)
Theorem C107_options : forall rd expanded c d, In (c, d) solver_commands -> forall cl, run_solver rd expanded c cl <> Usage ->
  (forall p, In p (overrides_given (cl_options cl)) -> In (fst p) Model_Inputs.CONFIG_FIELDS) ->
  exists s, run_solver rd expanded c cl = Started (Ok s) /\ s_function s = sd_function d /\
    (forall row k, In row (sd_rows d) -> doc_target row = Drawing k ->
       dget k (s_args s) = Some (as_path expanded (sd_paths d) k (asked rd row (cl_options cl)))) /\
    (forall k t, In (k, t) (combine (sd_positionals d) (cl_positionals cl)) ->
       dget k (s_args s) = Some (as_path expanded (sd_paths d) k (VStr t))) /\
    NoDup (dkeys (s_overrides s)) /\
    (forall f, dget f (s_overrides s) =
               option_map Model_Format.VText (Spec_Inputs.last_override f (overrides_given (cl_options cl)))) /\
    s_logging s = if sd_logs d then Some (logging_asked rd (cl_options cl)) else None.
Proof.
  intros rd ex c d Hin cl Hrun Hov.
  pose proof (proj1 (proj1 (C107_usage rd ex c d Hin cl) Hrun)) as Hlen.
  destruct (Props_InputsFile.C42_validate _ Hov) as [o [Ho [Hnd Hget]]].
  destruct Hin as [Hin|[Hin|[Hin|[Hin|[]]]]]; injection Hin as <- <-; cbn [sd_positionals List.length] in Hlen;
    destruct (cl_positionals cl) as [|f [|r [|x l]]] eqn:Hpos; try discriminate;
    [rewrite (soln_started rd ex cl f Hpos Hrun)|rewrite (resoln_started rd ex cl f r Hpos Hrun)
    |rewrite (csvrunner_started rd ex cl f Hpos Hrun)|rewrite (hdf5runner_started rd ex cl f Hpos Hrun)];
    rewrite Ho; cbn [rbind]; (eexists; split; [reflexivity|]); cbn [s_function s_args s_overrides s_logging sd_function sd_rows sd_paths sd_logs sd_positionals];
    (split; [reflexivity|]); (split; [rows_of|]);
    (split; [intros k t Hin; cbn in Hin;
             repeat (destruct Hin as [Hin|Hin]; [injection Hin as <- <-; rewrite as_path_existsb; reflexivity|]); contradiction|]);
    repeat split; assumption.
Qed.

(** An override of a field that does not exist is an error, and nothing is started. *)
Theorem C107_unknown_override : forall rd expanded c d, In (c, d) solver_commands -> forall cl, run_solver rd expanded c cl <> Usage ->
  (exists p, In p (overrides_given (cl_options cl)) /\ ~ In (fst p) Model_Inputs.CONFIG_FIELDS) ->
  run_solver rd expanded c cl = Started (Raise SolverError).
Proof.
  intros rd ex c d Hin cl Hrun Hov.
  pose proof (proj1 (proj1 (C107_usage rd ex c d Hin cl) Hrun)) as Hlen.
  pose proof (Props_InputsFile.C42_unknown _ Hov) as Ho.
  destruct Hin as [Hin|[Hin|[Hin|[Hin|[]]]]]; injection Hin as <- <-; cbn [sd_positionals List.length] in Hlen;
    destruct (cl_positionals cl) as [|f [|r [|x l]]] eqn:Hpos; try discriminate;
    [rewrite (soln_started rd ex cl f Hpos Hrun)|rewrite (resoln_started rd ex cl f r Hpos Hrun)
    |rewrite (csvrunner_started rd ex cl f Hpos Hrun)|rewrite (hdf5runner_started rd ex cl f Hpos Hrun)];
    rewrite Ho; reflexivity.
Qed.

(** ** Options without effect *)
Lemma filter_rev' : forall {A} (p : A -> bool) l, filter p (rev l) = rev (filter p l).
Proof.
  intros A p l. induction l as [|a l IH]; [reflexivity|]. cbn. rewrite filter_app, IH. cbn. destruct (p a); cbn; [reflexivity|apply app_nil_r].
Qed.
Lemma find_filter : forall {A} (p q : A -> bool) l, (forall x, p x = true -> q x = true) -> find p (filter q l) = find p l.
Proof.
  intros A p q l H. induction l as [|a l IH]; [reflexivity|]. cbn. destruct (p a) eqn:Ha.
  - rewrite (H a Ha). cbn. rewrite Ha. reflexivity.
  - destruct (q a); cbn; [rewrite Ha|]; exact IH.
Qed.
Lemma asked_without : forall rd d flags given, forallb (fun f => negb (existsb (String.eqb f) flags)) (map fst (doc_flags d)) = true ->
  asked rd d (without flags given) = asked rd d given.
Proof.
  intros rd d flags given H. unfold asked, last_given, without. rewrite <- filter_rev', find_filter; [reflexivity|].
  intros g Hg. rewrite forallb_forall in H. apply existsb_in in Hg. apply H. exact Hg.
Qed.
Lemma overrides_without : forall flags given, existsb (String.eqb override_flag) flags = false ->
  overrides_given (without flags given) = overrides_given given.
Proof.
  intros flags given H. unfold without. induction given as [|g given IH]; [reflexivity|]. cbn [filter overrides_given flat_map].
  destruct (existsb (String.eqb (fst g)) flags) eqn:E; cbn [negb].
  - destruct (String.eqb_spec (fst g) override_flag) as [Eq|]; [rewrite Eq in E; congruence|]. exact IH.
  - cbn [flat_map overrides_given]. fold (overrides_given given) (overrides_given (filter (fun g => negb (existsb (String.eqb (fst g)) flags)) given)).
    rewrite IH. reflexivity.
Qed.
Ltac same_asked E flags :=
  match goal with |- context [asked ?rd ?d (cl_options ?a)] =>
    rewrite <- (asked_without rd d flags (cl_options a) eq_refl), E, (asked_without rd d flags) by reflexivity end.

(** ds-csvrunner takes --output-dir and the logging options, and nothing depends on them: two command lines that differ only
    in these start the same batch, with messages handled in the same way. *)
Theorem C107_csvrunner_refuted : forall rd expanded cl cl', cl_positionals cl = cl_positionals cl' ->
  without ("--output-dir" :: log_flags) (cl_options cl) = without ("--output-dir" :: log_flags) (cl_options cl') ->
  run_solver rd expanded csvrunner_command cl <> Usage -> run_solver rd expanded csvrunner_command cl' <> Usage ->
  run_solver rd expanded csvrunner_command cl = run_solver rd expanded csvrunner_command cl'.
Proof.
  intros rd ex cl cl' Hpos E H H'. assert (Hin : In (csvrunner_command, mk_solver_doc csv_docs "csvrunner" ["input_file"] [] false) solver_commands) by (right; right; left; reflexivity).
  pose proof (proj1 (proj1 (C107_usage rd ex _ _ Hin cl) H)) as Hlen. cbn in Hlen.
  destruct (cl_positionals cl) as [|f [|x l]] eqn:Hf; try discriminate.
  rewrite (csvrunner_started rd ex cl f Hf H), (csvrunner_started rd ex cl' f (eq_sym Hpos) H').
  assert (A : forall d, forallb (fun f => negb (existsb (String.eqb f) ("--output-dir" :: log_flags))) (map fst (doc_flags d)) = true ->
                asked rd d (cl_options cl) = asked rd d (cl_options cl')).
  { intros d Hd. rewrite <- (asked_without rd d _ (cl_options cl) Hd), E. apply asked_without. exact Hd. }
  rewrite <- (overrides_without ("--output-dir" :: log_flags) (cl_options cl) eq_refl), E, (overrides_without ("--output-dir" :: log_flags) _ eq_refl).
  rewrite !A by reflexivity. reflexivity.
Qed.
(** ds-hdf5runner takes --output-file and the logging options, likewise without effect. *)
Theorem C107_hdf5runner_refuted : forall rd expanded cl cl', cl_positionals cl = cl_positionals cl' ->
  without ("--output-file" :: log_flags) (cl_options cl) = without ("--output-file" :: log_flags) (cl_options cl') ->
  run_solver rd expanded hdf5runner_command cl <> Usage -> run_solver rd expanded hdf5runner_command cl' <> Usage ->
  run_solver rd expanded hdf5runner_command cl = run_solver rd expanded hdf5runner_command cl'.
Proof.
  intros rd ex cl cl' Hpos E H H'. assert (Hin : In (hdf5runner_command, mk_solver_doc hdf5_docs "hdf5runner" ["input_file"] ["output_dir"; "input_file"] false) solver_commands) by (right; right; right; left; reflexivity).
  pose proof (proj1 (proj1 (C107_usage rd ex _ _ Hin cl) H)) as Hlen. cbn in Hlen.
  destruct (cl_positionals cl) as [|f [|x l]] eqn:Hf; try discriminate.
  rewrite (hdf5runner_started rd ex cl f Hf H), (hdf5runner_started rd ex cl' f (eq_sym Hpos) H').
  assert (A : forall d, forallb (fun f => negb (existsb (String.eqb f) ("--output-file" :: log_flags))) (map fst (doc_flags d)) = true ->
                asked rd d (cl_options cl) = asked rd d (cl_options cl')).
  { intros d Hd. rewrite <- (asked_without rd d _ (cl_options cl) Hd), E. apply asked_without. exact Hd. }
  rewrite <- (overrides_without ("--output-file" :: log_flags) (cl_options cl) eq_refl), E, (overrides_without ("--output-file" :: log_flags) _ eq_refl).
  rewrite !A by reflexivity. reflexivity.
Qed.

(** With the logging options asked for, messages of ds-csvrunner and ds-hdf5runner go where the handlers that are active anyway
    send them: asked to be quiet, with the handler logbook has by default (standard error, every level), every message appears. *)
Definition logbook_default : list handler := [mk_handler To_stderr None false false].
Theorem C107_quiet_refuted : forall rd expanded c d, In (c, d) solver_commands -> sd_logs d = false -> forall cl s,
  run_solver rd expanded c cl = Started (Ok s) -> forall ms,
  messages_of s logbook_default ms = map (fun m => (To_stderr, m)) ms.
Proof.
  intros rd ex c d Hin Hl cl s Hs ms.
  assert (Hn : s_logging s = None).
  { unfold run_solver in Hs. destruct (parse_args rd (sc_parser c) cl) as [ns|]; [|discriminate]. injection Hs as Hs.
    destruct (attr "override" _) as [o|]; [|discriminate]. cbn [rbind] in Hs.
    destruct (Model_Inputs.validate_overrides _) as [ov|]; [|discriminate]. cbn [rbind] in Hs.
    destruct (attrs (sc_passed c) _) as [kw|]; [|discriminate]. cbn [rbind] in Hs.
    destruct (bind (sc_signature c) kw) as [a|]; [|discriminate]. cbn [rbind] in Hs. injection Hs as <-.
    destruct Hin as [Hin|[Hin|[Hin|[Hin|[]]]]]; injection Hin as <- <-; try discriminate; reflexivity. }
  unfold messages_of. rewrite Hn. induction ms as [|m ms IH]; [reflexivity|]. cbn [flat_map map]. rewrite IH. reflexivity.
Qed.

(** ** ds-soln and ds-resoln as a whole *)
Section Whole.
Context {Sol I Inp : Type}.
Variables (rd : readers) (expanded : string -> string) (join : string -> string -> string)
          (prepare : values -> dict Model_Format.val -> res (Model_Run.run Sol I * Inp))
          (label_of : Model_Run.run Sol I -> string) (now : string)
          (methods : bool -> Model_Solve.method_map (Sol := Sol) (I := I) (Inp := Inp)).
Let main := solver_main rd expanded join prepare label_of now methods.

(** The text an option says. *)
Definition text_of (v : value) : string := match v with VStr s => s | _ => "" end.
(** The output file: the name asked for, or the label with the time, in the directory asked for. *)
Definition output_asked (r : Model_Run.run Sol I) (given : list (string * list string)) : string :=
  expanded (join (match asked rd (dir_doc (Drawing "output_dir")) given with VStr d => expanded d | _ => "" end)
                 (match asked rd (file_doc (Drawing "output_file") VNone) given with
                  | VStr f => f | _ => (label_of r ++ now ++ ".hdf5")%string end)).

Lemma kept : forall (ms : Model_Solve.method_map (Sol := Sol) (I := I) (Inp := Inp)) prepared method name fs fs' out,
  Model_Solve.solve ms prepared method name fs = (fs', out) ->
  (forall f r, dget f fs = Some r -> dget f fs' = Some r) /\
  (out = Ok true -> exists r inp m r1 r2, prepared = Ok (r, inp) /\ dget name fs = None /\ dget method ms = Some m /\
     m inp r = (r1, Ok true) /\ Model_Run.finalise r1 = Ok r2 /\ dget name fs' = Some r2).
Proof.
  intros ms prepared method name fs fs' out H. unfold Model_Solve.solve in H. destruct prepared as [[r inp]|e].
  2:{ injection H as <- <-. split; [auto|discriminate]. }
  unfold Model_Solve.create, dmem in H. destruct (dget name fs) as [r0|] eqn:Hn.
  { injection H as <- <-. split; [auto|discriminate]. }
  assert (Hk : forall f r' x, dget f fs = Some r' -> dget f (dset name x fs) = Some r').
  { intros f r' x Hf. rewrite dget_dset. destruct (String.eqb_spec f name) as [->|]; [congruence|exact Hf]. }
  destruct (dget method ms) as [m|] eqn:Hm.
  2:{ injection H as <- <-. split; [intros; apply Hk; assumption|discriminate]. }
  unfold Model_Solve.solve_in in H. destruct (m inp r) as [r1 o] eqn:Hr.
  destruct o as [b|e].
  2:{ injection H as <- <-. split; [|discriminate]. intros f r' Hf. rewrite dget_dset.
      destruct (String.eqb_spec f name) as [->|]; [congruence|apply Hk; exact Hf]. }
  destruct (Model_Run.finalise r1) as [r2|e] eqn:Hfin.
  - injection H as <- <-. split.
    + intros f r' Hf. rewrite !dget_dset. destruct (String.eqb_spec f name) as [->|]; [congruence|exact Hf].
    + intro Hb. injection Hb as ->. exists r, inp, m, r1, r2. rewrite dget_dset, String.eqb_refl. repeat split; auto.
  - injection H as <- <-. split; [|discriminate]. intros f r' Hf. rewrite !dget_dset.
    destruct (String.eqb_spec f name) as [->|]; [congruence|exact Hf].
Qed.

(** The exit status of ds-soln and ds-resoln is 2 for a usage error, 1 or 0 otherwise; files that were there are unchanged; and if it is 0,
    the method named by --sonic-method was run on the inputs prepared from the command line, with internal data stored as asked,
    it reported success, and its finished run is in a new file, named as asked for. *)
Theorem C107_status : forall c d, In (c, d) solver_commands -> sd_logs d = true -> forall cl fs fs' n, main c cl fs = (fs', n) ->
  (n = 2%Z <-> run_solver rd expanded c cl = Usage) /\ (n = 0%Z \/ n = 1%Z \/ n = 2%Z) /\
  (forall f r, dget f fs = Some r -> dget f fs' = Some r) /\
  (n = 0%Z -> exists s r inp m r1 r2, run_solver rd expanded c cl = Started (Ok s) /\
     prepare (s_args s) (s_overrides s) = Ok (r, inp) /\
     dget (text_of (asked rd (method_doc "single") (cl_options cl))) (methods (yes (asked rd (internal_doc true) (cl_options cl)))) = Some m /\
     m inp r = (r1, Ok true) /\ Model_Run.finalise r1 = Ok r2 /\
     dget (output_asked r (cl_options cl)) fs = None /\ dget (output_asked r (cl_options cl)) fs' = Some r2).
Proof.
  intros c d Hin Hl cl fs fs' n H. unfold main, solver_main in H.
  destruct (run_solver rd expanded c cl) as [|[s|e]] eqn:Hrun.
  - injection H as <- <-. split; [split; auto|]. split; [auto|]. split; [auto|discriminate].
  - destruct (Model_Solve.solve _ _ _ _ fs) as [fs1 out] eqn:Hs. destruct (kept _ _ _ _ _ _ _ Hs) as [K1 K2].
    assert (Hn : n = match out with Ok succeeded => if succeeded then 0%Z else 1%Z | Raise _ => 1%Z end) by (injection H; auto).
    injection H as <- _. split; [|split; [|split; [exact K1|]]].
    + split; [|discriminate]. intro E. subst n. destruct out as [[]|]; discriminate.
    + subst n. destruct out as [[]|]; auto.
    + intro E. assert (Ho : out = Ok true) by (subst n; destruct out as [[]|]; congruence).
      destruct (K2 Ho) as (r & inp & m & r1 & r2 & P1 & P2 & P3 & P4 & P5 & P6). exists s, r, inp, m, r1, r2.
      assert (Hu : run_solver rd expanded c cl <> Usage) by congruence.
      pose proof (proj1 (proj1 (C107_usage rd expanded c d Hin cl) Hu)) as Hlen.
      assert (Hargs : dget "output_file" (s_args s) = Some (asked rd (file_doc (Drawing "output_file") VNone) (cl_options cl)) /\
                      dget "sonic_method" (s_args s) = Some (asked rd (method_doc "single") (cl_options cl)) /\
                      dget "output_dir" (s_args s) = Some (path_value expanded (asked rd (dir_doc (Drawing "output_dir")) (cl_options cl))) /\
                      dget "store_internal" (s_args s) = Some (asked rd (internal_doc true) (cl_options cl))).
      { destruct Hin as [Hin|[Hin|[Hin|[Hin|[]]]]]; injection Hin as <- <-; try discriminate; cbn [sd_positionals List.length] in Hlen;
          destruct (cl_positionals cl) as [|f [|x [|y l]]] eqn:Hpos; try discriminate;
          [rewrite (soln_started rd expanded cl f Hpos Hu) in Hrun|rewrite (resoln_started rd expanded cl f x Hpos Hu) in Hrun];
          injection Hrun as Hrun; destruct (Model_Inputs.validate_overrides _) as [o|]; try discriminate;
          cbn [rbind] in Hrun; injection Hrun as <-; cbn [s_args]; repeat split; reflexivity. }
      destruct Hargs as [A1 [A2 [A3 A4]]]. rewrite A4 in P3. unfold get in P3. rewrite A2 in P3.
      assert (Hname : output_name expanded join label_of now (s_args s) (prepare (s_args s) (s_overrides s)) = output_asked r (cl_options cl)).
      { unfold output_name, output_asked, get. rewrite A1, A3, P1. unfold path_value.
        destruct (asked rd (file_doc (Drawing "output_file") VNone) (cl_options cl));
          destruct (asked rd (dir_doc (Drawing "output_dir")) (cl_options cl)); reflexivity. }
      rewrite Hname in P2, P6. repeat split; auto.
      unfold truth in P3. unfold yes, text_of. destruct (asked rd (internal_doc true) (cl_options cl)) as [|[]| | | | |]; exact P3.
  - injection H as <- <-. split; [split; discriminate|]. split; [auto|]. split; [auto|discriminate].
Qed.
End Whole.

(** ** Concrete command lines *)
Definition no_numbers : readers := mk_readers (fun _ => None) (fun s => if String.eqb s "4" then Some 4%Z else None).
Definition home (s : string) : string := ("/home/" ++ s)%string.
Definition soln_line : command_line :=
  mk_command_line ["run.cfg"]
    [("--sonic-method", ["step"]); ("--override", ["start"; "0"]); ("--no-store-internal", []); ("--override", ["stop"; "30"]);
     ("--output-dir", ["out"]); ("--sonic-method", ["mcmc"]); ("--quiet", [])].
Example C107_soln_nonvacuous : exists s, run_solver no_numbers home soln_command soln_line = Started (Ok s) /\
  s_args s = [("output_file", VNone); ("sonic_method", VStr "mcmc"); ("config_file", VStr "/home/run.cfg");
              ("output_dir", VStr "/home/out"); ("store_internal", VBool false)] /\
  s_overrides s = [("start", Model_Format.VText "0"); ("stop", Model_Format.VText "30")] /\
  s_logging s = Some (mk_log_args None (Some DEBUG) (Some NOTICE) true false).
Proof. eexists. split; [vm_compute; reflexivity|]. repeat split; reflexivity. Qed.
Example C107_refused : run_solver no_numbers home soln_command (mk_command_line ["run.cfg"] [("--quiet", []); ("--verbose", [])]) = Usage /\
  run_solver no_numbers home soln_command (mk_command_line ["run.cfg"] [("--sonic-method", ["bisect"])]) = Usage /\
  run_solver no_numbers home soln_command (mk_command_line ["run.cfg"] [("--override", ["strat"; "0"])]) = Started (Raise SolverError).
Proof. repeat split; vm_compute; reflexivity. Qed.
Definition csv_line (dir : string) : command_line :=
  mk_command_line ["in.csv"] [("--output-file", ["out.csv"]); ("--output-dir", [dir]); ("--nworkers", ["4"]); ("--quiet", [])].
Example C107_runners_nonvacuous :
  (exists s, run_solver no_numbers home csvrunner_command (csv_line "a") = Started (Ok s) /\
     run_solver no_numbers home csvrunner_command (csv_line "b") = Started (Ok s) /\
     dget "output_file" (s_args s) = Some (VStr "out.csv") /\ dget "nworkers" (s_args s) = Some (VInt 4) /\ s_logging s = None) /\
  (exists s, run_solver no_numbers home hdf5runner_command (csv_line "a") = Started (Ok s) /\
     dget "output_file" (s_args s) = Some VNone /\ dget "output_dir" (s_args s) = Some (VStr "/home/a") /\ s_logging s = None).
Proof.
  split; (eexists; split; [vm_compute; reflexivity|]); [split; [vm_compute; reflexivity|]|]; repeat split; reflexivity.
Qed.
(** A run that succeeds: status 0 and the file is there; a second one with the same name: status 1. *)
Definition fresh_run : Model_Run.run unit string := Model_Run.new_run "lab".
Definition finished_run : Model_Run.run unit string := Model_Run.with_final (Model_Run.with_solutions fresh_run [("0", tt)]) (Model_Run.Final tt).
Definition finishes (i : unit) (r : Model_Run.run unit string) : Model_Run.run unit string * res bool := (finished_run, Ok true).
Definition slash (a b : string) : string := (a ++ "/" ++ b)%string.
Example C107_status_nonvacuous :
  let main := solver_main no_numbers (fun s => s) slash (fun _ _ => Ok (fresh_run, tt)) Model_Run.r_info "T" (fun _ => [("mcmc", finishes)]) in
  main soln_command soln_line [] = ([("out/labT.hdf5", finished_run)], 0%Z) /\
  main soln_command soln_line [("out/labT.hdf5", fresh_run)] = ([("out/labT.hdf5", fresh_run)], 1%Z).
Proof. split; vm_compute; reflexivity. Qed.
