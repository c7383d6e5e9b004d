(** C109: where ds-tocsv, ds-tocfg, ds-stats and ds-dumpcsv put their output, and what they do to what was there. *)
From Coq Require Import String List Bool ZArith Reals Lia.
From Verif Require Import Lib_Py Model_Format Model_Inputs Model_Csv Model_Tables Model_Options Model_Run Spec_Options Proofs_Options Props_Options
  Props_Info Model_TableCommands Spec_TableCommands.
Import ListNotations.
Open Scope string_scope. Open Scope list_scope.

(** ** The options *)
Lemma out_text : forall rd docs given, Forall (allowed rd docs) given ->
  forallb (fun d => match dget "--file" (doc_flags d) with Some AText | None => true | _ => false end) docs = true ->
  asked rd out_doc given = VStr (output_asked rd given).
Proof.
  intros rd docs given HF HD. unfold output_asked. assert (H : exists s, asked rd out_doc given = VStr s); [|destruct H as [s ->]; reflexivity].
  unfold asked. destruct (last_given out_doc given) as [[flag texts]|] eqn:L; [|exists "-"; reflexivity].
  unfold last_given in L. apply find_some in L. destruct L as [Hin Hf]. apply in_rev in Hin. cbn [out_doc row doc_flags map existsb fst] in Hf. rewrite orb_false_r in Hf.
  apply String.eqb_eq in Hf. subst flag. rewrite Forall_forall in HF. destruct (HF _ Hin) as (d & m & Hd & Hm & Hr). cbn [fst snd] in Hm, Hr.
  rewrite forallb_forall in HD. specialize (HD d Hd). rewrite Hm in HD. destruct m; try discriminate HD.
  destruct texts as [|s [|? ?]]; cbn in Hr; try congruence. exists s. reflexivity.
Qed.

Section Commands.
Context {Soln : Type}.
Variables (E : env) (rd : readers) (I : Type) (load : string -> res (run Soln I)) (input_of : Soln -> val) (label_of : I -> res val).
Variables (render : cfg_file -> string) (stat : nat -> Soln -> res (string -> val)) (read : string -> list (string * option Soln) * @file_end Soln).
Notation ds_tocsv := (tocsv E rd I load input_of).
Notation ds_tocfg := (tocfg E rd I load input_of label_of render).
Notation ds_stats := (Model_TableCommands.stats_main E rd input_of stat read).
Notation ds_dumpcsv := (dump_csv_inputs_main E rd input_of read).

(** A command line is refused exactly when it does not name a file and a solution (for the two commands about one solution), has an option
    the command does not have or with a wrong argument, or mixes two of the options for the level of the messages. *)
Theorem C109_usage : forall w stdin cl,
  let ok docs := Forall (allowed rd docs) (cl_options cl) /\ not_mixed log_alternatives (cl_options cl) in
  (ds_tocsv w cl <> TableUsage <-> List.length (cl_positionals cl) = 2%nat /\ ok tocsv_docs) /\
  (ds_tocfg w cl <> TableUsage <-> List.length (cl_positionals cl) = 2%nat /\ ok tocfg_docs) /\
  (ds_stats w stdin cl <> TableUsage <-> ok many_file_docs) /\
  (ds_dumpcsv w stdin cl <> TableUsage <-> ok many_file_docs).
Proof.
  intros w stdin cl ok.
  assert (G : forall (g : list string) l, Forall (fun g => not_mixed g l) [g] <-> not_mixed g l).
  { intros g l. split; [intro H; inversion H; assumption|intro H; constructor; [exact H|constructor]]. }
  assert (M : parse_args rd many_file_parser (mk_command_line [] (cl_options cl)) <> None <-> ok many_file_docs).
  { unfold many_file_parser. rewrite (parse_iff_gen rd [] (logging_options ++ many_file_options) [stderr_group] many_file_docs (mk_command_line [] (cl_options cl)) True eq_refl).
    - rewrite (G stderr_group). cbn [cl_options]. unfold ok. tauto.
    - intro ns. split; [intro; exact Logic.I|intros _; exists ns; reflexivity]. }
  split; [|split; [|split]].
  - unfold tocsv. assert (P : parse_args rd (single_parser tocsv_options []) cl <> None <-> List.length (cl_positionals cl) = 2%nat /\ ok tocsv_docs).
    { unfold single_parser. rewrite (parse_iff_gen rd _ (logging_options ++ tocsv_options) [stderr_group] tocsv_docs cl _ eq_refl (fun ns => two_texts rd (cl_positionals cl) ns)). rewrite (G stderr_group). reflexivity. }
    rewrite <- P. destruct (parse_args rd (single_parser tocsv_options []) cl); split; intro; congruence.
  - unfold tocfg. assert (P : parse_args rd (single_parser tocfg_options []) cl <> None <-> List.length (cl_positionals cl) = 2%nat /\ ok tocfg_docs).
    { unfold single_parser. rewrite (parse_iff_gen rd _ (logging_options ++ tocfg_options) [stderr_group] tocfg_docs cl _ eq_refl (fun ns => two_texts rd (cl_positionals cl) ns)). rewrite (G stderr_group). reflexivity. }
    rewrite <- P. destruct (parse_args rd (single_parser tocfg_options []) cl); split; intro; congruence.
  - rewrite <- M. unfold Model_TableCommands.stats_main, many_file_main. destruct (parse_args rd many_file_parser (mk_command_line [] (cl_options cl))); split; intro; congruence.
  - rewrite <- M. unfold dump_csv_inputs_main, many_file_main. destruct (parse_args rd many_file_parser (mk_command_line [] (cl_options cl))); split; intro; congruence.
Qed.

(** ** What a command line that is not refused runs *)
Lemma file_arg : forall opts docs cl args, parse_args rd (mk_parser (p_positionals opts) (p_options opts) (p_exclusive opts)) cl = Some args ->
  describes (p_options opts) "file" out_doc = true -> dmem "file" (p_positionals opts) = false -> first_default rd (p_options opts) "file" = Some (VStr "-") ->
  Forall (allowed rd docs) (cl_options cl) ->
  forallb (fun d => match dget "--file" (doc_flags d) with Some AText | None => true | _ => false end) docs = true ->
  text_arg "file" args = Ok (output_asked rd (cl_options cl)).
Proof.
  intros [ps os es] docs cl args P D1 D2 D3 A D4. unfold text_arg. rewrite (args_default _ _ _ _ P "file" out_doc D1 D2 D3). rewrite (out_text rd docs (cl_options cl) A D4). reflexivity.
Qed.

Lemma tocsv_runs : forall w cl f n, cl_positionals cl = [f; n] -> ds_tocsv w cl <> TableUsage ->
  ds_tocsv w cl = Ran (fails w (load f) (fun r => dump_csv_file E I input_of w r n (output_asked rd (cl_options cl)) (asks_for rd header_doc (cl_options cl)))).
Proof.
  intros w cl f n Hp H. pose proof (proj1 (proj1 (C109_usage w [] cl)) H) as (_ & HA & _). unfold tocsv in *.
  destruct (parse_args rd (single_parser tocsv_options []) cl) as [args|] eqn:P; [|congruence]. f_equal.
  destruct (two_positionals _ _ _ _ _ P) as (f' & n' & Q & P1 & P2). rewrite Hp in Q. injection Q as <- <-.
  rewrite (file_arg _ tocsv_docs cl args P eq_refl eq_refl eq_refl HA eq_refl).
  assert (B : bool_arg "with_header" args = asks_for rd header_doc (cl_options cl)).
  { unfold bool_arg, asks_for. rewrite (args_default _ _ _ _ P "with_header" header_doc eq_refl eq_refl eq_refl). reflexivity. }
  rewrite B. unfold text_arg. rewrite P1, P2. reflexivity.
Qed.
Lemma tocfg_runs : forall w cl f n, cl_positionals cl = [f; n] -> ds_tocfg w cl <> TableUsage ->
  ds_tocfg w cl = Ran (fails w (load f) (fun r => dump_cfg_file E I input_of label_of render w r n (output_asked rd (cl_options cl)))).
Proof.
  intros w cl f n Hp H. pose proof (proj1 (proj1 (proj2 (C109_usage w [] cl))) H) as (_ & HA & _). unfold tocfg in *.
  destruct (parse_args rd (single_parser tocfg_options []) cl) as [args|] eqn:P; [|congruence]. f_equal.
  destruct (two_positionals _ _ _ _ _ P) as (f' & n' & Q & P1 & P2). rewrite Hp in Q. injection Q as <- <-.
  rewrite (file_arg _ tocfg_docs cl args P eq_refl eq_refl eq_refl HA eq_refl).
  unfold text_arg. rewrite P1, P2. reflexivity.
Qed.
Lemma many_runs : forall write w stdin cl, Forall (allowed rd many_file_docs) (cl_options cl) -> many_file_main rd read write w stdin cl <> TableUsage ->
  many_file_main rd read write w stdin cl =
  Ran (open_or_stream w (output_asked rd (cl_options cl)) Append (fun old =>
    write old (get_all_solutions read (get_all_files (cl_positionals cl) stdin (asks_for rd stdin_doc (cl_options cl)))))).
Proof.
  intros write w stdin cl HA H. unfold many_file_main in *.
  destruct (parse_args rd many_file_parser (mk_command_line [] (cl_options cl))) as [args|] eqn:P; [|congruence]. f_equal.
  rewrite (file_arg _ many_file_docs _ args P eq_refl eq_refl eq_refl HA eq_refl). cbn [fails cl_options].
  assert (B : bool_arg "with_stdin" args = asks_for rd stdin_doc (cl_options cl)).
  { unfold bool_arg, asks_for. rewrite (args_default _ _ _ _ P "with_stdin" stdin_doc eq_refl eq_refl eq_refl). reflexivity. }
  rewrite B. reflexivity.
Qed.

(** ** Outputs *)
Lemma stream_only : forall w name m body w' e, open_or_stream w name m body = (w', e) -> only_changes name w w'.
Proof.
  intros w name m body w' e H other Ho. unfold open_or_stream in H. unfold holds. destruct (String.eqb_spec name "-") as [->|Hn].
  - destruct (body (w_stdout w)) as [out e']. injection H as <- <-. destruct (String.eqb_spec other "-"); [contradiction|]. reflexivity.
  - destruct (body _) as [out e']. injection H as <- <-. cbn [w_stdout w_files]. destruct (String.eqb_spec other "-"); [reflexivity|].
    rewrite dget_dset. destruct (String.eqb_spec other name); [contradiction|reflexivity].
Qed.
Lemma stream_append : forall w name body out e, body (contents w name) = (out, e) ->
  exists w', open_or_stream w name Append body = (w', e) /\ holds w' name = Some out.
Proof.
  intros w name body out e H. unfold open_or_stream, contents, holds in *. destruct (String.eqb_spec name "-") as [->|Hn].
  - rewrite H. eexists. split; reflexivity.
  - assert (Q : match dget name (w_files w) with Some s => s | None => "" end = match dget name (w_files w) with Some s => s | None => "" end) by reflexivity.
    rewrite H. eexists. split; [reflexivity|]. cbn [w_files]. rewrite dget_dset, String.eqb_refl. reflexivity.
Qed.
Lemma stream_write : forall w name body out e, body (if String.eqb name "-" then w_stdout w else "") = (out, e) ->
  exists w', open_or_stream w name Write body = (w', e) /\ holds w' name = Some out.
Proof.
  intros w name body out e H. unfold open_or_stream, holds in *. destruct (String.eqb_spec name "-") as [->|Hn].
  - rewrite H. eexists. split; reflexivity.
  - rewrite H. eexists. split; [reflexivity|]. cbn [w_files]. rewrite dget_dset, String.eqb_refl. reflexivity.
Qed.

(** Whatever happens, only the output named with --file (the last one), or standard output if none or "-" was named, is changed. *)
Theorem C109_only_output : forall w stdin cl w' e,
  ds_tocsv w cl = Ran (w', e) \/ ds_tocfg w cl = Ran (w', e) \/ ds_stats w stdin cl = Ran (w', e) \/ ds_dumpcsv w stdin cl = Ran (w', e) ->
  only_changes (output_asked rd (cl_options cl)) w w'.
Proof.
  assert (R : forall name w, only_changes name w w) by (intros name w other _; reflexivity).
  intros w stdin cl w' e [H|[H|[H|H]]].
  - assert (N : ds_tocsv w cl <> TableUsage) by congruence. pose proof (proj1 (proj1 (C109_usage w [] cl)) N) as (L & _).
    destruct (cl_positionals cl) as [|f [|n [|? ?]]] eqn:P; try discriminate L. rewrite (tocsv_runs w cl f n P N) in H. injection H as H.
    unfold fails, dump_csv_file in H. destruct (load f) as [r|x]; [|injection H as <- <-; apply R].
    destruct (rbind _ _) as [s|x]; [|injection H as <- <-; apply R]. eapply stream_only. exact H.
  - assert (N : ds_tocfg w cl <> TableUsage) by congruence. pose proof (proj1 (proj1 (proj2 (C109_usage w [] cl))) N) as (L & _).
    destruct (cl_positionals cl) as [|f [|n [|? ?]]] eqn:P; try discriminate L. rewrite (tocfg_runs w cl f n P N) in H. injection H as H.
    unfold fails, dump_cfg_file in H. destruct (load f) as [r|x]; [|injection H as <- <-; apply R].
    destruct (rbind _ _) as [s|x]; [|injection H as <- <-; apply R]. eapply stream_only. exact H.
  - assert (N : ds_stats w stdin cl <> TableUsage) by congruence. pose proof (proj1 (proj1 (proj2 (proj2 (C109_usage w stdin cl)))) N) as (A & _).
    unfold Model_TableCommands.stats_main in *. rewrite (many_runs _ w stdin cl A N) in H. injection H as H. eapply stream_only. exact H.
  - assert (N : ds_dumpcsv w stdin cl <> TableUsage) by congruence. pose proof (proj1 (proj2 (proj2 (proj2 (C109_usage w stdin cl)))) N) as (A & _).
    unfold dump_csv_inputs_main in *. rewrite (many_runs _ w stdin cl A N) in H. injection H as H. eapply stream_only. exact H.
Qed.

(** ds-tocsv of a solution that is there: one row is added to what the output held, after a header if one was asked for. *)
Theorem C109_tocsv : forall w cl f n r s line, cl_positionals cl = [f; n] -> ds_tocsv w cl <> TableUsage -> load f = Ok r ->
  get_solutions r (Some n) = Ok (Model_Run.Final s) -> dict_row E SOLUTION_INPUT_FIELDS (asdict (input_of s)) = Ok line ->
  let out := output_asked rd (cl_options cl) in
  exists w', ds_tocsv w cl = Ran (w', None) /\
    holds w' out = Some (contents w out ++ (if asks_for rd header_doc (cl_options cl) then csv_row SOLUTION_INPUT_FIELDS else "") ++ line)%string.
Proof.
  intros w cl f n r s line P N L G D out. rewrite (tocsv_runs w cl f n P N), L. cbn [fails]. unfold dump_csv_file. rewrite G. cbn [rbind the_solution].
  destruct (stream_append w out (fun old => dump_csv E (fun s => asdict (input_of s)) old s (asks_for rd header_doc (cl_options cl))) _ _
    ltac:(unfold dump_csv; rewrite D; reflexivity)) as (w' & H1 & H2).
  exists w'. fold out. rewrite H1. split; [reflexivity|exact H2].
Qed.

(** ds-tocfg of a solution that can be written as a configuration: the output is that configuration, instead of what the file held;
    standard output is added to. *)
Theorem C109_tocfg : forall w cl f n r s label c file, cl_positionals cl = [f; n] -> ds_tocfg w cl <> TableUsage -> load f = Ok r ->
  get_solutions r (Some n) = Ok (Model_Run.Final s) -> label_of (r_info r) = Ok label -> to_config_input E label (input_of s) = Ok c -> to_conf_file c = Ok file ->
  let out := output_asked rd (cl_options cl) in
  exists w', ds_tocfg w cl = Ran (w', None) /\ holds w' out = Some (if String.eqb out "-" then contents w out ++ render file else render file)%string.
Proof.
  intros w cl f n r s label c file P N L G B C F out. rewrite (tocfg_runs w cl f n P N), L. cbn [fails]. unfold dump_cfg_file. rewrite G. cbn [rbind the_solution].
  rewrite B. cbn [rbind]. rewrite C. cbn [rbind]. rewrite F.
  destruct (stream_write w out (fun old => ((old ++ render file)%string, None)) _ _ eq_refl) as (w' & H1 & H2).
  exists w'. fold out. rewrite H1. split; [reflexivity|]. rewrite H2. unfold contents, holds. destruct (String.eqb out "-"); reflexivity.
Qed.

(** If the result file cannot be read, or the solution is not in it, nothing is changed, not even an empty file made. *)
Theorem C109_not_found : forall w cl f n, cl_positionals cl = [f; n] ->
  (exists e, load f = Raise e) \/ (exists r, load f = Ok r /\ forall s, get_solutions r (Some n) <> Ok (Model_Run.Final s)) ->
  (ds_tocsv w cl <> TableUsage -> exists e, ds_tocsv w cl = Ran (w, Some e)) /\ (ds_tocfg w cl <> TableUsage -> exists e, ds_tocfg w cl = Ran (w, Some e)).
Proof.
  intros w cl f n P H. split; intro N; [rewrite (tocsv_runs w cl f n P N)|rewrite (tocfg_runs w cl f n P N)];
  (destruct H as [(e & ->)|(r & -> & H)]; [exists e; reflexivity|]); cbn [fails]; unfold dump_csv_file, dump_cfg_file;
  (destruct (get_solutions r (Some n)) as [[| |s]|e]; cbn [rbind the_solution]; try (eexists; reflexivity); exfalso; exact (H s eq_refl)).
Qed.

(** Refuted: a ds-tocfg that fails leaves the file it was to write as it was.  For a solution without an interpolation slice, as every one
    found after a shock, the conversion fails when the file has already been emptied. *)
Theorem C109_tocfg_lost_refuted : forall w cl f n r s label c fs, cl_positionals cl = [f; n] -> ds_tocfg w cl <> TableUsage -> load f = Ok r ->
  get_solutions r (Some n) = Ok (Model_Run.Final s) -> label_of (r_info r) = Ok label -> input_of s = VObj c fs -> (forall k, In k SOLUTION_INPUT_FIELDS -> dmem k fs = true) ->
  dget "interp_slice" fs = Some Model_Format.VNone -> output_asked rd (cl_options cl) <> "-" ->
  exists w', ds_tocfg w cl = Ran (w', Some AttributeError) /\ holds w' (output_asked rd (cl_options cl)) = Some "".
Proof.
  intros w cl f n r s label c fs P N L G B Hs HF HI O. rewrite (tocfg_runs w cl f n P N), L. cbn [fails]. unfold dump_cfg_file. rewrite G. cbn [rbind the_solution].
  rewrite B. cbn [rbind].
  assert (C : to_config_input E label (input_of s) = Raise AttributeError).
  { rewrite Hs. unfold to_config_input.
    assert (Q : forall t, Forall (fun e => In (fst e) SOLUTION_INPUT_FIELDS /\ (fst e <> "interp_slice" -> snd e <> OSlice)) t -> In ("interp_slice", OSlice) t ->
      convert_out_all E t (VObj c fs) = Raise AttributeError).
    { induction t as [|[k o] t IH]; intros FA HIn; [destruct HIn|]. inversion FA as [|? ? [F1 F2] F3]; subst. cbn [fst snd] in *. cbn [convert_out_all getattr].
      pose proof (HF k F1) as M. unfold dmem in M. destruct (string_dec k "interp_slice") as [->|Nk].
      - rewrite HI. cbn [rbind]. destruct HIn as [HIn|HIn].
        + injection HIn as ->. reflexivity.
        + rewrite (IH F3 HIn). destruct o; reflexivity.
      - destruct (dget k fs) as [v|]; [|discriminate M]. cbn [rbind]. destruct HIn as [HIn|HIn]; [congruence|].
        rewrite (IH F3 HIn). specialize (F2 Nk). destruct o; try congruence; reflexivity. }
    rewrite Q; [reflexivity| |vm_compute; tauto].
    apply Forall_forall. intros e He. vm_compute in He.
    repeat (destruct He as [<-|He]; [split; [vm_compute; tauto|cbn [fst snd]; intros; congruence]|]). destruct He. }
  rewrite C. cbn [rbind].
  destruct (stream_write w (output_asked rd (cl_options cl)) (fun old => (old, Some AttributeError)) _ _ eq_refl) as (w' & H1 & H2).
  exists w'. rewrite H1. split; [reflexivity|]. rewrite H2. destruct (String.eqb_spec (output_asked rd (cl_options cl)) "-"); [contradiction|reflexivity].
Qed.

(** ds-stats and ds-dumpcsv: what the tables hold is stated by C93; it is added to what the output held; the files are those on the command line and then,
    if asked for, the lines of standard input. *)
Theorem C109_tables : forall w stdin cl,
  let out := output_asked rd (cl_options cl) in
  let entries := get_all_solutions read (cl_positionals cl ++ (if asks_for rd stdin_doc (cl_options cl) then map strip stdin else [])) in
  (ds_stats w stdin cl <> TableUsage -> exists w' e, ds_stats w stdin cl = Ran (w', e) /\
     (forall t e', write_stats E (fun s => asdict (input_of s)) stat (contents w out) entries = (t, e') -> holds w' out = Some t /\ e = e')) /\
  (ds_dumpcsv w stdin cl <> TableUsage -> exists w' e, ds_dumpcsv w stdin cl = Ran (w', e) /\
     (forall t e', write_inputs E (fun s => asdict (input_of s)) (contents w out) entries = (t, e') -> holds w' out = Some t /\ e = e')).
Proof.
  intros w stdin cl out entries. split; intro N.
  - pose proof (proj1 (proj1 (proj2 (proj2 (C109_usage w stdin cl)))) N) as (A & _). unfold Model_TableCommands.stats_main in *.
    destruct (write_stats E (fun s => asdict (input_of s)) stat (contents w out) entries) as [t e'] eqn:W.
    destruct (stream_append w out (fun old => write_stats E (fun s => asdict (input_of s)) stat old entries) t e' W) as (w' & H1 & H2).
    exists w', e'. rewrite (many_runs _ w stdin cl A N). split; [f_equal; exact H1|]. intros t0 e0 Q. injection Q as <- <-. split; [exact H2|reflexivity].
  - pose proof (proj1 (proj2 (proj2 (proj2 (C109_usage w stdin cl)))) N) as (A & _). unfold dump_csv_inputs_main in *.
    destruct (write_inputs E (fun s => asdict (input_of s)) (contents w out) entries) as [t e'] eqn:W.
    destruct (stream_append w out (fun old => write_inputs E (fun s => asdict (input_of s)) old entries) t e' W) as (w' & H1 & H2).
    exists w', e'. rewrite (many_runs _ w stdin cl A N). split; [f_equal; exact H1|]. intros t0 e0 Q. injection Q as <- <-. split; [exact H2|reflexivity].
Qed.
End Commands.

(** ** Concrete cases *)
Definition ex_fields : list (string * val) :=
  map (fun k => (k, if String.eqb k "interp_slice" then Model_Format.VNone else Model_Format.VInt 1)) SOLUTION_INPUT_FIELDS.
Definition ex_load (f : string) : res (run val val) :=
  if String.eqb f "a.hdf5" then Ok (mk_run (VText "lab") FinalNone [("0", VObj "SolutionInput" ex_fields)] false None None) else Raise OtherError.
Definition ex_world : world := mk_world [("keep.cfg", "[config]"); ("t.csv", "old")] "".
Definition ex_cl (given : list (string * list string)) : command_line := mk_command_line ["a.hdf5"; "0"] given.
Notation ex_tocsv := (tocsv ex_env ex_readers val ex_load (fun v => v)).
Notation ex_tocfg := (tocfg ex_env ex_readers val ex_load (fun v => v) (fun l => Ok l) (fun _ => "[config]")).

Example C109_usage_nonvacuous : ex_tocsv ex_world (ex_cl [("--file", ["t.csv"]); ("--quiet", [])]) <> TableUsage /\
  ex_tocfg ex_world (ex_cl [("--with-header", [])]) = TableUsage /\ ex_tocfg ex_world (ex_cl []) <> TableUsage.
Proof. split; [vm_compute; discriminate|split; [vm_compute; reflexivity|vm_compute; discriminate]]. Qed.
Example C109_tocsv_nonvacuous : exists line, dict_row ex_env SOLUTION_INPUT_FIELDS ex_fields = Ok line /\
  ex_tocsv ex_world (ex_cl [("--file", ["x"]); ("--file", ["t.csv"])]) = Ran (mk_world [("keep.cfg", "[config]"); ("t.csv", "old" ++ line)%string] "", None) /\
  ex_tocsv ex_world (ex_cl []) = Ran (mk_world [("keep.cfg", "[config]"); ("t.csv", "old")] line, None) /\
  ex_tocsv ex_world (ex_cl [("--with-header", [])]) = Ran (mk_world [("keep.cfg", "[config]"); ("t.csv", "old")] (csv_row SOLUTION_INPUT_FIELDS ++ line), None).
Proof. eexists. split; [vm_compute; reflexivity|]. repeat split; vm_compute; reflexivity. Qed.
Example C109_not_found_nonvacuous : ex_tocfg ex_world (mk_command_line ["a.hdf5"; "1"] [("--file", ["keep.cfg"])]) = Ran (ex_world, Some KeyError) /\
  ex_tocsv ex_world (mk_command_line ["b.hdf5"; "1"] [("--file", ["new.csv"])]) = Ran (ex_world, Some OtherError).
Proof. split; vm_compute; reflexivity. Qed.
Example C109_tocfg_lost_nonvacuous :
  (forall k, In k SOLUTION_INPUT_FIELDS -> dmem k ex_fields = true) /\ dget "interp_slice" ex_fields = Some Model_Format.VNone /\
  ex_tocfg ex_world (ex_cl [("--file", ["keep.cfg"])]) = Ran (mk_world [("keep.cfg", ""); ("t.csv", "old")] "", Some AttributeError).
Proof.
  split; [|split; vm_compute; reflexivity].
  assert (F : forallb (fun k => dmem k ex_fields) SOLUTION_INPUT_FIELDS = true) by (vm_compute; reflexivity). rewrite forallb_forall in F. exact F.
Qed.
Definition ex_good : list (string * val) :=
  map (fun k => (k, if String.eqb k "interp_slice" then slice_obj (Model_Format.VInt (-1000)) (Model_Format.VInt (-100)) Model_Format.VNone
                    else if String.eqb k "split_method" then VText "v_θ_deriv" else Model_Format.VInt 1)) SOLUTION_INPUT_FIELDS.
Example C109_tocfg_nonvacuous :
  exists c file, to_config_input ex_env (VText "lab") (VObj "SolutionInput" ex_good) = Ok c /\ to_conf_file c = Ok file /\
  tocfg ex_env ex_readers val (fun _ => Ok (mk_run (VText "lab") (Model_Run.Final (VObj "SolutionInput" ex_good)) [] false None None)) (fun v => v) (fun l => Ok l) (fun _ => "new")
    ex_world (mk_command_line ["a.hdf5"; "final"] [("--file", ["keep.cfg"])]) = Ran (mk_world [("keep.cfg", "new"); ("t.csv", "old")] "", None).
Proof. eexists. eexists. split; [vm_compute; reflexivity|]. split; [vm_compute; reflexivity|]. vm_compute. reflexivity. Qed.
Example C109_tables_nonvacuous :
  let read (f : string) := ([("0", Some ex_good)], Model_Tables.Final (Some ex_good)) in
  exists line, dict_row ex_env SOLUTION_INPUT_FIELDS ex_good = Ok line /\
  dump_csv_inputs_main ex_env ex_readers (fun fs => VObj "SolutionInput" fs) read ex_world ["b.hdf5"] (mk_command_line ["a.hdf5"] [("--with-stdin", []); ("--file", ["t.csv"])]) =
  Ran (mk_world [("keep.cfg", "[config]"); ("t.csv", "old" ++ csv_row SOLUTION_INPUT_FIELDS ++ line ++ line ++ line ++ line)%string] "", None).
Proof. eexists. split; [vm_compute; reflexivity|]. vm_compute. reflexivity. Qed.
