(** C104, continued: usage errors of the other commands, plots of all solutions, ds-flow-plot, options without effect,
    ds-flow-file. *)
From Coq Require Import String List Bool ZArith Reals Lra Lia.
From Verif Require Import Lib_Py Model_Filter Model_Options Spec_Options Proofs_Options Props_Options.
Import ListNotations.
Open Scope string_scope. Open Scope list_scope.
#[local] Arguments figure_args : simpl never.

(** ** Usage *)

Lemma no_text : forall rd texts ns, (exists r, take_positionals rd [] texts ns = Some r) <-> List.length texts = 0%nat.
Proof. intros rd [|f l] ns; cbn; (split; [intros [? ?]; congruence || reflexivity | intro; try discriminate; try (eexists; reflexivity)]). Qed.

(** The rows [docs] and --runs are the options of the parser. *)
Lemma taken_or_runs : forall rd before after docs,
  tabulates (before ++ after) docs = true -> find_opt runs_flag before = None -> find_opt runs_flag after = None ->
  forall g, taken rd (before ++ mk_opt "--runs" "soln_pairs" AppendTwo None :: after) g <-> allowed_or_runs rd docs g.
Proof.
  intros rd before after docs Htab Hb Ha g. unfold allowed_or_runs. rewrite <- (taken_allowed rd _ _ Htab).
  assert (Hfind : forall f, f <> runs_flag ->
            find_opt f (before ++ mk_opt "--runs" "soln_pairs" AppendTwo None :: after) = find_opt f (before ++ after)).
  { clear. intros f Hf. induction before as [|o before IH]; cbn.
    - destruct (String.eqb_spec f "--runs"); [contradiction|reflexivity].
    - destruct (String.eqb f (o_flag o)); [reflexivity|exact IH]. }
  assert (Hfind2 : find_opt runs_flag (before ++ mk_opt "--runs" "soln_pairs" AppendTwo None :: after)
                   = Some (mk_opt "--runs" "soln_pairs" AppendTwo None) /\ find_opt runs_flag (before ++ after) = None).
  { clear -Hb Ha. induction before as [|o before IH]; cbn [find_opt app] in *; [split; [reflexivity|exact Ha]|].
    destruct (String.eqb runs_flag (o_flag o)); [discriminate|]. exact (IH Hb). }
  unfold taken. destruct (String.eqb_spec (fst g) runs_flag) as [E|E].
  - rewrite E. destruct Hfind2 as [-> ->]. split.
    + intros [o [Ho Hs]]. injection Ho as <-. right. split; [reflexivity|]. specialize (Hs None). cbn in Hs.
      destruct (snd g) as [|s [|t [|u l]]]; try congruence. reflexivity.
    + intros [[o [Ho _]]|[_ Hl]]; [discriminate|]. eexists. split; [reflexivity|]. intro acc. cbn.
      destruct (snd g) as [|s [|t [|u l]]]; try discriminate.
  - rewrite (Hfind _ E). split; [intro H; left; exact H|]. intros [H|[H _]]; [exact H|contradiction].
Qed.

Lemma conflicts_iff : forall groups given,
  existsb (fun g => conflict g given) groups = false <-> Forall (fun g => not_mixed g given) groups.
Proof.
  intros groups given. induction groups as [|g groups IH]; cbn.
  - split; [constructor|reflexivity].
  - rewrite orb_false_iff, IH, conflict_spec. split.
    + intros [? ?]. constructor; assumption.
    + intro H. inversion H; auto.
Qed.

Lemma parse_iff_gen : forall rd ps opts groups (P : string * list string -> Prop) cl, (forall g, taken rd opts g <-> P g) ->
  (forall ns, (exists r, take_positionals rd ps (cl_positionals cl) ns = Some r) <-> List.length (cl_positionals cl) = List.length ps) ->
  (parse_args rd (mk_parser ps opts groups) cl <> None <->
   List.length (cl_positionals cl) = List.length ps /\ Forall P (cl_options cl) /\
   Forall (fun g => not_mixed g (cl_options cl)) groups).
Proof.
  intros rd ps opts groups P cl HP Hpos. unfold parse_args. cbn [p_exclusive p_options p_positionals].
  rewrite <- conflicts_iff.
  assert (Hal : Forall (taken rd opts) (cl_options cl) <-> Forall P (cl_options cl)).
  { rewrite !Forall_forall. split; intros H g Hg; apply HP; auto. }
  rewrite <- Hal. split.
  - intro H. destruct (existsb _ _) eqn:E; [congruence|].
    destruct (take_options rd opts (cl_options cl) (defaults rd opts [])) as [ns|] eqn:Ht; [|congruence].
    destruct (take_options_some _ _ _ _ _ Ht) as [Hall _]. split; [|split].
    + apply (Hpos ns). destruct (take_positionals rd ps (cl_positionals cl) ns) as [r|]; [exists r; reflexivity|congruence].
    + exact Hall.
    + reflexivity.
  - intros [Hlen [Hall Hgr]]. rewrite Hgr.
    destruct (take_options_ok rd opts (cl_options cl) (defaults rd opts []) Hall) as [ns Ht]. rewrite Ht.
    destruct (proj2 (Hpos ns) Hlen) as [r Hr]. rewrite Hr. discriminate.
Qed.

(** Plots of several solutions take no file name, and --runs with two texts any number of times. *)
Theorem C104_usage_multiple : forall rd c docs, In (c, docs) multiple_commands -> forall cl,
  run_multiple rd c cl <> Exit <->
  cl_positionals cl = [] /\ Forall (allowed_or_runs rd docs) (cl_options cl) /\ not_mixed log_alternatives (cl_options cl).
Proof.
  intros rd c docs Hin cl.
  assert (Hrun : run_multiple rd c cl <> Exit <-> parse_args rd (c_parser c) cl <> None).
  { unfold run_multiple. destruct (parse_args rd (c_parser c) cl); split; intro; congruence. }
  rewrite Hrun. clear Hrun.
  assert (Hlen : cl_positionals cl = [] <-> List.length (cl_positionals cl) = 0%nat)
    by (destruct (cl_positionals cl); split; intro; try reflexivity; discriminate).
  assert (Hone : forall P, (Forall P [log_alternatives]) <-> P log_alternatives)
    by (intro P; split; [intro H; inversion H; assumption|intro; repeat constructor; assumption]).
  rewrite Hlen, <- (Hone (fun g => not_mixed g (cl_options cl))).
  unfold multiple_commands in Hin. destruct Hin as [Hin|[Hin|[]]]; injection Hin as <- <-.
  - exact (parse_iff_gen rd [] _ _ _ cl
             (taken_or_runs rd logging_options common_plotting_options simple_docs ltac:(vm_compute; reflexivity) eq_refl eq_refl)
             (fun ns => no_text rd (cl_positionals cl) ns)).
  - exact (parse_iff_gen rd [] _ _ _ cl
             (taken_or_runs rd logging_options (common_plotting_options ++ [mk_opt "--v_θ" "v_θ" (One (Choice ["log"; "linear"])) (Some (VStr "linear"))])
                compare_docs ltac:(vm_compute; reflexivity) eq_refl eq_refl)
             (fun ns => no_text rd (cl_positionals cl) ns)).
Qed.

(** Plots of all solutions take the file. *)
Theorem C104_usage_all : forall rd c docs, In (c, docs) all_commands -> forall cl,
  run_all rd c cl <> Exit <->
  List.length (cl_positionals cl) = 1%nat /\ Forall (allowed rd docs) (cl_options cl) /\ not_mixed log_alternatives (cl_options cl).
Proof.
  intros rd c docs Hin cl.
  assert (Hrun : run_all rd c cl <> Exit <-> parse_args rd (c_parser c) cl <> None).
  { unfold run_all. destruct (parse_args rd (c_parser c) cl); split; intro; congruence. }
  rewrite Hrun. clear Hrun.
  assert (Hone : forall P, (Forall P [log_alternatives]) <-> P log_alternatives)
    by (intro P; split; [intro H; inversion H; assumption|intro; repeat constructor; assumption]).
  rewrite <- (Hone (fun g => not_mixed g (cl_options cl))).
  unfold all_commands in Hin. destruct Hin as [Hin|[Hin|[]]]; injection Hin as <- <-;
    refine (parse_iff rd _ _ _ _ cl _ (fun ns => one_text rd (cl_positionals cl) ns)); vm_compute; reflexivity.
Qed.

(** ** All solutions *)

Definition solutions_doc : doc := row "--solutions" AText Chosen VNone.

Ltac all_command c :=
  cbv [call_plot c c_split split_common split_with get_common_plot_args
       get_common_plot_appearence_args get_common_plot_output_args];
  use_rows; cbn.
Ltac all_done :=
  eexists; split; [reflexivity|]; unfold reaches_all; split; [each_row|]; cbn; split; [reflexivity|].

(** For ds-diverge-plot and ds-conserve-plot the same; --solutions of ds-diverge-plot is read as C89 says, and a text it
    cannot read is a ValueError. *)
Theorem C104_all : forall rd c docs, In (c, docs) all_commands -> decimal rd -> forall cl, run_all rd c cl <> Exit ->
  (exists s, asked rd solutions_doc (cl_options cl) = VStr s /\ In solutions_doc docs /\
     exists e, parse_solution_filter s = Raise e /\ run_all rd c cl = Called (Raise e)) \/
  exists d, run_all rd c cl = Called (Ok d) /\
    (forall row, In row docs -> controls (doc_target row) ->
       observed d (doc_target row) = Some (asked rd row (cl_options cl))) /\
    d_close d = VBool true /\
    (forall s, In solutions_doc docs -> asked rd solutions_doc (cl_options cl) = VStr s ->
       exists l, parse_solution_filter s = Ok l /\ observed d Chosen = Some (texts l)) /\
    exists f, cl_positionals cl = [f] /\ dget "filename" (d_locals d) = Some (VStr f).
Proof.
  intros rd c docs Hin Hdec cl Hrun.
  destruct (parse_args rd (c_parser c) cl) as [args|] eqn:Hp; [|unfold run_all in Hrun; rewrite Hp in Hrun; congruence].
  clear Hrun. unfold all_commands in Hin. destruct Hin as [Hin|[Hin|[]]]; injection Hin as <- <-; unfold run_all; rewrite Hp;
    destruct (one_positional _ _ _ _ _ Hp) as [f [Hpos Hf]]; unfold dgetitem at 1; rewrite Hf; cbn [rbind].
  - common_rows Hp Hdec.
    row_default Hp Hdec "with_slow" (switch_doc "--with-slow" "with_slow").
    row_default Hp Hdec "with_alfven" (switch_doc "--with-alfven" "with_alfven").
    row_default Hp Hdec "with_fast" (switch_doc "--with-fast" "with_fast").
    row_default Hp Hdec "show_legend" (row "--hide-legend" (Switch false) (Drawing "show_legend") (VBool true)).
    row_default Hp Hdec "solutions" solutions_doc.
    all_command diverge_command. unfold solution_filter.
    assert (Htext : v12 = VNone \/ exists s, v12 = VStr s).
    { rewrite Hv12. unfold asked. destruct (last_given solutions_doc (cl_options cl)) as [[fl tx]|]; [|left; reflexivity].
      cbn. destruct (String.eqb fl "--solutions"); [|left; reflexivity].
      destruct tx as [|s [|? ?]]; [left; reflexivity|right; exists s; reflexivity|left; reflexivity]. }
    destruct Htext as [->|[s Es]].
    + right. cbn. all_done. split; [intros s _ H; discriminate|]. eexists. split; [eassumption|reflexivity].
    + rewrite Es. destruct (parse_solution_filter s) as [l|e] eqn:El.
      * right. cbn. all_done. split; [|eexists; split; [eassumption|reflexivity]].
        intros s' _ H. injection H as <-. exists l. split; [exact El|reflexivity].
      * left. exists s. split; [reflexivity|]. split; [unfold diverge_docs; cbn; tauto|].
        exists e. split; [exact El|reflexivity].
  - right. common_rows Hp Hdec. all_command conserve_command. all_done.
    split; [|eexists; split; [eassumption|reflexivity]].
    intros s H. exfalso. unfold simple_docs, solutions_doc in H. cbn in H.
    repeat (destruct H as [H|H]; [discriminate|]). contradiction.
Qed.

(** ** ds-flow-plot *)

(** A start position as the user means it: None when not given, two numbers, or unreadable. *)
Definition start_asked (rd : readers) (d : doc) (default : value) (given : list (string * list string)) : option value :=
  match asked rd d given with
  | VList [VStr s; VStr t] =>
      match num_of rd s, num_of rd t with Some x, Some y => Some (VList [VNum x; VNum y]) | _, _ => None end
  | _ => Some default
  end.

Lemma asked_two : forall rd k given, asked rd (row k TwoTexts (Drawing "x") VNone) given = VNone \/
  exists s t, asked rd (row k TwoTexts (Drawing "x") VNone) given = VList [VStr s; VStr t].
Proof.
  intros rd k given. unfold asked. destruct (last_given _ given) as [[fl tx]|]; [|left; reflexivity].
  cbn. destruct (String.eqb fl k); [|left; reflexivity].
  destruct tx as [|s [|t [|u l]]]; try (left; reflexivity). right. exists s, t. reflexivity.
Qed.

Lemma position_asked : forall rd k p default given,
  (match asked rd (row k TwoTexts (Drawing p) VNone) given with VNone => Ok default | v => position rd v end) =
  match start_asked rd (row k TwoTexts (Drawing p) VNone) default given with Some v => Ok v | None => Raise ValueError end.
Proof.
  intros rd k p default given. unfold start_asked.
  change (asked rd (row k TwoTexts (Drawing p) VNone) given) with (asked rd (row k TwoTexts (Drawing "x") VNone) given).
  destruct (asked_two rd k given) as [->|[s [t ->]]]; [reflexivity|]. cbn.
  destruct (num_of rd s); [|reflexivity]. destruct (num_of rd t); reflexivity.
Qed.

(** For every command line ds-flow-plot does not refuse: a start position that is not two numbers is a ValueError;
    otherwise the trajectories start at the positions given, or at (2, 0.1) for the velocity and (1, 0) for the field,
    and all the other options reach the drawing. *)
Theorem C104_flow : forall rd, decimal rd -> forall use_E_r cl, run_single rd (flow_command rd) use_E_r cl <> Exit ->
  match start_asked rd v_start_doc (VList [VNum 2; VNum (/ 10)]) (cl_options cl),
        start_asked rd B_start_doc (VList [VNum 1; VNum 0]) (cl_options cl) with
  | Some v_start, Some B_start =>
      exists d, run_single rd (flow_command rd) use_E_r cl = Called (Ok d) /\
        (forall row, In row flow_docs -> controls (doc_target row) ->
           observed d (doc_target row) = Some (asked rd row (cl_options cl))) /\
        observed d (Drawing "v_start_position") = Some v_start /\ observed d (Drawing "B_start_position") = Some B_start /\
        d_close d = VBool true /\
        exists f r, cl_positionals cl = [f; r] /\ d_range d = VStr r /\ dget "filename" (d_locals d) = Some (VStr f)
  | _, _ => run_single rd (flow_command rd) use_E_r cl = Called (Raise ValueError)
  end.
Proof.
  intros rd Hdec E cl Hrun.
  destruct (parse_args rd (c_parser (flow_command rd)) cl) as [args|] eqn:Hp; [|unfold run_single in Hrun; rewrite Hp in Hrun; congruence].
  clear Hrun. start_command Hp.
  assert (Hv := args_suppressed _ _ _ _ Hp "v_start_position" v_start_doc eq_refl eq_refl eq_refl).
  assert (HB := args_suppressed _ _ _ _ Hp "B_start_position" B_start_doc eq_refl eq_refl eq_refl).
  cbn [doc_default row v_start_doc B_start_doc] in Hv, HB.
  pose proof (position_asked rd "--v-start-position" "v_start_position" DEFAULT_V_START_POSITION (cl_options cl)) as Pv.
  pose proof (position_asked rd "--B-start-position" "B_start_position" DEFAULT_B_START_POSITION (cl_options cl)) as PB.
  fold v_start_doc in Pv. fold B_start_doc in PB. rewrite <- Hv in Pv. rewrite <- HB in PB. clear Hv HB.
  change (VList [VNum 2; VNum (/ 10)]) with DEFAULT_V_START_POSITION.
  change (VList [VNum 1; VNum 0]) with DEFAULT_B_START_POSITION.
  row_default Hp Hdec "show" (row "--show" (Switch true) Show (VBool false)).
  row_default Hp Hdec "filename" (row "--filename" AText OutputFile VNone).
  row_default Hp Hdec "figsize" (row "--figsize" TwoLooseNumbers Figsize VNone).
  row_default Hp Hdec "title" (row "--title" AText Title VNone).
  row_default Hp Hdec "style" (row "--style" AText Style (VStr "bmh")).
  row_default Hp Hdec "with_version" (row "--no-show-version" (Switch false) Version (VBool true)).
  row_default Hp Hdec "v_max_steps" (row "--v-max-steps" AnInteger (Drawing "v_max_steps") (VInt 100000)).
  row_default Hp Hdec "v_step_scaling" (row "--v-step-scaling" ANumber (Drawing "v_step_scaling") (VNum (/ 10 ^ 6))).
  row_default Hp Hdec "B_max_steps" (row "--B-max-steps" AnInteger (Drawing "B_max_steps") (VInt 1000000)).
  row_default Hp Hdec "B_step_scaling" (row "--B-step-scaling" ANumber (Drawing "B_step_scaling") (VNum (/ 10 ^ 3))).
  row_default Hp Hdec "with_max_v_angle" (row "--no-max-v-angle" (Switch false) (Drawing "with_max_v_angle") (VBool true)).
  cbv [call_plot flow_command c_split get_common_plot_appearence_args get_common_plot_output_args get_trajectory_args].
  rewrite Pv, PB.
  destruct (start_asked rd v_start_doc DEFAULT_V_START_POSITION (cl_options cl)) as [vs|];
    destruct (start_asked rd B_start_doc DEFAULT_B_START_POSITION (cl_options cl)) as [Bs|]; use_rows; cbn; try reflexivity.
  eexists; split; [reflexivity|]; split; [each_row|]; cbn.
  split; [reflexivity|]; split; [reflexivity|]; split; [reflexivity|].
  eexists; eexists; split; [eassumption|]; split; reflexivity.
Qed.

(** ** ds-flow-file *)

(** ds-flow-file never writes a trajectory: whatever the command line, it is refused, or a start position is not two
    numbers (ValueError), or the call of the saving function is a TypeError. *)
Theorem C104_flow_file_refuted : forall rd cl,
  run_flow_file rd cl = None \/ run_flow_file rd cl = Some (Raise ValueError) \/ run_flow_file rd cl = Some (Raise TypeError).
Proof.
  intros rd cl. unfold run_flow_file. destruct (parse_args rd flow_file_parser cl) as [args|] eqn:Hp; [|left; reflexivity].
  right. destruct (two_positionals _ _ _ _ _ Hp) as [f [r [Hpos [Hf Hr]]]].
  assert (H1 := args_default _ _ _ _ Hp "stats_output_file" (row "--stats-output-file" AText Nothing (VStr "stats-out.csv")) eq_refl eq_refl eq_refl).
  assert (H2 := args_default _ _ _ _ Hp "B_output_file" (row "--B-output-file" AText Nothing (VStr "B-out.csv")) eq_refl eq_refl eq_refl).
  assert (H3 := args_default _ _ _ _ Hp "v_output_file" (row "--v-output-file" AText Nothing (VStr "v-out.csv")) eq_refl eq_refl eq_refl).
  assert (Hv := args_suppressed _ _ _ _ Hp "v_start_position" v_start_doc eq_refl eq_refl eq_refl).
  assert (HB := args_suppressed _ _ _ _ Hp "B_start_position" B_start_doc eq_refl eq_refl eq_refl).
  cbn [doc_default row v_start_doc B_start_doc] in Hv, HB.
  pose proof (position_asked rd "--v-start-position" "v_start_position" DEFAULT_V_START_POSITION (cl_options cl)) as Pv.
  pose proof (position_asked rd "--B-start-position" "B_start_position" DEFAULT_B_START_POSITION (cl_options cl)) as PB.
  fold v_start_doc in Pv. fold B_start_doc in PB. rewrite <- Hv in Pv. rewrite <- HB in PB.
  unfold get_trajectory_out_args, get_trajectory_args, dgetitem. rewrite H1, H2, H3, Hf, Hr, Pv, PB. cbn [rbind].
  destruct (start_asked rd v_start_doc DEFAULT_V_START_POSITION (cl_options cl)) as [vs|]; [|left; reflexivity].
  destruct (start_asked rd B_start_doc DEFAULT_B_START_POSITION (cl_options cl)) as [Bs|]; [|left; reflexivity].
  right. reflexivity.
Qed.

(** In particular the plain use of the command fails. *)
Theorem C104_flow_file_plain_refuted : forall rd f r, run_flow_file rd (mk_command_line [f; r] []) = Some (Raise TypeError).
Proof. intros rd f r. reflexivity. Qed.

(** ** Options without effect, texts not refused *)

Lemma dget_congr_vert : forall E args args', (forall k, k <> "v_θ" -> dget k args = dget k args') ->
  forall extra added, call_plot vert_command E VNone None extra added args = call_plot vert_command E VNone None extra added args'.
Proof.
  intros E args args' H extra added.
  cbv [call_plot vert_command extended_command c_split split_with get_common_plot_args get_common_plot_appearence_args
       get_common_plot_output_args dgetitem get].
  rewrite !H by discriminate. reflexivity.
Qed.

Lemma fold_skip : forall rd opts k a g b init, step rd opts k (fold_left (step rd opts k) a init) g = fold_left (step rd opts k) a init ->
  fold_left (step rd opts k) (a ++ g :: b) init = fold_left (step rd opts k) (a ++ b) init.
Proof. intros rd opts k a g b init H. rewrite !fold_left_app. cbn [fold_left]. rewrite H. reflexivity. Qed.

(** --v_θ of ds-vert-plot changes nothing: any command line with it draws what the command line without it draws. *)
Theorem C104_vert_scale_refuted : forall rd use_E_r pos before after w, (w = "log" \/ w = "linear") ->
  run_single rd vert_command use_E_r (mk_command_line pos (before ++ ("--v_θ", [w]) :: after)) =
  run_single rd vert_command use_E_r (mk_command_line pos (before ++ after)).
Proof.
  intros rd E pos before after w Hw. unfold run_single, parse_args. cbn [cl_options cl_positionals].
  assert (Hc : existsb (fun g => conflict g (before ++ ("--v_θ", [w]) :: after)) (p_exclusive (c_parser vert_command)) =
               existsb (fun g => conflict g (before ++ after)) (p_exclusive (c_parser vert_command))).
  { apply eq_true_iff_eq. rewrite <- !not_false_iff_true. rewrite !conflicts_iff.
    assert (Hmix : forall g, In g (p_exclusive (c_parser vert_command)) ->
              not_mixed g (before ++ ("--v_θ", [w]) :: after) <-> not_mixed g (before ++ after)).
    { intros g [<-|[]]. unfold not_mixed. rewrite !map_app. cbn [map fst].
      assert (Hn : forall x, In x stderr_group -> In x (map fst before ++ "--v_θ" :: map fst after) <-> In x (map fst before ++ map fst after)).
      { intros x Hx. rewrite !in_app_iff. cbn. split; [|tauto].
        intros [H|[H|H]]; [tauto| |tauto]. subst x. cbn in Hx. repeat (destruct Hx as [Hx|Hx]; [discriminate|]). contradiction. }
      split; intros H f g Hf Hg Hf' Hg'; apply (H f g Hf Hg); apply Hn; assumption. }
    rewrite !Forall_forall. split; intros H K; apply H; intros g Hg; apply (Hmix g); auto. }
  rewrite Hc. clear Hc. destruct (existsb _ _); [reflexivity|].
  set (opts := p_options (c_parser vert_command)).
  assert (Htaken : taken rd opts ("--v_θ", [w])).
  { eexists. split; [reflexivity|]. intro acc. destruct Hw; subst w; discriminate. }
  destruct (take_options rd opts (before ++ ("--v_θ", [w]) :: after) (defaults rd opts [])) as [ns|] eqn:H1.
  - destruct (take_options_some _ _ _ _ _ H1) as [Hall Hk].
    assert (Hall' : Forall (taken rd opts) (before ++ after)).
    { apply Forall_app in Hall. destruct Hall as [Ha Hb]. inversion Hb; subst. apply Forall_app. split; assumption. }
    destruct (take_options_ok rd opts _ (defaults rd opts []) Hall') as [ns' H2]. rewrite H2.
    destruct (take_options_some _ _ _ _ _ H2) as [_ Hk'].
    assert (Heq : forall k, k <> "v_θ" -> dget k ns = dget k ns').
    { intros k Hne. rewrite Hk, Hk'. apply fold_skip. unfold step. cbn [fst snd].
      change (find_opt "--v_θ" opts) with (Some (mk_opt "--v_θ" "v_θ" (One (Choice ["log"; "linear"])) (Some (VStr "linear")))).
      cbn [o_dest]. destruct (String.eqb_spec k "v_θ"); [contradiction|reflexivity]. }
    destruct pos as [|f [|r [|x l]]]; try reflexivity. cbn [p_positionals c_parser vert_command extended_command single_parser take_positionals convert].
    assert (Heq2 : forall k, k <> "v_θ" -> dget k (dset "soln_range" (VStr r) (dset "soln_file" (VStr f) ns)) =
                                           dget k (dset "soln_range" (VStr r) (dset "soln_file" (VStr f) ns'))).
    { intros k Hne. rewrite !dget_dset. rewrite (Heq k Hne). reflexivity. }
    f_equal. unfold dgetitem. rewrite !dget_dset. cbn [String.eqb Ascii.eqb Bool.eqb rbind]. apply dget_congr_vert. exact Heq2.
  - destruct (take_options rd opts (before ++ after) (defaults rd opts [])) as [ns'|] eqn:H2; [|reflexivity].
    exfalso. destruct (take_options_some _ _ _ _ _ H2) as [Hall _]. apply Forall_app in Hall. destruct Hall as [Ha Hb].
    assert (Hall' : Forall (taken rd opts) (before ++ ("--v_θ", [w]) :: after)) by (apply Forall_app; split; [exact Ha|constructor; assumption]).
    destruct (take_options_ok rd opts _ (defaults rd opts []) Hall') as [ns Hns]. rewrite Hns in H1. discriminate.
Qed.

(** A --start or --stop that is not a number is not refused: the drawing is called with None. *)
Theorem C104_unreadable_angle_refuted : forall rd c docs groups, In (c, (docs, groups)) single_commands -> decimal rd ->
  forall use_E_r f r s, num_of rd s = None ->
  exists d, run_single rd c use_E_r (mk_command_line [f; r] [("--start", [s])]) = Called (Ok d) /\
    dget "start" (d_args d) = Some VNone /\ dget "stop" (d_args d) = Some (VNum 90).
Proof.
  intros rd c docs groups Hin Hdec E f r s Hs.
  assert (Hstart : In (row "--start" ALooseNumber (Drawing "start") (VNum 0)) docs /\
                   In (row "--stop" ALooseNumber (Drawing "stop") (VNum 90)) docs /\
                   Forall (fun g => g = log_alternatives \/ g = coef_alternatives) groups).
  { unfold single_commands in Hin. repeat (destruct Hin as [Hin|Hin]; [injection Hin as <- <- <-|]); try contradiction;
      (split; [cbn; tauto|]; split; [cbn; tauto|]; repeat constructor; tauto). }
  destruct Hstart as [H1 [H2 H3]].
  assert (Hrun : run_single rd c E (mk_command_line [f; r] [("--start", [s])]) <> Exit).
  { apply (C104_usage rd c docs groups Hin). split; [reflexivity|]. split.
    - constructor; [|constructor]. exists (row "--start" ALooseNumber (Drawing "start") (VNum 0)), ALooseNumber.
      split; [exact H1|]. split; [reflexivity|]. cbn. discriminate.
    - rewrite Forall_forall in *. intros g Hg x y Hx Hy Hx' Hy'. cbn in Hx', Hy'.
      destruct Hx' as [<-|[]]. destruct Hy' as [<-|[]]. reflexivity. }
  destruct (C104_options rd c docs groups Hin Hdec E _ Hrun) as [d [Hd [Hrows _]]]. exists d. split; [exact Hd|].
  assert (Hst := Hrows _ H1). assert (Hsp := Hrows _ H2). cbn [doc_target row observed] in Hst, Hsp. split.
  - rewrite Hst by (repeat split; discriminate). unfold asked. cbn. unfold loose. rewrite Hs. reflexivity.
  - rewrite Hsp by (repeat split; discriminate). reflexivity.
Qed.

(** ** Cases *)
Ltac case_by_computation := eexists; split; [lazy -[IZR pow Rinv]; reflexivity|]; repeat split; reflexivity.


Definition few (s : string) : option R :=
  if String.eqb s "0" then Some 0%R else if String.eqb s "90" then Some 90%R else if String.eqb s "10" then Some 10%R
  else if String.eqb s "1e-5" then Some (/ 10 ^ 5)%R else None.
Definition few_readers : readers := mk_readers few (fun s => if String.eqb s "7" then Some 7%Z else None).
Example few_decimal : decimal few_readers.
Proof. split; reflexivity. Qed.

Example case_plot : exists d,
  run_single few_readers plot_command true
    (mk_command_line ["a.h5"; "3"] [("--start", ["0"]); ("--with-slow", []); ("--start", ["10"]); ("--title", ["t"]); ("--quiet", [])])
  = Called (Ok d) /\
  dget "start" (d_args d) = Some (VNum 10) /\ dget "stop" (d_args d) = Some (VNum 90) /\
  dget "with_slow" (d_args d) = Some (VBool true) /\ dget "with_fast" (d_args d) = Some (VBool false) /\
  d_title d = VStr "t" /\ d_range d = VStr "3" /\ dget "use_E_r" (d_args d) = Some (VBool true).
Proof. case_by_computation. Qed.
Example case_alternatives : forall rd,
  run_single rd eigenvector_coef_command false (mk_command_line ["a.h5"; "3"] [("--local-eigvecs", []); ("--global-eigvecs", [])]) = Exit.
Proof. reflexivity. Qed.
Example case_coef : exists d,
  run_single few_readers eigenvector_coef_command false
    (mk_command_line ["a.h5"; "3"] [("--global-eigvecs", []); ("--eps", ["1e-5"]); ("--critical-point", ["fast"])]) = Called (Ok d) /\
  dget "local_eigvecs" (d_args d) = Some (VBool false) /\ dget "eps" (d_args d) = Some (VNum (/ 10 ^ 5)) /\
  dget "critical_point" (d_args d) = Some (VStr "fast").
Proof. case_by_computation. Qed.
Example case_unknown : forall rd, run_single rd acc_command false (mk_command_line ["a.h5"; "3"] [("--nolog", [])]) = Exit.
Proof. reflexivity. Qed.
Example case_compare : exists d,
  run_multiple few_readers compare_command (mk_command_line [] [("--runs", ["a.h5"; "3"]); ("--v_θ", ["log"]); ("--runs", ["b.h5"; "0"])])
  = Called (Ok d) /\ dget "num_solutions" (d_args d) = Some (VInt 2) /\ dget "v_θ_scale" (d_args d) = Some (VStr "log") /\
  d_range d = VList [VList [VStr "a.h5"; VStr "3"]; VList [VStr "b.h5"; VStr "0"]].
Proof. case_by_computation. Qed.
Example case_diverge : exists d,
  run_all few_readers diverge_command (mk_command_line ["a.h5"] [("--solutions", ["0-2"]); ("--hide-legend", [])]) = Called (Ok d) /\
  observed d Chosen = Some (VList [VStr "0"; VStr "1"; VStr "2"]) /\ dget "show_legend" (d_args d) = Some (VBool false).
Proof. case_by_computation. Qed.
Example case_flow : exists d,
  run_single few_readers (flow_command few_readers) false
    (mk_command_line ["a.h5"; "3"] [("--B-start-position", ["10"; "0"]); ("--v-max-steps", ["7"])]) = Called (Ok d) /\
  dget "B_start_position" (d_args d) = Some (VList [VNum 10; VNum 0]) /\ dget "v_max_steps" (d_args d) = Some (VInt 7) /\
  dget "v_start_position" (d_args d) = Some DEFAULT_V_START_POSITION.
Proof. case_by_computation. Qed.
Example case_flow_bad : run_single few_readers (flow_command few_readers) false
    (mk_command_line ["a.h5"; "3"] [("--B-start-position", ["far"; "0"])]) = Called (Raise ValueError).
Proof. reflexivity. Qed.
