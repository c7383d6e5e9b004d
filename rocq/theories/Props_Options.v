(** C104: the options of the plotting commands reach the drawing. *)
From Coq Require Import String List Bool ZArith Reals Lra Lia.
From Verif Require Import Lib_Py Model_Options Spec_Options Proofs_Options.
Import ListNotations.
Open Scope string_scope. Open Scope list_scope.

(** ** What the namespace holds *)
Section Args.
Variables (rd : readers) (p : parser) (cl : command_line) (args : values).
Hypothesis Hp : parse_args rd p cl = Some args.

Lemma args_row : forall k d, describes (p_options p) k d = true -> dmem k (p_positionals p) = false ->
  dget k args = match last_given d (cl_options cl) with
                | Some _ => Some (asked rd d (cl_options cl))
                | None => first_default rd (p_options p) k
                end.
Proof.
  intros k d Hd Hk. unfold parse_args in Hp. destruct (existsb _ _); [discriminate|].
  destruct (take_options rd (p_options p) (cl_options cl) (defaults rd (p_options p) [])) as [ns|] eqn:Ht; [|discriminate].
  rewrite (take_positionals_other _ _ _ _ _ k Hp Hk). destruct (take_options_some _ _ _ _ _ Ht) as [Hall Hget].
  rewrite Hget, (fold_asked rd _ k d _ _ Hd Hall), dget_defaults. reflexivity.
Qed.

Lemma args_default : forall k d, describes (p_options p) k d = true -> dmem k (p_positionals p) = false ->
  first_default rd (p_options p) k = Some (doc_default d) -> dget k args = Some (asked rd d (cl_options cl)).
Proof.
  intros k d Hd Hk Hf. rewrite (args_row k d Hd Hk), Hf. unfold asked. destruct (last_given d (cl_options cl)); reflexivity.
Qed.

Lemma args_suppressed : forall k d, describes (p_options p) k d = true -> dmem k (p_positionals p) = false ->
  first_default rd (p_options p) k = None -> get k (doc_default d) args = asked rd d (cl_options cl).
Proof.
  intros k d Hd Hk Hf. unfold get. rewrite (args_row k d Hd Hk), Hf. unfold asked.
  destruct (last_given d (cl_options cl)); reflexivity.
Qed.
End Args.

Lemma two_positionals : forall rd opts groups cl args,
  parse_args rd (mk_parser [("soln_file", Text); ("soln_range", Text)] opts groups) cl = Some args ->
  exists f r, cl_positionals cl = [f; r] /\ dget "soln_file" args = Some (VStr f) /\ dget "soln_range" args = Some (VStr r).
Proof.
  intros rd opts groups cl args H. unfold parse_args in H. destruct (existsb _ _); [discriminate|].
  cbn [p_options p_positionals] in H.
  destruct (take_options rd opts (cl_options cl) (defaults rd opts [])) as [ns|]; [|discriminate].
  destruct (cl_positionals cl) as [|f [|r [|x l]]]; cbn in H; try discriminate.
  injection H as <-. exists f, r. rewrite !dget_dset. cbn. auto.
Qed.

Lemma one_positional : forall rd opts groups cl args,
  parse_args rd (mk_parser [("soln_file", Text)] opts groups) cl = Some args ->
  exists f, cl_positionals cl = [f] /\ dget "soln_file" args = Some (VStr f).
Proof.
  intros rd opts groups cl args H. unfold parse_args in H. destruct (existsb _ _); [discriminate|].
  cbn [p_options p_positionals] in H.
  destruct (take_options rd opts (cl_options cl) (defaults rd opts [])) as [ns|]; [|discriminate].
  destruct (cl_positionals cl) as [|f [|x l]]; cbn in H; try discriminate.
  injection H as <-. exists f. rewrite !dget_dset. cbn. auto.
Qed.

(** ** Usage errors *)

Lemma positionals_ok : forall rd ns texts, List.length texts = 2%nat ->
  exists r, take_positionals rd [("soln_file", Text); ("soln_range", Text)] texts ns = Some r.
Proof. intros rd ns [|f [|r [|x l]]] H; try discriminate. eexists; reflexivity. Qed.

Lemma parse_iff : forall rd ps opts groups docs cl, tabulates opts docs = true ->
  (forall ns, (exists r, take_positionals rd ps (cl_positionals cl) ns = Some r) <-> List.length (cl_positionals cl) = List.length ps) ->
  (parse_args rd (mk_parser ps opts groups) cl <> None <->
   List.length (cl_positionals cl) = List.length ps /\ Forall (allowed rd docs) (cl_options cl) /\
   Forall (fun g => not_mixed g (cl_options cl)) groups).
Proof.
  intros rd ps opts groups docs cl Htab Hpos. unfold parse_args. cbn [p_exclusive p_options p_positionals].
  assert (Hex : existsb (fun g => conflict g (cl_options cl)) groups = false <-> Forall (fun g => not_mixed g (cl_options cl)) groups).
  { clear. induction groups as [|g groups IH]; cbn.
    - split; [constructor|reflexivity].
    - rewrite orb_false_iff, IH, conflict_spec. split.
      + intros [? ?]. constructor; assumption.
      + intro H. inversion H; auto. }
  assert (Hal : Forall (taken rd opts) (cl_options cl) <-> Forall (allowed rd docs) (cl_options cl)).
  { rewrite !Forall_forall. split; intros H g Hg; apply (taken_allowed rd opts docs Htab); auto. }
  split.
  - intro H. destruct (existsb _ _) eqn:E; [congruence|].
    destruct (take_options rd opts (cl_options cl) (defaults rd opts [])) as [ns|] eqn:Ht; [|congruence].
    destruct (take_options_some _ _ _ _ _ Ht) as [Hall _]. split; [|split].
    + apply (Hpos ns). destruct (take_positionals rd ps (cl_positionals cl) ns) as [r|]; [exists r; reflexivity|congruence].
    + apply Hal. exact Hall.
    + apply Hex. reflexivity.
  - intros [Hlen [Hall Hgr]]. apply Hex in Hgr. rewrite Hgr. apply Hal in Hall.
    destruct (take_options_ok rd opts (cl_options cl) (defaults rd opts []) Hall) as [ns Ht]. rewrite Ht.
    destruct (proj2 (Hpos ns) Hlen) as [r Hr]. rewrite Hr. discriminate.
Qed.

Lemma two_texts : forall rd texts ns,
  (exists r, take_positionals rd [("soln_file", Text); ("soln_range", Text)] texts ns = Some r) <-> List.length texts = 2%nat.
Proof.
  intros rd [|f [|r [|x l]]] ns; cbn; (split; [intros [? ?]; congruence || reflexivity | intro; try discriminate; try (eexists; reflexivity)]).
Qed.
Lemma one_text : forall rd texts ns,
  (exists r, take_positionals rd [("soln_file", Text)] texts ns = Some r) <-> List.length texts = 1%nat.
Proof.
  intros rd [|f [|x l]] ns; cbn; (split; [intros [? ?]; congruence || reflexivity | intro; try discriminate; try (eexists; reflexivity)]).
Qed.

(** A command line of a plot of one solution is refused as a usage error exactly when it does not name a file and a
    solution, or has an option the command does not take or whose text it cannot take, or mixes two alternatives. *)
Theorem C104_usage : forall rd c docs groups, In (c, (docs, groups)) single_commands -> forall use_E_r cl,
  run_single rd c use_E_r cl <> Exit <->
  List.length (cl_positionals cl) = 2%nat /\ Forall (allowed rd docs) (cl_options cl) /\
  Forall (fun g => not_mixed g (cl_options cl)) groups.
Proof.
  intros rd c docs groups Hin use_E_r cl.
  assert (Hrun : run_single rd c use_E_r cl <> Exit <-> parse_args rd (c_parser c) cl <> None).
  { unfold run_single. destruct (parse_args rd (c_parser c) cl); split; intro; congruence. }
  rewrite Hrun. unfold single_commands in Hin.
  repeat (destruct Hin as [Hin|Hin];
    [injection Hin as <- <- <-; unfold c_parser; cbn [extended_command simple_command plot_command];
     refine (parse_iff rd _ _ _ _ cl _ (fun ns => two_texts rd (cl_positionals cl) ns)); vm_compute; reflexivity|]).
  destruct Hin.
Qed.

(** ** Options reach the drawing *)

(** Learn what the namespace holds for a row whose option has a default / has none. *)
Ltac row_default Hp Hdec k d :=
  let H := fresh "Hrow" in
  assert (H := fun H1 H2 H3 => args_default _ _ _ _ Hp k d H1 H2 H3);
  specialize (H eq_refl eq_refl);
  match type of H with ?A -> _ => let E := fresh in assert (E : A); [cbn; rewrite ?(proj1 Hdec), ?(proj2 Hdec); reflexivity|specialize (H E); clear E] end;
  let v := fresh "v" in let Hv := fresh "Hv" in
  match type of H with context [asked ?a d ?b] => remember (asked a d b) as v eqn:Hv end.
Ltac row_suppressed Hp k d :=
  let H := fresh "Hrow" in
  assert (H := args_suppressed _ _ _ _ Hp k d eq_refl eq_refl eq_refl);
  cbn [doc_default row] in H;
  let v := fresh "v" in let Hv := fresh "Hv" in
  match type of H with context [asked ?a d ?b] => remember (asked a d b) as v eqn:Hv end.
Ltac common_rows Hp Hdec :=
  row_default Hp Hdec "show" (row "--show" (Switch true) Show (VBool false));
  row_default Hp Hdec "filename" (row "--filename" AText OutputFile VNone);
  row_default Hp Hdec "figsize" (row "--figsize" TwoLooseNumbers Figsize VNone);
  row_default Hp Hdec "title" (row "--title" AText Title VNone);
  row_default Hp Hdec "style" (row "--style" AText Style (VStr "bmh"));
  row_default Hp Hdec "with_version" (row "--no-show-version" (Switch false) Version (VBool true));
  row_default Hp Hdec "start" (row "--start" ALooseNumber (Drawing "start") (VNum 0));
  row_default Hp Hdec "stop" (row "--stop" ALooseNumber (Drawing "stop") (VNum 90));
  row_default Hp Hdec "linestyle" (row "--linestyle" AText (Drawing "linestyle") (VStr "-")).

Definition reaches (rd : readers) (docs : list doc) (use_E_r : bool) (cl : command_line) (d : drawn) : Prop :=
  (forall row, In row docs -> controls (doc_target row) ->
     observed d (doc_target row) = Some (asked rd row (cl_options cl))) /\
  dget "use_E_r" (d_args d) = Some (VBool use_E_r) /\ d_close d = VBool true /\
  exists f r, cl_positionals cl = [f; r] /\ d_range d = VStr r /\ dget "filename" (d_locals d) = Some (VStr f).

Ltac use_rows :=
  repeat match goal with H : get ?k ?d ?a = _ |- context [get ?k ?d ?a] => rewrite H end;
  cbv [dgetitem get];
  repeat match goal with H : dget ?k ?a = Some _ |- context [dget ?k ?a] => rewrite H end.
Lemma figsize_shown : forall v,
  match VDict (figure_args v) with VDict [] => Some VNone | VDict [("figsize", w)] => Some w | _ => None end = Some v.
Proof. intros []; reflexivity. Qed.
#[local] Arguments figure_args : simpl never.
Ltac each_row :=
  let rw := fresh "rw" in let Hin := fresh "Hin" in let Hctl := fresh "Hctl" in
  intros rw Hin Hctl; cbn in Hin;
  repeat (destruct Hin as [<-|Hin];
    [try (exfalso; unfold controls in Hctl; cbn in Hctl; destruct Hctl as [? [? ?]]; congruence);
     cbn [doc_target row switch_doc scale_doc eps_doc observed d_args d_title d_figargs d_style d_version d_file d_show d_locals];
     first [ rewrite figsize_shown; f_equal; assumption | cbn; f_equal; assumption ]|]);
  contradiction.
Ltac whole_command c :=
  cbv [call_plot c extended_command simple_command c_split split_common split_with get_common_plot_args
       get_common_plot_appearence_args get_common_plot_output_args];
  use_rows; cbn;
  (eexists; split; [reflexivity|]; unfold reaches; split; [each_row|]; cbn;
   split; [reflexivity|]; split; [reflexivity|]; eexists; eexists; split; [eassumption|]; split; reflexivity).

Ltac start_command Hp :=
  unfold run_single; rewrite Hp;
  let f := fresh "f" in let r := fresh "r" in let Hpos := fresh "Hpos" in let Hf := fresh "Hf" in let Hr := fresh "Hr" in
  destruct (two_positionals _ _ _ _ _ Hp) as [f [r [Hpos [Hf Hr]]]];
  cbv [dgetitem]; rewrite Hf, Hr; cbn [rbind].

Lemma simple_reaches : forall ls rd, decimal rd -> forall use_E_r cl args,
  parse_args rd (c_parser (simple_command ls)) cl = Some args ->
  exists d, run_single rd (simple_command ls) use_E_r cl = Called (Ok d) /\ reaches rd simple_docs use_E_r cl d.
Proof.
  intros ls rd Hdec E cl args Hp. start_command Hp.
  common_rows Hp Hdec. whole_command simple_command.
Qed.

Lemma plot_reaches : forall rd, decimal rd -> forall use_E_r cl args, parse_args rd (c_parser plot_command) cl = Some args ->
  exists d, run_single rd plot_command use_E_r cl = Called (Ok d) /\ reaches rd plot_docs use_E_r cl d.
Proof.
  intros rd Hdec E cl args Hp. start_command Hp. common_rows Hp Hdec.
  row_default Hp Hdec "v_θ" scale_doc.
  row_default Hp Hdec "with_slow" (switch_doc "--with-slow" "with_slow").
  row_default Hp Hdec "with_alfven" (switch_doc "--with-alfven" "with_alfven").
  row_default Hp Hdec "with_fast" (switch_doc "--with-fast" "with_fast").
  row_default Hp Hdec "with_sonic" (switch_doc "--with-sonic" "with_sonic").
  row_default Hp Hdec "portrait" (switch_doc "--portrait" "portrait").
  row_default Hp Hdec "hide_roots" (switch_doc "--hide-roots" "hide_roots").
  row_default Hp Hdec "hide_sonic_angle" (switch_doc "--hide-sonic-angle" "hide_sonic_angle").
  whole_command plot_command.
Qed.

Lemma combine_reaches : forall rd, decimal rd -> forall use_E_r cl args, parse_args rd (c_parser combine_command) cl = Some args ->
  exists d, run_single rd combine_command use_E_r cl = Called (Ok d) /\ reaches rd combine_docs use_E_r cl d.
Proof.
  intros rd Hdec E cl args Hp. start_command Hp. common_rows Hp Hdec.
  row_default Hp Hdec "with_slow" (switch_doc "--with-slow" "with_slow").
  row_default Hp Hdec "with_alfven" (switch_doc "--with-alfven" "with_alfven").
  row_default Hp Hdec "with_fast" (switch_doc "--with-fast" "with_fast").
  row_default Hp Hdec "with_sonic" (switch_doc "--with-sonic" "with_sonic").
  whole_command combine_command.
Qed.

Lemma vert_reaches : forall rd, decimal rd -> forall use_E_r cl args, parse_args rd (c_parser vert_command) cl = Some args ->
  exists d, run_single rd vert_command use_E_r cl = Called (Ok d) /\ reaches rd vert_docs use_E_r cl d.
Proof.
  intros rd Hdec E cl args Hp. start_command Hp. common_rows Hp Hdec.
  row_default Hp Hdec "with_sonic" (switch_doc "--with-sonic" "with_sonic").
  whole_command vert_command.
Qed.

Lemma derivs_reaches : forall rd, decimal rd -> forall use_E_r cl args, parse_args rd (c_parser derivs_command) cl = Some args ->
  exists d, run_single rd derivs_command use_E_r cl = Called (Ok d) /\ reaches rd derivs_docs use_E_r cl d.
Proof.
  intros rd Hdec E cl args Hp. start_command Hp. common_rows Hp Hdec.
  row_default Hp Hdec "nolog" (switch_doc "--nolog" "nolog").
  whole_command derivs_command.
Qed.

Lemma taylor_reaches : forall rd, decimal rd -> forall use_E_r cl args, parse_args rd (c_parser taylor_command) cl = Some args ->
  exists d, run_single rd taylor_command use_E_r cl = Called (Ok d) /\ reaches rd taylor_docs use_E_r cl d.
Proof.
  intros rd Hdec E cl args Hp. start_command Hp. common_rows Hp Hdec.
  row_default Hp Hdec "show_values" (switch_doc "--show-values" "show_values").
  whole_command taylor_command.
Qed.

Lemma component_reaches : forall rd, decimal rd -> forall use_E_r cl args, parse_args rd (c_parser component_command) cl = Some args ->
  exists d, run_single rd component_command use_E_r cl = Called (Ok d) /\ reaches rd component_docs use_E_r cl d.
Proof.
  intros rd Hdec E cl args Hp. start_command Hp. common_rows Hp Hdec.
  row_default Hp Hdec "only" (row "--only" AText (Drawing "only") VNone).
  whole_command component_command.
Qed.

Lemma jacobian_reaches : forall rd, decimal rd -> forall use_E_r cl args, parse_args rd (c_parser jacobian_command) cl = Some args ->
  exists d, run_single rd jacobian_command use_E_r cl = Called (Ok d) /\ reaches rd jacobian_docs use_E_r cl d.
Proof.
  intros rd Hdec E cl args Hp. start_command Hp. common_rows Hp Hdec.
  row_default Hp Hdec "eps" eps_doc.
  whole_command jacobian_command.
Qed.

Lemma coef_reaches : forall rd, decimal rd -> forall use_E_r cl args, parse_args rd (c_parser eigenvector_coef_command) cl = Some args ->
  exists d, run_single rd eigenvector_coef_command use_E_r cl = Called (Ok d) /\ reaches rd coef_docs use_E_r cl d.
Proof.
  intros rd Hdec E cl args Hp. start_command Hp. common_rows Hp Hdec.
  row_default Hp Hdec "eps" eps_doc.
  row_default Hp Hdec "critical_point" (row "--critical-point" (OneOf ["slow"; "sonic"; "alfven"; "fast"]) (Drawing "critical_point") (VStr "sonic")).
  row_suppressed Hp "local_eigvecs"
    (mk_doc [("--local-eigvecs", Switch true); ("--global-eigvecs", Switch false)] (Drawing "local_eigvecs") (VBool true)).
  whole_command eigenvector_coef_command.
Qed.

(** For every plot of one solution and every command line it does not refuse: the drawing function is called, each of
    the parameters an option of the command controls is what the last occurrence of the option says or the default, and
    the title, style, version, size, output file and whether it is shown are so too; the solution drawn is the one
    named, of the file named, and the drawing function is told whether the file holds E_r. *)
Theorem C104_options : forall rd c docs groups, In (c, (docs, groups)) single_commands -> decimal rd ->
  forall use_E_r cl, run_single rd c use_E_r cl <> Exit ->
  exists d, run_single rd c use_E_r cl = Called (Ok d) /\
    (forall row, In row docs -> controls (doc_target row) ->
       observed d (doc_target row) = Some (asked rd row (cl_options cl))) /\
    dget "use_E_r" (d_args d) = Some (VBool use_E_r) /\ d_close d = VBool true /\
    exists f r, cl_positionals cl = [f; r] /\ d_range d = VStr r /\ dget "filename" (d_locals d) = Some (VStr f).
Proof.
  intros rd c docs groups Hin Hdec E cl Hrun.
  destruct (parse_args rd (c_parser c) cl) as [args|] eqn:Hp; [|unfold run_single in Hrun; rewrite Hp in Hrun; congruence].
  unfold single_commands in Hin.
  destruct Hin as [Hin|Hin]; [injection Hin as <- <- <-; exact (plot_reaches rd Hdec E cl args Hp)|].
  destruct Hin as [Hin|Hin]; [injection Hin as <- <- <-; exact (combine_reaches rd Hdec E cl args Hp)|].
  destruct Hin as [Hin|Hin]; [injection Hin as <- <- <-; exact (vert_reaches rd Hdec E cl args Hp)|].
  destruct Hin as [Hin|Hin]; [injection Hin as <- <- <-; exact (derivs_reaches rd Hdec E cl args Hp)|].
  destruct Hin as [Hin|Hin]; [injection Hin as <- <- <-; exact (taylor_reaches rd Hdec E cl args Hp)|].
  destruct Hin as [Hin|Hin]; [injection Hin as <- <- <-; exact (component_reaches rd Hdec E cl args Hp)|].
  destruct Hin as [Hin|Hin]; [injection Hin as <- <- <-; exact (simple_reaches _ rd Hdec E cl args Hp)|].
  destruct Hin as [Hin|Hin]; [injection Hin as <- <- <-; exact (simple_reaches _ rd Hdec E cl args Hp)|].
  destruct Hin as [Hin|Hin]; [injection Hin as <- <- <-; exact (simple_reaches _ rd Hdec E cl args Hp)|].
  destruct Hin as [Hin|Hin]; [injection Hin as <- <- <-; exact (simple_reaches _ rd Hdec E cl args Hp)|].
  destruct Hin as [Hin|Hin]; [injection Hin as <- <- <-; exact (simple_reaches _ rd Hdec E cl args Hp)|].
  destruct Hin as [Hin|Hin]; [injection Hin as <- <- <-; exact (simple_reaches _ rd Hdec E cl args Hp)|].
  destruct Hin as [Hin|Hin]; [injection Hin as <- <- <-; exact (jacobian_reaches rd Hdec E cl args Hp)|].
  destruct Hin as [Hin|Hin]; [injection Hin as <- <- <-; exact (coef_reaches rd Hdec E cl args Hp)|].
  destruct Hin.
Qed.

(** ** Several solutions *)

Lemma runs_fold : forall rd opts given,
  find_opt runs_flag opts = Some (mk_opt "--runs" "soln_pairs" AppendTwo None) ->
  forallb (fun o => negb (String.eqb "soln_pairs" (o_dest o)) || String.eqb (o_flag o) runs_flag) opts = true ->
  Forall (taken rd opts) given ->
  fold_left (step rd opts "soln_pairs") given None =
  match runs_given given with [] => None | l => Some (VList (map texts l)) end /\
  Forall (fun l => List.length l = 2%nat) (runs_given given).
Proof.
  intros rd opts given Hf Hu. induction given as [|g given IH] using rev_ind; intro Hall.
  - split; [reflexivity|constructor].
  - apply Forall_app in Hall. destruct Hall as [Hall Hg]. inversion Hg as [|? ? [o [Ho Hs]] _]; subst.
    destruct (IH Hall) as [IH1 IH2]. rewrite fold_left_app. cbn [fold_left]. rewrite IH1.
    unfold runs_given. rewrite filter_app, map_app. cbn [filter]. unfold step. rewrite Ho.
    destruct (String.eqb_spec (fst g) runs_flag) as [E|E].
    + rewrite E in Ho. rewrite Hf in Ho. injection Ho as <-. cbn [o_dest o_action] in *. rewrite String.eqb_refl.
      destruct g as [flag [|s [|t [|u l]]]]; cbn [fst snd] in *; try (exfalso; apply (Hs None); reflexivity).
      cbn [map app]. fold (runs_given given). split.
      * cbn [stored]. destruct (runs_given given) as [|a l]; [reflexivity|]. cbn [app]. f_equal. f_equal.
        rewrite app_comm_cons, map_app. reflexivity.
      * apply Forall_app. split; [exact IH2|]. constructor; [reflexivity|constructor].
    + rewrite forallb_forall in Hu. destruct (find_opt_in _ _ _ Ho) as [Hin Hfl]. specialize (Hu o Hin).
      rewrite Hfl in Hu. destruct (String.eqb_spec (fst g) runs_flag); [contradiction|]. rewrite orb_false_r in Hu.
      apply negb_true_iff in Hu. rewrite Hu. cbn [map]. rewrite app_nil_r. split; [reflexivity|exact IH2].
Qed.

Lemma runs_args : forall rd opts groups cl args,
  find_opt runs_flag opts = Some (mk_opt "--runs" "soln_pairs" AppendTwo None) ->
  forallb (fun o => negb (String.eqb "soln_pairs" (o_dest o)) || String.eqb (o_flag o) runs_flag) opts = true ->
  first_default rd opts "soln_pairs" = None ->
  parse_args rd (mk_parser [] opts groups) cl = Some args ->
  dget "soln_pairs" args = match runs_given (cl_options cl) with [] => None | l => Some (VList (map texts l)) end.
Proof.
  intros rd opts groups cl args Hf Hu Hd H. unfold parse_args in H. destruct (existsb _ _); [discriminate|].
  cbn [p_options p_positionals] in H.
  destruct (take_options rd opts (cl_options cl) (defaults rd opts [])) as [ns|] eqn:Ht; [|discriminate].
  destruct (cl_positionals cl); cbn in H; [|discriminate]. injection H as <-.
  destruct (take_options_some _ _ _ _ _ Ht) as [Hall Hk]. rewrite Hk, dget_defaults. cbn [dget]. rewrite Hd.
  apply (runs_fold rd opts (cl_options cl) Hf Hu Hall).
Qed.

Definition reaches_all (rd : readers) (docs : list doc) (cl : command_line) (d : drawn) : Prop :=
  forall row, In row docs -> controls (doc_target row) ->
     observed d (doc_target row) = Some (asked rd row (cl_options cl)).

Ltac multiple_command c :=
  cbv [call_plot c c_split split_common split_with get_common_plot_args
       get_common_plot_appearence_args get_common_plot_output_args];
  use_rows; cbn;
  (eexists; split; [reflexivity|]; unfold reaches_all; split; [each_row|]; cbn; rewrite ?map_length;
   split; [reflexivity|]; split; reflexivity).

Lemma ratio_reaches : forall rd, decimal rd -> forall cl args, parse_args rd (c_parser ratio_command) cl = Some args ->
  forall a l, runs_given (cl_options cl) = a :: l ->
  exists d, run_multiple rd ratio_command cl = Called (Ok d) /\ reaches_all rd simple_docs cl d /\
    dget "num_solutions" (d_args d) = Some (VInt (Z.of_nat (List.length (a :: l)))) /\ d_close d = VBool true /\
    d_range d = VList (map texts (a :: l)).
Proof.
  intros rd Hdec cl args Hp a l Hr. unfold run_multiple. rewrite Hp.
  pose proof (runs_args rd (p_options (c_parser ratio_command)) _ cl args eq_refl eq_refl eq_refl Hp) as Hpairs. rewrite Hr in Hpairs.
  unfold dgetitem. rewrite Hpairs. cbn [rbind len]. rewrite map_length. common_rows Hp Hdec. multiple_command ratio_command.
Qed.
Lemma compare_reaches : forall rd, decimal rd -> forall cl args, parse_args rd (c_parser compare_command) cl = Some args ->
  forall a l, runs_given (cl_options cl) = a :: l ->
  exists d, run_multiple rd compare_command cl = Called (Ok d) /\ reaches_all rd compare_docs cl d /\
    dget "num_solutions" (d_args d) = Some (VInt (Z.of_nat (List.length (a :: l)))) /\ d_close d = VBool true /\
    d_range d = VList (map texts (a :: l)).
Proof.
  intros rd Hdec cl args Hp a l Hr. unfold run_multiple. rewrite Hp.
  pose proof (runs_args rd (p_options (c_parser compare_command)) _ cl args eq_refl eq_refl eq_refl Hp) as Hpairs. rewrite Hr in Hpairs.
  unfold dgetitem. rewrite Hpairs. cbn [rbind len]. rewrite map_length. common_rows Hp Hdec.
  row_default Hp Hdec "v_θ" scale_doc. multiple_command compare_command.
Qed.

(** For every plot of several solutions and every command line it does not refuse: without --runs a KeyError, otherwise
    the same as for one solution, for the solutions named by --runs, in order, and as many colours are asked for. *)
Theorem C104_multiple : forall rd c docs, In (c, docs) multiple_commands -> decimal rd ->
  forall cl, run_multiple rd c cl <> Exit ->
  (runs_given (cl_options cl) = [] -> run_multiple rd c cl = Called (Raise KeyError)) /\
  (runs_given (cl_options cl) <> [] ->
   exists d, run_multiple rd c cl = Called (Ok d) /\
    (forall row, In row docs -> controls (doc_target row) ->
       observed d (doc_target row) = Some (asked rd row (cl_options cl))) /\
    dget "num_solutions" (d_args d) = Some (VInt (Z.of_nat (List.length (runs_given (cl_options cl))))) /\
    d_close d = VBool true /\ d_range d = VList (map texts (runs_given (cl_options cl)))).
Proof.
  intros rd c docs Hin Hdec cl Hrun.
  destruct (parse_args rd (c_parser c) cl) as [args|] eqn:Hp; [|unfold run_multiple in Hrun; rewrite Hp in Hrun; congruence].
  split.
  - intro Hnil. unfold run_multiple. rewrite Hp.
    assert (Hn : dget "soln_pairs" args = None).
    { unfold multiple_commands in Hin.
      destruct Hin as [Hin|[Hin|[]]]; injection Hin as <- <-;
        [rewrite (runs_args rd (p_options (c_parser ratio_command)) _ cl args eq_refl eq_refl eq_refl Hp)
        |rewrite (runs_args rd (p_options (c_parser compare_command)) _ cl args eq_refl eq_refl eq_refl Hp)];
        rewrite Hnil; reflexivity. }
    unfold dgetitem. rewrite Hn. reflexivity.
  - intro Hne. destruct (runs_given (cl_options cl)) as [|a l] eqn:Hr; [congruence|].
    unfold multiple_commands in Hin. destruct Hin as [Hin|[Hin|[]]]; injection Hin as <- <-.
    + exact (ratio_reaches rd Hdec cl args Hp a l Hr).
    + exact (compare_reaches rd Hdec cl args Hp a l Hr).
Qed.
