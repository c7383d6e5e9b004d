(** C108: what ds-info prints. *)
From Coq Require Import String Ascii List Bool ZArith Reals Lra Lia Permutation Sorting.Sorted.
From Verif Require Import Lib_Py Model_Options Spec_Options Proofs_Options Props_Options Model_Format Model_Inputs Model_Run Model_Filter Props_Filter
  Model_Info Spec_Info.
Import ListNotations.
Open Scope string_scope. Open Scope list_scope.

(** ** Usage *)
Lemma parse_iff_gen : forall rd ps opts groups docs cl (P : Prop), tabulates opts docs = true ->
  (forall ns, (exists r, take_positionals rd ps (cl_positionals cl) ns = Some r) <-> P) ->
  (parse_args rd (mk_parser ps opts groups) cl <> None <->
   P /\ Forall (allowed rd docs) (cl_options cl) /\ Forall (fun g => not_mixed g (cl_options cl)) groups).
Proof.
  intros rd ps opts groups docs cl P Htab Hpos. unfold parse_args. cbn [p_exclusive p_options p_positionals].
  assert (Hex : existsb (fun g => conflict g (cl_options cl)) groups = false <-> Forall (fun g => not_mixed g (cl_options cl)) groups).
  { clear. induction groups as [|g groups IH]; cbn.
    - split; [constructor|reflexivity].
    - rewrite orb_false_iff, IH, conflict_spec. split.
      + intros [? ?]. constructor; assumption.
      + intro H. inversion H; auto. }
  assert (Hal : Forall (taken rd opts) (cl_options cl) <-> Forall (allowed rd docs) (cl_options cl)).
  { rewrite !Forall_forall. split; intros H g Hg; apply (taken_allowed rd opts docs Htab); auto. }
  split.
  - intro H. destruct (existsb _ _) eqn:E; [congruence|].
    destruct (take_options rd opts (cl_options cl) (defaults rd opts [])) as [ns|] eqn:Ht; [|congruence].
    destruct (take_options_some _ _ _ _ _ Ht) as [Hall _]. split; [|split].
    + apply (Hpos ns). destruct (take_positionals rd ps (cl_positionals cl) ns) as [r|]; [exists r; reflexivity|congruence].
    + apply Hal. exact Hall.
    + apply Hex. reflexivity.
  - intros [Hlen [Hall Hgr]]. apply Hex in Hgr. rewrite Hgr. apply Hal in Hall.
    destruct (take_options_ok rd opts (cl_options cl) (defaults rd opts []) Hall) as [ns Ht]. rewrite Ht.
    destruct (proj2 (Hpos ns) Hlen) as [r Hr]. rewrite Hr. discriminate.
Qed.

Lemma group_words : forall g, existsb (String.eqb g) INFO_GROUPS = true <-> In g documented_groups.
Proof.
  intro g. rewrite existsb_exists. split.
  - intros (w & Hw & He). apply String.eqb_eq in He. subst w. unfold INFO_GROUPS in Hw. unfold documented_groups. cbn in Hw |- *. tauto.
  - intro H. exists g. split; [|apply String.eqb_refl]. unfold INFO_GROUPS. unfold documented_groups in H. cbn in H |- *. tauto.
Qed.

Lemma info_positionals : forall rd given ns,
  (exists r, take_positionals rd [("soln_file", Text); ("soln_range", Text); ("group", Choice INFO_GROUPS)] given ns = Some r) <->
  exists f n g, given = [f; n; g] /\ In g documented_groups.
Proof.
  intros rd [|f [|n [|g [|x l]]]] ns; cbn [take_positionals Model_Options.convert].
  1,2,3: split; [intros [r H]; discriminate|intros (f' & n' & g' & H & _); discriminate].
  - destruct (existsb (String.eqb g) INFO_GROUPS) eqn:E.
    + split; [intros _; exists f, n, g; split; [reflexivity|apply group_words; exact E]|intros _; eexists; reflexivity].
    + split; [intros [r H]; discriminate|]. intros (f' & n' & g' & H & Hg). injection H as <- <- <-. apply group_words in Hg. congruence.
  - split; [|intros (f' & n' & g' & H & _); discriminate].
    intros [r H]. destruct (existsb (String.eqb g) INFO_GROUPS); discriminate.
Qed.

Section Info.
Variables (E : env) (logprob : isoln -> R) (points : isoln -> res (option R * option R * option R * option R)).
Variables (rd : readers) (quotient : R -> val -> res val) (read : string -> res (run isoln iinfo)).
Notation ds_info := (info_main E logprob points rd quotient read).

(** A command line is refused exactly when it does not name a file, a solution and a documented group, or has an option that is
    not one of the logging options or is used wrongly. *)
Theorem C108_usage : forall cl, ds_info cl <> InfoUsage <->
  (exists f n g, cl_positionals cl = [f; n; g] /\ In g documented_groups) /\
  Forall (allowed rd logging_docs) (cl_options cl) /\ not_mixed log_alternatives (cl_options cl).
Proof.
  intro cl. assert (Hrun : ds_info cl <> InfoUsage <-> parse_args rd info_parser cl <> None).
  { unfold info_main. destruct (parse_args rd info_parser cl); split; intro; congruence. }
  rewrite Hrun. unfold info_parser. rewrite (parse_iff_gen rd _ logging_options [stderr_group] logging_docs cl _ eq_refl (fun ns => info_positionals rd (cl_positionals cl) ns)).
  split; intros (A & B & C); (split; [exact A|split; [exact B|]]).
  - inversion C; assumption.
  - constructor; [exact C|constructor].
Qed.

(** What a command line that is not refused runs. *)
Lemma info_started : forall cl f n g, cl_positionals cl = [f; n; g] -> ds_info cl <> InfoUsage ->
  ds_info cl = Printed (then_ (lift (read f)) (fun r => info E logprob points quotient f g n r)).
Proof.
  intros cl f n g Hp H. unfold info_main in *. destruct (parse_args rd info_parser cl) as [args|] eqn:P; [|congruence]. f_equal.
  assert (A : dget "group" args = Some (VStr g) /\ dget "soln_file" args = Some (VStr f) /\ dget "soln_range" args = Some (VStr n)).
  { unfold parse_args in P. destruct (existsb _ _); [discriminate|]. cbn [info_parser p_options p_positionals] in P.
    destruct (take_options rd logging_options (cl_options cl) (defaults rd logging_options [])) as [ns|]; [|discriminate].
    rewrite Hp in P. cbn [take_positionals Model_Options.convert] in P. destruct (existsb (String.eqb g) INFO_GROUPS); [|discriminate]. injection P as <-.
    rewrite !dget_dset. cbn. auto. }
  destruct A as (A1 & A2 & A3). unfold dgetitem. rewrite A1, A2, A3. cbn [rbind lift then_ app]. destruct (read f) as [r|e]; cbn [then_ app]; [|reflexivity].
  destruct (info E logprob points quotient f g n r). reflexivity.
Qed.

(** ** Lines *)
Lemma blanks_spaces : forall n, spaces n = blanks n.
Proof. induction n as [|n IH]; cbn; [reflexivity|]. rewrite IH. reflexivity. Qed.
Lemma append_assoc : forall a b c : string, ((a ++ b) ++ c = a ++ (b ++ c))%string.
Proof. induction a as [|x a IH]; intros; cbn; [reflexivity|]. rewrite IH. reflexivity. Qed.
Lemma format_shows : forall name text, shows (FORMAT name text) name text.
Proof. intros. exists (20 - code_points name). unfold FORMAT, pad. rewrite blanks_spaces, append_assoc. reflexivity. Qed.

Lemma print_items_ok : forall l, exists lines, print_items E OutputFile l = (map (pair OutputFile) lines, Ok tt) /\
  Forall2 (fun line p => shows line (fst p) (text_of E (snd p))) lines l.
Proof.
  induction l as [|[k v] l (lines & IH1 & IH2)]; [exists []; split; [reflexivity|constructor]|].
  exists (FORMAT k (text_of E v) :: lines). cbn [print_items print then_]. rewrite IH1. split; [reflexivity|]. constructor; [apply format_shows|exact IH2].
Qed.
Lemma print_all_ok : forall l, print_all OutputFile l = (map (pair OutputFile) l, Ok tt).
Proof. induction l as [|x l IH]; [reflexivity|]. cbn [print_all print then_]. rewrite IH. reflexivity. Qed.

End Info.

(** From a line the name and the text can be read back. *)
Lemma before_colon_app : forall a b, before_colon a = a -> before_colon (a ++ String ":" b) = a.
Proof.
  induction a as [|x a IH]; intros b H; cbn in *; [reflexivity|]. destruct (Ascii.eqb x ":"); [discriminate|]. injection H as H. rewrite IH by exact H. reflexivity.
Qed.
Lemma after_colon_app : forall a b, before_colon a = a -> after_colon (a ++ String ":" b) = b.
Proof.
  induction a as [|x a IH]; intros b H; cbn in *; [reflexivity|]. destruct (Ascii.eqb x ":"); [discriminate|]. injection H as H. apply IH. exact H.
Qed.
Lemma before_colon_blanks : forall a n, before_colon a = a -> before_colon (a ++ blanks n) = (a ++ blanks n)%string.
Proof.
  induction a as [|x a IH]; intros n H; cbn in *.
  - clear H. induction n as [|n IH]; cbn; [reflexivity|]. rewrite IH. reflexivity.
  - destruct (Ascii.eqb x ":"); [discriminate|]. injection H as H. rewrite IH by exact H. reflexivity.
Qed.
Lemma all_blank_app : forall a n, all_blank (a ++ blanks n) = all_blank a.
Proof.
  induction a as [|x a IH]; intro n; cbn.
  - induction n as [|n IH]; cbn; [reflexivity|exact IH].
  - rewrite IH. reflexivity.
Qed.
Lemma trim_blanks : forall n, trim_end (blanks n) = "".
Proof. intros [|n]; [reflexivity|]. cbn. assert (H := all_blank_app "" n). cbn in H. rewrite H. reflexivity. Qed.
Lemma trim_app : forall a n, trim_end a = a -> trim_end (a ++ blanks n) = a.
Proof.
  induction a as [|x a IH]; intros n H; [apply trim_blanks|]. cbn in *. rewrite all_blank_app. destruct (Ascii.eqb x " " && all_blank a)%bool; [discriminate|].
  injection H as H. rewrite IH by exact H. reflexivity.
Qed.

(** The line of a name and a text can be read back. *)
Theorem C108_read_back : forall line name text, shows line name text -> plain_name name -> read_line line = (name, text).
Proof.
  intros line name text [n ->] [H1 H2]. unfold read_line. cbn [append drop1].
  assert (Q : (name ++ blanks n ++ ": " ++ text = (name ++ blanks n) ++ String ":" (String " " text))%string) by (rewrite append_assoc; reflexivity).
  cbn [append] in Q. rewrite Q. cbn [after_colon Ascii.eqb Bool.eqb].
  rewrite before_colon_app by (apply before_colon_blanks; exact H1). rewrite after_colon_app by (apply before_colon_blanks; exact H1).
  rewrite trim_app by exact H2. reflexivity.
Qed.

Section Groups.
Variables (E : env) (logprob : isoln -> R) (points : isoln -> res (option R * option R * option R * option R)).
Variables (rd : readers) (quotient : R -> val -> res val) (read : string -> res (run isoln iinfo)).
Notation ds_info := (info_main E logprob points rd quotient read).
Variables (cl : command_line) (f n : string) (r : run isoln iinfo).
Hypothesis Hread : read f = Ok r.

(** Printed to the given stream, ending normally. *)
Definition prints (lines : list string) : Prop := ds_info cl = Printed (map (pair OutputFile) lines, Ok tt).
Definition asks (g : string) : Prop := cl_positionals cl = [f; n; g] /\ ds_info cl <> InfoUsage.

Ltac start H :=
  destruct H as [Hp Hu]; rewrite (info_started E logprob points rd quotient read cl f n _ Hp Hu), Hread;
  cbn [lift then_ app]; unfold info.
Ltac finish := unfold prints; cbn [String.eqb Ascii.eqb Bool.eqb lift then_ app print fst snd map].

(** The input and the initial conditions: every attribute, in order, one line each. *)
Theorem C108_listing : forall s, get_solutions r (Some n) = Ok (Final s) ->
  (asks "input" -> forall c fs, is_solution_input s = VObj c fs ->
     exists lines, prints ("input settings:" :: lines) /\ Forall2 (fun line p => shows line (fst p) (text_of E (snd p))) lines fs) /\
  (asks "initial-conditions" -> forall c fs, is_initial_conditions s = VObj c fs ->
     exists lines, prints ("initial conditions:" :: lines) /\ Forall2 (fun line p => shows line (fst p) (text_of E (snd p))) lines fs).
Proof.
  intros s Hs. split; intros H c fs Hc; destruct (print_items_ok E fs) as (lines & HL & HF); exists lines; (split; [|exact HF]); unfold prints; start H; rewrite Hs; finish;
    cbn [the_solution lift then_]; unfold info_listing; cbn [print then_]; rewrite Hc; cbn [vars_items lift then_]; rewrite HL; reflexivity.
Qed.

(** The run: its properties and the whole configuration, whatever the solution. *)
Theorem C108_run : forall s, get_solutions r (Some n) = Ok s -> asks "run" -> forall c fs label,
  ii_config_input (r_info r) = VObj c fs -> dget "label" fs = Some label ->
  exists lines, prints (["run properties:"; "filename: " ++ f; "label: " ++ text_of E label;
      "config filename: " ++ text_of E (ii_config_filename (r_info r)); "sonic method: " ++ text_of E (ii_sonic_method (r_info r));
      "DiscSolver version: " ++ text_of E (ii_version (r_info r)); "using E_r: " ++ text_of E (ii_use_E_r (r_info r));
      "number of solutions: " ++ str_of_nat (List.length (r_solutions r)); "config:"]%string ++ lines) /\
    Forall2 (fun line p => shows line (fst p) (text_of E (snd p))) lines fs.
Proof.
  intros s Hs H c fs label Hc Hl. destruct (print_items_ok E fs) as (lines & HL & HF). exists lines. split; [|exact HF].
  unfold prints. start H. rewrite Hs. finish. unfold info_run, print_value, getattr. rewrite Hc, Hl. cbn [rbind lift then_ print app vars_items]. rewrite HL. reflexivity.
Qed.

(** The state of the solution. *)
Theorem C108_status : forall s, get_solutions r (Some n) = Ok (Final s) -> asks "status" ->
  let has v := match v with VNone => "False" | _ => "True" end in
  prints ["ODE return flag: " ++ text_of E (is_flag s); "Coordinate System: " ++ text_of E (is_coordinate_system s);
          "Has internal data: " ++ has (is_internal_data s); "Has derivatives: " ++ has (is_derivatives s);
          "Has t_roots: " ++ has (is_t_roots s); "Has y_roots: " ++ has (is_y_roots s)]%string.
Proof.
  intros s Hs H has. unfold prints. start H. rewrite Hs. finish. unfold info_status. cbn [the_solution lift then_ print app].
  assert (Q : forall v, is_not_none v = has v) by (intros []; reflexivity). rewrite !Q. reflexivity.
Qed.

(** The critical points: each with its angle, None if it is not reached. *)
Theorem C108_points : forall s, get_solutions r (Some n) = Ok (Final s) -> forall slow sonic alfven fast, points s = Ok (slow, sonic, alfven, fast) ->
  let angle p := match p with Some x => text_of E (VNum (Some x)) | None => "None" end in
  (asks "sonic-points" -> exists a b c d, prints [a; b; c; d] /\ shows a "slow sonic point" (angle slow) /\ shows b "sonic point" (angle sonic) /\ shows c "alfven sonic point" (angle alfven) /\ shows d "fast sonic point" (angle fast)) /\
  (asks "crosses-points" -> forall label, getattr "label" (ii_config_input (r_info r)) = Ok label ->
     exists word, prints [text_of E label ++ ": " ++ word]%string /\ fastest slow sonic alfven fast word).
Proof.
  intros s Hs slow sonic alfven fast Hpts angle. split.
  - intro H. assert (Q : forall p, angle_text E p = angle p) by (intros [x|]; reflexivity).
    exists (FORMAT "slow sonic point" (angle slow)), (FORMAT "sonic point" (angle sonic)), (FORMAT "alfven sonic point" (angle alfven)), (FORMAT "fast sonic point" (angle fast)).
    split; [|repeat split; apply format_shows]. unfold prints. start H. rewrite Hs. finish. cbn [the_solution lift then_]. rewrite Hpts. cbn [lift then_]. unfold info_points.
    rewrite print_all_ok, !Q. reflexivity.
  - intros H label Hl. eexists. split.
    + unfold prints. start H. rewrite Hs. finish. cbn [the_solution lift then_]. rewrite Hpts. cbn [lift then_]. unfold info_crosses, print_value. rewrite Hl. cbn [rbind lift then_ print app]. reflexivity.
    + unfold fastest. destruct fast; [left; split; [reflexivity|discriminate]|]. destruct alfven; [right; left; repeat split; discriminate|].
      destruct sonic; [right; right; left; repeat split; discriminate|]. destruct slow; [right; right; right; left; repeat split; discriminate|].
      right; right; right; right. repeat split.
Qed.

(** The names of all solutions, each once, in increasing order of their log probability. *)
Theorem C108_solutions : forall s, get_solutions r (Some n) = Ok s -> asks "solutions" ->
  exists l, prints (map fst l) /\ Permutation l (r_solutions r) /\ StronglySorted (fun p q => logprob (snd p) <= logprob (snd q))%R l.
Proof.
  intros s Hs H. destruct (C58_sorted isoln logprob (r_solutions r)) as (P1 & P2 & _).
  assert (M : exists l, sort_solutions logprob (r_solutions r) = map (fun p => (fst p, logprob (snd p))) l /\ Permutation l (r_solutions r)).
  { apply Permutation_map_inv in P1. destruct P1 as (l & Q1 & Q2). exists l. split; [exact Q1|apply Permutation_sym; exact Q2]. }
  destruct M as (l & M1 & M2). exists l. split; [|split; [exact M2|]].
  - unfold prints. start H. rewrite Hs. finish. unfold info_solutions. rewrite print_all_ok, M1, !map_map. reflexivity.
  - rewrite M1 in P2. clear - P2. induction l as [|p l IH]; [constructor|]. cbn [map] in P2. inversion P2 as [|? ? A B]; subst. constructor; [apply IH; exact A|].
    rewrite Forall_map in B. exact B.
Qed.

(** The angle of the sonic point in units of the scale height; to the standard output, whatever stream was given. *)
Theorem C108_scale_exact : forall s, get_solutions r (Some n) = Ok (Final s) -> asks "sonic-on-scale" -> forall slow sonic alfven fast label scale,
  points s = Ok (slow, sonic, alfven, fast) -> getattr "label" (ii_config_input (r_info r)) = Ok label -> getattr "c_s_on_v_k" (is_solution_input s) = Ok scale ->
  (forall x q, sonic = Some x -> quotient x scale = Ok q -> ds_info cl = Printed ([(Stdout, text_of E label ++ ": " ++ text_of E q)%string], Ok tt)) /\
  (sonic = None -> ds_info cl = Printed ([], Raise TypeError)).
Proof.
  intros s Hs H slow sonic alfven fast label scale Hpts Hl Hsc. split.
  - intros x q -> Hq. start H. rewrite Hs. finish. unfold info_sonic_on_scale. cbn [the_solution rbind]. rewrite Hpts. cbn [rbind]. rewrite Hl. cbn [rbind]. rewrite Hsc. cbn [rbind]. rewrite Hq.
    cbn [rbind lift then_ print app]. reflexivity.
  - intros ->. start H. rewrite Hs. finish. unfold info_sonic_on_scale. cbn [the_solution rbind]. rewrite Hpts. cbn [rbind]. rewrite Hl. cbn [rbind]. rewrite Hsc. reflexivity.
Qed.

(** Refuted: the properties of the run and the list of its solutions are printed only if the solution named exists. *)
Theorem C108_missing_solution_refuted : forall g, In g documented_groups -> asks g ->
  n <> "final" -> n <> "latest" -> dget n (r_solutions r) = None -> ds_info cl = Printed ([], Raise KeyError).
Proof.
  intros g _ H Hf Hl Hn. start H. unfold get_solutions. destruct (String.eqb_spec n "latest"); [contradiction|]. destruct (String.eqb_spec n "final"); [contradiction|].
  unfold dgetitem. rewrite Hn. reflexivity.
Qed.

(** A run without a final solution has the groups about the run for "final", the others print nothing and fail. *)
Theorem C108_no_final : r_final r = FinalNone -> n = "final" -> forall g, asks g ->
  (In g about_a_solution -> ds_info cl = Printed ([], Raise AttributeError)) /\
  (g = "solutions" -> exists lines, prints lines /\ Permutation lines (dkeys (r_solutions r))).
Proof.
  intros Hf Hn g H. assert (G : get_solutions r (Some n) = Ok FinalNone) by (rewrite Hn; unfold get_solutions; cbn; rewrite Hf; reflexivity). split.
  - intro Hg. start H. rewrite G. unfold about_a_solution in Hg. cbn in Hg.
    repeat (destruct Hg as [<-|Hg]; [reflexivity|]). destruct Hg.
  - intros ->. destruct (C108_solutions _ G H) as (l & L1 & L2 & _). exists (map fst l). split; [exact L1|]. unfold dkeys. apply Permutation_map. exact L2.
Qed.
End Groups.

(** ** The hypotheses can be met *)
Definition ex_env : env := mk_env (fun _ => Raise ValueError) (fun v => Ok v) (fun _ => "0.5") (fun l => l) true.
Definition ex_readers : readers := mk_readers (fun _ => None) (fun _ => None).
Definition ex_soln : isoln :=
  mk_isoln (VInt 0) (VText "spherical midplane 0") VNone VNone VNone VNone (VObj "SolutionInput" [("γ", VNum (Some 1%R)); ("v_rin_on_c_s", VNum (Some 1%R)); ("c_s_on_v_k", VNum (Some (1/20)%R))])
           (VObj "InitialConditions" [("a_0", VNum (Some 1%R)); ("angles", VArr [0] [])]).
Definition ex_run : run isoln iinfo :=
  mk_run (mk_iinfo (VObj "ConfigInput" [("start", VText "0"); ("label", VText "test")]) (VText "c.cfg") (VText "step") (VText "1") (VBool false))
         FinalNone [("0", ex_soln)] false None None.
Definition ex_points (s : isoln) : res (option R * option R * option R * option R) := Ok (Some 1%R, Some 2%R, None, None).
Definition ex_line (n g : string) : command_line := mk_command_line ["out.hdf5"; n; g] [("--quiet", [])].
Definition ex_main := info_main ex_env (fun _ => 0%R) ex_points ex_readers (fun _ _ => Ok (VNum (Some 1%R))) (fun _ => Ok ex_run).

Example C108_usage_nonvacuous :
  Forall (fun g => ex_main (ex_line "0" g) <> InfoUsage) documented_groups /\ ex_main (ex_line "0" "runs") = InfoUsage /\
  ex_main (mk_command_line ["out.hdf5"; "0"; "run"] [("--quiet", []); ("--verbose", [])]) = InfoUsage.
Proof. split; [|split; vm_compute; reflexivity]. repeat (constructor; [vm_compute; discriminate|]). constructor. Qed.
Example C108_listing_nonvacuous :
  ex_main (ex_line "0" "input") = Printed (map (pair OutputFile)
    ["input settings:"; " γ                   : 0.5"; " v_rin_on_c_s        : 0.5"; " c_s_on_v_k          : 0.5"], Ok tt) /\
  get_solutions ex_run (Some "0") = Ok (Final ex_soln) /\ Forall plain_name ["γ"; "v_rin_on_c_s"; "c_s_on_v_k"].
Proof. split; [vm_compute; reflexivity|split; [reflexivity|]]. repeat (constructor; [split; reflexivity|]). constructor. Qed.
Example C108_run_nonvacuous : ex_main (ex_line "0" "run") = Printed (map (pair OutputFile)
    ["run properties:"; "filename: out.hdf5"; "label: test"; "config filename: c.cfg"; "sonic method: step"; "DiscSolver version: 1"; "using E_r: False";
     "number of solutions: 1"; "config:"; " start               : 0"; " label               : test"], Ok tt).
Proof. vm_compute. reflexivity. Qed.
Example C108_points_nonvacuous :
  ex_main (ex_line "latest" "crosses-points") = Printed ([(OutputFile, "test: sonic")], Ok tt) /\
  ex_main (ex_line "0" "sonic-points") = Printed (map (pair OutputFile)
    [" slow sonic point    : 0.5"; " sonic point         : 0.5"; " alfven sonic point  : None"; " fast sonic point    : None"], Ok tt) /\
  ex_main (ex_line "0" "sonic-on-scale") = Printed ([(Stdout, "test: 0.5")], Ok tt).
Proof. repeat split; vm_compute; reflexivity. Qed.
Example C108_missing_nonvacuous : ex_main (ex_line "7" "run") = Printed ([], Raise KeyError) /\ ex_main (ex_line "7" "solutions") = Printed ([], Raise KeyError) /\
  ex_main (ex_line "final" "status") = Printed ([], Raise AttributeError).
Proof. repeat split; vm_compute; reflexivity. Qed.
Example C108_solutions_nonvacuous : exists l, ex_main (ex_line "0" "solutions") = Printed (map (pair OutputFile) (map fst l), Ok tt) /\ Permutation l (r_solutions ex_run).
Proof.
  destruct (C108_solutions ex_env (fun _ => 0%R) ex_points ex_readers (fun _ _ => Ok (VNum (Some 1%R))) (fun _ => Ok ex_run) (ex_line "0" "solutions") "out.hdf5" "0" ex_run eq_refl
              (Final ex_soln) eq_refl) as (l & L1 & L2 & _).
  - split; [reflexivity|vm_compute; discriminate].
  - exists l. split; [exact L1|exact L2].
Qed.
