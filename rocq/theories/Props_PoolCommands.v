(** C111 for the commands that use worker processes: ds-csvrunner, ds-hdf5runner and ds-shock. *)
From Coq Require Import String List Bool ZArith Reals Permutation Lia.
From Verif Require Import Lib_Py Model_Format Model_Inputs Model_Csv Model_Options Spec_Options Proofs_Options Props_Options Props_Info Model_Run Model_Solve
  Model_Index Model_Waves Model_Midplane Model_Shock Props_Shock Model_SolverOptions Spec_SolverOptions Model_Pool Spec_Pool Props_Pool Spec_PoolCommands.
Import ListNotations.
Open Scope string_scope. Open Scope list_scope.

(** ** Status *)
(** C111: the status is 0 exactly if no task and no handling of a result raised. *)
Theorem C111_status : forall W A E (task : nat -> W -> W * res A) total (body : A -> list E * option exn) workers w s e,
  steps task total body workers (initial total w) s -> b_phase s = Left e ->
  (exit_status e = 0%Z <-> forall i r, In (i, r) (b_done s) -> exists a, r = Ok a /\ snd (body a) = None).
Proof.
  intros W A E task total body workers w s e H He. destruct (C111_end task total body workers w s e H He) as (order & results & Po & _ & D & L & Hd).
  assert (Hn : snd (handled body results) = None <-> Forall (fun r => exists a, r = Ok a /\ snd (body a) = None) results).
  { clear. induction results as [|x t IH]; cbn [handled]; [split; [constructor|reflexivity]|]. destruct x as [a|e0].
    - destruct (body a) as [es [e1|]] eqn:B; cbn [snd].
      + split; [discriminate|]. intro F. inversion F as [|? ? (a' & Q & Z) _]; subst. injection Q as <-. rewrite B in Z. discriminate.
      + rewrite IH. split; [intro F; constructor; [exists a; rewrite B; auto|exact F]|intro F; inversion F; assumption].
    - split; [discriminate|]. intro F. inversion F as [|? ? (a' & Q & _) _]. discriminate. }
  assert (St : exit_status e = 0%Z <-> snd (handled body results) = None).
  { rewrite Hd. cbn [snd]. destruct e; cbn; split; congruence. }
  rewrite St, Hn, Forall_forall. split.
  - intros F i r Hi. apply in_rev in Hi. rewrite D in Hi. apply in_map_iff in Hi. destruct Hi as (j & Q & Hj). injection Q as -> <-. apply F. apply nth_In. rewrite L.
    apply (Permutation_in _ Po), in_seq in Hj. lia.
  - intros F r Hr. destruct (In_nth _ _ (Raise NonTermination) Hr) as (i & Hi & Q). apply (F i). apply in_rev. rewrite D. apply in_map_iff. exists i. rewrite Q. split; [reflexivity|].
    apply (Permutation_in _ (Permutation_sym Po)), in_seq. lia.
Qed.
(** C111: so ds-hdf5runner and ds-shock end with status 0 even if nothing was solved. *)
Corollary C111_hdf5_status : forall W (task : nat -> W -> W * res (option bool)) total workers w s e,
  steps task total hdf5_body workers (initial total w) s -> b_phase s = Left e ->
  (forall i r, In (i, r) (b_done s) -> r = Ok None) -> exit_status e = 0%Z /\ b_out s = repeat "Solver failed for input" total.
Proof.
  intros W task total workers w s e H He F. split.
  - apply (C111_status _ _ _ _ _ _ _ _ _ _ H He). intros i r Hi. exists None. split; [apply (F i r Hi)|reflexivity].
  - destruct (C111_end _ _ _ _ _ _ _ H He) as (order & results & Po & _ & D & L & Hd).
    assert (Er : results = repeat (Ok None) total).
    { apply (nth_ext _ _ (Raise NonTermination) (Raise NonTermination)); [rewrite repeat_length; exact L|]. intros i Hi. rewrite L in Hi.
      assert (Q : In (i, nth i results (Raise NonTermination)) (b_done s)).
      { apply in_rev. rewrite D. apply in_map_iff. exists i. split; [reflexivity|]. apply (Permutation_in _ (Permutation_sym Po)), in_seq. lia. }
      rewrite (F _ _ Q). symmetry. apply (repeat_spec total (Ok None)). apply nth_In. rewrite repeat_length. exact Hi. }
    rewrite Er in Hd. assert (Hh : handled hdf5_body (repeat (Ok None) total) = (repeat "Solver failed for input" total, None)).
    { clear. induction total as [|n IH]; [reflexivity|]. cbn [repeat handled hdf5_body]. rewrite IH. reflexivity. }
    rewrite Hh in Hd. injection Hd as Hd _. symmetry. exact Hd.
Qed.

(** ** ds-csvrunner *)
(** C111: whatever the workers do, the rows and the end of ds-csvrunner are those of the batch done one input after another (the text of
    C55 with every task finished), and at every moment what is in the file is the beginning of that. *)
Lemma concat_app : forall a b, String.concat "" (a ++ b) = (String.concat "" a ++ String.concat "" b)%string.
Proof.
  assert (A : forall x y z : string, ((x ++ y) ++ z)%string = (x ++ (y ++ z))%string) by (intros x y z; induction x as [|c x IH]; cbn; [reflexivity|rewrite IH; reflexivity]).
  assert (Z : forall x : string, (x ++ "")%string = x) by (intro x; induction x as [|c x IH]; cbn; [reflexivity|rewrite IH; reflexivity]).
  assert (C : forall x l, String.concat "" (x :: l) = (x ++ String.concat "" l)%string) by (intros x [|y l]; cbn; [rewrite Z|]; reflexivity).
  induction a as [|x a IH]; intro b; [reflexivity|]. cbn [app]. rewrite !C, IH, A. reflexivity.
Qed.
Lemma rows_app : forall a b, rows_text (a ++ b) = (rows_text a ++ rows_text b)%string.
Proof. intros a b. unfold rows_text. rewrite flat_map_app. apply concat_app. Qed.
Lemma write_handled : forall E l, write_results E l = (rows_text (fst (handled (csv_body E) l)), snd (handled (csv_body E) l)).
Proof.
  intros E l. induction l as [|x t IH]; [reflexivity|]. cbn [write_results handled]. destruct x as [[d|]|e]; [| |reflexivity].
  - cbn [csv_body]. destruct (dict_row E SOLUTION_INPUT_FIELDS d) as [row|e]; [|reflexivity]. rewrite IH. cbn [fst snd]. rewrite (rows_app [Row row]). reflexivity.
  - cbn [csv_body]. rewrite IH. cbn [fst snd]. rewrite (rows_app [No_solution]). reflexivity.
Qed.
Lemma handed_all : forall A (l : list A) k finished, (forall i, (k <= i < k + List.length l)%nat -> In i finished) -> handed_over k l finished = l.
Proof.
  intros A l. induction l as [|x t IH]; intros k fin H; [reflexivity|]. cbn [handed_over]. assert (X : existsb (Nat.eqb k) fin = true).
  { apply existsb_exists. exists k. split; [apply H; cbn; lia|apply Nat.eqb_refl]. }
  rewrite X. f_equal. apply IH. intros i Hi. apply H. cbn [List.length]. lia.
Qed.
Theorem C111_csvrunner : forall E T S method overrides meta input label inputs workers s,
  get_csv_inputs S input label = Ok inputs ->
  let results := map (find_solution E T method overrides) inputs in
  let task i (w : unit) := (w, nth i results (Raise NonTermination)) in
  steps task (List.length inputs) (csv_body E) workers (initial (List.length inputs) tt) s ->
  exists text e, csvrunner E T S method overrides meta input label (seq 0 (List.length inputs)) = Ok ((metadata meta ++ csv_row SOLUTION_INPUT_FIELDS ++ text)%string, e) /\
    (exists rest, text = (rows_text (b_out s) ++ rest)%string) /\
    (forall e', b_phase s = Left e' -> text = rows_text (b_out s) /\ e = e').
Proof.
  intros E T S method overrides meta input label inputs workers s Hin results task H.
  assert (Er : map (fun i => snd (task i tt)) (seq 0 (List.length inputs)) = results).
  { unfold task. cbn [snd]. replace (List.length inputs) with (List.length results) by apply map_length. apply (nth_ext _ _ (Raise NonTermination) (Raise NonTermination)).
    - rewrite map_length, seq_length. reflexivity.
    - intros i Hi. rewrite map_length, seq_length in Hi. rewrite (nth_indep _ _ ((fun i => nth i results (Raise NonTermination)) 0%nat)) by (rewrite map_length, seq_length; exact Hi).
      rewrite (map_nth (fun i => nth i results (Raise NonTermination))), seq_nth by exact Hi. reflexivity. }
  exists (rows_text (fst (handled (csv_body E) results))), (snd (handled (csv_body E) results)). split; [|split].
  - unfold csvrunner. rewrite Hin. cbn [rbind]. rewrite handed_all; [|intros i Hi; rewrite map_length in Hi; apply in_seq; exact Hi].
    fold results. rewrite write_handled. reflexivity.
  - destruct (C111_prefix task (List.length inputs) (csv_body E) workers tt s (fun _ _ _ => eq_refl) H) as [rest Q]. rewrite Er in Q. exists (rows_text rest). rewrite Q. apply rows_app.
  - intros e' He. pose proof (C111_schedule task (List.length inputs) (csv_body E) workers tt s e' (fun _ _ _ => eq_refl) H He) as Q. rewrite Er in Q. rewrite Q. split; reflexivity.
Qed.

(** C111 REFUTED for ds-csvrunner: with a number of workers below one it ends in a NameError, and has already written comments and
    column names to its output. *)
Theorem C111_csv_no_workers_refuted : forall cpus z S meta input label inputs, (z < 1)%Z -> get_csv_inputs S input label = Ok inputs ->
  csvrunner_start cpus (Some z) S meta input label = ((metadata meta ++ csv_row SOLUTION_INPUT_FIELDS)%string, Raise NameError).
Proof. intros cpus z S meta input label inputs Hz Hin. unfold csvrunner_start. rewrite Hin. unfold nicer_mp_pool, create_pool. apply Z.ltb_lt in Hz. rewrite Hz. reflexivity. Qed.
Theorem C111_csv_workers : forall cpus n S meta input label inputs, get_csv_inputs S input label = Ok inputs -> (forall z, n = Some z -> (1 <= z)%Z) ->
  csvrunner_start cpus n S meta input label = ((metadata meta ++ csv_row SOLUTION_INPUT_FIELDS)%string, Ok (match n with Some z => Z.to_nat z | None => cpus end, inputs)).
Proof.
  intros cpus n S meta input label inputs Hin Hz. unfold csvrunner_start. rewrite Hin. unfold nicer_mp_pool, create_pool. destruct n as [z|]; [|reflexivity].
  assert (Z : (z <? 1)%Z = false) by (apply Z.ltb_ge, Hz; reflexivity). rewrite Z. reflexivity.
Qed.

(** ** ds-shock *)
Section Shock.
Context {Sol I : Type}.
Variables (rd : readers) (cpus : nat) (load : string -> res (run Sol I)) (samples : Sol -> list (R * vec)).
Notation ds_shock := (shock_main rd cpus load samples).

(** C111: ds-shock is refused exactly when it does not name a file and a solution, or has a wrong option. *)
Theorem C111_shock_usage : forall cl, ds_shock cl <> ShockUsage <->
  List.length (cl_positionals cl) = 2%nat /\ Forall (allowed rd shock_docs) (cl_options cl) /\ not_mixed log_alternatives (cl_options cl).
Proof.
  intro cl. assert (Hrun : ds_shock cl <> ShockUsage <-> parse_args rd shock_parser cl <> None).
  { unfold shock_main. destruct (parse_args rd shock_parser cl) as [args|]; [|split; congruence]. split; [discriminate|]. intros _.
    destruct (dget "soln_file" args) as [[]|]; try discriminate. destruct (dget "soln_range" args) as [[]|]; try discriminate. destruct (dget "nworkers" args); [|discriminate].
    destruct (load s) as [r|e]; [|discriminate]. unfold shock_found. destruct (get_solutions r (Some s0)) as [[| |x]|e]; try discriminate.
    destruct (find_shock_test_values _ _ _ _ _ _); [|discriminate]. destruct (nicer_mp_pool _ _); discriminate. }
  rewrite Hrun. unfold shock_parser. rewrite (parse_iff_gen rd _ (logging_options ++ worker_options) [stderr_group] shock_docs cl _ eq_refl (fun ns => two_texts rd (cl_positionals cl) ns)).
  split; intros (A & B & C); (split; [exact A|split; [exact B|]]); [inversion C; assumption|constructor; [exact C|constructor]].
Qed.
Lemma shock_runs : forall cl f n, cl_positionals cl = [f; n] -> ds_shock cl <> ShockUsage ->
  ds_shock cl = match load f with Raise e => ShockStops [] e | Ok r => shock_found cpus samples f n (workers_asked rd (cl_options cl)) r end.
Proof.
  intros cl f n Hp H. unfold shock_main in *. destruct (parse_args rd shock_parser cl) as [args|] eqn:P; [|congruence].
  destruct (two_positionals _ _ _ _ _ P) as (f' & n' & Q & P1 & P2). rewrite Hp in Q. injection Q as <- <-.
  rewrite P1, P2. rewrite (args_default _ _ _ _ P "nworkers" workers_doc eq_refl eq_refl eq_refl). reflexivity.
Qed.
(** C111: otherwise the solution named of the file named is tested, by as many workers as asked for (as many as there are processors if
    the option is not given), after saying how many tests there are. *)
Theorem C111_shock : forall cl f n r s tests, ds_shock cl <> ShockUsage -> cl_positionals cl = [f; n] -> load f = Ok r ->
  get_solutions r (Some n) = Ok (Model_Run.Final s) -> find_shock_test_values (fun v : vec => Some (v iv_θ)) (samples s) 1 10 40 true = Ok tests ->
  (forall z, workers_asked rd (cl_options cl) = Some z -> (1 <= z)%Z) ->
  ds_shock cl = ShockTests [("Looking at " ++ f ++ " solution " ++ n)%string; ("possible values to check: " ++ str_of_nat (List.length tests))%string]
    (match workers_asked rd (cl_options cl) with Some z => Z.to_nat z | None => cpus end) (create_shock_run r f n) tests.
Proof.
  intros cl f n r s tests H Hp Hl Hg Ht Hz. rewrite (shock_runs cl f n Hp H), Hl. unfold shock_found. rewrite Hg, Ht.
  unfold nicer_mp_pool, create_pool. destruct (workers_asked rd (cl_options cl)) as [z|]; [|reflexivity].
  assert (Z : (z <? 1)%Z = false) by (apply Z.ltb_ge; apply Hz; reflexivity). rewrite Z. reflexivity.
Qed.
(** C111 REFUTED for a number of workers below one: the reason (ValueError) is lost, the command ends in a NameError. *)
Theorem C111_no_workers_refuted : forall cl f n r s tests z, ds_shock cl <> ShockUsage -> cl_positionals cl = [f; n] -> load f = Ok r ->
  get_solutions r (Some n) = Ok (Model_Run.Final s) -> find_shock_test_values (fun v : vec => Some (v iv_θ)) (samples s) 1 10 40 true = Ok tests ->
  workers_asked rd (cl_options cl) = Some z -> (z < 1)%Z ->
  create_pool cpus (Some z) = Raise Lib_Py.ValueError /\
  ds_shock cl = ShockStops [("Looking at " ++ f ++ " solution " ++ n)%string; ("possible values to check: " ++ str_of_nat (List.length tests))%string] NameError.
Proof.
  intros cl f n r s tests z H Hp Hl Hg Ht Hw Hz. apply Z.ltb_lt in Hz. split; [unfold create_pool; rewrite Hz; reflexivity|].
  rewrite (shock_runs cl f n Hp H), Hl. unfold shock_found. rewrite Hg, Ht, Hw. unfold nicer_mp_pool, create_pool. rewrite Hz. reflexivity.
Qed.
(** C111: a missing file or solution ends the command before any test. *)
Theorem C111_shock_missing : forall cl f n, ds_shock cl <> ShockUsage -> cl_positionals cl = [f; n] ->
  (forall e, load f = Raise e -> ds_shock cl = ShockStops [] e) /\
  (forall r e, load f = Ok r -> get_solutions r (Some n) = Raise e -> ds_shock cl = ShockStops [("Looking at " ++ f ++ " solution " ++ n)%string] e) /\
  (forall r, load f = Ok r -> get_solutions r (Some n) = Ok FinalNone -> ds_shock cl = ShockStops [("Looking at " ++ f ++ " solution " ++ n)%string] AttributeError).
Proof.
  intros cl f n H Hp. rewrite (shock_runs cl f n Hp H). split; [|split].
  - intros e ->. reflexivity.
  - intros r e -> Hg. unfold shock_found. rewrite Hg. reflexivity.
  - intros r -> Hg. unfold shock_found. rewrite Hg. reflexivity.
Qed.

Variables (solve : vec -> list R -> res Sol) (num_angles : Sol -> nat) (plot : Sol -> res unit) (angles : list R).
Variables (base : run Sol I) (filename soln_range : string) (names : nat -> string) (png : string -> string).
Let r := create_shock_run base filename soln_range.
Notation task_at ok tests := (shock_task_at solve num_angles plot angles ok r tests names).
Notation tasks_run := (shock_tasks (I := I) solve num_angles plot angles).

Lemma done_shock : forall ok tests order fs, (forall i, In i order -> (i < List.length tests)%nat) ->
  forall d, done_in (task_at ok tests) order fs =
  (fst (tasks_run ok r (map (fun i => (names i, nth i tests d)) order) fs),
   combine order (map Ok (snd (tasks_run ok r (map (fun i => (names i, nth i tests d)) order) fs)))).
Proof.
  intros ok tests order fs B d. revert fs. induction order as [|i t IH]; intro fs; [reflexivity|]. cbn [done_in map shock_tasks].
  assert (Hi : (i < List.length tests)%nat) by (apply B; left; reflexivity). unfold shock_task_at at 1. rewrite (nth_error_nth' _ d Hi).
  destruct (shock_task solve num_angles plot angles ok r (names i) (nth i tests d) fs) as [fs1 x].
  rewrite IH by (intros j Hj; apply B; right; exact Hj). destruct (tasks_run ok r (map (fun i => (names i, nth i tests d)) t) fs1) as [fs2 xs]. reflexivity.
Qed.
(** C111: for every schedule ds-shock ends with status 0, and leaves the same files as the tests done in the order of the angles (C84). *)
Theorem C111_shock_files : forall tests workers fs s e,
  (forall i j, (i < List.length tests)%nat -> (j < List.length tests)%nat -> names i = names j -> i = j) ->
  (forall i, (i < List.length tests)%nat -> dget (names i) fs = None) ->
  steps (task_at true tests) (List.length tests) (shock_body png) workers (initial (List.length tests) fs) s -> b_phase s = Left e ->
  exit_status e = 0%Z /\
  (forall i v, nth_error tests i = Some v -> dget (names i) (b_world s) = shock_file solve num_angles angles base filename soln_range v) /\
  (forall n, (forall i, (i < List.length tests)%nat -> names i <> n) -> dget n (b_world s) = dget n fs) /\
  (forall line, In line (b_out s) -> exists i v, nth_error tests i = Some v /\ line = ("New plot " ++ png (names i) ++ " for " ++ names i)%string /\
     exists f shown, shock_file solve num_angles angles base filename soln_range v = Some f /\ r_final f = Model_Run.Final shown /\ plot shown = Ok tt).
Proof.
  intros tests workers fs s e Inj New H He. destruct (C111_end _ _ _ _ _ _ _ H He) as (order & results & Po & D & D' & L & Hd).
  assert (B : forall i, In i order -> (i < List.length tests)%nat) by (intros i Hi; apply (Permutation_in _ Po), in_seq in Hi; lia).
  destruct tests as [|v0 tests0] eqn:Et.
  { assert (order = []) by (apply Permutation_nil; symmetry; exact Po). subst order. cbn in D. injection D as D _. destruct results; [|discriminate]. cbn in Hd. injection Hd as Ho Hee. subst e.
    rewrite <- D, <- Ho. split; [reflexivity|]. split; [intros [|i] v Hv; discriminate|]. split; [reflexivity|intros ? []]. }
  rewrite <- Et in *. set (tasks := map (fun i => (names i, nth i tests v0)) order).
  assert (ND : NoDup (map fst tasks)).
  { unfold tasks. rewrite map_map. cbn [fst]. assert (No : NoDup order) by (apply (Permutation_NoDup (Permutation_sym Po)), seq_NoDup). clear - No Inj B.
    induction No as [|i t N1 N2 IH]; [constructor|]. cbn [map]. constructor; [|apply IH; intros j Hj; apply B; right; exact Hj]. intro F. apply in_map_iff in F. destruct F as (j & Q & Hj).
    apply N1. rewrite <- (Inj j i (B j (or_intror Hj)) (B i (or_introl eq_refl)) Q). exact Hj. }
  assert (NF : forall n, In n (map fst tasks) -> dget n fs = None).
  { intros n Hn. unfold tasks in Hn. rewrite map_map in Hn. apply in_map_iff in Hn. destruct Hn as (i & <- & Hi). apply New, B, Hi. }
  rewrite (done_shock true tests order fs B v0) in D. fold tasks in D. injection D as Dw Dr.
  destruct (C84_files solve num_angles plot angles base filename soln_range tasks fs ND NF) as [F1 F2]. fold r in F1, F2. rewrite Dw in F1, F2.
  pose proof (C84_reported solve num_angles plot angles base filename soln_range tasks fs true ND NF) as Rp. fold r in Rp.
  destruct (tasks_run true r tasks fs) as [fs' xs] eqn:Tr. cbn [fst snd] in *.
  assert (All : forall i r0, In (i, r0) (b_done s) -> exists x, r0 = Ok x /\ In x xs).
  { intros i r0 Hi. apply in_rev in Hi. rewrite <- Dr in Hi. apply in_combine_r in Hi. apply in_map_iff in Hi. destruct Hi as (x & <- & Hx). exists x. auto. }
  split; [|split; [|split]].
  - apply (C111_status _ _ _ _ _ _ _ _ _ _ H He). intros i r0 Hi. destruct (All i r0 Hi) as (x & -> & _). exists x. split; reflexivity.
  - intros i v Hv. apply F1. unfold tasks. apply in_map_iff. exists i. rewrite (nth_error_nth _ _ v0 Hv). split; [reflexivity|].
    apply (Permutation_in _ (Permutation_sym Po)), in_seq. assert (i < List.length tests)%nat by (apply nth_error_Some; rewrite Hv; discriminate). lia.
  - intros n Hn. apply F2. intro F. unfold tasks in F. rewrite map_map in F. apply in_map_iff in F. destruct F as (i & Q & Hi). exact (Hn i (B i Hi) Q).
  - intros line Hl.
    assert (Ex : exists f, In (Ok (Some f)) results /\ line = ("New plot " ++ png f ++ " for " ++ f)%string).
    { assert (Ho : b_out s = fst (handled (shock_body png) results)) by (rewrite Hd; reflexivity). rewrite Ho in Hl. clear - Hl. induction results as [|x t IH]; [destruct Hl|].
      cbn [handled] in Hl. destruct x as [x|e]; [|destruct Hl]. cbn [shock_body] in Hl. cbn [fst] in Hl. apply in_app_or in Hl. destruct Hl as [Hl|Hl].
      - destruct x as [f|]; [|destruct Hl]. destruct Hl as [Hl|[]]. exists f. split; [left; reflexivity|]. symmetry. exact Hl.
      - destruct (IH Hl) as (f & A & B). exists f. split; [right; exact A|exact B]. }
    destruct Ex as (f & Hf & ->).
    assert (Hx : In (Some f) xs).
    { destruct (In_nth _ _ (Raise NonTermination) Hf) as (i & Hi & Q). rewrite L in Hi.
      assert (In (i, nth i results (Raise NonTermination)) (b_done s)).
      { apply in_rev. rewrite D'. apply in_map_iff. exists i. split; [reflexivity|]. apply (Permutation_in _ (Permutation_sym Po)), in_seq. lia. }
      destruct (All _ _ H0) as (x & Q' & Hx). rewrite Q in Q'. injection Q' as <-. exact Hx. }
    destruct (Rp f Hx) as (v & file & shown & Hv & _ & Hs & _ & Hf1 & Hf2). unfold tasks in Hv. apply in_map_iff in Hv. destruct Hv as (i & Q & Hi). injection Q as <- <-.
    exists i, (nth i tests v0). split; [apply nth_error_nth', B, Hi|]. split; [reflexivity|]. exists file, shown. auto.
Qed.
End Shock.

(** Command lines. *)
Definition ex_readers : readers := Model_Options.mk_readers (fun _ => None) (fun s => if String.eqb s "4" then Some 4%Z else if String.eqb s "0" then Some 0%Z else None).
Definition ex_load (f : string) : res (run (list (R * vec)) unit) :=
  if String.eqb f "a.hdf5" then Ok (mk_run tt (Model_Run.Final [(0%R, fun _ => 0%R)]) [("0", [(0%R, fun _ => 0%R)])] false None None) else Raise OtherError.
Definition ex_line (n : string) : command_line := mk_command_line ["a.hdf5"; "0"] [("--nworkers", [n])].
Example C111_shock_nonvacuous :
  shock_main ex_readers 8 ex_load (fun s => s) (ex_line "4") <> ShockUsage /\ workers_asked ex_readers (cl_options (ex_line "4")) = Some 4%Z /\
  workers_asked ex_readers (cl_options (ex_line "0")) = Some 0%Z /\ workers_asked ex_readers [] = None /\
  shock_main ex_readers 8 ex_load (fun s => s) (ex_line "four") = ShockUsage /\
  (exists r s, ex_load "a.hdf5" = Ok r /\ get_solutions r (Some "0") = Ok (Model_Run.Final s)) /\
  get_solutions (mk_run tt FinalNone [("0", tt)] false None None) (Some "final") = Ok FinalNone /\ ex_load "b" = Raise OtherError.
Proof.
  split.
  { apply C111_shock_usage. split; [reflexivity|]. split.
    - constructor; [|constructor]. exists workers_doc, AnInteger. split; [unfold shock_docs; apply in_or_app; right; left; reflexivity|]. split; [reflexivity|discriminate].
    - intros f g Hf Hg Xf Xg. cbn in Hf, Xf. intuition congruence. }
  repeat split; try reflexivity; try (eexists; reflexivity). eexists _, _. split; reflexivity.
Qed.
Print Assumptions C111_shock_files. Print Assumptions C111_csvrunner. Print Assumptions C111_shock_usage.
