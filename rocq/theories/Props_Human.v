(** C113: splitting by hand. *)
From Coq Require Import String List Bool ZArith Reals Lra Lia.
From Verif Require Import Lib_Py Model_Run Model_Array Model_Stepper Model_Human Spec_Human Proofs_Run.
Import ListNotations.
Open Scope string_scope. Open Scope list_scope.

(** ** One question *)
Lemma status_means : forall w a, status_of w = Some a <-> means w a.
Proof.
  intros w a. unfold status_of, means.
  destruct (String.eqb_spec w "sign flip") as [->|N1]; [split; [intros [= <-]; auto | intros [[_ ->]|[[? _]|[? _]]]; [reflexivity | discriminate | discriminate]]|].
  destruct (String.eqb_spec w "diverge") as [->|N2]; [split; [intros [= <-]; auto | intros [[? _]|[[_ ->]|[? _]]]; [discriminate | reflexivity | discriminate]]|].
  destruct (String.eqb_spec w "STOP") as [->|N3]; [split; [intros [= <-]; auto | intros [[? _]|[[? _]|[_ ->]]]; [discriminate | discriminate | reflexivity]]|].
  split; [discriminate | intros [[? _]|[[? _]|[? _]]]; contradiction].
Qed.
Lemma status_none : forall w, status_of w = None <-> forall b, ~ means w b.
Proof.
  intro w. destruct (status_of w) as [a|] eqn:Q.
  - split; [discriminate | intro H; destruct (H a); apply status_means; exact Q].
  - split; [intros _ b H; apply status_means in H; congruence | reflexivity].
Qed.
Lemma pictures_app : forall {A} (a b : list (event A)), pictures_on (a ++ b) = pictures_on a ++ pictures_on b.
Proof. intros. apply flat_map_app. Qed.
Lemma prompts_app : forall {A} (a b : list (event A)), prompts_on (a ++ b) = (prompts_on a + prompts_on b)%nat.
Proof. intros. unfold prompts_on. rewrite filter_app, app_length. reflexivity. Qed.
Lemma complaints_app : forall {A} (a b : list (event A)), complaints_on (a ++ b) = (complaints_on a + complaints_on b)%nat.
Proof. intros. unfold complaints_on. rewrite filter_app, app_length. reflexivity. Qed.
(** The user is asked until they type one of the three words, which is the answer; every other line gets one complaint. *)
Theorem C113_answer : forall {A} lines (events : list (event A)) rest a, ask lines = (events, rest, Ok a) ->
  answered lines a rest /\ prompts_on events = (length lines - length rest)%nat /\ complaints_on events = (length lines - length rest - 1)%nat /\ pictures_on events = [].
Proof.
  intros A lines. induction lines as [|l t IH]; intros events rest a H; cbn [ask] in H; [discriminate|].
  destruct (status_of (strip l)) as [s|] eqn:Q.
  - injection H as <- <- <-. split; [exists [], l; split; [reflexivity|]; split; [apply status_means; exact Q | intros ? ? []]|]. change (prompts_on [@Prompt A]) with 1%nat. change (complaints_on [@Prompt A]) with 0%nat. cbn [length]. repeat split; lia.
  - destruct (ask t) as [[ev r] o] eqn:T. injection H as <- <- ->. destruct (IH _ _ _ eq_refl) as ((wrong & line & -> & M & W) & P & C & Pic).
    split; [exists (l :: wrong), line; split; [reflexivity|]; split; [exact M|]; intros l' b [<-|Hl]; [apply status_none; exact Q | apply W, Hl]|].
    change (Prompt :: Complaint :: ev) with ([Prompt; Complaint] ++ ev) in *.
    rewrite prompts_app, complaints_app, P, C. change (prompts_on [@Prompt A; Complaint]) with 1%nat. change (complaints_on [@Prompt A; Complaint]) with 1%nat. rewrite app_length in *. cbn [length] in *. rewrite app_length. cbn [length]. repeat split; [lia | lia | exact Pic].
Qed.
Theorem C113_answer_exact : forall {A} lines,
  (forall a rest, answered lines a rest -> exists events : list (event A), ask lines = (events, rest, Ok a)) /\
  (no_answer lines -> exists events : list (event A), ask lines = (events, [], Raise OtherError) /\ prompts_on events = S (length lines) /\ complaints_on events = length lines /\ pictures_on events = []).
Proof.
  intros A lines. induction lines as [|l t [IH1 IH2]]; (split; [intros a rest (wrong & line & E & M & W) | intro N]).
  - destruct wrong; discriminate.
  - exists [Prompt]. repeat split.
  - destruct wrong as [|w wrong]; cbn [app] in E; injection E as -> ->; cbn [ask].
    + apply status_means in M. rewrite M. eauto.
    + assert (Q : status_of (strip w) = None) by (apply status_none; intro b; apply W; left; reflexivity). rewrite Q.
      destruct (IH1 a rest) as (ev & ->); [exists wrong, line; split; [reflexivity|]; split; [exact M | intros; apply W; right; assumption]|]. eauto.
  - cbn [ask]. assert (Q : status_of (strip l) = None) by (apply status_none; intro b; apply N; left; reflexivity). rewrite Q.
    destruct IH2 as (ev & -> & P & C & Pic); [intros l' b Hl; apply N; right; exact Hl|]. exists ([Prompt; Complaint] ++ ev). split; [reflexivity|].
    rewrite prompts_app, complaints_app, P, C. repeat split. exact Pic.
Qed.

(** ** Every run *)
Section Invariant.
Context {W Inp Out Val : Type}.
Variable func : W -> Inp -> W * res (Out * bool).
Variable pass_func : W -> Out -> nat -> W * res Val.
Variable fail_func : W -> Out -> nat -> W * res Inp.
Variable final_fail_func : W -> nat -> W * res Val.
Variables P Q : W -> Prop.
Hypothesis PQ : forall w, P w -> Q w.
Hypothesis Hf : forall w i, P w -> P (fst (func w i)).
Hypothesis Hp : forall w o a, P w -> Q (fst (pass_func w o a)).
Hypothesis Hs : forall w o a, P w -> match fail_func w o a with (w', Ok _) => P w' | (w', Raise _) => Q w' end.
Hypothesis Hff : forall w a, Q w -> Q (fst (final_fail_func w a)).
Lemma handle_inv : forall w a e, Q w -> Q (fst (handle final_fail_func w a e)).
Proof. intros w a e H. destruct e; cbn [handle]; try exact H. specialize (Hff w a H). destruct (final_fail_func w a). exact Hff. Qed.
Lemma loop_inv : forall n a w i, P w -> Q (fst (search_loop func pass_func fail_func final_fail_func n a w i)).
Proof.
  induction n as [|n IH]; intros a w i H; cbn [search_loop]; [apply PQ, H|]. specialize (Hf w i H). destruct (func w i) as [w1 [[o [|]]|e]]; cbn [fst] in Hf.
  - specialize (Hp w1 o a Hf). destruct (pass_func w1 o a) as [w2 [v|e]]; [exact Hp | apply handle_inv, Hp].
  - specialize (Hs w1 o a Hf). destruct (fail_func w1 o a) as [w2 [i'|e]]; [apply IH, Hs | apply handle_inv, Hs].
  - apply handle_inv, PQ, Hf.
Qed.
End Invariant.
Lemma enumerated_snoc : forall {A} (l : list A) a, pictures (l ++ [a]) = pictures l ++ [enumerated (l ++ [a])].
Proof.
  intros A l a. unfold pictures. rewrite app_length. cbn [length]. rewrite seq_app, map_app. cbn [Nat.add seq map]. f_equal.
  - apply map_ext_in. intros k Hk. apply in_seq in Hk. rewrite firstn_app. replace (S k - length l)%nat with 0%nat by lia. cbn [firstn]. rewrite app_nil_r. reflexivity.
  - rewrite firstn_all2 by (rewrite app_length; cbn; lia). reflexivity.
Qed.
Section Runs.
Variable ar : arith.
Context {X Y I : Type}.
Local Notation soln := (ssoln ar (X := X) (Y := Y)).
Local Notation world := (sworld ar (X := X) (Y := Y) (I := I) * session soln)%type.
Definition flagged (s : soln) : bool := match ss_flag ar s with Some _ => true | None => false end.
(** What holds between the answers: the stored solutions are those shown that have a flag. *)
Definition tidy (lines : list string) (w : world) : Prop :=
  r_solutions (sw_run ar (fst w)) = numbered 0 (filter flagged (seen (snd w))) /\ r_final (sw_run ar (fst w)) = Unset /\
  pictures_on (screen (snd w)) = pictures (seen (snd w)) /\
  exists used, lines = used ++ typed (snd w) /\ prompts_on (screen (snd w)) = length used.
Definition tidy_end (lines : list string) (w : world) : Prop :=
  (exists extra, (length extra <= 1)%nat /\ r_solutions (sw_run ar (fst w)) = numbered 0 (filter flagged (seen (snd w)) ++ extra)) /\
  pictures_on (screen (snd w)) = pictures (seen (snd w)) /\
  exists used, lines = used ++ typed (snd w) /\ (prompts_on (screen (snd w)) = length used \/ (typed (snd w) = [] /\ prompts_on (screen (snd w)) = S (length used))).
Lemma tidy_tidy_end : forall lines w, tidy lines w -> tidy_end lines w.
Proof. intros lines w (H1 & H2 & H3 & used & H4 & H5). split; [exists []; rewrite app_nil_r; split; [cbn; lia | exact H1]|]. split; [exact H3|]. exists used. auto. Qed.
Lemma writer_numbered : forall (sw : sworld ar (X := X) (Y := Y) (I := I)) ss s a, r_solutions (sw_run ar sw) = numbered 0 ss ->
  exists sw', writer ar sw s a = (sw', Ok tt) /\ r_solutions (sw_run ar sw') = numbered 0 (ss ++ filter flagged [s]) /\ r_final (sw_run ar sw') = r_final (sw_run ar sw) /\ sw_st ar sw' = sw_st ar sw.
Proof.
  intros sw ss s a H. unfold writer. cbn [filter]. unfold flagged. destruct (ss_flag ar s).
  - rewrite H, add_numbered. eexists. split; [reflexivity|]. repeat split.
  - rewrite app_nil_r. eauto.
Qed.
Lemma step_tidy : forall lines fuel mx (w : world) s a, tidy lines w ->
  match human_stepper ar fuel mx w s a with (w', Ok _) => tidy lines w' | (w', Raise _) => tidy_end lines w' end.
Proof.
  intros lines fuel mx w s a (H1 & H2 & H3 & used & H4 & H5). unfold human_stepper.
  destruct (writer_numbered (fst w) _ s a H1) as (sw & -> & S1 & S2 & S3).
  unfold human_view_splitter. destruct (ask (typed (snd w))) as [[ev rest] o] eqn:A.
  assert (Pic : pictures_on (screen (snd w) ++ [Shown (combine (seq 0 (length (seen (snd w) ++ [s]))) (seen (snd w) ++ [s]))] ++ ev) = pictures (seen (snd w) ++ [s]) ++ pictures_on ev).
  { rewrite pictures_app, H3, enumerated_snoc, <- app_assoc. reflexivity. }
  assert (Sol : filter flagged (seen (snd w) ++ [s]) = filter flagged (seen (snd w)) ++ filter flagged [s]) by apply filter_app.
  destruct o as [t|e].
  - destruct (C113_answer _ _ _ _ A) as ((wrong & line & E & M & Wr) & P & C & Pe).
    assert (T : forall st, tidy lines (mk_sw ar (sw_run ar sw) st, mk_session (seen (snd w) ++ [s]) rest (screen (snd w) ++ [Shown (combine (seq 0 (length (seen (snd w) ++ [s]))) (seen (snd w) ++ [s]))] ++ ev))).
    { intro st. split; [cbn [fst snd sw_run seen]; rewrite Sol; exact S1|]. split; [cbn [fst sw_run]; congruence|]. split; [cbn [snd screen seen]; rewrite Pic, Pe, app_nil_r; reflexivity|].
      exists (used ++ wrong ++ [line]). cbn [snd typed screen]. split; [rewrite H4, E, <- !app_assoc; reflexivity|].
      rewrite !prompts_app, H5, P, E, !app_length. cbn [length prompts_on filter]. lia. }
    destruct (stepper_advance ar mx (sw_st ar sw) t) as [st [z|e]]; [|apply tidy_tidy_end, T].
    destruct (snd (step_func ar fuel (ss_input ar s) t z)); [apply T | apply tidy_tidy_end, T].
  - assert (N : no_answer (typed (snd w))).
    { destruct (C113_answer_exact (A := soln) (typed (snd w))) as [X1 _]. intros l b Hl Hm. clear - A X1 Hl Hm.
      assert (G : exists a rest, answered (typed (snd w)) a rest).
      { revert Hl. clear A X1. generalize (typed (snd w)). induction l0 as [|l1 t IH]; intro Hl; [destruct Hl|].
        destruct (status_of (strip l1)) as [x|] eqn:Q; [exists x, t, [], l1; split; [reflexivity|]; split; [apply status_means; exact Q | intros ? ? []]|].
        destruct Hl as [->|Hl]; [apply status_means in Hm; congruence|]. destruct (IH Hl) as (x & rest0 & wrong & line & -> & M & Wr).
        exists x, rest0, (l1 :: wrong), line. split; [reflexivity|]. split; [exact M|]. intros l' b' [<-|Hl']; [apply status_none; exact Q | apply Wr, Hl']. }
      destruct G as (x & r0 & G). destruct (X1 _ _ G) as (ev' & Q). rewrite Q in A. discriminate. }
    destruct (C113_answer_exact (A := soln) (typed (snd w))) as [_ X2]. destruct (X2 N) as (ev' & Q & P & C & Pe). rewrite Q in A. injection A as <- <- <-.
    split; [exists []; split; [cbn; lia|]; rewrite app_nil_r; cbn [fst snd sw_run seen]; rewrite Sol; exact S1|]. split; [cbn [snd screen seen]; rewrite Pic, Pe, app_nil_r; reflexivity|].
    exists lines. cbn [snd typed screen]. split; [rewrite app_nil_r; reflexivity|]. right. split; [reflexivity|]. rewrite !prompts_app, H5, P. rewrite H4 at 1. unfold prompts_on at 1. cbn [filter length]. rewrite app_length. lia.
Qed.
Lemma assign_solutions : forall (sw : sworld ar (X := X) (Y := Y) (I := I)) s, r_solutions (sw_run ar (fst (assign_final ar sw s))) = r_solutions (sw_run ar sw).
Proof. intros sw s. unfold assign_final, set_final. destruct (r_final (sw_run ar sw)); reflexivity. Qed.
(** Whatever is typed and however the run ends: every question comes with a picture of all solutions judged so far,
    numbered from 0 in order; lines are used in order; every question and every line refused is a prompt; and the run holds
    the solutions shown that have a flag, in order, and at most one more. *)
Theorem C113_every_run : forall fuel solve lines inp (r r' : run soln I) num mx nf h out, r_solutions r = [] -> r_final r = Unset ->
  human_solver ar fuel solve lines inp r num mx nf = (r', h, out) ->
  pictures_on (screen h) = pictures (seen h) /\
  (exists used, lines = used ++ typed h /\ (prompts_on (screen h) = length used \/ (typed h = [] /\ prompts_on (screen h) = S (length used)))) /\
  exists extra, (length extra <= 1)%nat /\ map snd (r_solutions r') = filter flagged (seen h) ++ extra.
Proof.
  intros fuel solve lines inp r r' num mx nf h out Hr Hu H. unfold human_solver, binary_searcher in H.
  set (w0 := (mk_sw ar r (initial_stepper ar (tenth ar (s_γ ar inp))), mk_session [] lines []) : world) in *.
  assert (T0 : tidy lines w0) by (split; [exact Hr|]; split; [exact Hu|]; split; [reflexivity|]; exists []; split; reflexivity).
  assert (G := loop_inv (fun (w : world) i => (w, solve i)) (fun w s attempt => lift ar (fun sw s => cleanup ar nf sw s attempt) w s) (human_stepper ar fuel mx) (lift ar (alternate_cleanup ar nf))
    (tidy lines) (tidy_end lines) (tidy_tidy_end lines)).
  assert (G1 : tidy_end lines (fst (search_loop (fun (w : world) i => (w, solve i)) (fun w s attempt => lift ar (fun sw s => cleanup ar nf sw s attempt) w s) (human_stepper ar fuel mx) (lift ar (alternate_cleanup ar nf)) num 0 w0 inp))).
  { apply G; [intros w i P; exact P | | intros w o a P; apply step_tidy, P | | exact T0].
    - intros w s a (H1 & H2 & H3 & used & H4 & H5). unfold lift, cleanup. destruct (writer_numbered (fst w) _ s a H1) as (sw & -> & S1 & S2 & S3).
      assert (E : forall sw', r_solutions (sw_run ar sw') = r_solutions (sw_run ar sw) -> tidy_end lines (sw', snd w)).
      { intros sw' E. split; [exists (filter flagged [s]); split; [cbn [filter]; destruct (flagged s); cbn; lia | cbn [fst snd]; rewrite E; exact S1]|]. split; [exact H3|]. exists used. auto. }
      destruct nf; [apply E; reflexivity|]. destruct (get_last_solution (r_solutions (sw_run ar sw))) as [z|e]; [|apply E; reflexivity].
      pose proof (assign_solutions sw z) as Q. destruct (assign_final ar sw z) as [sw' o]. apply E, Q.
    - intros w a ((extra & L & H1) & H2 & H3). unfold lift, alternate_cleanup.
      assert (E : forall sw', r_solutions (sw_run ar sw') = r_solutions (sw_run ar (fst w)) -> tidy_end lines (sw', snd w)).
      { intros sw' E. split; [exists extra; split; [exact L | cbn [fst snd]; rewrite E; exact H1]|]. split; [exact H2 | exact H3]. }
      destruct nf; [apply E; reflexivity|]. destruct (dgetitem (str_of_nat a) (r_solutions (sw_run ar (fst w)))) as [z|e]; [|apply E; reflexivity].
      pose proof (assign_solutions (fst w) z) as Q. destruct (assign_final ar (fst w) z) as [sw' o]. apply E, Q. }
  destruct (search_loop _ _ _ _ num 0 w0 inp) as [w best]. cbn [fst] in G1.
  assert (F : h = snd w /\ r_solutions r' = r_solutions (sw_run ar (fst w))).
  { destruct best as [b|e]; [|injection H as <- <- <-; auto]. destruct nf; [injection H as <- <- <-; auto|]. unfold set_final in H. destruct (r_final (sw_run ar (fst w))) eqn:Q; try (injection H as <- <- <-; auto). }
  destruct F as [-> F]. destruct G1 as ((extra & L & H1) & H2 & H3). split; [exact H2|]. split; [exact H3|]. exists extra. split; [exact L|]. rewrite F, H1.
  generalize (filter flagged (seen (snd w)) ++ extra). intro l. unfold numbered. generalize 0%nat. induction l as [|x l IH]; intro n; [reflexivity|]. cbn. rewrite IH. reflexivity.
Qed.

(** ** A user who answers and then stops or leaves *)
Lemma course_loop : forall fuel mx solve (pass : world -> soln -> nat -> world * res (option soln)) (ff : world -> nat -> world * res (option soln)) num st inp lines ss st' inp' lines', course ar fuel mx solve st inp lines ss st' inp' lines' ->
  forall a (r : run soln I) before scr, r_solutions r = numbered 0 before -> length before = a -> forallb flagged ss = true -> (length ss <= num)%nat ->
  exists r' scr', search_loop (fun (w : world) i => (w, solve i)) pass (human_stepper ar fuel mx) ff num a (mk_sw ar r st, mk_session before lines scr) inp =
    search_loop (fun (w : world) i => (w, solve i)) pass (human_stepper ar fuel mx) ff (num - length ss) (a + length ss) (mk_sw ar r' st', mk_session (before ++ ss) lines' scr') inp' /\
    r_solutions r' = numbered 0 (before ++ ss) /\ r_final r' = r_final r.
Proof.
  intros fuel mx solve pass ff num st inp lines ss st' inp' lines' C. revert num. induction C as [st inp lines|st inp lines s t rest st1 z inp1 ss st' inp' lines' Hs An Nt Ad Sf C IH]; intros num a r before scr Hr Ha Fl L.
  - exists r, scr. cbn [length]. rewrite Nat.sub_0_r, Nat.add_0_r, app_nil_r. auto.
  - cbn [forallb] in Fl. apply andb_true_iff in Fl. destruct Fl as [Fs Fl]. cbn [length] in L. destruct num as [|num]; [lia|]. cbn [search_loop]. rewrite Hs. unfold human_stepper at 1. cbn [fst snd].
    destruct (writer_numbered (mk_sw ar r st) before s a Hr) as (sw & -> & S1 & S2 & S3). cbn [filter] in S1. rewrite Fs in S1. cbn [sw_st sw_run] in S2, S3.
    unfold human_view_splitter. cbn [typed seen screen]. destruct (C113_answer_exact (A := soln) lines) as [X1 _]. destruct (X1 _ _ An) as (ev & ->). rewrite S3, Ad. rewrite Sf.
    edestruct (IH num (S a) (sw_run ar sw) (before ++ [s])) as (r' & scr' & E & R1 & R2); [exact S1 | rewrite app_length; cbn; lia | exact Fl | lia|].
    exists r', scr'. rewrite E. cbn [length]. replace (S num - S (length ss))%nat with (num - length ss)%nat by lia. replace (a + S (length ss))%nat with (S a + length ss)%nat by lia.
    rewrite <- app_assoc in *. cbn [app] in *. split; [reflexivity|]. split; [exact R1 | congruence].
Qed.
Lemma advance_search : forall mx st t, (search_steps ar st < mx)%nat -> exists z, snd (stepper_advance ar mx st t) = Ok z.
Proof.
  intros mx st t H. unfold stepper_advance. destruct (binary_started ar st); cbn [negb]; [cbn; eauto|]. destruct (Nat.ltb_spec mx (S (search_steps ar st))); [lia|].
  destruct (prev_soln_type ar st) as [p|]; [destruct (status_eq_dec p t)|]; cbn; eauto.
Qed.
Lemma course_steps : forall fuel mx solve st inp lines ss st' inp' lines', course ar fuel mx solve (X := X) (Y := Y) st inp lines ss st' inp' lines' -> (search_steps ar st' <= search_steps ar st + length ss)%nat.
Proof.
  intros fuel mx solve st inp lines ss st' inp' lines' C. induction C as [|st inp lines s t rest st1 z inp1 ss st' inp' lines' Hs An Nt Ad Sf C IH]; [cbn; lia|]. cbn [length].
  assert (search_steps ar st1 <= S (search_steps ar st))%nat; [|lia]. unfold stepper_advance in Ad. destruct (binary_started ar st); cbn [negb] in Ad; [injection Ad as <- _; cbn; lia|].
  destruct (Nat.ltb_spec mx (S (search_steps ar st))); [discriminate|]. destruct (prev_soln_type ar st) as [p|]; [destruct (status_eq_dec p t)|]; injection Ad as <- _; cbn; lia.
Qed.
(** Stopping: the solution last shown becomes the final one, and the command succeeds. *)
Theorem C113_stop : forall fuel solve lines inp num mx ss st' inp' lines' s rest (info : I),
  course ar fuel mx solve (initial_stepper ar (tenth ar (s_γ ar inp))) inp lines ss st' inp' lines' -> solve inp' = Ok (s, false) -> answered lines' STOP rest ->
  forallb flagged (ss ++ [s]) = true -> (length ss < num)%nat -> (length ss < mx)%nat ->
  exists r' h, human_solver ar fuel solve lines inp (new_run info) num mx false = (r', h, Ok true) /\ r_final r' = Final s /\
  map snd (r_solutions r') = ss ++ [s] /\ seen h = ss ++ [s] /\ typed h = rest.
Proof.
  intros fuel solve lines inp num mx ss st' inp' lines' s rest info C Hs An Fl Ln Lm. rewrite forallb_app in Fl. apply andb_true_iff in Fl. destruct Fl as [Fl Fs]. cbn [forallb] in Fs. rewrite andb_true_r in Fs.
  unfold human_solver, binary_searcher.
  edestruct (course_loop fuel mx solve (fun w s attempt => lift ar (fun sw s => cleanup ar false sw s attempt) w s) (lift ar (alternate_cleanup ar false)) num _ _ _ _ _ _ _ C 0%nat (new_run info) [] []) as (r1 & scr & -> & R1 & R2);
    [reflexivity | reflexivity | exact Fl | lia|]. cbn [app Nat.add] in *.
  replace (num - length ss)%nat with (S (num - S (length ss))) by lia. cbn [search_loop]. rewrite Hs. unfold human_stepper at 1. cbn [fst snd].
  destruct (writer_numbered (mk_sw ar r1 st') ss s (length ss) R1) as (sw & -> & S1 & S2 & S3). cbn [filter] in S1. rewrite Fs in S1. cbn [sw_st sw_run] in S2, S3.
  unfold human_view_splitter. cbn [typed seen screen]. destruct (C113_answer_exact (A := soln) lines') as [X1 _]. destruct (X1 _ _ An) as (ev & ->). rewrite S3.
  destruct (advance_search mx st' STOP) as (z & Z); [apply course_steps in C; cbn [initial_stepper search_steps] in C; lia|].
  destruct (stepper_advance ar mx st' STOP) as [st2 o]. cbn [snd] in Z. subst o. cbn [step_func snd handle]. unfold lift, alternate_cleanup. cbn [fst snd sw_run]. rewrite S1. unfold dgetitem.
  assert (NG := numbered_get (ss ++ [s]) 0 (length ss)). cbn [Nat.add] in NG. rewrite NG, nth_error_app2, Nat.sub_diag by lia. cbn [nth_error].
  unfold assign_final, set_final. cbn [sw_run]. rewrite S2, R2. cbn [new_run r_final rbind with_run fst snd sw_run with_final].
  eexists. eexists. split; [reflexivity|]. split; [reflexivity|]. split; [|split; reflexivity]. cbn [with_final r_solutions]. rewrite S1.
  generalize (ss ++ [s]). intro l. unfold numbered. generalize 0%nat. induction l as [|x l IH]; intro n; [reflexivity|]. cbn. rewrite IH. reflexivity.
Qed.
(** Leaving: if no further line is an answer the command fails with EOFError; the solutions shown are kept, none is final. *)
Theorem C113_leave : forall fuel solve lines inp num mx nf ss st' inp' lines' s (info : I),
  course ar fuel mx solve (initial_stepper ar (tenth ar (s_γ ar inp))) inp lines ss st' inp' lines' -> solve inp' = Ok (s, false) -> no_answer lines' ->
  forallb flagged (ss ++ [s]) = true -> (length ss < num)%nat ->
  exists r' h, human_solver ar fuel solve lines inp (new_run info) num mx nf = (r', h, Raise OtherError) /\ r_final r' = Unset /\
  map snd (r_solutions r') = ss ++ [s] /\ seen h = ss ++ [s].
Proof.
  intros fuel solve lines inp num mx nf ss st' inp' lines' s info C Hs An Fl Ln. rewrite forallb_app in Fl. apply andb_true_iff in Fl. destruct Fl as [Fl Fs]. cbn [forallb] in Fs. rewrite andb_true_r in Fs.
  unfold human_solver, binary_searcher.
  edestruct (course_loop fuel mx solve (fun w s attempt => lift ar (fun sw s => cleanup ar nf sw s attempt) w s) (lift ar (alternate_cleanup ar nf)) num _ _ _ _ _ _ _ C 0%nat (new_run info) [] []) as (r1 & scr & -> & R1 & R2);
    [reflexivity | reflexivity | exact Fl | lia|]. cbn [app Nat.add] in *.
  replace (num - length ss)%nat with (S (num - S (length ss))) by lia. cbn [search_loop]. rewrite Hs. unfold human_stepper at 1. cbn [fst snd].
  destruct (writer_numbered (mk_sw ar r1 st') ss s (length ss) R1) as (sw & -> & S1 & S2 & S3). cbn [filter] in S1. rewrite Fs in S1. cbn [sw_st sw_run] in S2, S3.
  unfold human_view_splitter. cbn [typed seen screen]. destruct (C113_answer_exact (A := soln) lines') as [_ X2]. destruct (X2 An) as (ev & -> & _). cbn [handle fst snd].
  eexists. eexists. split; [reflexivity|]. split; [rewrite S2, R2; reflexivity|]. split; [|reflexivity]. rewrite S1.
  generalize (ss ++ [s]). intro l. unfold numbered. generalize 0%nat. induction l as [|x l IH]; intro n; [reflexivity|]. cbn. rewrite IH. reflexivity.
Qed.
(** But a stop that comes as the answer after as many equal answers as there are search steps (20 by default) is taken for
    a failed search: no solution becomes final, and the command fails. *)
Theorem C113_late_stop_refuted : forall fuel solve lines inp num mx ss st' inp' lines' s rest (info : I),
  course ar fuel mx solve (initial_stepper ar (tenth ar (s_γ ar inp))) inp lines ss st' inp' lines' -> solve inp' = Ok (s, false) -> answered lines' STOP rest ->
  forallb flagged (ss ++ [s]) = true -> (length ss < num)%nat -> binary_started ar st' = false -> search_steps ar st' = mx ->
  exists r' h, human_solver ar fuel solve lines inp (new_run info) num mx false = (r', h, Ok false) /\ r_final r' = FinalNone /\ seen h = ss ++ [s].
Proof.
  intros fuel solve lines inp num mx ss st' inp' lines' s rest info C Hs An Fl Ln B Sm. rewrite forallb_app in Fl. apply andb_true_iff in Fl. destruct Fl as [Fl Fs]. cbn [forallb] in Fs. rewrite andb_true_r in Fs.
  unfold human_solver, binary_searcher.
  edestruct (course_loop fuel mx solve (fun w s attempt => lift ar (fun sw s => cleanup ar false sw s attempt) w s) (lift ar (alternate_cleanup ar false)) num _ _ _ _ _ _ _ C 0%nat (new_run info) [] []) as (r1 & scr & -> & R1 & R2);
    [reflexivity | reflexivity | exact Fl | lia|]. cbn [app Nat.add] in *.
  replace (num - length ss)%nat with (S (num - S (length ss))) by lia. cbn [search_loop]. rewrite Hs. unfold human_stepper at 1. cbn [fst snd].
  destruct (writer_numbered (mk_sw ar r1 st') ss s (length ss) R1) as (sw & -> & S1 & S2 & S3). cbn [sw_st sw_run] in S2, S3.
  unfold human_view_splitter. cbn [typed seen screen]. destruct (C113_answer_exact (A := soln) lines') as [X1 _]. destruct (X1 _ _ An) as (ev & ->). rewrite S3.
  unfold stepper_advance. rewrite B, Sm. cbn [negb]. destruct (Nat.ltb_spec mx (S mx)); [|lia]. cbn [handle fst snd sw_run]. rewrite S2, R2. cbn [new_run r_final]. unfold set_final. rewrite S2, R2. cbn [new_run r_final].
  eexists. eexists. split; [reflexivity|]. split; reflexivity.
Qed.
End Runs.
(** A user who mistypes, says diverge and sign flip, and stops; and one who stops after two equal answers with two search steps. *)
Open Scope R_scope.
Definition hand_solve (i : sinput R_arith (X := unit)) : res (ssoln R_arith (X := unit) (Y := unit) * bool) := Ok (mk_ssoln R_arith i (Some 0%Z) tt, false).
Example C113_nonvacuous : exists ss st' inp' lines' rest,
  course R_arith 0 20 hand_solve (initial_stepper R_arith (tenth R_arith (10 : F R_arith))) (mk_sinput R_arith (10 : F R_arith) tt) ["what"; " diverge "; "sign flip"; "stop"; "STOP"]%string ss st' inp' lines' /\
  answered lines' STOP rest /\ length ss = 2%nat /\ forallb (flagged R_arith) ss = true /\ s_γ R_arith inp' = (10 - 1 + 1 / 2)%R.
Proof.
  eexists. eexists. eexists. eexists. eexists. split.
  - eapply course_step; [reflexivity | exists ["what"%string], " diverge "%string; split; [reflexivity|]; split; [right; left; split; reflexivity | intros l b [<-|[]] [[? _]|[[? _]|[? _]]]; discriminate] | discriminate | reflexivity | |].
    + cbn -[Reqb Rminus Rplus Rmult Rinv]. unfold Reqb. destruct (Req_EM_T _ _); [exfalso; cbn in e; lra | reflexivity].
    + eapply course_step; [reflexivity | exists [], "sign flip"%string; split; [reflexivity|]; split; [left; split; reflexivity | intros l b []] | discriminate | reflexivity | |].
      * cbn -[Reqb Rminus Rplus Rmult Rinv Rdiv]. unfold Reqb. destruct (Req_EM_T _ _); [exfalso; cbn in e; lra | reflexivity].
      * apply course_nil.
  - split; [exists ["stop"%string], "STOP"%string; split; [reflexivity|]; split; [right; right; split; reflexivity | intros l b [<-|[]] [[? _]|[[? _]|[? _]]]; discriminate]|].
    split; [reflexivity|]. split; [reflexivity|]. cbn. lra.
Qed.
Example C113_late_nonvacuous : exists ss st' inp' lines',
  course R_arith 0 2 hand_solve (initial_stepper R_arith (tenth R_arith (10 : F R_arith))) (mk_sinput R_arith (10 : F R_arith) tt) ["diverge"; "diverge"; "STOP"]%string ss st' inp' lines' /\
  answered lines' STOP [] /\ forallb (flagged R_arith) ss = true /\ binary_started R_arith st' = false /\ search_steps R_arith st' = 2%nat.
Proof.
  eexists. eexists. eexists. eexists. split.
  - eapply course_step; [reflexivity | exists [], "diverge"%string; split; [reflexivity|]; split; [right; left; split; reflexivity | intros l b []] | discriminate | reflexivity | |].
    + cbn -[Reqb Rminus Rplus Rmult Rinv]. unfold Reqb. destruct (Req_EM_T _ _); [exfalso; cbn in e; lra | reflexivity].
    + eapply course_step; [reflexivity | exists [], "diverge"%string; split; [reflexivity|]; split; [right; left; split; reflexivity | intros l b []] | discriminate | reflexivity | |].
      * cbn -[Reqb Rminus Rplus Rmult Rinv Rdiv]. unfold Reqb. destruct (Req_EM_T _ _); [exfalso; cbn in e; lra | reflexivity].
      * apply course_nil.
  - split; [exists [], "STOP"%string; split; [reflexivity|]; split; [right; right; split; reflexivity | intros l b []]|]. repeat split.
Qed.
Print Assumptions C113_every_run. Print Assumptions C113_stop. Print Assumptions C113_late_stop_refuted.
