(** C60, C84: the search for shocks. *)
From Coq Require Import String List Bool Reals Arith Lra Lia Permutation.
From Verif Require Import Lib_Py Model_Index Model_Array Model_Run Model_Solve Model_Waves Model_Midplane Model_Shock Proofs_Array.
Import ListNotations.
Open Scope list_scope. Open Scope R_scope.

(** i is the first position of the largest number of l. *)
Definition first_largest (l : list num) (i : nat) : Prop :=
  exists v, nth_error l i = Some (Some v) /\
  (forall j w, nth_error l j = Some (Some w) -> w <= v) /\
  (forall j w, (j < i)%nat -> nth_error l j = Some (Some w) -> w < v).
Lemma nanargmax_from_spec : forall l pre best,
  match best with
  | None => forall j w, nth_error pre j = Some (Some w) -> False
  | Some (i, v) => nth_error pre i = Some (Some v) /\ (forall j w, nth_error pre j = Some (Some w) -> w <= v) /\
                   (forall j w, (j < i)%nat -> nth_error pre j = Some (Some w) -> w < v)
  end ->
  match nanargmax_from (length pre) best l with
  | None => forall j w, nth_error (pre ++ l) j = Some (Some w) -> False
  | Some (i, v) => nth_error (pre ++ l) i = Some (Some v) /\ (forall j w, nth_error (pre ++ l) j = Some (Some w) -> w <= v) /\
                   (forall j w, (j < i)%nat -> nth_error (pre ++ l) j = Some (Some w) -> w < v)
  end.
Proof.
  induction l as [|x l IH]; intros pre best H; cbn [nanargmax_from]; [rewrite app_nil_r; exact H|].
  replace (pre ++ x :: l) with ((pre ++ [x]) ++ l) by (rewrite <- app_assoc; reflexivity).
  replace (S (length pre)) with (length (pre ++ [x])) by (rewrite app_length; cbn; lia). apply IH.
  assert (Last : nth_error (pre ++ [x]) (length pre) = Some x) by (rewrite nth_error_app2 by lia; rewrite Nat.sub_diag; reflexivity).
  assert (Cases : forall j w, nth_error (pre ++ [x]) j = Some (Some w) -> nth_error pre j = Some (Some w) \/ (j = length pre /\ x = Some w)).
  { intros j w E. destruct (Nat.lt_ge_cases j (length pre)) as [L|L]; [left; rewrite nth_error_app1 in E; assumption|]. right.
    assert (j < length (pre ++ [x]))%nat by (apply nth_error_Some; congruence). rewrite app_length in *. cbn in *. assert (j = length pre) by lia. subst j. rewrite Last in E. split; congruence. }
  assert (Old : forall j w, nth_error pre j = Some (Some w) -> nth_error (pre ++ [x]) j = Some (Some w)).
  { intros j w E. rewrite nth_error_app1; [exact E | apply nth_error_Some; congruence]. }
  destruct x as [v|], best as [[i w]|].
  - destruct H as (H1 & H2 & H3). destruct (Rltb w v) eqn:L; [apply Rltb_true in L | apply Rltb_false in L]; repeat split.
    + exact Last.
    + intros j u E. destruct (Cases j u E) as [E2|(_ & E2)]; [specialize (H2 j u E2); lra | injection E2 as ->; lra].
    + intros j u Lj E. destruct (Cases j u E) as [E2|(Ej & _)]; [specialize (H2 j u E2); lra | lia].
    + apply Old, H1.
    + intros j u E. destruct (Cases j u E) as [E2|(_ & E2)]; [apply (H2 j u E2) | injection E2 as ->; lra].
    + intros j u Lj E. destruct (Cases j u E) as [E2|(Ej & _)]; [apply (H3 j u Lj E2)|].
      exfalso. subst j. assert (i < length pre)%nat by (apply nth_error_Some; congruence). lia.
  - repeat split; [exact Last | |].
    + intros j u E. destruct (Cases j u E) as [E2|(_ & E2)]; [destruct (H j u E2) | injection E2 as ->; lra].
    + intros j u Lj E. destruct (Cases j u E) as [E2|(Ej & _)]; [destruct (H j u E2) | lia].
  - destruct H as (H1 & H2 & H3). repeat split; [apply Old, H1 | |].
    + intros j u E. destruct (Cases j u E) as [E2|(_ & E2)]; [apply (H2 j u E2) | discriminate].
    + intros j u Lj E. destruct (Cases j u E) as [E2|(_ & E2)]; [apply (H3 j u Lj E2) | discriminate].
  - intros j u E. destruct (Cases j u E) as [E2|(_ & E2)]; [apply (H j u E2) | discriminate].
Qed.
Lemma nanargmax_spec : forall l,
  match nanargmax l with
  | Ok i => first_largest l i
  | Raise e => e = Lib_Py.ValueError /\ forall x, In x l -> x = None
  end.
Proof.
  intro l. unfold nanargmax. pose proof (nanargmax_from_spec l [] None (fun j w E => ltac:(destruct j; discriminate))) as H. cbn [length app] in H.
  destruct (nanargmax_from 0 None l) as [[i v]|]; [exists v; exact H|]. split; [reflexivity|]. intros [w|] I; [|reflexivity].
  exfalso. apply In_nth_error in I. destruct I as (j & E). exact (H j w E).
Qed.

(** C60: the points tested are, in order, exactly those with v_θ strictly between the limits, at an angle above the least one and, if
    only points past the maximum are wanted, above the angle at which v_θ is largest; and the search cannot start exactly if there is no
    such angle. *)
Theorem C60_test_points : forall A (v_θ : A -> num) soln min_v max_v min_angle post_max,
  match find_shock_test_values v_θ soln min_v max_v min_angle post_max with
  | Ok l => exists keep,
      l = filter keep soln /\
      forall a x, In (a, x) soln -> (keep (a, x) = true <->
        exists v, v_θ x = Some v /\ min_v < v < max_v /\ min_angle * PI / 180 < a /\
        (post_max = true -> forall i a_max x_max, first_largest (map (fun p => v_θ (snd p)) soln) i -> nth_error soln i = Some (a_max, x_max) -> a_max < a))
  | Raise e => e = Lib_Py.ValueError /\ post_max = true /\ forall a x, In (a, x) soln -> v_θ x = None
  end.
Proof.
  intros A v_θ soln min_v max_v min_angle post_max. unfold find_shock_test_values.
  assert (U : forall l i j, first_largest l i -> first_largest l j -> i = j).
  { intros l i j (v & V1 & V2 & V3) (w & W1 & W2 & W3). destruct (Nat.lt_trichotomy i j) as [L|[E|L]]; [|exact E|].
    - pose proof (W3 i v L V1). pose proof (V2 j w W1). lra.
    - pose proof (V3 j w L W1). pose proof (W2 i v V1). lra. }
  assert (K : forall m a x, (nlt (Some min_v) (v_θ x) && nlt (v_θ x) (Some max_v) && Rltb m a = true <->
    exists v, v_θ x = Some v /\ min_v < v < max_v /\ m < a)).
  { intros m a x. unfold nlt, cmp. destruct (v_θ x) as [v|]; [|split; [cbn; discriminate | intros (v & E & _); discriminate]].
    rewrite !andb_true_iff, !Rltb_true. split; [intros ((H1 & H2) & H3); exists v; repeat split; assumption | intros (w & E & (H1 & H2) & H3); injection E as <-; repeat split; assumption]. }
  destruct post_max; cbn [rbind].
  - pose proof (nanargmax_spec (map (fun p => v_θ (snd p)) soln)) as N. destruct (nanargmax _) as [i|e]; cbn [rbind].
    + eexists. split; [reflexivity|]. intros a x _. cbn beta. cbn [fst snd].
      assert (Hi : exists am xm, nth_error soln i = Some (am, xm)).
      { destruct N as (v & N & _). rewrite nth_error_map in N. destruct (nth_error soln i) as [[am xm]|]; [eauto | discriminate]. }
      destruct Hi as (am & xm & Hi).
      assert (Ha : nth i (map fst soln) 0 = am) by (apply nth_error_nth; rewrite nth_error_map, Hi; reflexivity). rewrite Ha.
      rewrite K. unfold radians. destruct (Rltb (min_angle * PI / 180) am) eqn:L; [apply Rltb_true in L | apply Rltb_false in L]; split; intros (v & V & R1 & R2); exists v.
      * repeat split; try assumption; try apply R1; [lra|]. intros _ j bm ym F E. rewrite (U _ _ _ F N) in E. rewrite Hi in E. injection E as <- <-. exact R2.
      * destruct R2 as (_ & R2). repeat split; try assumption; try apply R1. apply (R2 eq_refl i am xm N Hi).
      * repeat split; try assumption; try apply R1. intros _ j bm ym F E. rewrite (U _ _ _ F N) in E. rewrite Hi in E. injection E as <- <-. lra.
      * destruct R2 as (R2 & _). repeat split; try assumption; try apply R1.
    + destruct N as (-> & N). repeat split. intros a x I. apply N. apply in_map_iff. exists (a, x). split; [reflexivity | exact I].
  - eexists. split; [reflexivity|]. intros a x _. cbn beta. cbn [fst snd]. rewrite K. unfold radians.
    split; intros (v & V & R1 & R2); exists v; [repeat split; try assumption; try apply R1; discriminate | destruct R2 as (R2 & _); repeat split; try assumption; apply R1].
Qed.
Example C60_nonvacuous :
  find_shock_test_values (fun x : num => x) [(1, Some 2); (2, Some 3); (3, None); (4, Some 2); (5, Some (1 / 2)); (6, Some (3 / 2))] 1 10 40 true = Ok [(4, Some 2); (6, Some (3 / 2))].
Proof.
  assert (T : forall x y, x < y -> Rltb x y = true) by (intros x y H; apply Rltb_true, H).
  assert (F : forall x y, y <= x -> Rltb x y = false) by (intros x y H; apply Rltb_false; lra).
  unfold find_shock_test_values, nanargmax. cbn [map snd fst nanargmax_from]. rewrite (T 2 3) by lra. cbv iota beta. rewrite !(F 3) by lra. cbv iota beta. cbn [rbind nth].
  pose proof PI_4. rewrite (T (radians 40) 2) by (unfold radians; lra).
  cbn [filter fst snd]. unfold nlt, cmp.
  repeat match goal with |- context [Rltb ?x ?y] => first [rewrite (T x y) by lra | rewrite (F x y) by lra] end. reflexivity.
Qed.

Section Search.
Context {Sol I : Type}.
Variables (solve : vec -> list R -> res Sol) (num_angles : Sol -> nat) (plot : Sol -> res unit) (angles : list R).
Notation task := (shock_task (I := I) solve num_angles plot angles).
Notation tasks_run := (shock_tasks (I := I) solve num_angles plot angles).
Variables (base : run Sol I) (filename soln_range : string).
Let r := create_shock_run base filename soln_range.

(** The file a test should leave: the shock solution alone, as the final one, with where it came from. *)
Definition shock_file (v : R * vec) : option (run Sol I) :=
  match solve (post_jump_values (snd v)) (post_jump_angles angles (fst v)) with
  | Raise _ => None
  | Ok s => if (num_angles s <? 5)%nat then None
            else Some (mk_run (r_info base) (Final s) [("0"%string, s)] true (Some filename) (Some soln_range))
  end.
Lemma task_effect : forall ok name v fs, dget name fs = None ->
  let '(fs', x) := task ok r name v fs in
  (forall n, dget n fs' = if (String.eqb n name && ok)%bool then shock_file v else dget n fs) /\
  (x = None \/ x = Some name /\ ok = true /\ exists s f, shock_file v = Some f /\ r_final f = Model_Run.Final s /\ plot s = Ok tt) /\
  (ok = true -> forall s f, shock_file v = Some f -> r_final f = Model_Run.Final s -> plot s = Ok tt -> x = Some name).
Proof.
  intros ok name [θ p] fs F. unfold task, shock_file. cbn [fst snd].
  destruct (solve (post_jump_values p) (post_jump_angles angles θ)) as [s|e].
  - destruct (num_angles s <? 5)%nat eqn:N5.
    + split; [|split; [left; reflexivity | discriminate]]. intro n. destruct (String.eqb_spec n name) as [->|]; [destruct ok; [exact F | reflexivity] | reflexivity].
    + destruct ok; cbn [negb andb].
      * unfold create, dmem. rewrite F. unfold add_solution, get_next_index. cbn [rbind].
        change (r_solutions r) with (@nil (string * Sol)). cbn [length dmem dget negb rbind].
        change (finalise (with_solutions r (dset (str_of_nat 0) s []))) with (Ok (mk_run (r_info base) (Final s) [("0"%string, s)] true (Some filename) (Some soln_range))).
        cbv beta iota.
        change (plot_shock_solution plot (mk_run (r_info base) (Final s) [("0"%string, s)] true (Some filename) (Some soln_range))) with (plot s).
        split; [|split].
        2: { destruct (plot s) as [[]|] eqn:Pl; [right | left; reflexivity]. repeat split. exists s. eexists. repeat split. exact Pl. }
        2: { intros _ s' f [= <-] [= <-] ->. reflexivity. }
        intro n. rewrite andb_true_r. destruct (String.eqb_spec n name) as [->|Hn]; [apply dget_dset_same|]. rewrite !dget_dset_other by congruence. reflexivity.
      * split; [|split; [left; reflexivity | discriminate]]. intro n. rewrite andb_false_r. reflexivity.
  - split; [|split; [left; reflexivity | discriminate]]. intro n. destruct (String.eqb_spec n name) as [->|]; [destruct ok; [exact F | reflexivity] | reflexivity].
Qed.
Lemma task_kept : forall ok name v fs n, dget n fs <> None -> dget n (fst (task ok r name v fs)) = dget n fs.
Proof.
  intros ok name v fs n F. destruct (dget name fs) as [f|] eqn:D.
  - assert (E : fst (task ok r name v fs) = fs); [|rewrite E; reflexivity].
    unfold task. destruct v as [θ p]. destruct (solve _ _); [|reflexivity]. destruct (_ <? 5)%nat; [reflexivity|]. destruct ok; [|reflexivity]. cbn [negb]. unfold create, dmem. rewrite D. reflexivity.
  - pose proof (task_effect ok name v fs D) as T. destruct (task ok r name v fs) as [fs' x]. destruct T as [T _]. cbn [fst]. rewrite T.
    destruct (String.eqb_spec n name) as [->|]; [congruence | reflexivity].
Qed.
(** C84: no file that existed is changed, whatever the names, the solver and the plots do; and nothing is raised: there is one result per test. *)
Theorem C84_kept : forall ok tasks fs,
  let '(fs', xs) := tasks_run ok r tasks fs in
  length xs = length tasks /\ forall n, dget n fs <> None -> dget n fs' = dget n fs.
Proof.
  intros ok tasks. induction tasks as [|[name v] t IH]; intro fs; cbn [shock_tasks]; [split; reflexivity|].
  pose proof (task_kept ok name v fs) as K. destruct (task ok r name v fs) as [fs1 x]. cbn [fst] in K. specialize (IH fs1). destruct (tasks_run ok r t fs1) as [fs2 xs].
  destruct IH as [I1 I2]. split; [cbn; lia|]. intros n F. rewrite I2; [apply K, F | rewrite (K n F); exact F].
Qed.
(** C84: with new names and an existing directory, a test leaves a file exactly if it gives a solution of at least five angles, holding that solution
    (from the state after the jump at its own angle) as the only and final one; in any order of the tests. *)
Theorem C84_files : forall tasks fs, NoDup (map fst tasks) -> (forall n, In n (map fst tasks) -> dget n fs = None) ->
  let fs' := fst (tasks_run true r tasks fs) in
  (forall name v, In (name, v) tasks -> dget name fs' = shock_file v) /\
  (forall n, ~ In n (map fst tasks) -> dget n fs' = dget n fs).
Proof.
  intros tasks. induction tasks as [|[name v] t IH]; intros fs ND NF; cbn [shock_tasks map fst]; [split; [intros ? ? [] | reflexivity]|].
  cbn [map fst] in *. inversion_clear ND as [|? ? N1 N2].
  pose proof (task_effect true name v fs (NF name (or_introl eq_refl))) as T. destruct (task true r name v fs) as [fs1 x]. destruct T as [T _].
  assert (T' : forall n, n <> name -> dget n fs1 = dget n fs) by (intros n Hn; rewrite T; destruct (String.eqb_spec n name); [congruence | reflexivity]).
  specialize (IH fs1 N2). destruct (tasks_run true r t fs1) as [fs2 xs]. cbn [fst] in *.
  assert (NF1 : forall n, In n (map fst t) -> dget n fs1 = None).
  { intros n Hn. rewrite T' by (intros ->; contradiction). apply NF. right. exact Hn. }
  destruct (IH NF1) as [I1 I2]. split.
  - intros n w [E|Hn]; [injection E as <- <- | apply I1, Hn]. rewrite (I2 name N1), T, String.eqb_refl. reflexivity.
  - intros n Hn. rewrite (I2 n (fun Hi => Hn (or_intror Hi))). apply T'. intros ->. apply Hn. left. reflexivity.
Qed.
Theorem C84_any_order : forall tasks tasks' fs, Permutation tasks tasks' -> NoDup (map fst tasks) -> (forall n, In n (map fst tasks) -> dget n fs = None) ->
  forall n, dget n (fst (tasks_run true r tasks fs)) = dget n (fst (tasks_run true r tasks' fs)).
Proof.
  intros tasks tasks' fs P ND NF n. pose proof (Permutation_map fst P) as P'.
  destruct (C84_files tasks fs ND NF) as [A1 A2].
  destruct (C84_files tasks' fs (Permutation_NoDup P' ND) (fun n H => NF n (Permutation_in _ (Permutation_sym P') H))) as [B1 B2].
  destruct (in_dec string_dec n (map fst tasks)) as [H|H].
  - apply in_map_iff in H. destruct H as ((n' & v) & <- & H). cbn [fst]. rewrite (A1 _ _ H), (B1 n' v (Permutation_in _ P H)). reflexivity.
  - rewrite (A2 n H), B2; [reflexivity|]. intro H'. apply H. exact (Permutation_in _ (Permutation_sym P') H').
Qed.
(** C84: what is reported as found was saved, and is what the figure beside the file shows: the solution the file names final. *)
Theorem C84_reported : forall tasks fs ok, NoDup (map fst tasks) -> (forall n, In n (map fst tasks) -> dget n fs = None) ->
  let '(fs', xs) := tasks_run ok r tasks fs in
  forall n, In (Some n) xs -> exists v f s, In (n, v) tasks /\ ok = true /\ shock_file v = Some f /\ dget n fs' = Some f /\ r_final f = Model_Run.Final s /\ plot s = Ok tt.
Proof.
  intros tasks fs ok ND NF. pose proof (C84_files tasks fs ND NF) as [F _]. revert fs ND NF F.
  assert (G : forall tasks fs, NoDup (map fst tasks) -> (forall n, In n (map fst tasks) -> dget n fs = None) ->
    forall n, In (Some n) (snd (tasks_run ok r tasks fs)) -> exists v, In (n, v) tasks /\ ok = true /\ exists s f, shock_file v = Some f /\ r_final f = Model_Run.Final s /\ plot s = Ok tt).
  { clear tasks. induction tasks as [|[name v] t IH]; intros fs ND NF n H; cbn [shock_tasks] in H; [destruct H|]. cbn [map fst] in *. inversion_clear ND as [|? ? N1 N2].
    pose proof (task_effect ok name v fs (NF name (or_introl eq_refl))) as T.
    destruct (task ok r name v fs) as [fs1 x] eqn:E. destruct T as (T & Tx & _).
    assert (NF1 : forall m, In m (map fst t) -> dget m fs1 = None).
    { intros m Hm. rewrite T. destruct (String.eqb_spec m name) as [->|]; [contradiction|]. apply NF. right. exact Hm. }
    specialize (IH fs1 N2 NF1 n). destruct (tasks_run ok r t fs1) as [fs2 xs]. cbn [snd] in *. destruct H as [H|H].
    - destruct Tx as [Tx|(Tx & T1 & T2)]; [congruence|]. rewrite Tx in H. injection H as <-. exists v. repeat split; [left; reflexivity | exact T1 | exact T2].
    - destruct (IH H) as (w & W & W2). exists w. split; [right; exact W | exact W2]. }
  intros fs ND NF F. specialize (G tasks fs ND NF). destruct (tasks_run ok r tasks fs) as [fs' xs] eqn:E. cbn [snd] in G. intros n H. destruct (G n H) as (v & V & -> & s & f & V2 & V3 & V4). exists v, f, s.
  repeat split; try assumption. rewrite <- V2, <- (F n v V), E. reflexivity.
Qed.
(** C84: every test that saved a solution whose figure can be drawn is reported. *)
Theorem C84_all_reported : forall tasks fs, NoDup (map fst tasks) -> (forall n, In n (map fst tasks) -> dget n fs = None) ->
  let '(fs', xs) := tasks_run true r tasks fs in
  forall n v f s, In (n, v) tasks -> dget n fs' = Some f -> r_final f = Model_Run.Final s -> plot s = Ok tt -> In (Some n) xs.
Proof.
  intros tasks fs ND NF. pose proof (C84_files tasks fs ND NF) as [F _].
  assert (G : forall tasks fs, NoDup (map fst tasks) -> (forall n, In n (map fst tasks) -> dget n fs = None) ->
    forall n v s f, In (n, v) tasks -> shock_file v = Some f -> r_final f = Model_Run.Final s -> plot s = Ok tt -> In (Some n) (snd (tasks_run true r tasks fs))).
  { clear. induction tasks as [|[name v] t IH]; intros fs ND NF n w s f H A1 A2 A3; [destruct H|]. cbn [map fst shock_tasks] in *. inversion_clear ND as [|? ? N1 N2].
    pose proof (task_effect true name v fs (NF name (or_introl eq_refl))) as T.
    destruct (task true r name v fs) as [fs1 x] eqn:E. destruct T as (T & _ & Tx).
    assert (NF1 : forall m, In m (map fst t) -> dget m fs1 = None).
    { intros m Hm. rewrite T. destruct (String.eqb_spec m name) as [->|]; [contradiction|]. apply NF. right. exact Hm. }
    specialize (IH fs1 N2 NF1 n w s f). destruct (tasks_run true r t fs1) as [fs2 xs]. cbn [snd] in *. destruct H as [H|H].
    - injection H as -> ->. left. exact (Tx eq_refl s f A1 A2 A3).
    - right. auto. }
  specialize (G tasks fs ND NF). destruct (tasks_run true r tasks fs) as [fs' xs]. cbn [fst snd] in *.
  intros n v f s H A1 A2 A3. eapply G; eauto. rewrite <- (F n v H). exact A1.
Qed.
(** C84, refuted without the directory: every test that finds a solution loses it, and the search still ends normally. *)
Theorem C84_no_directory_refuted : forall tasks fs, (forall n, In n (map fst tasks) -> dget n fs = None) ->
  tasks_run false r tasks fs = (fs, map (fun _ => None) tasks).
Proof.
  intros tasks fs _. induction tasks as [|[name v] t IH]; cbn [shock_tasks map]; [reflexivity|].
  assert (E : task false r name v fs = (fs, None)).
  { unfold task. destruct v as [θ p]. destruct (solve _ _); [|reflexivity]. destruct (_ <? 5)%nat; reflexivity. }
  rewrite E, IH. reflexivity.
Qed.
(** The whole command: the points tested are exactly those of the solution with a supersonic v_θ below 10, past 40 degrees and past the
    angle where v_θ is largest, in order; each leaves its own file, and nothing else changes.  It fails only for an empty solution. *)
Theorem C84_command : forall soln names fs, NoDup names -> (forall n, In n names -> dget n fs = None) ->
  match shock_from_file solve num_angles plot angles true base filename soln_range soln names fs with
  | (fs', Raise e) => e = Lib_Py.ValueError /\ soln = [] /\ fs' = fs
  | (fs', Ok xs) => exists keep,
      (forall a v, In (a, v) soln -> (keep (a, v) = true <-> 1 < v iv_θ < 10 /\ 40 * PI / 180 < a /\
         forall i a_max x_max, first_largest (map (fun p => Some (snd p iv_θ)) soln) i -> nth_error soln i = Some (a_max, x_max) -> a_max < a)) /\
      (forall i n v, nth_error names i = Some n -> nth_error (filter keep soln) i = Some v -> dget n fs' = shock_file v) /\
      (forall i n, nth_error names i = Some n -> (length (filter keep soln) <= i)%nat -> dget n fs' = None) /\
      (forall n, ~ In n names -> dget n fs' = dget n fs)
  end.
Proof.
  intros soln names fs ND NF. unfold shock_from_file. fold r.
  pose proof (C60_test_points vec (fun v => Some (v iv_θ)) soln 1 10 40 true) as T.
  destruct (find_shock_test_values (fun v : vec => Some (v iv_θ)) soln 1 10 40 true) as [l|e].
  - destruct T as (keep & -> & K). 
    assert (SUB : forall (l : list (R * vec)) n, In n (map fst (combine names l)) -> In n names).
    { clear. induction names as [|n0 ns IH]; intros [|p l] n; cbn [combine map fst In]; try tauto. intros [H|H]; [left; exact H | right; eapply IH, H]. }
    assert (ND' : forall l : list (R * vec), NoDup (map fst (combine names l))).
    { clear NF SUB. induction ND as [|n0 ns N0 ND IH]; intros [|p l]; cbn [combine map fst]; constructor.
      - clear -N0. intro H. apply N0. revert l H. induction ns as [|n1 ns IH]; intros [|p l]; cbn; try tauto. intros [H|H]; [left; exact H|].
        right. eapply IH; [intro; apply N0; right; assumption | exact H].
      - apply IH. }
    destruct (C84_files (combine names (filter keep soln)) fs (ND' _) (fun n H => NF n (SUB _ n H))) as [F1 F2].
    destruct (shock_tasks _ _ _ _ _ _ _ fs) as [fs' xs] eqn:E. cbn [fst] in F1, F2. exists keep. split; [|split; [|split]].
    + intros a v H. rewrite (K a v H). split.
      * intros (w & [= <-] & V & A & M). split; [exact V|]. split; [exact A|]. apply M. reflexivity.
      * intros (V & A & M). exists (v iv_θ). split; [reflexivity|]. split; [exact V|]. split; [exact A|]. intros _. exact M.
    + intros i n v Hn Hv. apply F1. apply nth_error_In with i. clear -Hn Hv. revert i names Hn Hv. generalize (filter keep soln) as l.
      induction l as [|p l IH]; intros [|i] [|n0 ns]; cbn; try discriminate; [congruence|]. apply IH.
    + intros i n Hn Hl. rewrite F2; [apply NF; eapply nth_error_In, Hn|]. revert Hl. generalize (filter keep soln) as l. clear -ND Hn. revert i names ND Hn.
      intros i ns ND. revert i. induction ND as [|n0 ns N0 ND IH]; intros i Hn l Hl; [destruct i; discriminate|].
      destruct l as [|p l]; [exact (fun f => f)|]. destruct i as [|i]; cbn in Hn, Hl; [lia|]. cbn [combine map fst In]. intros [<-|H].
      * apply N0. eapply nth_error_In, Hn.
      * eapply (IH i Hn l); [lia | exact H].
    + intros n Hn. apply F2. intro H. apply Hn. eapply SUB, H.
  - destruct T as (-> & _ & T). split; [reflexivity|]. split; [|reflexivity]. destruct soln as [|[a v] t]; [reflexivity|].
    discriminate (T a v (or_introl eq_refl)).
Qed.
End Search.
(** A search of two tests, one of which gives a solution of five angles and one none. *)
Example C84_nonvacuous :
  let solve (v : vec) (l : list R) := match l with [] => Raise SolverError | _ => Ok (length l) end in
  let base := new_run (Sol := nat) (I := unit) tt in
  let tasks := [("a"%string, (6, fun _ => 2)); ("b"%string, (1, fun _ => 2))] in
  NoDup (map fst tasks) /\
  shock_tasks solve (fun n => n) (fun _ => Ok tt) [1; 2; 3; 4; 5] true (create_shock_run base "f" "final") tasks [] =
  ([("b"%string, mk_run tt (Final 5%nat) [("0"%string, 5%nat)] true (Some "f"%string) (Some "final"%string))], [None; Some "b"%string]).
Proof.
  cbv zeta. split; [repeat constructor; cbn; intuition discriminate|].
  cbn [shock_tasks]. unfold shock_task, post_jump_angles. cbn [filter].
  repeat (destruct (Rle_dec _ _) as [?|?]; [try (exfalso; lra) | try (exfalso; lra)]). reflexivity.
Qed.
