(** C56, C80, C81: exit status, what a file holds after a solve, and existing files. *)
From Coq Require Import String List Bool ZArith Reals Lia.
From Verif Require Import Lib_Py Model_FormatTables Model_Format Model_Inputs Model_Run Model_Stepper Model_Mcmc Model_Solve Spec_Inputs Spec_Mcmc Proofs_Run Proofs_Inputs Props_Inputs Props_Run Props_Mcmc.
Import ListNotations.
Open Scope string_scope. Open Scope list_scope.
Section S.
Context {Sol I Inp : Type}.
Notation method := (@method Sol I Inp).
Implicit Types (ms : @method_map Sol I Inp) (fs : @files Sol I).

(** C56. Status 0 means that the method ran and reported success; conversely, once the inputs could be read and the file created, a
    method that reports success and sets a final solution (or stores any solution under an integer name) gives status 0. *)
Theorem C56_zero : forall ms prepared sm name fs fs', main ms prepared sm name fs = (fs', 0%Z) ->
  exists r inp m r', prepared = Ok (r, inp) /\ dget sm ms = Some m /\ m inp r = (r', Ok true) /\ dget name fs = None /\ In sm METHOD_NAMES /\
  exists r'', dget name fs' = Some r'' /\ finalise r' = Ok r''.
Proof.
  intros ms prepared sm name fs fs' H. unfold main in H. destruct (existsb (String.eqb sm) METHOD_NAMES) eqn:N; [|discriminate]. cbn [negb] in H.
  apply existsb_exists in N. destruct N as (x & N & Ex). apply String.eqb_eq in Ex. subst x.
  unfold solve in H. destruct prepared as [[r inp]|e]; [|discriminate]. unfold create, dmem in H. destruct (dget name fs) eqn:F; [discriminate|].
  destruct (dget sm ms) as [m|]; [|discriminate]. unfold solve_in in H. destruct (m inp r) as [r1 [[|]|e]] eqn:M; try discriminate.
  - exists r, inp, m, r1. destruct (finalise r1) as [r2|e] eqn:Fi; [|discriminate]. injection H as <-. repeat (split; [first [reflexivity | assumption]|]).
    exists r2. split; [apply dget_dset_same | first [exact Fi | reflexivity]].
  - destruct (finalise r1); discriminate.
Qed.
Theorem C56_success : forall ms r inp sm name fs m r', In sm METHOD_NAMES -> dget sm ms = Some m -> dget name fs = None -> m inp r = (r', Ok true) ->
  r_final r' <> Unset -> exists fs', main ms (Ok (r, inp)) sm name fs = (fs', 0%Z) /\ dget name fs' = Some r'.
Proof.
  intros ms r inp sm name fs m r' N M F H U. unfold main.
  assert (existsb (String.eqb sm) METHOD_NAMES = true) as -> by (apply existsb_exists; exists sm; split; [exact N | apply String.eqb_refl]).
  cbn [negb]. unfold solve, create, dmem. rewrite F, M. unfold solve_in. rewrite H.
  assert (finalise r' = Ok r') as -> by (unfold finalise; destruct (r_final r'); [contradiction | reflexivity | reflexivity]).
  eexists. split; [reflexivity|]. apply dget_dset_same.
Qed.
(** A method that reports failure, or raises, gives status 1. *)
Theorem C56_failure : forall ms r inp sm name fs m r' out, In sm METHOD_NAMES -> dget sm ms = Some m -> m inp r = (r', out) -> out <> Ok true ->
  snd (main ms (Ok (r, inp)) sm name fs) = 1%Z.
Proof.
  intros ms r inp sm name fs m r' out N M H O. unfold main.
  assert (existsb (String.eqb sm) METHOD_NAMES = true) as -> by (apply existsb_exists; exists sm; split; [exact N | apply String.eqb_refl]).
  cbn [negb]. unfold solve, create. destruct (dmem name fs); [reflexivity|]. rewrite M. unfold solve_in. rewrite H.
  destruct out as [[|]|e]; [congruence | destruct (finalise r'); reflexivity | reflexivity].
Qed.
(** On the command line an unknown method is rejected with status 2 and nothing is written. *)
Theorem C56_unknown_command : forall ms prepared sm name fs, ~ In sm METHOD_NAMES -> main ms prepared sm name fs = (fs, 2%Z).
Proof.
  intros ms prepared sm name fs N. unfold main. destruct (existsb (String.eqb sm) METHOD_NAMES) eqn:E; [|reflexivity].
  apply existsb_exists in E. destruct E as (x & Hx & Ex). apply String.eqb_eq in Ex. subst x. contradiction.
Qed.
(** Called as a function, it fails with a solver error, but leaves a new file that holds a run without solutions. *)
Theorem C56_unknown_refuted : forall ms (r : run Sol I) (inp : Inp) sm name fs, dget sm ms = None -> dget name fs = None ->
  exists fs', solve ms (Ok (r, inp)) sm name fs = (fs', Raise SolverError) /\ dget name fs' = Some r.
Proof.
  intros ms r inp sm name fs M F. unfold solve, create, dmem. rewrite F, M. eexists. split; [reflexivity|]. apply dget_dset_same.
Qed.
(** The batch writer looks the method up first and leaves no file. *)
Theorem C56_unknown_batch : forall ms sm p name t fs, dget sm ms = None ->
  hdf5runner ms sm ((p, name) :: t) fs = (fs, [], Some SolverError).
Proof. intros ms sm p name t fs M. cbn [hdf5runner]. unfold hdf5_one. rewrite M. reflexivity. Qed.

(** C81. A file that exists is never written: all commands leave every other file as it is, and fail on the existing one. *)
Lemma solve_in_others : forall (m : method) name inp r fs fs' out n, solve_in m name inp r fs = (fs', out) -> n <> name -> dget n fs' = dget n fs.
Proof.
  intros m name inp r fs fs' out n H N. unfold solve_in in H. destruct (m inp r) as [r1 [b|e]]; [destruct (finalise r1)|]; injection H as <- <-;
    rewrite !dget_dset_other by congruence; reflexivity.
Qed.
Theorem C81_solve : forall ms prepared sm name fs fs' out, solve ms prepared sm name fs = (fs', out) ->
  (forall n, n <> name -> dget n fs' = dget n fs) /\
  (forall r, dget name fs = Some r -> fs' = fs /\ exists e, out = Raise e /\ (forall p, prepared = Ok p -> e = FileExistsError)).
Proof.
  intros ms prepared sm name fs fs' out H. unfold solve in H. destruct prepared as [[r inp]|e].
  2:{ injection H as <- <-. split; [reflexivity|]. intros r Hr. split; [reflexivity|]. exists e. split; [reflexivity | discriminate]. }
  unfold create, dmem in H. destruct (dget name fs) as [old|] eqn:F.
  - injection H as <- <-. split; [reflexivity|]. intros r' Hr. split; [reflexivity|]. exists FileExistsError. split; reflexivity.
  - split; [|intros r' Hr; discriminate]. intros n N. destruct (dget sm ms) as [m|].
    + rewrite (solve_in_others _ _ _ _ _ _ _ _ H N). apply dget_dset_other; congruence.
    + injection H as <- <-. apply dget_dset_other; congruence.
Qed.
Theorem C81_batch : forall ms sm inputs fs fs' bs e, hdf5runner ms sm inputs fs = (fs', bs, e) ->
  forall n r, dget n fs = Some r -> dget n fs' = Some r.
Proof.
  intros ms sm inputs. induction inputs as [|[p name] t IH]; intros fs fs' bs e H n r Hr; cbn [hdf5runner] in H; [injection H as <- <- <-; exact Hr|].
  assert (G : forall fs1 o, hdf5_one ms sm p name fs = (fs1, o) -> dget n fs1 = Some r).
  { intros fs1 o. unfold hdf5_one. destruct (dget sm ms) as [m|]; [|intros [= <- <-]; exact Hr]. destruct p as [[r0 inp]|e0]; [|intros [= <- <-]; exact Hr].
    unfold create, dmem. destruct (dget name fs) as [old|] eqn:F; [intros [= <- <-]; exact Hr|].
    destruct (String.eqb_spec n name) as [->|N]; [congruence|].
    destruct (solve_in m name inp r0 (dset name r0 fs)) as [f2 o2] eqn:S.
    assert (dget n f2 = Some r) by (rewrite (solve_in_others _ _ _ _ _ _ _ _ S N), dget_dset_other by congruence; exact Hr).
    destruct o2; intros [= <- <-]; assumption. }
  destruct (hdf5_one ms sm p name fs) as [fs1 [b|e1]] eqn:One.
  - destruct (hdf5runner ms sm t fs1) as [[f2 bs2] e2] eqn:Rec. injection H as <- <- <-. eapply IH; [exact Rec | eapply G; reflexivity].
  - injection H as <- <- <-. eapply G; reflexivity.
Qed.
(** With names that are new and different, a batch deals with every input: a solver error costs only its own input, every result is
    reported in order, and each file holds what its own input gave. *)
Theorem C81_batch_all : forall ms sm m (jobs : list (run Sol I * Inp * string)) fs, dget sm ms = Some m ->
  NoDup (map snd jobs) -> (forall n, In n (map snd jobs) -> dget n fs = None) ->
  (forall r inp n, In (r, inp, n) jobs -> (exists b r2, snd (m inp r) = Ok b /\ finalise (fst (m inp r)) = Ok r2) \/
     In (snd (m inp r)) [Raise SolverError; Raise StepperError; Raise StepperStop]) ->
  exists fs' bs, hdf5runner ms sm (map (fun j => (Ok (fst j), snd j)) jobs) fs = (fs', bs, None) /\
    Forall2 (fun j b => let '(r, inp, n) := j in
      (forall s, snd (m inp r) = Ok s -> b = Some s /\ exists r2, finalise (fst (m inp r)) = Ok r2 /\ dget n fs' = Some r2) /\
      (forall e, snd (m inp r) = Raise e -> b = None /\ dget n fs' = Some (fst (m inp r)))) jobs bs /\
    (forall n, ~ In n (map snd jobs) -> dget n fs' = dget n fs).
Proof.
  intros ms sm m jobs. induction jobs as [|[[r inp] n] jobs IH]; intros fs M ND New Out.
  - exists fs, []. split; [reflexivity|]. split; [constructor | reflexivity].
  - cbn [map fst snd] in *. inversion ND as [|? ? N1 N2]; subst. cbn [hdf5runner].
    pose proof (Out r inp n (or_introl eq_refl)) as O. destruct (m inp r) as [r1 o] eqn:Em. cbn [fst snd] in O.
    assert (K : exists fs1 b, hdf5_one ms sm (Ok (r, inp)) n fs = (fs1, Ok b) /\
        (forall n', n' <> n -> dget n' fs1 = dget n' fs) /\
        (forall s, o = Ok s -> b = Some s /\ exists r2, finalise r1 = Ok r2 /\ dget n fs1 = Some r2) /\
        (forall e, o = Raise e -> b = None /\ dget n fs1 = Some r1)).
    { unfold hdf5_one. rewrite M. unfold create, dmem. rewrite (New n (or_introl eq_refl)). unfold solve_in. rewrite Em.
      destruct O as [(b & r2 & -> & F)|O].
      - rewrite F. eexists _, _. split; [reflexivity|]. split; [intros n' N'; rewrite !dget_dset_other by congruence; reflexivity|]. split; [|discriminate].
        intros s [= <-]. split; [reflexivity|]. exists r2. split; [reflexivity | apply dget_dset_same].
      - assert (exists e, o = Raise e /\ solver_error e = true) as (e & -> & E) by (destruct O as [<-|[<-|[<-|[]]]]; eexists; split; reflexivity).
        rewrite E. eexists _, _. split; [reflexivity|]. split; [intros n' N'; rewrite !dget_dset_other by congruence; reflexivity|]. split; [discriminate|].
        intros e0 _. split; [reflexivity | apply dget_dset_same]. }
    destruct K as (fs1 & b & K0 & K1 & K2 & K3). rewrite K0.
    destruct (IH fs1 M N2) as (fs' & bs & I1 & I2 & I3).
    + intros n' Hn'. rewrite K1; [apply New; right; exact Hn' | intros ->; contradiction].
    + intros r' i' n' H'. apply (Out r' i' n'). right. exact H'.
    + rewrite I1. exists fs', (b :: bs). split; [reflexivity|]. split.
      * constructor; [|exact I2]. rewrite Em. cbn [fst snd]. rewrite (I3 n N1). split; assumption.
      * intros n' N'. rewrite I3 by (intro; apply N'; right; assumption). apply K1. intros ->. apply N'. left. reflexivity.
Qed.
Example C81_batch_nonvacuous : forall (r : run Sol I) (i : Inp) (s : Sol),
  let m : method := fun _ r => match r_final r with Unset => (with_final r (Final s), Ok true) | _ => (r, Raise StepperStop) end in
  exists fs', hdf5runner [("step", m)] "step" [(Ok (with_final r (Final s), i), "a"); (Ok (with_final r Unset, i), "b")] [] = (fs', [None; Some true], None).
Proof. intros r i s m. eexists. reflexivity. Qed.
(** With a fixed name the batch ends at its second input with an error that is not caught; later inputs are lost. *)
Theorem C81_fixed_name_refuted : forall ms sm name (r1 r2 : run Sol I) (i1 i2 : Inp) t m b fs, dget sm ms = Some m -> dget name fs = None ->
  snd (m i1 r1) = Ok b -> r_final (fst (m i1 r1)) <> Unset ->
  exists fs', hdf5runner ms sm ((Ok (r1, i1), name) :: (Ok (r2, i2), name) :: t) fs = (fs', [Some b], Some FileExistsError).
Proof.
  intros ms sm name r1 r2 i1 i2 t m b fs M F Hb U. cbn [hdf5runner]. unfold hdf5_one at 1. rewrite M. unfold create, dmem. rewrite F. unfold solve_in.
  destruct (m i1 r1) as [ra o] eqn:Ma. cbn [fst snd] in *. subst o.
  assert (finalise ra = Ok ra) as -> by (unfold finalise; destruct (r_final ra); [contradiction | reflexivity | reflexivity]).
  unfold hdf5_one. rewrite M. unfold create, dmem. rewrite dget_dset_same. eexists. reflexivity.
Qed.
(** What the file holds after a failure: the run as the method left it. *)
Theorem C81_crash : forall ms r inp sm name fs m r' e, dget sm ms = Some m -> dget name fs = None -> m inp r = (r', Raise e) ->
  exists fs', solve ms (Ok (r, inp)) sm name fs = (fs', Raise e) /\ dget name fs' = Some r'.
Proof.
  intros ms r inp sm name fs m r' e M F H. unfold solve, create, dmem. rewrite F, M. unfold solve_in. rewrite H. eexists. split; [reflexivity|]. apply dget_dset_same.
Qed.
Example C81_nonvacuous : forall (r : run Sol I) (i : Inp) (s : Sol), let m : method := fun _ r => (with_final r (Final s), Ok true) in
  exists fs', main [("single", m)] (Ok (r, i)) "single" "a.hdf5" [("b.hdf5", r)] = (fs', 0%Z) /\ dget "b.hdf5" fs' = Some r /\
  exists r', dget "a.hdf5" fs' = Some r' /\ r_final r' = Final s.
Proof. intros. cbn. eexists. split; [reflexivity|]. split; [reflexivity|]. eexists. split; reflexivity. Qed.
End S.

(** C80. What a method that reports success has left in the run. *)
(** The single method: the solution it computed, which is then the last one stored. *)
Theorem C80_single : forall {Sol Cond I : Type} (define : val -> res Cond) (solution : val -> Cond -> res Sol) inp (r r' : run Sol I) sols ok,
  r_solutions r = numbered 0 sols ->
  single_solver define solution inp r false = (r', Ok ok) ->
  ok = true /\ exists c s, define inp = Ok c /\ solution inp c = Ok s /\ r_final r' = Final s /\ r_solutions r' = numbered 0 (sols ++ [s]).
Proof.
  intros Sol Cond I define solution inp r r' sols ok Hr H. unfold single_solver in H.
  destruct (define inp) as [c|] eqn:D; [|discriminate]. destruct (solution inp c) as [s|] eqn:S; [|discriminate]. rewrite Hr, add_numbered in H.
  cbn [with_solutions r_solutions] in H. destruct (get_last_solution (numbered 0 (sols ++ [s]))) as [l|] eqn:L; [|discriminate].
  
  destruct (C36_additions (sols ++ [s])) as (d & A & _ & _ & La). assert (A2 := add_all_numbered (sols ++ [s]) []). change (numbered 0 []) with (@nil (string * Sol)) in A2. rewrite A2 in A. injection A as <-.
  rewrite (La s sols eq_refl) in L. injection L as <-.
  unfold set_final in H. cbn [with_solutions r_final] in H. destruct (r_final r); try discriminate. injection H as <- <-.
  split; [reflexivity|]. exists c, s. repeat split; auto.
Qed.
(** The step method: it reports success exactly when the run's final solution is a solution, and otherwise leaves none. *)
Lemma search_result : forall {W Inp Out Val : Type} func pass fail stop (P : W -> Prop) (Q : W -> Val -> Prop),
  (forall w i, P w -> P (fst (func w i))) -> (forall w o a, P w -> P (fst (fail w o a))) ->
  (forall w o a, P w -> match pass w o a with (w', Ok v) => Q w' v | (w', Raise _) => P w' end) ->
  (forall w a, P w -> match stop w a with (w', Ok v) => Q w' v | (w', Raise _) => P w' end) ->
  forall n a w (inp : Inp) w' o, P w -> search_loop (W := W) (Out := Out) (Val := Val) func pass fail stop n a w inp = (w', Ok o) ->
  match o with Some v => Q w' v | None => P w' end.
Proof.
  intros W Inp Out Val func pass fail stop P Q Hf Hl Hp Hs.
  assert (Hh : forall w a e w' o, P w -> handle stop w a e = (w', Ok o) -> match o with Some v => Q w' v | None => P w' end).
  { intros w a e w' o Pw H. destruct e; cbn [handle] in H; try discriminate; [injection H as <- <-; exact Pw|].
    specialize (Hs w a Pw). destruct (stop w a) as [w1 [x|x]]; cbn [rbind] in H; [|discriminate]. injection H as <- <-. exact Hs. }
  induction n as [|n IH]; intros a w inp w' o Pw H; cbn [search_loop] in H; [injection H as <- <-; exact Pw|].
  specialize (Hf w inp Pw). destruct (func w inp) as [w1 [[x [|]]|e]]; cbn [fst] in Hf; [| |exact (Hh _ _ _ _ _ Hf H)].
  - specialize (Hp w1 x a Hf). destruct (pass w1 x a) as [w2 [y|e]]; [injection H as <- <-; exact Hp | exact (Hh _ _ _ _ _ Hp H)].
  - specialize (Hl w1 x a Hf). destruct (fail w1 x a) as [w2 [i|e]]; cbn [fst] in Hl; [exact (IH _ _ _ _ _ Hl H) | exact (Hh _ _ _ _ _ Hl H)].
Qed.
Lemma writer_final : forall {X Y I : Type} ar (w : sworld ar (X := X) (Y := Y) (I := I)) s a, r_final (sw_run ar (fst (writer ar w s a))) = r_final (sw_run ar w).
Proof. intros X Y I ar w s a. unfold writer. destruct (ss_flag ar s); [|reflexivity]. destruct (add_solution s _) as [[k d]|e]; reflexivity. Qed.
Theorem C80_step : forall {X Y I : Type} ar fuel (sf : sinput ar (X := X) -> res (ssoln ar (X := X) (Y := Y) * bool)) gt inp (r r' : run (ssoln ar) I) n mx ok,
  r_final r = Unset -> solver ar fuel sf gt inp r n mx false = (r', Ok ok) ->
  match r_final r' with Unset => False | FinalNone => ok = false | Final _ => ok = true end.
Proof.
  intros X Y I ar fuel sf gt inp r r' n mx ok U H. unfold solver in H.
  destruct (binary_searcher _ _ _ _ _ _ _) as [w [best|e]] eqn:B; [|discriminate]. unfold binary_searcher in B.
  assert (G : match best with Some v => exists s, v = Some s /\ r_final (sw_run ar w) = Final s | None => r_final (sw_run ar w) = Unset end).
  { refine (search_result _ _ _ _ (fun w => r_final (sw_run ar w) = Unset) (fun w v => exists s, v = Some s /\ r_final (sw_run ar w) = Final s)
      _ _ _ _ _ _ _ _ _ _ _ B); [auto | | | | exact U].
    - intros w0 s a P. unfold stepper. assert (F := writer_final ar w0 s a). destruct (writer ar w0 s a) as [w1 [[]|e]]; cbn [fst] in *; [|congruence].
      destruct (gt s); [|cbn; congruence]. destruct (stepper_advance ar mx (sw_st ar w1) a0) as [st [x|e]]; cbn; congruence.
    - intros w0 s a P. unfold cleanup. assert (F := writer_final ar w0 s a). destruct (writer ar w0 s a) as [w1 [[]|e]]; cbn [fst] in *; [|congruence].
      destruct (get_last_solution _) as [l|e]; [|congruence]. unfold assign_final, set_final. rewrite F, P. eexists. split; reflexivity.
    - intros w0 a P. unfold alternate_cleanup. destruct (dgetitem _ _) as [l|e]; [|exact P]. unfold assign_final, set_final. rewrite P. eexists. split; reflexivity. }
  destruct best as [v|].
  - destruct G as (s & -> & F). rewrite F in H. injection H as <- <-. rewrite F. reflexivity.
  - rewrite G in H. unfold set_final in H. rewrite G in H. injection H as <- <-. reflexivity.
Qed.
(** What it makes the final solution is the last one it stored, whether the search found its aim or stopped because it could not get closer;
    the stored solutions are numbered from 0 without a gap. *)
Lemma last_of_numbered : forall {Sol : Type} (ss : list Sol) s, get_last_solution (numbered 0 (ss ++ [s])) = Ok s.
Proof.
  intros Sol ss s. destruct (C36_additions (ss ++ [s])) as (d & A & _ & _ & La). assert (A2 := add_all_numbered (ss ++ [s]) []).
  change (numbered 0 []) with (@nil (string * Sol)) in A2. rewrite A2 in A. injection A as <-. apply (La s ss eq_refl).
Qed.
Theorem C80_step_last : forall {X Y I : Type} ar fuel (sf : sinput ar (X := X) -> res (ssoln ar (X := X) (Y := Y) * bool)) gt inp (info : I) r' n mx ok,
  (forall i s b, sf i = Ok (s, b) -> ss_flag ar s <> None) ->
  solver ar fuel sf gt inp (new_run info) n mx false = (r', Ok ok) ->
  exists ss, r_solutions r' = numbered 0 ss /\ (forall s, r_final r' = Final s -> exists ss0, ss = ss0 ++ [s]).
Proof.
  intros X Y I ar fuel sf gt inp info r' n mx ok FL H. unfold solver in H.
  destruct (binary_searcher _ _ _ _ _ _ _) as [w [best|e]] eqn:B; [|discriminate]. unfold binary_searcher in B.
  set (P := fun a (w : sworld ar (X := X) (Y := Y) (I := I)) => exists ss, r_solutions (sw_run ar w) = numbered 0 ss /\ List.length ss = a /\ r_final (sw_run ar w) = Unset).
  set (Q := fun w : sworld ar (X := X) (Y := Y) (I := I) => exists ss s, r_solutions (sw_run ar w) = numbered 0 (ss ++ [s]) /\ r_final (sw_run ar w) = Final s).
  assert (WR : forall a w0 s b i, sf i = Ok (s, b) -> P a w0 -> exists w1, writer ar w0 s a = (w1, Ok tt) /\ exists ss, r_solutions (sw_run ar w1) = numbered 0 (ss ++ [s]) /\ List.length ss = a /\ r_final (sw_run ar w1) = Unset).
  { intros a w0 s b i Hi (ss & R1 & R2 & R3). unfold writer. destruct (ss_flag ar s) eqn:F; [|exfalso; exact (FL i s b Hi F)]. rewrite R1, add_numbered.
    eexists. split; [reflexivity|]. exists ss. split; [reflexivity | split; [exact R2 | exact R3]]. }
  assert (G : forall n a w0 i w best, P a w0 -> search_loop (fun w inp => (w, sf inp)) (cleanup ar false) (stepper ar fuel mx gt) (alternate_cleanup ar false) n a w0 i = (w, Ok best) ->
     match best with Some _ => Q w | None => exists a, P a w end).
  { clear B H. clear n. induction n as [|n IH]; intros a w0 i w1 o Pw H; cbn [search_loop] in H; [injection H as <- <-; exists a; exact Pw|].
    assert (HS : forall b w2, P b w2 -> (forall w3 o3, handle (alternate_cleanup ar false) w2 a StepperError = (w3, Ok o3) -> match o3 with Some _ => Q w3 | None => exists b, P b w3 end))
      by (intros b w2 P2 w3 o3 [= <- <-]; exists b; exact P2).
    assert (H0 : forall w2, P a w2 -> forall e w3 o3, handle (alternate_cleanup ar false) w2 a e = (w3, Ok o3) -> match o3 with Some _ => Q w3 | None => exists b, P b w3 end).
    { intros w2 P2 e w3 o3 E. destruct e; cbn [handle] in E; try (injection E; discriminate); try discriminate E; [exact (HS a w2 P2 _ _ E)|]. exfalso. cbn [handle] in E. unfold alternate_cleanup, dgetitem in E.
      destruct P2 as (ss & R1 & R2 & R3). rewrite R1 in E. pose proof (numbered_get ss 0 a) as NG. cbn [Nat.add] in NG. rewrite NG in E.
      assert (nth_error ss a = None) as N by (apply nth_error_None; lia). rewrite N in E. cbn in E. discriminate E. }
    assert (H1 : forall w2 s, (exists ss, r_solutions (sw_run ar w2) = numbered 0 (ss ++ [s]) /\ List.length ss = a /\ r_final (sw_run ar w2) = Unset) ->
        forall e w3 o3, handle (alternate_cleanup ar false) w2 a e = (w3, Ok o3) -> match o3 with Some _ => Q w3 | None => exists b, P b w3 end).
    { intros w2 s (ss & R1 & R2 & R3) e w3 o3 E. destruct e; try discriminate E.
      - apply (HS (S a) w2); [|exact E]. exists (ss ++ [s]). split; [exact R1 | split; [rewrite app_length, R2; cbn; lia | exact R3]].
      - cbn [handle] in E. unfold alternate_cleanup, dgetitem in E. rewrite R1 in E. pose proof (numbered_get (ss ++ [s]) 0 a) as NG. cbn [Nat.add] in NG. rewrite NG in E.
        rewrite nth_error_app2, R2, Nat.sub_diag in E by lia. cbn [nth_error] in E. unfold assign_final, set_final in E.
        rewrite R3 in E. cbn [rbind] in E. injection E as <- <-. exists ss, s. split; [exact R1 | reflexivity]. }
    destruct (sf i) as [[x [|]]|e] eqn:Sf; [| |exact (H0 _ Pw _ _ _ H)].
    - unfold cleanup in H. destruct (WR a w0 x true i Sf Pw) as (w2 & E2 & ss & R1 & R2 & R3). rewrite E2 in H. rewrite R1, last_of_numbered in H.
      unfold assign_final, set_final in H. rewrite R3 in H.
      injection H as <- <-. exists ss, x. split; [exact R1 | reflexivity].
    - unfold stepper in H. destruct (WR a w0 x false i Sf Pw) as (w2 & E2 & ss & R1 & R2 & R3). rewrite E2 in H.
      assert (W1 : forall w4, sw_run ar w4 = sw_run ar w2 -> exists ss0, r_solutions (sw_run ar w4) = numbered 0 (ss0 ++ [x]) /\ List.length ss0 = a /\ r_final (sw_run ar w4) = Unset) by (intros w4 ->; exists ss; repeat split; assumption).
      destruct (gt x) as [ty|e]; [|eapply H1; [|exact H]; apply W1; reflexivity].
      destruct (stepper_advance ar mx (sw_st ar w2) ty) as [st [stp|e]]; [|eapply H1; [|exact H]; apply W1; reflexivity].
      destruct (snd (step_func ar fuel (ss_input ar x) ty stp)) as [i'|e]; [|eapply H1; [|exact H]; apply W1; reflexivity].
      eapply IH; [|exact H]. exists (ss ++ [x]). split; [exact R1 | split; [rewrite app_length, R2; cbn; lia | exact R3]]. }
  assert (P0 : P 0 (mk_sw ar (new_run info) (initial_stepper ar (tenth ar (s_γ ar inp))))) by (exists []; repeat split).
  specialize (G n 0 _ _ _ _ P0 B).
  destruct best as [v|].
  - destruct G as (ss & s & R1 & R2). rewrite R2 in H. injection H as <- _. exists (ss ++ [s]). split; [exact R1|]. intros s' E. rewrite R2 in E. injection E as <-. exists ss. reflexivity.
  - destruct G as (a & ss & R1 & R2 & R3). rewrite R3 in H. unfold set_final in H. rewrite R3 in H. injection H as <- _. exists ss. split; [exact R1 | discriminate].
Qed.
(** The MCMC method reports success without any solution: when every point it evaluated failed. *)
Theorem C80_mcmc_refuted : forall {Sol Cond I : Type} E (define : val -> res Cond) (solution : val -> Cond -> res Sol) logprob inp names points (r r' : run Sol I) ok,
  r_solutions r = [] -> r_final r = Unset -> generate_sysvars_enum inp = Ok names ->
  mcmc_solver E define solution logprob inp r points = (r', Ok ok) -> flat_map (scored E define solution logprob inp names) points = [] ->
  ok = true /\ r_final r' = FinalNone /\ r_solutions r' = [].
Proof.
  intros Sol Cond I E define solution logprob inp names points r r' ok Hr Hu G H F.
  destruct (C49_final E define solution logprob inp names points r r' ok Hr Hu G H) as [Ok1 Fin]. rewrite F in Fin.
  split; [exact Ok1|]. unfold mcmc_solver in H. rewrite G in H.
  destruct (evaluations E define solution logprob inp names (lg_new r) points) as [st [[]|e]] eqn:Ev; [|discriminate].
  destruct (C49_best E define solution logprob inp names points r st Hr Ev) as (B & _ & b & Hb & _). cbn zeta in B. rewrite F in B.
  rewrite Hb in H. split.
  - destruct (r_final r') as [| |s]; [contradiction | reflexivity |]. destruct Fin as (pre & x & post & Ap & _). destruct pre; discriminate.
  - unfold set_final in H. destruct (r_final (lg_run st)); try discriminate. injection H as <- _. cbn [with_final r_solutions]. destruct (r_solutions (lg_run st)); [reflexivity | discriminate].
Qed.
(** For one point that fails, whatever the configuration. *)
Example C80_mcmc_nonvacuous : forall E (info : unit), exists r' : run R unit,
  mcmc_solver E (fun _ => Ok tt) (fun _ _ => Raise SolverError) (fun s => Some s) (soln_object ex_x) (new_run info) [[VNum (Some 1%R)]] = (r', Ok true) /\
  r_final r' = FinalNone /\ r_solutions r' = [].
Proof.
  intros E info.
  assert (W : well_formed ex_x) by (split; [right; repeat eexists | left; reflexivity]).
  assert (C : chosen ex_x ["γ"]) by (right; exists false, false, false; split; reflexivity).
  unfold mcmc_solver. rewrite (C50_selection _ _ C). unfold evaluations, logprob_call.
  destruct (C50_decode E ex_x ["γ"] [VNum (Some 1%R)] W C) as [-> _]; [cbn; auto|].
  destruct (C49_valid (replaced ["γ"] [VNum (Some 1%R)] ex_x) 1%R 1%R 1%R 1%R eq_refl eq_refl eq_refl eq_refl) as (ok & -> & Hok). rewrite (proj2 Hok) by (repeat split; exact Rlt_0_1).
  eexists. split; [reflexivity|]. split; reflexivity.
Qed.
Print Assumptions C80_step. Print Assumptions C80_single. Print Assumptions C80_mcmc_refuted. Print Assumptions C56_zero. Print Assumptions C81_batch.
