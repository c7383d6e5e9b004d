(** Properties C46, C47, C48, C75: what happens to objects written to a file and read back. *)
From Coq Require Import String List Bool ZArith Reals Permutation Lra Lia.
From Verif Require Import Lib_Py Model_FormatTables Model_Format Spec_Format Proofs_Format Proofs_FormatOld.
Import ListNotations.
Open Scope string_scope. Open Scope list_scope.

(** C46. A well-formed object of any of the classes, written and read back, is the same object. *)
Definition stored_classes : list string :=
  ["MCMCVars"; "slice"; "SolutionInput"; "ConfigInput"; "JacobianData"; "InitialConditions"; "Problems";
   "InternalData"; "Solution"; "Solutions"; "Run"].
Theorem C46_round_trip_partial : forall E c v, lists_entries E -> In c stored_classes -> typed (TObj c) v ->
  exists v', save_and_load E v = Ok v' /\ same v v'.
Proof.
  assert (L : forall E v v', rt E v v' -> save_and_load E v = Ok v')
    by (intros E v v' (h & H1 & H2); unfold save_and_load; rewrite H1; exact H2).
  intros E c v HE Hc Ht. simpl in Hc.
  repeat (destruct Hc as [<-|Hc]; [|]); [..|contradiction].
  - exists v. split; [apply L, rt_mcmc, Ht | apply same_refl].
  - exists v. split; [apply L, rt_slice, Ht | apply same_refl].
  - exists v. split; [apply L, rt_solution_input, Ht | apply same_refl].
  - exists v. split; [apply L, rt_config_input, Ht | apply same_refl].
  - exists v. split; [apply L, rt_jacobian, Ht | apply same_refl].
  - exists v. split; [apply L, rt_initial, Ht | apply same_refl].
  - destruct (rt_problems E v HE Ht) as (v' & A & B & _). exists v'. split; [apply L, A | exact B].
  - destruct (rt_internal E v HE Ht) as (v' & A & B & _). exists v'. split; [apply L, A | exact B].
  - destruct (rt_solution E v HE Ht) as (v' & A & B & _). exists v'. split; [apply L, A | exact B].
  - destruct (rt_solutions E v HE Ht) as (d & A & B & _). eexists. split; [apply L, A | exact B].
  - destruct (rt_run E v HE Ht) as (v' & A & B). exists v'. split; [apply L, A | exact B].
Qed.
(** The inputs come back exactly, whatever order the file lists entries in. *)
Theorem C46_inputs_exact : forall E c v, In c ["SolutionInput"; "ConfigInput"; "InitialConditions"; "JacobianData"; "MCMCVars"; "slice"] ->
  typed (TObj c) v -> save_and_load E v = Ok v.
Proof.
  assert (L : forall E v v', rt E v v' -> save_and_load E v = Ok v')
    by (intros E v v' (h & H1 & H2); unfold save_and_load; rewrite H1; exact H2).
  intros E c v Hc Ht. simpl in Hc. apply L.
  repeat (destruct Hc as [<-|Hc]; [|]); [..|contradiction];
    [apply rt_solution_input | apply rt_config_input | apply rt_initial | apply rt_jacobian | apply rt_mcmc | apply rt_slice]; exact Ht.
Qed.

(** Objects for the examples and counterexamples. *)
Definition E0 (cache : bool) : env := mk_env (fun _ => Raise OtherError) (fun _ => Raise OtherError) (fun _ => "?") (fun l => rev l) cache.
Definition q (x : R) : val := VNum (Some x).
Definition ex_soln_input (use_E_r : val) : val := VObj "SolutionInput"
  [("start", q 0); ("stop", q 5); ("taylor_stop_angle", q (1/1000)); ("max_steps", VInt 10000); ("num_angles", VInt 10000);
   ("relative_tolerance", q (1/1000000)); ("absolute_tolerance", q (1/10000000)); ("γ", q (1/1000)); ("nwalkers", VInt 8);
   ("iterations", VInt 3); ("threads", VInt 1); ("target_velocity", q (9/10)); ("split_method", VText "v_θ_deriv");
   ("v_rin_on_c_s", q 1); ("v_a_on_c_s", q 1); ("c_s_on_v_k", q (3/100)); ("η_O", q (1/1000)); ("η_H", q (1/10000));
   ("η_A", q (1/2000)); ("η_derivs", VBool true); ("jump_before_sonic", q (1/100)); ("use_taylor_jump", VBool true);
   ("mcmc_vars", mcmc_obj (VBool true) (VBool false) (VBool true)); ("v_θ_sonic_crit", VNone); ("after_sonic", VNone);
   ("sonic_interp_size", VNone); ("interp_range", VInt 10); ("interp_slice", slice_obj (VInt (-1000)) (VInt (-100)) VNone);
   ("use_E_r", use_E_r)].
Definition ex_config_input (use_E_r : val) : val := VObj "ConfigInput"
  [("start", VText "0"); ("stop", VText "5"); ("taylor_stop_angle", VText "0.001"); ("max_steps", VText "10000");
   ("num_angles", VText "10000"); ("label", VText "default"); ("relative_tolerance", VText "1e-6");
   ("absolute_tolerance", VText "1e-10"); ("γ", VText "0.001"); ("nwalkers", VText "8"); ("iterations", VText "3");
   ("threads", VText "1"); ("target_velocity", VText "0.9"); ("split_method", VText "v_θ_deriv"); ("v_rin_on_c_s", VText "1");
   ("v_a_on_c_s", VText "1"); ("c_s_on_v_k", VText "0.03"); ("η_O", VText "0.001"); ("η_H", VText "0.0001");
   ("η_A", VText "0.0005"); ("η_derivs", VText "True"); ("jump_before_sonic", VText "None"); ("use_taylor_jump", VText "True");
   ("mcmc_vars", VText "v_r,v_a,v_k"); ("v_θ_sonic_crit", VText "None"); ("after_sonic", VNone);
   ("sonic_interp_size", VText "None"); ("interp_range", VText "10"); ("interp_slice", VText "-1000,-100"); ("use_E_r", use_E_r)].
Definition ex_data : list (option R) :=
  [Some 0; Some 0; Some 1; Some (-1); Some 1; Some 0; Some 1; Some 0; Some (1/1000); Some (1/2000); Some (1/10000)]%R.
Definition ex_initial : val := VObj "InitialConditions"
  [("norm_kepler_sq", q 1000); ("η_O", q (1/1000)); ("η_A", q (1/2000)); ("η_H", q (1/10000)); ("γ", q (1/1000));
   ("init_con", VArr [11] ex_data); ("angles", VArr [2] [Some 0; Some 1]%R); ("a_0", q 1)].
Definition ex_internal : val := VObj "InternalData"
  [("derivs", VArr [0; 11] []); ("params", VArr [0; 11] []); ("angles", VArr [0] []);
   ("jacobian_data", VObj "JacobianData" [("jacobians", VArr [0] []); ("derivs", VArr [0] []); ("params", VArr [0] []); ("angles", VArr [0] [])]);
   ("v_r_normal", VArr [0] []); ("v_φ_normal", VArr [0] []); ("ρ_normal", VArr [0] []); ("v_r_taylor", VArr [0] []);
   ("v_φ_taylor", VArr [0] []); ("ρ_taylor", VArr [0] []);
   ("problems", VObj "Problems" [("0.1", VTexts ["negative density"]); ("0.2", VTexts ["nan"; "negative density"])])].
Definition ex_solution (use_E_r derivatives : val) : val := VObj "Solution"
  [("solution_input", ex_soln_input use_E_r); ("angles", VArr [1] [Some 0%R]); ("solution", VArr [1; 11] ex_data); ("flag", VInt 2);
   ("coordinate_system", VText "spherical midplane 0"); ("internal_data", ex_internal); ("initial_conditions", ex_initial);
   ("t_roots", VArr [1] [Some 1%R]); ("y_roots", VNone); ("sonic_point", VNone); ("sonic_point_values", VNone);
   ("derivatives", derivatives); ("is_post_shock_only", VBool false)].
Definition ex_run (use_E_r : val) : val := VObj "Run"
  [("config_input", ex_config_input (VText "False")); ("config_filename", VText "a.cfg"); ("disc_solver_version", VText "0.5");
   ("float_type", VText "float128"); ("sonic_method", VText "step"); ("time", VNone); ("use_E_r", VBool false);
   ("final_solution", ex_solution use_E_r VNone);
   ("solutions", VObj "Solutions" [("0", ex_solution use_E_r VNone); ("1", ex_solution use_E_r VNone)]);
   ("is_post_shock_only", VBool false); ("based_on_solution_filename", VNone); ("based_on_solution_solution_name", VNone)].
Lemma E0_lists : forall b, lists_entries (E0 b).
Proof. intros b l. apply Permutation_sym, Permutation_rev. Qed.
Ltac schema_obj := eapply t_obj; [reflexivity|].
Ltac ty_auto := repeat first
  [ apply Forall2_cons; [split; [reflexivity|]|] | apply Forall2_nil | apply t_plain; exact I | apply t_opt_numpy_none | apply t_opt_text_none
  | apply t_opt_obj_none | apply t_opt_obj | apply t_opt_numpy; exact I | apply t_opt_int | apply t_opt_int_none | apply t_bool | apply t_arr
  | apply t_none | apply t_opt_text; discriminate | apply t_text; discriminate ]; cbn [fst snd].
Lemma ex_soln_input_typed : forall b, typed (TObj "SolutionInput") (ex_soln_input (VBool b)).
Proof. intro b. schema_obj. unfold solution_input_fields. ty_auto; schema_obj; ty_auto. Qed.
Lemma ex_config_input_typed : forall s, typed (TObj "ConfigInput") (ex_config_input (VText s)).
Proof. intro s. schema_obj. unfold config_input_fields. ty_auto. Qed.
Lemma ex_initial_typed : typed (TObj "InitialConditions") ex_initial.
Proof.
  apply t_initial; try exact I; try apply t_arr; try reflexivity; try (intro; discriminate);
    eexists; (split; [reflexivity | left; reflexivity]).
Qed.
Lemma ex_internal_typed : typed (TObj "InternalData") ex_internal.
Proof.
  schema_obj. ty_auto; [schema_obj; ty_auto|]. apply t_problems.
  - repeat constructor; simpl; intuition discriminate.
  - repeat constructor; eexists; reflexivity.
Qed.
Lemma ex_solution_typed : forall b, typed (TObj "Solution") (ex_solution (VBool b) VNone).
Proof. intro b. schema_obj. ty_auto; [apply ex_soln_input_typed | apply ex_internal_typed | apply ex_initial_typed]. Qed.
Lemma ex_run_typed : forall b, typed (TObj "Run") (ex_run (VBool b)).
Proof.
  intro b. schema_obj. ty_auto; [apply ex_config_input_typed | apply ex_solution_typed|].
  apply t_solutions.
  - repeat constructor; simpl; intuition discriminate.
  - repeat (apply Forall_cons; [apply ex_solution_typed|]). apply Forall_nil.
Qed.
Example C46_nonvacuous : exists v', save_and_load (E0 true) (ex_run (VBool true)) = Ok v' /\ same (ex_run (VBool true)) v'.
Proof. eapply C46_round_trip_partial; [apply E0_lists | | apply ex_run_typed]. simpl. tauto. Qed.

(** The derivatives of a solution, if any are kept, come back wrapped in h5preserve's container, not as the array. *)
Theorem C46_derivatives_refuted : exists E v, lists_entries E /\
  getattr "derivatives" v = Ok (VArr [2] [Some 1; Some 2]%R) /\ (exists w, v = ex_solution (VBool true) w) /\
  exists v', save_and_load E v = Ok v' /\ getattr "derivatives" v' = Ok (VBoxed (VArr [2] [Some 1; Some 2]%R)).
Proof.
  exists (E0 true), (ex_solution (VBool true) (VArr [2] [Some 1; Some 2]%R)). split; [apply E0_lists|].
  split; [reflexivity|]. split; [eexists; reflexivity|].
  assert (Hp : exists p', rt (E0 true) ex_internal p') by (destruct (rt_internal (E0 true) ex_internal (E0_lists true) ex_internal_typed) as (p' & A & _); exists p'; exact A).
  destruct Hp as (p' & (hp & P1 & P2)).
  destruct (rt_initial (E0 true) ex_initial ex_initial_typed) as (hi & I1 & I2).
  destruct (rt_solution_input (E0 true) _ (ex_soln_input_typed true)) as (hs & S1 & S2).
  unfold save_and_load, ex_solution. rewrite store_obj. unfold stored_list. cbn [map fst snd].
  redtab. rewrite P1, I1, S1. cbn [store]. redtab. rewrite load_hgroup. unfold loaded_list. cbn [map fst snd].
  redtab. rewrite P2, I2, S2. cbn [load]. redtab.
  eexists. split; [reflexivity|]. reflexivity.
Qed.
(** An InitialConditions whose diffusivity is NaN can be built (create_modified passes no diffusivities) and
    written, but the file cannot be read. *)
Theorem C46_nan_refuted : exists E kw v, construct E "InitialConditions" kw = Ok v /\
  (exists h, store v = Ok h) /\ save_and_load E v = Raise RuntimeError.
Proof.
  exists (E0 true), [("norm_kepler_sq", q 1000); ("γ", q 0); ("init_con", VArr [11] (repeat None 11)); ("angles", VArr [0] []); ("a_0", q 1)].
  eexists. split; [reflexivity|]. split; [eexists; reflexivity | reflexivity].
Qed.

(** ** C47: files of older versions *)
(** The versions registered for each class are exactly these. *)
Theorem C47_registered : forall c v, In c ["ConfigInput"; "SolutionInput"] -> (loader c v <> None <-> (1 <= v <= 14)%nat).
Proof.
  intros c v Hc. simpl in Hc. destruct Hc as [<-|[<-|[]]]; do 15 (destruct v as [|v]; [cbn; split; intro H; try lia; congruence |]);
    cbn; split; intro H; try lia; congruence.
Qed.
(** Inputs written by version 4 or any version from 6 load: the fields that existed have the values that were
    written, the others their documented default. *)
Theorem C47_solution_input_partial : forall E v attrs items x,
  In v [4; 6; 7; 8; 9; 10; 11; 12; 13; 14]%nat -> written_by v solution_input_fields x attrs items ->
  exists fs, load E (HGroup "SolutionInput" v attrs items) = Ok (VObj "SolutionInput" fs) /\
    forall f t, In (f, t) solution_input_fields ->
      dget f fs = Some (if (since f <=? v)%nat then x f else older_default_soln f).
Proof.
  intros E v attrs items x Hv W. eexists. split; [apply (solution_input_older E v attrs items x Hv W)|].
  intros f t Hin. unfold solution_input_fields in Hin. simpl in Hin.
  repeat (destruct Hin as [Hin|Hin]; [injection Hin as <- <-; reflexivity|]). contradiction.
Qed.
Theorem C47_config_input_partial : forall E v attrs items x,
  In v [4; 6; 7; 8; 9; 10; 11; 12; 13; 14]%nat -> written_by v config_input_fields x attrs items ->
  exists fs, load E (HGroup "ConfigInput" v attrs items) = Ok (VObj "ConfigInput" fs) /\
    forall f t, In (f, t) config_input_fields ->
      dget f fs = Some (if (since f <=? v)%nat then x f else older_default_conf v f).
Proof.
  intros E v attrs items x Hv W. eexists. split; [apply (config_input_older E v attrs items x Hv W)|].
  intros f t Hin. unfold config_input_fields in Hin. simpl in Hin.
  repeat (destruct Hin as [Hin|Hin]; [injection Hin as <- <-; reflexivity|]). contradiction.
Qed.
(** Not every registered version loads: for these no file whatever can be read. *)
Theorem C47_broken_versions_refuted : forall E c v attrs items,
  In (c, v) [("ConfigInput", 1); ("ConfigInput", 2); ("ConfigInput", 3); ("ConfigInput", 5);
             ("SolutionInput", 1); ("SolutionInput", 2); ("SolutionInput", 3); ("SolutionInput", 5);
             ("InternalData", 1); ("InternalData", 2)]%nat ->
  loader c v <> None /\ exists e, load E (HGroup c v attrs items) = Raise e.
Proof.
  intros E c v attrs items H. simpl in H.
  repeat (destruct H as [H|H]; [injection H as <- <-; split; [discriminate | eapply broken_raises; reflexivity]|]). contradiction.
Qed.
(** With everything the loader reads present, the failure is Python's TypeError for the constructor call. *)
Example C47_broken_is_TypeError : load (E0 true) (HGroup "InternalData" 1 []
   (map (fun k => (k, HData (VArr [0] []))) ["derivs"; "params"; "angles"; "v_r_normal"; "v_φ_normal"; "ρ_normal"; "v_r_taylor"; "v_φ_taylor"; "ρ_taylor"]))
  = Raise TypeError.
Proof. reflexivity. Qed.
(** A concrete version 9 group. *)
Definition ex_x (f : string) : val := match ex_soln_input (VBool true) with VObj _ fs => match dget f fs with Some v => v | None => VNone end | _ => VNone end.
Definition ex_items (l : list string) : list (string * h5) :=
  map (fun f => (f, match store (ex_x f) with Ok h => h | Raise _ => HNone end)) l.
Example C47_nonvacuous : written_by 9 solution_input_fields ex_x
  (map (fun ft => (fst ft, ex_x (fst ft))) solution_input_fields) (ex_items ["jump_before_sonic"; "mcmc_vars"]).
Proof.
  intros f t Hin Hv. unfold solution_input_fields in Hin. simpl in Hin.
  pose proof (ex_soln_input_typed true) as HT.
  assert (HX : forall f t, In (f, t) solution_input_fields -> typed t (ex_x f)).
  { clear. intros f t Hin. pose proof (ex_soln_input_typed true) as HT.
    inversion HT as [| | | | | | | | | | | | | |? ? ? Hs Hf| | |]; subst. injection Hs as <-.
    assert (G : forall sch fs, Forall2 (fun (ft : string * ty) (kv : string * val) => fst ft = fst kv /\ typed (snd ft) (snd kv)) sch fs ->
      NoDup (map fst sch) -> forall f t, In (f, t) sch -> exists v, dget f fs = Some v /\ typed t v).
    { clear. intros sch fs HF. induction HF as [|[a b] [k v] s l [H1 H2] _ IH]; intros ND f t; [contradiction|].
      cbn [fst snd] in *. subst k. inversion ND as [|? ? N1 N2]; subst. intros [H|H].
      - injection H as -> ->. exists v. simpl. rewrite String.eqb_refl. split; [reflexivity | exact H2].
      - simpl. destruct (String.eqb_spec f a) as [->|_]; [|apply (IH N2 f t H)].
        exfalso. apply N1. apply (in_map fst) in H. exact H. }
    destruct (G _ _ Hf) with (f := f) (t := t) as (v & Hv & Ht); [|exact Hin|].
    - unfold solution_input_fields. repeat constructor; simpl; intuition discriminate.
    - unfold ex_x, ex_soln_input. rewrite Hv. exact Ht. }
  split; [apply HX, Hin|]. clear HX HT.
  repeat (destruct Hin as [Hin|Hin];
    [injection Hin as <- <-; cbn; first [reflexivity | eexists; split; reflexivity | exfalso; vm_compute in Hv; lia]|]). contradiction.
Qed.

(** A Solution of any of the four versions. *)
Theorem C47_solution : forall E v flag coord shock angles soln hdata idata hini ini hinp inp t y sp spv attrs items,
  In v [1; 2; 3; 4]%nat ->
  dget "flag" attrs = Some flag -> dget "coordinate_system" attrs = Some coord ->
  ((4 <= v)%nat -> dget "is_post_shock_only" attrs = Some shock) ->
  dget "angles" items = Some (HData angles) -> dget "solution" items = Some (HData soln) ->
  dget "internal_data" items = Some hdata -> load E hdata = Ok idata ->
  dget "initial_conditions" items = Some hini -> load E hini = Ok ini ->
  dget "solution_input" items = Some hinp -> load E hinp = Ok inp ->
  (exists h, dget "t_roots" items = Some h /\ store t = Ok h) -> typed TOptNumPy t ->
  (exists h, dget "y_roots" items = Some h /\ store y = Ok h) -> typed TOptNumPy y ->
  ((2 <= v)%nat -> dget "derivatives" items = Some HNone) ->
  ((3 <= v)%nat -> exists h, dget "sonic_point" items = Some h /\ store sp = Ok h) -> typed TOptNumPy sp ->
  ((3 <= v)%nat -> exists h, dget "sonic_point_values" items = Some h /\ store spv = Ok h) -> typed TOptNumPy spv ->
  load E (HGroup "Solution" v attrs items) = Ok (VObj "Solution"
    [("solution_input", inp); ("angles", angles); ("solution", soln); ("flag", flag); ("coordinate_system", coord);
     ("internal_data", idata); ("initial_conditions", ini); ("t_roots", t); ("y_roots", y);
     ("sonic_point", if (3 <=? v)%nat then sp else VNone); ("sonic_point_values", if (3 <=? v)%nat then spv else VNone);
     ("derivatives", VNone); ("is_post_shock_only", if (4 <=? v)%nat then shock else VBool false)]).
Proof.
  intros E v flag coord shock angles soln hdata idata hini ini hinp inp t y sp spv attrs items Hv A1 A2 A3 B1 B2 B3 B3' B4 B4' B5 B5' T1 T1' T2 T2' D S1 S1' S2 S2'.
  rewrite load_hgroup. unfold load_group.
  apply (loaded_get E) in B1, B2, B3, B4, B5. rewrite B3' in B3. rewrite B4' in B4. rewrite B5' in B5. cbn [load] in B1, B2.
  pose proof (item_optd E "t_roots" items (fun _ => t) T1 T1') as R1.
  pose proof (item_optd E "y_roots" items (fun _ => y) T2 T2') as R2.
  cbv beta in R1, R2.
  simpl in Hv. repeat (destruct Hv as [<-|Hv]; [|]); [..|contradiction];
    cbn [String.eqb Ascii.eqb Bool.eqb loader andb rbind Nat.leb load_Solution_1 load_Solution_2 load_Solution_3 load_Solution_4 eval_kwargs eval_lexpr];
    unfold dgetitem; rewrite A1, A2; cbn [rbind];
    rewrite R1, R2, B1, B2, B3, B4, B5; cbn [rbind unbox];
    try (specialize (A3 ltac:(lia)); rewrite A3; cbn [rbind]);
    try (specialize (D ltac:(lia)); apply (loaded_get E) in D; rewrite D; cbn [rbind load]);
    try (specialize (S1 ltac:(lia)); specialize (S2 ltac:(lia));
         pose proof (item_optd E "sonic_point" items (fun _ => sp) S1 S1') as R3;
         pose proof (item_optd E "sonic_point_values" items (fun _ => spv) S2 S2') as R4; cbv beta in R3, R4;
         rewrite R3, R4; cbn [rbind]);
    reflexivity.
Qed.
(** A Run of versions 1 to 4.  The run itself says use_E_r = False whatever the run used. *)
Theorem C47_run : forall E v hc ci fn tm hf fin hs sols ver ft sm attrs items,
  In v [1; 2; 3; 4]%nat ->
  dget "config_input" items = Some hc -> load E hc = Ok ci -> dget "config_filename" items = Some fn ->
  dget "time" items = Some tm -> dget "final_solution" items = Some hf -> load E hf = Ok fin ->
  dget "solutions" items = Some hs -> load E hs = Ok sols ->
  ((2 <= v)%nat -> dget "disc_solver_version" items = Some (HText ver)) ->
  ((3 <= v)%nat -> dget "float_type" items = Some (HText ft)) ->
  ((4 <= v)%nat -> dget "sonic_method" items = Some (HText sm)) ->
  forall fnv tmv, load E fn = Ok fnv -> load E tm = Ok tmv ->
  load E (HGroup "Run" v attrs items) = Ok (VObj "Run"
    [("config_input", ci); ("config_filename", fnv);
     ("disc_solver_version", if (2 <=? v)%nat then VText ver else VNone); ("float_type", if (3 <=? v)%nat then VText ft else VNone);
     ("sonic_method", if (4 <=? v)%nat then VText sm else VText "unknown"); ("time", tmv); ("use_E_r", VBool false);
     ("final_solution", fin); ("solutions", sols); ("is_post_shock_only", VBool false);
     ("based_on_solution_filename", VNone); ("based_on_solution_solution_name", VNone)]).
Proof.
  intros E v hc ci fn tm hf fin hs sols ver ft sm attrs items Hv C1 C2 F1 T1 L1 L2 S1 S2 D1 D2 D3 fnv tmv F2 T2.
  rewrite load_hgroup. unfold load_group.
  apply (loaded_get E) in C1, F1, T1, L1, S1. rewrite C2 in C1. rewrite F2 in F1. rewrite T2 in T1. rewrite L2 in L1. rewrite S2 in S1.
  simpl in Hv. repeat (destruct Hv as [<-|Hv]; [|]); [..|contradiction];
    cbn [String.eqb Ascii.eqb Bool.eqb loader andb rbind Nat.leb load_Run_1 load_Run_2 load_Run_3 load_Run_4 eval_kwargs eval_lexpr];
    rewrite C1, F1, T1, L1, S1; cbn [rbind];
    try (specialize (D1 ltac:(lia)); apply (loaded_get E) in D1; rewrite D1; cbn [rbind load]);
    try (specialize (D2 ltac:(lia)); apply (loaded_get E) in D2; rewrite D2; cbn [rbind load]);
    try (specialize (D3 ltac:(lia)); apply (loaded_get E) in D3; rewrite D3; cbn [rbind load]);
    reflexivity.
Qed.
(** InitialConditions of versions 1 and 2 (and 3): β is converted by γ = 5/4 - β; version 1 has no a_0. *)
Theorem C47_initial_conditions : forall E v nk o a h b g ic angles a0 attrs items data,
  In v [1; 2; 3]%nat ->
  dget "norm_kepler_sq" attrs = Some nk -> dget "η_O" attrs = Some (VNum (Some o)) -> dget "η_A" attrs = Some (VNum (Some a)) ->
  dget "η_H" attrs = Some (VNum (Some h)) -> ((v <= 2)%nat -> dget "β" attrs = Some (VNum (Some b))) ->
  ((v = 3)%nat -> dget "γ" attrs = Some (VNum (Some g))) -> ((2 <= v)%nat -> dget "a_0" attrs = Some a0) ->
  dget "init_con" attrs = Some (VArr [ic] data) -> length data = ic -> dget "angles" items = Some (HData angles) ->
  (ic = 8)%nat \/ (nth_error data 8 = Some (Some o) /\ nth_error data 9 = Some (Some a) /\ nth_error data 10 = Some (Some h)) ->
  load E (HGroup "InitialConditions" v attrs items) = Ok (VObj "InitialConditions"
    [("norm_kepler_sq", nk); ("η_O", VNum (Some o)); ("η_A", VNum (Some a)); ("η_H", VNum (Some h));
     ("γ", VNum (Some (if (v <=? 2)%nat then 5/4 - b else g)%R));
     ("init_con", if (ic =? 8)%nat then VArr [11] (data ++ [Some o; Some a; Some h])%nat else VArr [ic] data);
     ("angles", angles); ("a_0", if (v =? 1)%nat then VNum None else a0)]).
Proof.
  intros E v nk o a h b g ic angles a0 attrs items data Hv A1 A2 A3 A4 Hb Hg Ha A5 Hlen B1 Hc.
  assert (CK : forall (x : R) i, nth_error data i = Some (Some x) -> check_η (VNum (Some x)) data i = Ok (VNum (Some x))).
  { intros x i Hn. apply agrees_check. exists x. split; [exact Hn | left; reflexivity]. }
  rewrite load_hgroup. unfold load_group. apply (loaded_get E) in B1. cbn [load] in B1.
  assert (IC : forall γv a0v, init_conditions [("norm_kepler_sq", nk); ("a_0", a0v); ("η_O", VNum (Some o)); ("η_A", VNum (Some a)); ("η_H", VNum (Some h));
      ("γ", γv); ("init_con", VArr [ic] data); ("angles", angles)] = Ok (VObj "InitialConditions"
    [("norm_kepler_sq", nk); ("η_O", VNum (Some o)); ("η_A", VNum (Some a)); ("η_H", VNum (Some h)); ("γ", γv);
     ("init_con", if (ic =? 8)%nat then VArr [11] (data ++ [Some o; Some a; Some h])%nat else VArr [ic] data);
     ("angles", angles); ("a_0", a0v)])).
  { intros γv a0v. unfold init_conditions. cbn -[Nat.eqb check_η].
    destruct (Nat.eqb_spec ic 8) as [->|N]; [reflexivity|]. destruct Hc as [->|(H8 & H9 & H10)]; [congruence|].
    rewrite (CK o 8%nat H8), (CK a 9%nat H9), (CK h 10%nat H10). reflexivity. }
  simpl in Hv. repeat (destruct Hv as [<-|Hv]; [|]); [..|contradiction];
    cbn [String.eqb Ascii.eqb Bool.eqb loader andb rbind Nat.leb load_InitialConditions_1 load_InitialConditions_2 load_InitialConditions_3 eval_kwargs eval_lexpr];
    unfold dgetitem; rewrite A1, A2, A3, A4, A5;
    try (rewrite (Hb ltac:(lia))); try (rewrite (Hg ltac:(lia))); try (rewrite (Ha ltac:(lia)));
    rewrite B1; cbn [rbind unbox β_to_γ]; unfold construct; cbn [String.eqb Ascii.eqb Bool.eqb]; rewrite IC; reflexivity.
Qed.
