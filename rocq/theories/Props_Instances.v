(** Concrete cases that meet the hypotheses of theorems stated in other files. *)
From Coq Require Import String List Bool ZArith Reals Lra Lia.
From Verif Require Import Lib_Py Lib_Deriv Model_Index Model_Deriv Model_Midplane Model_Ode Model_Array Model_Waves Model_Critical Model_Run Model_Stepper
  Model_Crosser Model_Solve Model_Hydro Spec_Ode Spec_MHD Spec_Waves Proofs_Run Proofs_Ode Proofs_Waves Props_Midplane Props_Waves Props_Critical Props_Solve Props_Stepper Props_Crosser Props_Hydro Spec_Symmetry Props_Symmetry Props_SonicRoot
  Spec_Midplane Witness_Midplane Proofs_Taylor.
Import ListNotations.
Open Scope list_scope. Open Scope R_scope.

(** C17: a segment in units of half a radian: the jump to 1/10 in those units stops at 1/5 ... *)
Example C17_nonvacuous : forall γ a_0 p ηd, ts_angle_stopped (taylor_jump (0 :: 1 :: nil) p γ a_0 (1 / 10) ηd (1 / 2) false) = 1 / 5.
Proof. intros. destruct (C17_taylor_segment (0 :: 1 :: nil) p γ a_0 (1 / 10) ηd (1 / 2) false) as (_ & _ & ->); lra. Qed.

(** C22: a gas parcel that rises at unit rate along a spiral. *)
Example C22_nonvacuous : let r t := 1 + t in let θ (t : R) := 2 * t in
  derivable_pt_lim r 0 1 /\ derivable_pt_lim θ 0 2 /\ spherical_r_θ_to_cylindrical_R_z 1 (r 0 * 2) (θ 0) = (1, 2).
Proof.
  cbv zeta. split; [eapply dpl_eq; [dlim|]; ring|]. split; [eapply dpl_eq; [dlim|]; ring|].
  unfold spherical_r_θ_to_cylindrical_R_z. replace (2 * 0) with 0 by ring. rewrite cos_0, sin_0. f_equal; ring.
Qed.

(** C24: three quarters of a radian in units of a quarter of one, and back. *)
Example C24_nonvacuous : rad_to_scaled (Some (3 / 4)) (1 / 4) = Some 3 /\ scaled_to_rad (Some 3) (1 / 4) = Some (3 / 4).
Proof. split; cbn; f_equal; unfold rad_to_scaled_num, scaled_to_rad_num; lra. Qed.

(** C56: a method that succeeds and one that fails, among the known ones. *)
Definition two_methods : list (string * (unit -> run nat unit -> run nat unit * res bool)) :=
  [("single"%string, fun _ r => (with_final r (Final 7%nat), Ok true)); ("step"%string, fun _ r => (with_final r FinalNone, Ok false))].
Example C56_nonvacuous : (exists fs', main two_methods (Ok (new_run tt, tt)) "single" "a" [] = (fs', 0%Z)) /\
  snd (main two_methods (Ok (new_run tt, tt)) "step" "a" []) = 1%Z /\ main two_methods (Ok (new_run tt, tt)) "signle" "a" [] = ([], 2%Z).
Proof. split; [eexists|split]; reflexivity. Qed.

(** C69: a shock in gas without ambipolar or Hall diffusion. *)
Example C69_nonvacuous : let p := state 0 1 1 0 0 2 1 0 1 0 0 in B_nonzero p /\ p iv_θ <> 0 /\ p iη_A = 0 /\ p iη_H = 0.
Proof. cbv zeta. split; [unfold B_nonzero; simpl; lra|]. split; [simpl; lra | split; reflexivity]. Qed.

(** C73: gas that passes the sound speed diverges; gas that only comes near and turns back is a sign flip. *)
Example C73_nonvacuous : v_θ_deriv_splitter (9 / 10) (map Some [0; 95 / 100; 2]) None = Ok DIVERGE /\
  v_θ_deriv_splitter (9 / 10) (map Some [0; 1 / 2; 3 / 4]) None = Ok SIGN_FLIP.
Proof.
  split.
  - apply C73_by_velocity. split; [exists (95 / 100); split; [cbn; tauto | lra] | left; exists 2; split; [cbn; tauto | lra]].
  - destruct (v_θ_deriv_splitter (9 / 10) (map Some [0; 1 / 2; 3 / 4]) None) as [t|e] eqn:E.
    + destruct (C73_two_valued _ _ _ _ E) as [-> | ->]; [|reflexivity]. apply C73_by_velocity in E. destruct E as ((x & H & L) & _).
      cbn in H. destruct H as [<-|[<-|[<-|[]]]]; lra.
    + apply C73_raises_iff in E. destruct E as (_ & p & d & A & _). discriminate A.
Qed.

(** C82: the attempt of a search whose two solves both store their input is stored twice ... *)
Example C82_twice_nonvacuous : exists w1 w2 out, cross_solution (fun v => v) (fun v => v) toy_solve toy_solve (fun v => v) (mk_cw (toy_run []) c_new) 1 = (w1, Ok (1, false)) /\
  cross_stepper (fun v => v) (fun _ v => v) (fun v => v) toy_quality (fun _ => true) (/ 100) w1 1 0 = (w2, out) /\
  r_solutions (cw_run w2) = numbered 0 [1; 1; 1].
Proof.
  apply (C82_twice_refuted (fun v => v) (fun _ v => v) (fun v => v) (fun v => v) toy_quality (fun _ => true) toy_solve toy_solve (fun v => v)
           (mk_cw (toy_run []) c_new) 1 [1] 1 (toy_run [1]) (toy_run [1; 1]) true true (/ 100) 0).
  - exact (toy_solve_run 1 []).
  - exists 1. split; [exact (last_of [] 1) | exact (toy_solve_run 1 [1])].
  - reflexivity.
  - reflexivity.
Qed.
(** ... one whose step search fails is passed over ... *)
Example C82_failed_nonvacuous :
  cross_solution (fun v => v) (fun v => v) (fun _ r => (r, Raise StepperError)) toy_solve (fun v => v) (mk_cw (toy_run []) c_new) 1 = (mk_cw (toy_run []) c_new, Ok (1, false)).
Proof.
  exact (C82_failed_partial (fun v => v) (fun v => v) (fun _ r => (r, Raise StepperError)) toy_solve (fun v => v) (mk_cw (toy_run []) c_new) 1 (toy_run []) StepperError
           eq_refl (or_intror (or_introl eq_refl))).
Qed.
(** ... and one whose long solve fails ends the search. *)
Example C82_long_solve_nonvacuous :
  crosser (fun v => v) (fun _ v => v) (fun v => v) (fun v => v) toy_quality (fun _ => true) toy_solve (fun _ r => (r, Raise SolverError)) (fun v => v) 1 (new_run tt) 1000 =
  (toy_run [1], Raise SolverError).
Proof.
  apply (C82_long_solve_refuted (fun v => v) (fun _ v => v) (fun v => v) (fun v => v) toy_quality (fun _ => true) toy_solve (fun _ r => (r, Raise SolverError)) (fun v => v)
           1 (new_run tt) 1000 (toy_run [1]) true 1 (toy_run [1])).
  - exact (toy_solve_run 1 []).
  - exact (last_of [] 1).
  - reflexivity.
  - apply Nat.lt_0_succ.
Qed.

(** C88: an outflow that passes every point ends beyond the fast one. *)
Example C88_nonvacuous : let rows := [row 0 (1 / 2); row (3 / 4) (1 / 2); row 2 (3 / 4)] in
  Forall regular rows /\ slow_mach (row 0 (1 / 2)) < 1 /\ crosses_points [0; 1; 2] rows = Ret "fast"%string.
Proof.
  cbv zeta. destruct C87_nonvacuous as (A & B & D & _). split; [exact A|]. split; [exact B|].
  destruct (C88_exact [0; 1; 2] _ _ A B D) as (out & E & F & _). rewrite E. f_equal. apply F.
  exists (row 2 (3 / 4)). split; [cbn; tauto|]. row_machs. lra.
Qed.

(** C117: a rotating disc with a current, whose mirror image differs from it. *)
Example C117_nonvacuous : let p := state 0 0 1 (-1) 1 0 1 (-1/2) 1 0 0 in
  counter_rotating p iv_φ = - p iv_φ /\ p iv_φ <> 0 /\ get_taylor_first_order p (1 / 4) 1 iB_φ <> 0.
Proof. cbv zeta. split; [reflexivity|]. split; [simpl; lra|]. change (1 * -1 / (2 * 1) <> 0). lra. Qed.

(** C52: the method started at the midplane: the evaluation stores a solution whose conditions have sonic gas. *)
Example C52_nonvacuous : row0 iv_θ = Some 0 /\
  exists s c, In (s, c) (tl (snd (fst (Model_SonicRoot.solver bad_solve 0 row0 2 (Ok mid_soln) [] true)))) /\ c iv_θ = Some 1.
Proof.
  split; [reflexivity|].
  assert (H : tl (snd (fst (Model_SonicRoot.solver bad_solve 0 row0 2 (Ok mid_soln) [] true))) <> []).
  { destruct mid_guess as (g & G & NG). unfold Model_SonicRoot.solver. cbn [Model_SonicRoot.last_num mid_soln Model_SonicRoot.s_angles]. rewrite G. change (last [Some 0; Some 1] None) with (Some 1 : num).
    assert (T : Model_SonicRoot.total_vars_to_mod_cons row0 2 g (Some 1) = (fst (Model_SonicRoot.total_vars_to_mod_cons row0 2 g (Some 1)), Ok (Model_SonicRoot.nlinspace (g Model_SonicRoot.tθ_sonic) (Some 1) 2))).
    { unfold Model_SonicRoot.total_vars_to_mod_cons. cbn [fst]. f_equal. match goal with |- (if ?b then _ else _) = _ => replace b with false; [reflexivity|] end.
      pose proof (NG 1%nat ltac:(lia)). pose proof (NG 2%nat ltac:(lia)). pose proof (NG 3%nat ltac:(lia)). pose proof (NG 4%nat ltac:(lia)).
      pose proof (NG 5%nat ltac:(lia)). pose proof (NG 6%nat ltac:(lia)). pose proof (NG 7%nat ltac:(lia)).
      cbn. unfold Model_SonicRoot.nexp, Model_SonicRoot.tv_φ, Model_SonicRoot.tv_r, Model_SonicRoot.tB_θ, Model_SonicRoot.tB_r, Model_SonicRoot.tB_φ, Model_SonicRoot.tlog_ρ, Model_SonicRoot.tB_φ_prime.
      destruct (g 1%nat), (g 2%nat), (g 3%nat), (g 4%nat), (g 5%nat), (g 6%nat), (g 7%nat); try congruence; reflexivity. }
    cbn [Model_SonicRoot.evaluations]. unfold Model_SonicRoot.wrapped, Model_SonicRoot.root_func. rewrite T. cbn. discriminate. }
  destruct (tl _) as [|[s c] l] eqn:E; [contradiction|]. exists s, c. split; [left; reflexivity|].
  apply (C52_recorded_refuted bad_solve 0 row0 2 (Ok mid_soln) [] true eq_refl s c). rewrite E. left. reflexivity.
Qed.

(** C16: a curve that starts regularly and conserves mass: uniform density, steady inflow, v_θ = tan θ / 32. *)
Definition y_m (θ : R) : vec := fun i =>
  match i with 2%nat => 1 | 3%nat => - (1 / 8) | 5%nat => tan θ / 32 | 6%nat => 1 | 8%nat => 1 | _ => 0 end.
Definition y'_m (θ : R) : vec := fun i => match i with 5%nat => (1 + tan θ ^ 2) / 32 | _ => 0 end.
Lemma y_m_deriv : forall θ i, cos θ <> 0 -> derivable_pt_lim (fun t => y_m t i) θ (y'_m θ i).
Proof.
  intros θ i Hc. destruct i as [|[|[|[|[|[|[|[|[|i]]]]]]]]]; simpl; try apply dpl_const.
  eapply dpl_eq; [apply (dpl_div tan (fun _ => 32)); [lra | apply dpl_tan, Hc | apply dpl_const]|]. unfold Rsqr. simpl. field.
Qed.
Lemma y_m_deriv2 : forall θ, cos θ <> 0 -> derivable_pt_lim (fun t => y'_m t iv_θ) θ (2 * tan θ * (1 + tan θ ^ 2) / 32).
Proof.
  intros θ Hc. change (derivable_pt_lim (fun t => (1 + tan t ^ 2) / 32) θ (2 * tan θ * (1 + tan θ ^ 2) / 32)).
  dlim_to; [lra | exact Hc|]. unfold Rsqr. simpl. field.
Qed.
Lemma y_m_mass : forall θ, cos θ <> 0 -> mass_conserved (fluid_of (1 / 8) y_m) 1 θ.
Proof.
  intros θ Hc. exists (- (1 / 32)), (cos θ / 32).
  unfold fluid_of, self_similar_fluid, self_similar. simpl. split; [|split].
  - unfold pd_r. dlim_to; try lra. rewrite !Rpower_1'. simpl. field.
  - unfold pd_θ. pose proof (dpl_tan θ Hc). dlim_to; try lra; try exact Hc. rewrite !Rpower_1'. unfold Rsqr, tan. simpl. field. exact Hc.
  - field. exact Hc.
Qed.
Example C16_nonvacuous : exists c, define_conditions inp_g = Some c /\ twice_differentiable y_m y'_m zeros 1 /\ starts_regularly c y_m y'_m /\
  (forall θ, Rabs θ < 1 -> mass_conserved (fluid_of (c_γ c) y_m) 1 θ) /\
  derivable_pt_lim (fun θ => 2 * tan θ * (1 + tan θ ^ 2) / 32) 0 (4 * c_γ c * c_init_con c iv_r * (0 - 1) - 2 * c_γ c * 0).
Proof.
  destruct inp_g_ok as (c & Hc & Eg & Ea & E0 & E1 & E2 & E3 & E4 & E5 & E6 & E8 & E9 & E10 & E7). exists c. split; [exact Hc|].
  assert (C0 : cos 0 <> 0) by (rewrite cos_0; lra).
  split; [split; [lra|split]|split].
  - intros θ i H _. apply y_m_deriv, cos_near, H.
  - intros i _. destruct i as [|[|[|[|[|[|[|[|[|i]]]]]]]]]; simpl; try apply dpl_const.
    eapply dpl_eq; [apply (y_m_deriv2 0 C0)|]. rewrite tan_0. unfold zeros. field.
  - destruct (y_g_starts c Hc) as [A B]. split; intros i Hi.
    + rewrite <- (A i Hi). destruct i as [|[|[|[|[|[|[|[|[|i]]]]]]]]]; simpl; try reflexivity.
      * rewrite cos_0. lra.
      * rewrite tan_0. lra.
      * replace (0 * (0 * 1) / 2 * (1 / 1024)) with 0 by field. symmetry. apply exp_0.
    + rewrite <- (B i Hi). destruct i as [|[|[|[|[|[|[|[|[|i]]]]]]]]]; simpl; try reflexivity; rewrite ?tan_0; try lra.
  - split.
    + intros θ H. rewrite Eg. apply y_m_mass, cos_near, H.
    + rewrite Eg, E3. dlim_to; [lra | exact C0..|]. rewrite tan_0. unfold Rsqr. simpl. field.
Qed.
