(** C14-C19, C65: the midplane boundary values, the Taylor start and the jump across the sonic point. *)
From Coq Require Import Reals List Lra Lia.
From Verif Require Import Model_Index Model_Deriv Model_Midplane Model_Ode Lib_Deriv
  Spec_MHD Spec_Ode Spec_Midplane Proofs_Ode Proofs_MHD Proofs_Fields Proofs_Midplane Proofs_Taylor
  Witness_Ode Witness_Midplane.
Open Scope R_scope.

(** C14. The initial state exists exactly when some rotation speed balances the forces in the midplane, and the
    chosen rotation speed is the largest one that does. *)
Theorem C14_conditions_exist_iff : forall inp, in_v_a_on_c_s inp <> 0 -> in_η_O inp + in_η_A inp <> 0 ->
  in_c_s_on_v_k inp <> 0 ->
  (exists c, define_conditions inp = Some c) <->
  exists w, midplane_balance (- in_v_rin_on_c_s inp) (in_v_a_on_c_s inp ^ 2) (1 / in_c_s_on_v_k inp ^ 2)
    (in_γ inp) (in_η_O inp + in_η_A inp) (in_η_H inp) w.
Proof. intros inp Ha HP _. apply cond_iff; assumption. Qed.
Print Assumptions C14_conditions_exist_iff.
Theorem C14_largest_rotation : forall inp c, define_conditions inp = Some c ->
  in_v_a_on_c_s inp <> 0 -> in_η_O inp + in_η_A inp <> 0 -> in_c_s_on_v_k inp <> 0 ->
  let balance := midplane_balance (- in_v_rin_on_c_s inp) (in_v_a_on_c_s inp ^ 2) (1 / in_c_s_on_v_k inp ^ 2)
    (in_γ inp) (in_η_O inp + in_η_A inp) (in_η_H inp) in
  balance (c_init_con c iv_φ) /\ forall w, balance w -> w <= c_init_con c iv_φ.
Proof.
  intros inp c Hc Ha HP _ balance.
  destruct (cond_fields _ _ Hc) as (v & Hv & F1 & F2 & F3 & G0 & G1 & G2 & G3 & G4 & _). rewrite G4.
  apply v_φ_boundary_some; [apply pow_nonzero; assumption | assumption | exact Hv].
Qed.
Print Assumptions C14_largest_rotation.
(** The initial state is the midplane state: vertical field and density one, no vertical motion, the inflow and
    diffusivities of the input. *)
Theorem C14_initial_state : forall inp c, define_conditions inp = Some c ->
  c_init_con c iB_r = 0 /\ c_init_con c iB_φ = 0 /\ c_init_con c iB_θ = 1 /\
  c_init_con c iv_r = - in_v_rin_on_c_s inp /\ c_init_con c iv_θ = 0 /\ c_init_con c iρ = 1 /\
  c_init_con c iη_O = in_η_O inp /\ c_init_con c iη_A = in_η_A inp /\ c_init_con c iη_H = in_η_H inp /\
  c_γ c = in_γ inp /\ c_a_0 c = in_v_a_on_c_s inp ^ 2 /\ c_norm_kepler_sq c = 1 / in_c_s_on_v_k inp ^ 2.
Proof.
  intros inp c Hc.
  destruct (cond_fields _ _ Hc) as (v & Hv & F1 & F2 & F3 & G0 & G1 & G2 & G3 & G4 & G5 & G6 & G8 & G9 & G10 & G7).
  repeat split; assumption.
Qed.
Print Assumptions C14_initial_state.
(** Every equation of Spec_MHD.v holds at the midplane for a curve that leaves it along the solver's own
    derivatives (Taylor mode), in both formulations. *)
Theorem C14_midplane_regular : forall inp c ηd y r, define_conditions inp = Some c ->
  in_v_a_on_c_s inp <> 0 -> in_η_O inp + in_η_A inp <> 0 -> in_c_s_on_v_k inp <> 0 ->
  y 0 = c_init_con c -> solves_at (system_of c (in_use_E_r inp) true ηd) y 0 -> 0 < r ->
  let F := fluid_of (c_γ c) y in
  mass_conserved F r 0 /\ solenoidal F r 0 /\ E_φ_vanishes F r 0 /\
  momentum_r (c_norm_kepler_sq c) (c_a_0 c) F r 0 /\ momentum_φ (c_a_0 c) F r 0 /\ momentum_θ (c_a_0 c) F r 0.
Proof.
  intros inp c ηd y r Hc Ha HP _ Hy Hs Hr F.
  split; [eapply mid_mass; eassumption|]. split; [eapply mid_sole; eassumption|].
  split; [eapply mid_E_φ; eassumption|]. split; [eapply mid_mom_r; eassumption|].
  split; [eapply mid_mom_φ; eassumption | eapply mid_mom_θ; eassumption].
Qed.
Print Assumptions C14_midplane_regular.
Example C14_nonvacuous : forall b ηd, exists c y, define_conditions (inp_ex b) = Some c /\
  in_v_a_on_c_s (inp_ex b) <> 0 /\ in_η_O (inp_ex b) + in_η_A (inp_ex b) <> 0 /\ in_c_s_on_v_k (inp_ex b) <> 0 /\
  c_init_con c iv_φ = 3 / 2 /\
  y 0 = c_init_con c /\ solves_at (system_of c b true ηd) y 0.
Proof.
  intros b ηd. destruct (inp_ex_ok b) as (c & Hc & Ev & _).
  destruct (cond_fields _ _ Hc) as (v & Hv & F1 & F2 & F3 & G0 & G1 & G2 & G3 & G4 & G5 & G6 & _).
  destruct (proj2 (rhs_ok_iff (system_of c b true ηd) 0 (c_init_con c))) as (d & e & Hok).
  { right. rewrite G5, G6. lra. }
  exists c, (fun t i => c_init_con c i + (t - 0) * d i).
  destruct (tangent_solves _ _ _ _ _ Hok) as [H1 H2]. simpl.
  repeat split; try assumption; simpl; lra.
Qed.
Example C14_failure : define_conditions inp_bad = None.
Proof. exact inp_bad_fails. Qed.

(** C15. At the midplane the right-hand side in Taylor mode is the first-order Taylor coefficient vector. *)
Theorem C15_first_order : forall inp c ηd d e, define_conditions inp = Some c ->
  in_v_a_on_c_s inp <> 0 -> in_η_O inp + in_η_A inp <> 0 -> in_c_s_on_v_k inp <> 0 ->
  rhs_equation (system_of c (in_use_E_r inp) true ηd) 0 (c_init_con c) = Rhs_ok d e ->
  forall i, (i < ODE_LEN)%nat -> d i = get_taylor_first_order (c_init_con c) (c_γ c) (c_a_0 c) i.
Proof.
  intros inp c ηd d e Hc Ha HP _ Hok i Hi. rewrite (rhs_ok_derivs _ _ _ _ _ Hok), Rmult_0_l.
  apply (first_order_all inp); try assumption; reflexivity.
Qed.
Print Assumptions C15_first_order.
Example C15_nonvacuous : forall b ηd, exists c d e, define_conditions (inp_ex b) = Some c /\
  rhs_equation (system_of c b true ηd) 0 (c_init_con c) = Rhs_ok d e /\
  get_taylor_first_order (c_init_con c) (c_γ c) (c_a_0 c) iB_φ = - 3 / 4.
Proof.
  intros b ηd. destruct (inp_ex_ok b) as (c & Hc & Ev & Er & Eg & Ea & _).
  destruct (cond_fields _ _ Hc) as (v & Hv & F1 & F2 & F3 & G0 & G1 & G2 & G3 & G4 & G5 & G6 & _).
  destruct (proj2 (rhs_ok_iff (system_of c b true ηd) 0 (c_init_con c))) as (d & e & Hok).
  { right. rewrite G5, G6. lra. }
  exists c, d, e. repeat split; try assumption.
  unfold get_taylor_first_order. change (upd iv_θ ?x (upd iB_φ ?z ?f) iB_φ) with z.
  rewrite Ev, Er, Ea. unfold B_φ_prime_boundary_func. field.
Qed.

(** C16. Refuted: the third-order coefficient of v_θ used by the Taylor start is not the third derivative
    computed for v_θ. *)
Theorem C16_third_order_refuted : exists inp c ηd uE, define_conditions inp = Some c /\
  get_taylor_third_order (c_init_con c) (c_γ c) (c_a_0 c) ηd uE iv_θ <>
  taylor_series (c_γ c) (c_a_0 c) (c_init_con c) ηd uE iv_θ.
Proof.
  destruct (inp_ex_ok false) as (c & Hc & _). exists (inp_ex false), c, false, false.
  split; [exact Hc|]. destruct (third_order_ex false false c Hc) as [H1 H2]. rewrite H1. exact H2.
Qed.
Print Assumptions C16_third_order_refuted.
(** What it is, for all parameters: the B_r and B_φ slots are right, the v_θ slot holds v_φ''. *)
Theorem C16_third_order_partial : forall init_con γ a_0 ηd uE,
  let t := get_taylor_third_order init_con γ a_0 ηd uE in
  let s := taylor_series γ a_0 init_con ηd uE in
  t iB_r = s iB_r /\ t iB_φ = s iB_φ /\ t iv_θ = s iv_φ /\
  forall i, i <> iB_r -> i <> iB_φ -> i <> iv_θ -> t i = 0.
Proof.
  intros. split; [reflexivity|]. split; [reflexivity|]. split; [reflexivity|].
  intros i H1 H2 H3. unfold t, get_taylor_third_order, upd, zeros.
  rewrite !(proj2 (Nat.eqb_neq _ _)) by auto. reflexivity.
Qed.
Print Assumptions C16_third_order_partial.
(** The value it should have: for every thrice differentiable curve that starts regularly and conserves mass,
    v_θ''' = 4γ v_r (ρ'' - 1) - 2γ v_r''. *)
Theorem C16_true_v_θ_third : forall inp c, define_conditions inp = Some c ->
  forall y y' y'' ε, twice_differentiable y y' y'' ε -> starts_regularly c y y' ->
  forall y2 y3, (forall θ, Rabs θ < ε -> derivable_pt_lim (fun t => y' t iv_θ) θ (y2 θ)) ->
  derivable_pt_lim y2 0 y3 ->
  forall r2 dr2, (forall θ, Rabs θ < ε -> derivable_pt_lim (fun t => y' t iρ) θ (r2 θ)) ->
  derivable_pt_lim r2 0 dr2 ->
  forall w2 dw2, (forall θ, Rabs θ < ε -> derivable_pt_lim (fun t => y' t iv_r) θ (w2 θ)) ->
  derivable_pt_lim w2 0 dw2 ->
  (forall θ, Rabs θ < ε -> y θ iρ <> 0) ->
  (forall θ, Rabs θ < ε -> mass_conserved (fluid_of (c_γ c) y) 1 θ) ->
  y3 = 4 * c_γ c * c_init_con c iv_r * (y'' iρ - 1) - 2 * c_γ c * y'' iv_r.
Proof. intros. eapply v_θ_third; eassumption. Qed.
Print Assumptions C16_true_v_θ_third.
(** This value is computed, from the computed ρ'' and v_r'', but not the one stored. *)
Theorem C16_computed_partial : forall init_con γ a_0 ηd uE, init_con iv_r <> 0 ->
  let s := taylor_series γ a_0 init_con ηd uE in
  s iv_θ = 4 * γ * init_con iv_r * (s iρ - 1) - 2 * γ * s iv_r.
Proof.
  intros init_con γ a_0 ηd uE Hv s.
  assert (E : s iv_θ = ddderiv_v_θ_midplane (s iρ) (s iv_r) (init_con iv_r) γ) by (unfold s; destruct uE; reflexivity).
  rewrite E. unfold ddderiv_v_θ_midplane. field. exact Hv.
Qed.
Print Assumptions C16_computed_partial.

(** C17. The state after the Taylor jump is the cubic with the initial state and the first, second and third
    order coefficients as value and derivatives at 0, evaluated at the (scaled) stop angle. *)
Theorem C17_taylor_polynomial : forall angles init_con γ a_0 ηd θ_scale uE i,
  exists f f1 f2 f3, cubic_with_derivatives f f1 f2 f3 /\
  f 0 = init_con i /\ f1 0 = get_taylor_first_order init_con γ a_0 i /\
  f2 0 = get_taylor_second_order init_con γ a_0 ηd uE i /\
  f3 0 = get_taylor_third_order init_con γ a_0 ηd uE i /\
  forall t, ts_new_initial_conditions (taylor_jump angles init_con γ a_0 t ηd θ_scale uE) i = f (t / θ_scale).
Proof. exact taylor_jump_cubic. Qed.
Print Assumptions C17_taylor_polynomial.
(** The stored Taylor segment: angle 0 with the initial state, the stop angle with the new initial state. *)
Theorem C17_taylor_segment : forall angles init_con γ a_0 t ηd θ_scale uE, θ_scale <> 0 ->
  let s := taylor_jump angles init_con γ a_0 t ηd θ_scale uE in
  ts_angles s = 0 :: t :: nil /\ ts_params s = init_con :: ts_new_initial_conditions s :: nil /\
  ts_angle_stopped s = t / θ_scale.
Proof.
  intros angles init_con γ a_0 t ηd θ_scale uE Hs s. unfold s, taylor_jump, scaled_to_rad_num, rad_to_scaled_num. simpl.
  split; [|split; reflexivity]. f_equal; [ring|]. f_equal. field. exact Hs.
Qed.
Print Assumptions C17_taylor_segment.

(** C18. Refuted: the grid on which the main integration continues starts strictly after the angle at which its
    starting state was computed. *)
Theorem C18_start_angle_refuted : exists angles init_con γ a_0 t ηd uE a,
  increasing angles /\
  let s := taylor_jump angles init_con γ a_0 t ηd 1 uE in
  hd_error (ts_new_angles s) = Some a /\ a <> ts_angle_stopped s.
Proof.
  exists (0 :: 1 :: 2 :: nil), zeros, 0, 1, (1 / 2), false, false, 1. split; [simpl; lra|].
  unfold taylor_jump, taylor_new_angles, rad_to_scaled_num, angles_gt. simpl.
  repeat (destruct (Rlt_dec _ _); try lra); simpl; split; try reflexivity; lra.
Qed.
Print Assumptions C18_start_angle_refuted.
(** It never starts at the right angle: always strictly later. *)
Theorem C18_start_angle_exact : forall angles init_con γ a_0 t ηd θ_scale uE a,
  let s := taylor_jump angles init_con γ a_0 t ηd θ_scale uE in
  hd_error (ts_new_angles s) = Some a -> ts_angle_stopped s < a /\ In a angles.
Proof.
  intros angles init_con γ a_0 t ηd θ_scale uE a s. unfold s, taylor_jump, taylor_new_angles. simpl.
  destruct (angles_gt _ angles) as [|b l] eqn:E; simpl; [discriminate|]. intros H; inversion H; subst b.
  assert (Hin : In a (angles_gt (rad_to_scaled_num t θ_scale) angles)) by (rewrite E; left; reflexivity).
  apply angles_gt_In in Hin. split; apply Hin.
Qed.
Print Assumptions C18_start_angle_exact.
(** What is right: the remaining grid is exactly the later part of the original one. *)
Theorem C18_remaining_grid_partial : forall angles init_con γ a_0 t ηd θ_scale uE,
  let s := taylor_jump angles init_con γ a_0 t ηd θ_scale uE in
  (forall b, In b (ts_new_angles s) <-> In b angles /\ ts_angle_stopped s < b) /\
  (increasing angles -> increasing (ts_new_angles s)).
Proof.
  intros. unfold s, taylor_jump, taylor_new_angles. simpl. split.
  - intros b. apply angles_gt_In.
  - apply increasing_filter.
Qed.
Print Assumptions C18_remaining_grid_partial.

(** C19. The sonic jump raises v_θ by exactly before + after. *)
Theorem C19_jump_velocity : forall x p angles sic γ a_0 K ηd sc uE before after angles' p',
  jump_across_sonic x p angles sic γ a_0 K ηd sc uE before after = Some (angles', p') ->
  p' iv_θ = p iv_θ + (before + match after with Some a => a | None => before end).
Proof. exact jump_velocity. Qed.
Print Assumptions C19_jump_velocity.
(** Every component moves along the tangent the right-hand side gives, by the angle step to the first new angle. *)
Theorem C19_jump_tangent : forall x p angles sic γ a_0 K ηd sc uE before after angles' p',
  jump_across_sonic x p angles sic γ a_0 K ηd sc uE before after = Some (angles', p') ->
  exists d e, rhs_equation (mk_ode_args γ a_0 K sic sc false ηd false uE None false) x p = Rhs_ok d e /\
  exists a, hd_error angles' = Some a /\ forall i, p' i = p i + d i * (a - x).
Proof.
  intros x p angles sic γ a_0 K ηd sc uE before after angles' p' H.
  destruct (jump_tangent _ _ _ _ _ _ _ _ _ _ _ _ _ _ H) as (d & e & H1 & H2). exists d, e. split; [exact H1|].
  destruct (jump_facts _ _ _ _ _ _ _ _ _ _ _ _ _ _ H) as (d' & e' & dθ & _ & _ & _ & H4 & _).
  exists (x + dθ). split; [rewrite H4; reflexivity|]. apply H2. rewrite H4. reflexivity.
Qed.
Print Assumptions C19_jump_tangent.
(** Without angular scaling the continued grid is increasing, starts at the landing angle and then contains
    exactly the later grid points. *)
Theorem C19_jump_angles : forall x p angles sic γ a_0 K ηd uE before after angles' p',
  jump_across_sonic x p angles sic γ a_0 K ηd 1 uE before after = Some (angles', p') -> increasing angles ->
  increasing angles' /\
  exists a rest, angles' = a :: rest /\ forall b, In b rest <-> In b angles /\ a < b.
Proof. intros. eapply jump_angles; eauto. Qed.
Print Assumptions C19_jump_angles.
(** The jump succeeds exactly for accepted states with nonzero v_θ'. *)
Theorem C19_jump_defined : forall x p angles sic γ a_0 K ηd sc uE before after,
  (exists r, jump_across_sonic x p angles sic γ a_0 K ηd sc uE before after = Some r) <->
  exists d e, rhs_equation (mk_ode_args γ a_0 K sic sc false ηd false uE None false) x p = Rhs_ok d e /\
    d iv_θ <> 0.
Proof.
  intros. unfold jump_across_sonic. cbv zeta.
  destruct (rhs_equation _ x p) as [| |d e] eqn:E.
  - split; [intros [r Hr]; discriminate | intros (d & e & H & _); discriminate].
  - split; [intros [r Hr]; discriminate | intros (d & e & H & _); discriminate].
  - destruct (Req_EM_T (d iv_θ) 0) as [H0|H0].
    + split; [intros [r Hr]; discriminate | intros (d' & e' & H & Hn)]. inversion H; subst. contradiction.
    + split; [intros _; eauto | intros _; eauto].
Qed.
Print Assumptions C19_jump_defined.
Example C19_nonvacuous : exists r,
  jump_across_sonic 0 (state 0 0 1 (-1) 0 (1/2) 1 0 1 0 0) (3 / 4 :: 5 :: nil) zeros 1 1 1 false 1 false (5 / 4) None
  = Some r.
Proof.
  set (p := state 0 0 1 (-1) 0 (1/2) 1 0 1 0 0).
  apply C19_jump_defined. set (o := mk_ode_args 1 1 1 zeros 1 false false false false None false).
  destruct (proj2 (rhs_ok_iff o 0 p)) as (d & e & H); [right; simpl; lra|]. exists d, e. split; [exact H|].
  rewrite (rhs_ok_derivs _ _ _ _ _ H), Rmult_0_l, rhs_v_θ by reflexivity.
  unfold deriv_v_θ_expr. simpl. rewrite tan_0.
  match goal with |- ?t <> 0 => replace t with (5 / 2) by field end. lra.
Qed.

(** C65. Second-order Taylor coefficients.  Right for B_θ (by div B = 0) and E_r (by Faraday's law). *)
Theorem C65_B_θ_second : forall inp c, define_conditions inp = Some c ->
  forall y y' y'' ε, twice_differentiable y y' y'' ε -> starts_regularly c y y' ->
  (forall θ, Rabs θ < ε -> solenoidal (fluid_of (c_γ c) y) 1 θ) ->
  forall ηd uE, y'' iB_θ = get_taylor_second_order (c_init_con c) (c_γ c) (c_a_0 c) ηd uE iB_θ.
Proof. intros. eapply B_θ_second; eassumption. Qed.
Print Assumptions C65_B_θ_second.
Theorem C65_E_r_second : forall inp c, define_conditions inp = Some c -> in_η_O inp + in_η_A inp <> 0 ->
  forall y y' y'' ε, twice_differentiable y y' y'' ε -> starts_regularly c y y' ->
  (forall θ, Rabs θ < ε -> faraday_E_r (c_γ c) θ (y θ) (y' θ)) ->
  forall ηd, y'' iE_r = get_taylor_second_order (c_init_con c) (c_γ c) (c_a_0 c) ηd true iE_r.
Proof. intros. eapply E_r_second; eassumption. Qed.
Print Assumptions C65_E_r_second.
(** Refuted for the density: a curve that satisfies polar momentum and div B = 0 near the midplane, starts
    regularly, and has a different ρ''. *)
Theorem C65_ρ_second_refuted : exists inp c y y' y'' ε ηd uE, define_conditions inp = Some c /\
  twice_differentiable y y' y'' ε /\ starts_regularly c y y' /\
  (forall θ, Rabs θ < ε -> momentum_θ (c_a_0 c) (fluid_of (c_γ c) y) 1 θ) /\
  (forall θ, Rabs θ < ε -> solenoidal (fluid_of (c_γ c) y) 1 θ) /\
  y'' iρ <> get_taylor_second_order (c_init_con c) (c_γ c) (c_a_0 c) ηd uE iρ.
Proof.
  destruct inp_g_ok as (c & Hc & Eg & Ea & _ & _ & _ & E3 & _).
  exists inp_g, c, y_g, y'_g, y''_g, 1, false, true.
  assert (Hst : starts_regularly c y_g y'_g) by (destruct (y_g_starts c Hc); split; assumption).
  assert (Hmom : forall θ, Rabs θ < 1 -> momentum_θ (c_a_0 c) (fluid_of (c_γ c) y_g) 1 θ)
    by (intros θ Ht; rewrite Eg, Ea; apply y_g_equations, Ht).
  split; [exact Hc|]. split; [exact y_g_twice|]. split; [exact Hst|]. split; [exact Hmom|].
  split; [intros θ Ht; rewrite Eg; apply y_g_equations, Ht|].
  rewrite (ρ_second inp_g c Hc _ _ _ _ y_g_twice Hst Hmom), code_dderiv_ρ, Eg, E3. lra.
Qed.
Print Assumptions C65_ρ_second_refuted.
(** The exact defect, for all inputs: the code's ρ'' is too small by γ(1-4γ)v_r²/2. *)
Theorem C65_ρ_second_exact : forall inp c, define_conditions inp = Some c ->
  forall y y' y'' ε, twice_differentiable y y' y'' ε -> starts_regularly c y y' ->
  (forall θ, Rabs θ < ε -> momentum_θ (c_a_0 c) (fluid_of (c_γ c) y) 1 θ) ->
  forall ηd uE, get_taylor_second_order (c_init_con c) (c_γ c) (c_a_0 c) ηd uE iρ =
    y'' iρ - c_γ c * (1 - 4 * c_γ c) * c_init_con c iv_r ^ 2 / 2.
Proof.
  intros inp c Hc y y' y'' ε Hy Hs Hm ηd uE. rewrite (ρ_second inp c Hc _ _ _ _ Hy Hs Hm). apply code_dderiv_ρ.
Qed.
Print Assumptions C65_ρ_second_exact.
Example C65_nonvacuous : exists c, define_conditions inp_g = Some c /\ in_η_O inp_g + in_η_A inp_g <> 0 /\
  twice_differentiable y_g y'_g y''_g 1 /\ starts_regularly c y_g y'_g /\
  (forall θ, Rabs θ < 1 -> solenoidal (fluid_of (c_γ c) y_g) 1 θ) /\
  (forall θ, Rabs θ < 1 -> momentum_θ (c_a_0 c) (fluid_of (c_γ c) y_g) 1 θ) /\
  (forall θ, Rabs θ < 1 -> faraday_E_r (c_γ c) θ (y_g θ) (y'_g θ)).
Proof.
  destruct inp_g_ok as (c & Hc & Eg & Ea & _). exists c. rewrite Eg, Ea.
  split; [exact Hc|]. split; [simpl; lra|]. split; [exact y_g_twice|].
  split; [destruct (y_g_starts c Hc); split; assumption|].
  repeat split; intros θ Ht; apply y_g_equations, Ht.
Qed.

(** The diffusivities follow B²/ρ; their coefficients are right up to the defect of ρ'' (and with constant diffusivities they are 0). *)
Theorem C65_η_second_partial : forall inp c, define_conditions inp = Some c ->
  forall y y' y'' ε, twice_differentiable y y' y'' ε -> starts_regularly c y y' ->
  forall X, In X DIFFUSIVE_INDEXES ->
  (forall θ, Rabs θ < ε -> solenoidal (fluid_of (c_γ c) y) 1 θ) ->
  (forall θ, Rabs θ < ε -> y θ iρ <> 0) ->
  (forall θ, Rabs θ < ε -> y θ X = c_init_con c X * ((y θ iB_r ^ 2 + y θ iB_φ ^ 2 + y θ iB_θ ^ 2) / y θ iρ)) ->
  forall uE, let C := get_taylor_second_order (c_init_con c) (c_γ c) (c_a_0 c) true uE in
  C X = y'' X + c_init_con c X * (y'' iρ - C iρ).
Proof. intros. eapply η_second; eassumption. Qed.
Print Assumptions C65_η_second_partial.
Theorem C65_η_constant : forall init_con γ a_0 uE X, In X DIFFUSIVE_INDEXES ->
  get_taylor_second_order init_con γ a_0 false uE X = 0.
Proof.
  intros init_con γ a_0 uE X HX.
  assert (E : get_taylor_second_order init_con γ a_0 false uE X = 0 * init_con X)
    by (simpl in HX; destruct HX as [<- | [<- | [<- | []]]]; destruct uE; reflexivity).
  rewrite E. ring.
Qed.
Print Assumptions C65_η_constant.
Definition y_h (θ : R) : vec := upd iη_O (1 * (((y_g θ iB_r) ^ 2 + (y_g θ iB_φ) ^ 2 + (y_g θ iB_θ) ^ 2) / y_g θ iρ)) (y_g θ).
Definition y'_h (θ : R) : vec := upd iη_O (2 * y_g θ iB_θ * y'_g θ iB_θ / y_g θ iρ - y_g θ iB_θ ^ 2 * y'_g θ iρ / (y_g θ iρ * y_g θ iρ)) (y'_g θ).
Definition y''_h : vec := upd iη_O (2 - 1 / 1024) y''_g.
Example C65_η_nonvacuous : exists c, define_conditions inp_g = Some c /\ twice_differentiable y_h y'_h y''_h 1 /\ starts_regularly c y_h y'_h /\
  In iη_O DIFFUSIVE_INDEXES /\ (forall θ, Rabs θ < 1 -> solenoidal (fluid_of (c_γ c) y_h) 1 θ) /\ (forall θ, Rabs θ < 1 -> y_h θ iρ <> 0) /\
  (forall θ, Rabs θ < 1 -> y_h θ iη_O = c_init_con c iη_O * ((y_h θ iB_r ^ 2 + y_h θ iB_φ ^ 2 + y_h θ iB_θ ^ 2) / y_h θ iρ)).
Proof.
  destruct inp_g_ok as (c & Hc & Eg & Ea & E0 & E1 & E2 & E3 & E4 & E5 & E6 & E8 & E9 & E10 & E7). exists c.
  assert (Hr : forall θ, y_g θ iρ <> 0) by (intro θ; apply Rgt_not_eq, exp_pos).
  pose proof y_g_twice as (_ & D1 & D2). destruct (y_g_starts c Hc) as [S1 S2].
  assert (V0 : y_g 0 iB_θ = 1) by (simpl; rewrite cos_0; lra).
  assert (V1 : y_g 0 iρ = 1) by (simpl; replace (0 * (0 * 1) / 2 * (1 / 1024)) with 0 by field; apply exp_0).
  assert (V2 : y'_g 0 iB_θ = 0) by (simpl; rewrite tan_0; ring).
  assert (V3 : y'_g 0 iρ = 0) by (simpl; ring).
  assert (U : forall j, (j < ODE_LEN)%nat -> j <> iη_O -> (forall t, y_h t j = y_g t j) /\ (forall t, y'_h t j = y'_g t j) /\ y''_h j = y''_g j).
  { intros j _ Hj. unfold y_h, y'_h, y''_h, upd. destruct (Nat.eqb_spec j iη_O) as [E|E]; [congruence|]. repeat split. }
  assert (O1 : forall t, y_h t iη_O = 1 * (((y_g t iB_r) ^ 2 + (y_g t iB_φ) ^ 2 + (y_g t iB_θ) ^ 2) / y_g t iρ)) by reflexivity.
  assert (O2 : forall t, y'_h t iη_O = 2 * y_g t iB_θ * y'_g t iB_θ / y_g t iρ - y_g t iB_θ ^ 2 * y'_g t iρ / (y_g t iρ * y_g t iρ)) by reflexivity.
  split; [exact Hc|]. split; [split; [lra|]; split|]; [| |split; [split|split; [left; reflexivity|]; split; [|split]]].
  - intros θ i Ht Hi. destruct (Nat.eq_dec i iη_O) as [->|Ne].
    + rewrite O2. eapply dpl_ext; [intro t; symmetry; apply O1|].
      pose proof (D1 θ iB_r Ht ltac:(lt11)). pose proof (D1 θ iB_φ Ht ltac:(lt11)). pose proof (D1 θ iB_θ Ht ltac:(lt11)). pose proof (D1 θ iρ Ht ltac:(lt11)).
      dlim_to; [apply Hr|]. assert (Q0 : y_g θ iB_r = 0) by reflexivity. assert (Q1 : y_g θ iB_φ = 0) by reflexivity.
      assert (Q2 : y'_g θ iB_r = 0) by reflexivity. assert (Q3 : y'_g θ iB_φ = 0) by reflexivity. rewrite ?Q0, ?Q1, ?Q2, ?Q3. unfold Rsqr. specialize (Hr θ).
      generalize dependent (y_g θ iρ). generalize (y_g θ iB_θ) (y'_g θ iB_θ) (y'_g θ iρ). intros. simpl. field. assumption.
    + destruct (U i Hi Ne) as (A & B & _). rewrite B. eapply dpl_ext; [intro t; symmetry; apply A|]. apply D1; assumption.
  - intros i Hi. destruct (Nat.eq_dec i iη_O) as [->|Ne].
    + eapply dpl_ext; [intro t; symmetry; apply O2|].
      assert (H0 : Rabs 0 < 1) by (rewrite Rabs_R0; lra).
      pose proof (D1 0 iB_θ H0 ltac:(lt11)). pose proof (D1 0 iρ H0 ltac:(lt11)). pose proof (D2 iB_θ ltac:(lt11)). pose proof (D2 iρ ltac:(lt11)).
      dlim_to; try apply Hr; try (apply Rmult_integral_contrapositive_currified; apply Hr).
      rewrite V0, V1, V2, V3. assert (W1 : y''_g iB_θ = 1) by reflexivity. assert (W2 : y''_g iρ = 1 / 1024) by reflexivity. rewrite W1, W2.
      change (y''_h iη_O) with (2 - 1 / 1024). unfold Rsqr. simpl. field.
    + destruct (U i Hi Ne) as (_ & B & C). rewrite C. eapply dpl_ext; [intro t; symmetry; apply B|]. apply D2; assumption.
  - intros i Hi. destruct (Nat.eq_dec i iη_O) as [->|Ne]; [|rewrite (proj1 (U i Hi Ne)); apply S1, Hi].
    rewrite O1, V0, V1, E8. change (y_g 0 iB_r) with 0. change (y_g 0 iB_φ) with 0. field.
  - intros i Hi. destruct (Nat.eq_dec i iη_O) as [->|Ne]; [|rewrite (proj1 (proj2 (U i Hi Ne))); apply S2, Hi].
    rewrite O2, V0, V1, V2, V3. change (get_taylor_first_order (c_init_con c) (c_γ c) (c_a_0 c) iη_O) with 0. field.
  - intros θ Ht. rewrite Eg. exact (proj1 (y_g_equations θ Ht)).
  - intros θ _. apply Hr.
  - intros θ _. rewrite E8. reflexivity.
Qed.

(** C66. Angular scaling.  The system without scaling: *)
Definition unscaled (o : ode_args) : ode_args :=
  mk_ode_args (oa_γ o) (oa_a_0 o) (oa_norm_kepler_sq o) (oa_init_con o) 1 (oa_with_taylor o) (oa_η_derivs o)
    (oa_store_internal o) (oa_use_E_r o) (oa_deriv_v_θ_func o) (oa_derivs_post_solution o).
(** A curve following the scaled system, read in physical angle, moves with 1/θ_scale times the derivatives of the
    unscaled system. *)
Theorem C66_angular_scaling_exact : forall o Y x, oa_θ_scale o <> 0 -> solves_at o Y x ->
  let s := oa_θ_scale o in
  let y := fun θ => Y (θ / s) in
  exists d e, rhs_equation (unscaled o) (x * s) (y (x * s)) = Rhs_ok d e /\
  forall i, (i < ODE_LEN)%nat -> derivable_pt_lim (fun θ => y θ i) (x * s) (d i / s).
Proof.
  intros o Y x Hs (d & e & Hok & Hd) s y.
  assert (Ey : y (x * s) = Y x) by (unfold y; f_equal; field; exact Hs).
  rewrite Ey. assert (Eq : rhs_equation (unscaled o) (x * s) (Y x) = rhs_equation o x (Y x)).
  { unfold rhs_equation, scaled_to_rad_num. simpl oa_θ_scale. rewrite Rmult_1_r. reflexivity. }
  rewrite Eq. exists d, e. split; [exact Hok|]. intros i Hi. unfold y.
  eapply dpl_eq.
  - apply (derivable_pt_lim_comp (fun θ => θ / s) (fun x => Y x i) (x * s) (/ s) (d i)).
    + unfold Rdiv. dlim_to. ring.
    + replace (x * s / s) with x by (field; exact Hs). apply Hd, Hi.
  - unfold Rdiv. ring.
Qed.
Print Assumptions C66_angular_scaling_exact.
Theorem C66_angular_scaling_partial : forall o Y x, oa_θ_scale o = 1 -> solves_at o Y x ->
  solves_at (unscaled o) (fun θ => Y (θ / 1)) (x * 1).
Proof.
  intros o Y x Hs Hsol. destruct (C66_angular_scaling_exact o Y x) as (d & e & H1 & H2); [lra | exact Hsol|].
  rewrite Hs in H1, H2. exists d, e. split; [exact H1|]. intros i Hi. eapply dpl_eq; [apply H2, Hi | field].
Qed.
Print Assumptions C66_angular_scaling_partial.
Theorem C66_angular_scaling_refuted : exists o Y x, 0 < oa_θ_scale o /\ solves_at o Y x /\
  ~ solves_at (unscaled o) (fun θ => Y (θ / oa_θ_scale o)) (x * oa_θ_scale o).
Proof.
  set (p := state 0 0 1 (-1) 0 (1/2) 1 0 1 0 0).
  set (o := mk_ode_args 1 1 1 zeros 2 false false false false None false).
  destruct (proj2 (rhs_ok_iff o 0 p)) as (d & e & H); [right; simpl; lra|].
  assert (Hv : d iv_θ = 5 / 2).
  { rewrite (rhs_ok_derivs _ _ _ _ _ H), Rmult_0_l, rhs_v_θ by reflexivity.
    unfold deriv_v_θ_expr. simpl. rewrite tan_0. field. }
  destruct (tangent_solves _ _ _ _ _ H) as [Hy Hs]. set (Y := fun t i => p i + (t - 0) * d i) in *.
  exists o, Y, 0. split; [simpl; lra|]. split; [exact Hs|].
  intros (d1 & e1 & Hok1 & Hd1).
  destruct (C66_angular_scaling_exact o Y 0) as (d2 & e2 & Hok2 & Hd2); [simpl; lra | exact Hs|].
  cbv zeta in Hok2. rewrite Hok1 in Hok2. injection Hok2 as E _. subst d2.
  assert (H5 : (iv_θ < ODE_LEN)%nat) by (unfold iv_θ, ODE_LEN; lia).
  pose proof (uniqueness_limite _ _ _ _ (Hd1 iv_θ H5) (Hd2 iv_θ H5)) as E.
  assert (E0 : Y (0 * oa_θ_scale o / oa_θ_scale o) = p).
  { replace (0 * oa_θ_scale o / oa_θ_scale o) with 0 by (simpl; field). exact Hy. }
  rewrite E0 in Hok1.
  assert (Ed : d1 iv_θ = d iv_θ).
  { rewrite (rhs_ok_derivs _ _ _ _ _ Hok1), (rhs_ok_derivs _ _ _ _ _ H).
    simpl oa_θ_scale. rewrite !Rmult_0_l. reflexivity. }
  rewrite Ed, Hv in E. simpl in E. lra.
Qed.
Print Assumptions C66_angular_scaling_refuted.
(** With angular scaling the grid after the jump is cut at the wrong place: already scaled angles are compared
    with the landing angle scaled a second time, so points behind the landing angle are kept. *)
Theorem C66_jump_scaled_refuted : exists x p angles sic γ a_0 K ηd sc uE before after angles' p',
  0 < sc /\ increasing angles /\
  jump_across_sonic x p angles sic γ a_0 K ηd sc uE before after = Some (angles', p') /\ ~ increasing angles'.
Proof.
  set (p := state 0 0 1 (-1) 0 (1/2) 1 0 1 0 0).
  set (o := mk_ode_args 1 1 1 zeros 2 false false false false None false).
  assert (Hok : exists e, rhs_equation o 0 p = Rhs_ok (fst (rhs_derivs o 0 p)) e).
  { destruct (proj2 (rhs_ok_iff o 0 p)) as (d & e & H); [right; simpl; lra|].
    exists e. rewrite H. f_equal. rewrite (rhs_ok_derivs _ _ _ _ _ H), Rmult_0_l. reflexivity. }
  destruct Hok as [e Hok].
  assert (Hv : fst (rhs_derivs o 0 p) iv_θ = 5 / 2).
  { rewrite rhs_v_θ by reflexivity. unfold deriv_v_θ_expr. simpl. rewrite tan_0. field. }
  destruct (jump_across_sonic 0 p (3 / 4 :: 5 :: nil) zeros 1 1 1 false 2 false (5 / 4) None)
    as [[angles' p']|] eqn:E.
  - exists 0, p, (3 / 4 :: 5 :: nil), zeros, 1, 1, 1, false, 2, false, (5 / 4), None, angles', p'.
    split; [lra|]. split; [simpl; lra|]. split; [exact E|].
    destruct (jump_facts _ _ _ _ _ _ _ _ _ _ _ _ _ _ E) as (d' & e' & dθ & H1 & H2 & H3 & H4 & _).
    fold o in H1. apply rhs_ok_derivs in H1. rewrite Rmult_0_l in H1. rewrite H1, Hv in H3. clear H1 H2. subst dθ angles'.
    unfold angles_gt. simpl. destruct (Rlt_dec _ (3 / 4)) as [Hl|Hl]; [|exfalso; apply Hl; lra].
    simpl. intros [H _]. lra.
  - exfalso. unfold jump_across_sonic in E. cbv zeta in E. fold o in E. rewrite Hok in E.
    destruct (Req_EM_T _ 0) as [H0|H0]; [rewrite Hv in H0; lra | discriminate].
Qed.
Print Assumptions C66_jump_scaled_refuted.

(** C83. The angles: as many as asked for, the first is the start, the last is the stop, evenly spaced, in radians. *)
Theorem C83_angles : forall inp c, define_conditions inp = Some c ->
  let n := in_num_angles inp in
  length (c_angles c) = n /\
  ((1 <= n)%nat -> nth 0 (c_angles c) 0 = in_start inp * PI / 180) /\
  ((2 <= n)%nat -> nth (n - 1) (c_angles c) 0 = in_stop inp * PI / 180) /\
  (forall k, (S k < n)%nat -> nth (S k) (c_angles c) 0 - nth k (c_angles c) 0 = (in_stop inp - in_start inp) * PI / 180 / INR (n - 1)) /\
  (in_start inp < in_stop inp -> forall i j, (i < j < n)%nat -> nth i (c_angles c) 0 < nth j (c_angles c) 0).
Proof.
  intros inp c Hc n.
  assert (EA : c_angles c = map radians (linspace (in_start inp) (in_stop inp) n)).
  { unfold define_conditions in Hc. destruct (v_φ_boundary_func _ _ _ _ _ _); [|discriminate]. injection Hc as <-. reflexivity. }
  assert (EN : forall k, (k < n)%nat -> nth k (c_angles c) 0 = (in_start inp + INR k * ((in_stop inp - in_start inp) / INR (n - 1))) * PI / 180).
  { intros k Hk. rewrite EA. unfold linspace. rewrite map_map.
    rewrite nth_indep with (d' := (fun k => radians (in_start inp + INR k * ((in_stop inp - in_start inp) / INR (n - 1)))) 0%nat) by (rewrite map_length, seq_length; exact Hk).
    rewrite (map_nth (fun k => radians (in_start inp + INR k * ((in_stop inp - in_start inp) / INR (n - 1))))), seq_nth by exact Hk. reflexivity. }
  repeat split.
  - rewrite EA. unfold linspace. rewrite !map_length, seq_length. reflexivity.
  - intro H. rewrite EN by lia. simpl INR. rewrite Rmult_0_l, Rplus_0_r. reflexivity.
  - intro H. rewrite EN by lia. assert (INR (n - 1) <> 0) by (apply not_0_INR; lia). field. assumption.
  - intros k Hk. rewrite !EN by lia. rewrite S_INR. assert (INR (n - 1) <> 0) by (apply not_0_INR; lia). field. assumption.
  - intros Hlt i j [Hij Hj]. rewrite !EN by lia. assert (0 < INR (n - 1)) by (apply lt_0_INR; lia). assert (INR i < INR j) by (apply lt_INR, Hij).
    assert (0 < (in_stop inp - in_start inp) / INR (n - 1)) by (apply Rdiv_lt_0_compat; lra).
    pose proof PI_RGT_0. assert (INR i * ((in_stop inp - in_start inp) / INR (n - 1)) < INR j * ((in_stop inp - in_start inp) / INR (n - 1))) by (apply Rmult_lt_compat_r; assumption).
    unfold Rdiv at 1 3. apply Rmult_lt_compat_r; [lra|]. apply Rmult_lt_compat_r; lra.
Qed.
Print Assumptions C83_angles.
Example C83_nonvacuous : exists c, define_conditions inp_g = Some c /\ (2 <= in_num_angles inp_g)%nat /\ in_start inp_g < in_stop inp_g.
Proof. destruct inp_g_ok as (c & Hc & _). exists c. split; [exact Hc|]. simpl. split; [lia | lra]. Qed.
