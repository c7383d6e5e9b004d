(** Concrete inputs and curves meeting the hypotheses of the midplane theorems. *)
From Coq Require Import Reals List Lra Lia.
From Verif Require Import Model_Index Model_Deriv Model_Midplane Model_Ode Lib_Deriv
  Spec_MHD Spec_Ode Spec_Midplane Proofs_Ode Proofs_MHD Proofs_Midplane Proofs_Taylor.
Open Scope R_scope.

(** An accreting disc: v_r = -1, a_0 = 1, K = 25/4, γ = 0, Ohmic diffusivity 1. *)
Definition inp_ex (b : bool) : cond_input := mk_cond_input 1 1 (2 / 5) 0 1 0 0 b 0 5 100.
Lemma inp_ex_radicand : v_φ_radicand (- (1)) 0 (1 + 0) (1 / (2 / 5) ^ 2) (1 ^ 2) 0 = (3 / 2) ^ 2.
Proof. unfold v_φ_radicand. field. Qed.
Lemma inp_ex_ok : forall b, exists c, define_conditions (inp_ex b) = Some c /\ c_init_con c iv_φ = 3 / 2 /\
  c_init_con c iv_r = -1 /\ c_γ c = 0 /\ c_a_0 c = 1 /\
  c_init_con c iη_O = 1 /\ c_init_con c iη_A = 0 /\ c_init_con c iη_H = 0.
Proof.
  intros b. unfold define_conditions, v_φ_boundary_func. cbn [inp_ex in_v_rin_on_c_s in_v_a_on_c_s in_c_s_on_v_k in_γ in_η_O in_η_A in_η_H].
  rewrite inp_ex_radicand. destruct (Rlt_dec _ _) as [H|H]; [lra|].
  eexists. split; [reflexivity|]. rewrite sqrt_pow2 by lra.
  destruct b; simpl; repeat split; try reflexivity; try lra; cbv [upd Nat.eqb iE_r iB_φ_prime iη_H iη_A iη_O iρ iv_θ iv_φ iv_r]; field.
Qed.
(** An input for which no rotation speed balances the forces: the disc is too thick. *)
Definition inp_bad : cond_input := mk_cond_input 1 1 1 0 1 0 0 false 0 5 100.
Lemma inp_bad_fails : define_conditions inp_bad = None.
Proof.
  unfold define_conditions, v_φ_boundary_func, v_φ_radicand.
  cbn [inp_bad in_v_rin_on_c_s in_v_a_on_c_s in_c_s_on_v_k in_γ in_η_O in_η_A in_η_H].
  destruct (Rlt_dec _ _) as [H|H]; [reflexivity|]. exfalso. apply H. lra.
Qed.

(** The coefficient computed for v_θ''' and the one stored there. *)
Lemma third_order_ex : forall b ηd c, define_conditions (inp_ex b) = Some c ->
  taylor_series (c_γ c) (c_a_0 c) (c_init_con c) ηd b iv_θ = 0 /\
  get_taylor_third_order (c_init_con c) (c_γ c) (c_a_0 c) ηd b iv_θ <> 0.
Proof.
  intros b ηd c Hc. destruct (inp_ex_ok b) as (c' & Hc' & Ev & Er & Eg & Ea & EO & EA & EH).
  rewrite Hc in Hc'. inversion Hc'. subst c'. clear Hc'.
  split.
  - transitivity (ddderiv_v_θ_midplane (taylor_series (c_γ c) (c_a_0 c) (c_init_con c) ηd b iρ)
      (taylor_series (c_γ c) (c_a_0 c) (c_init_con c) ηd b iv_r) (c_init_con c iv_r) (c_γ c)).
    + destruct b; reflexivity.
    + rewrite Eg. unfold ddderiv_v_θ_midplane. ring.
  - assert (E : get_taylor_third_order (c_init_con c) (c_γ c) (c_a_0 c) ηd b iv_θ =
      taylor_series (c_γ c) (c_a_0 c) (c_init_con c) ηd b iv_φ) by reflexivity.
    rewrite E. clear E.
    unfold taylor_series. rewrite Ev, Er, Eg, Ea, EO, EA, EH. cbv zeta.
    match goal with |- ?t <> 0 => let t' := eval cbn [upd iη_O iη_A iη_H iE_r iB_φ_prime iB_φ iB_r iB_θ iv_r iv_φ iv_θ iρ Nat.eqb] in t in change t with t' end.
    destruct b; cbn [upd iη_O iη_A iη_H iE_r iB_φ_prime iB_φ iB_r iB_θ iv_r iv_φ iv_θ iρ Nat.eqb];
    destruct ηd; unfold dderiv_v_φ_midplane, dderiv_v_r_midplane, Y_6_func, Y_5_func, Y_4_func, Y_3_func, Y_2_func, Y_1_func,
      dderiv_E_r_midplane, dderiv_Z_5_midplane, midplane_Z_5_func, midplane_deriv_A_func, midplane_C_func,
      dderiv_b_θ_midplane, dderiv_η_skw_midplane, deriv_B_r_midplane_func, B_φ_prime_boundary_func;
    match goal with |- ?t <> 0 => intros HH; field_simplify in HH; lra end.
Qed.

(** A curve through the midplane that satisfies div B = 0 and polar momentum exactly: no B_r, B_φ or rotation,
    B_θ = 1/cos θ, v_θ linear, Gaussian density. *)
Definition inp_g : cond_input := mk_cond_input (1 / 8) 1 (sqrt (1 / (305 / 128))) (1 / 8) 1 0 0 true 0 5 100.
Lemma inp_g_ok : exists c, define_conditions inp_g = Some c /\
  c_γ c = 1 / 8 /\ c_a_0 c = 1 /\
  c_init_con c iB_r = 0 /\ c_init_con c iB_φ = 0 /\ c_init_con c iB_θ = 1 /\ c_init_con c iv_r = - (1 / 8) /\
  c_init_con c iv_φ = 0 /\ c_init_con c iv_θ = 0 /\ c_init_con c iρ = 1 /\
  c_init_con c iη_O = 1 /\ c_init_con c iη_A = 0 /\ c_init_con c iη_H = 0 /\
  c_init_con c iE_r = 0.
Proof.
  assert (ER : v_φ_radicand (- (1 / 8)) 0 (1 + 0) (1 / sqrt (1 / (305 / 128)) ^ 2) (1 ^ 2) (1 / 8) = 0).
  { unfold v_φ_radicand. rewrite pow2_sqrt by lra. field. }
  unfold define_conditions, v_φ_boundary_func.
  cbn [inp_g in_v_rin_on_c_s in_v_a_on_c_s in_c_s_on_v_k in_γ in_η_O in_η_A in_η_H in_use_E_r].
  rewrite ER. destruct (Rlt_dec _ _) as [H|H]; [lra|].
  eexists. split; [reflexivity|]. rewrite sqrt_0.
  repeat split; cbn; try lra. unfold E_r_boundary_func. field.
Qed.
Definition y_g (θ : R) : vec := fun i =>
  match i with
  | 2%nat => / cos θ | 3%nat => - (1 / 8) | 5%nat => θ / 32 | 6%nat => exp (θ ^ 2 / 2 * (1 / 1024)) | 8%nat => 1 | _ => 0
  end.
Definition y'_g (θ : R) : vec := fun i =>
  match i with
  | 2%nat => / cos θ * tan θ | 5%nat => / 32 | 6%nat => exp (θ ^ 2 / 2 * (1 / 1024)) * (θ * (1 / 1024)) | _ => 0
  end.
Definition y''_g : vec := fun i => match i with 2%nat => 1 | 6%nat => 1 / 1024 | _ => 0 end.

Lemma y_g_deriv : forall θ i, cos θ <> 0 -> derivable_pt_lim (fun t => y_g t i) θ (y'_g θ i).
Proof.
  intros θ i Hc.
  assert (Hinv : derivable_pt_lim (fun t => / cos t) θ (/ cos θ * tan θ)).
  { apply dpl_ext with (f := fun t => 1 / cos t); [intros t; unfold Rdiv; ring|].
    dlim_to; [assumption|]. unfold Rsqr, tan. field. assumption. }
  destruct i as [|[|[|[|[|[|[|i]]]]]]]; simpl; try apply dpl_const; try exact Hinv.
  - eapply dpl_eq; [apply (dpl_div (fun t => t) (fun t => 32)); [lra | apply dpl_id | apply dpl_const]|]. unfold Rsqr. field.
  - apply (dpl_eq (fun t => exp (t ^ 2 / 2 * (1 / 1024))) θ
      (exp (θ ^ 2 / 2 * (1 / 1024)) * (θ * (1 / 1024)))); [|simpl; ring].
    eapply dpl_eq; [apply dpl_exp_comp; dlim_to; [lra|]; reflexivity|].
    f_equal. unfold Rsqr. simpl. field.
Qed.
Lemma cos_near : forall θ, Rabs θ < 1 -> cos θ <> 0.
Proof.
  intros θ H. apply Rabs_def2 in H. apply Rgt_not_eq, cos_gt_0; pose proof PI2_1; lra.
Qed.
Lemma y_g_twice : twice_differentiable y_g y'_g y''_g 1.
Proof.
  split; [lra|]. split.
  - intros θ i Hθ _. apply y_g_deriv, cos_near, Hθ.
  - intros i _. destruct i as [|[|[|[|[|[|[|i]]]]]]]; simpl; try apply dpl_const.
    + pose proof (y_g_deriv 0 2 ltac:(rewrite cos_0; lra)) as D. simpl in D.
      eapply dpl_eq; [apply (dpl_mult (fun t => / cos t) (fun t => tan t)); [exact D | apply dpl_tan; rewrite cos_0; lra]|].
      rewrite tan_0, cos_0. field.
    + assert (D : derivable_pt_lim (fun t => exp (t ^ 2 / 2 * (1 / 1024))) 0 0).
      { eapply dpl_eq; [apply (y_g_deriv 0 6); rewrite cos_0; lra|]. simpl. ring. }
      eapply dpl_eq; [apply (dpl_mult (fun t => exp (t ^ 2 / 2 * (1 / 1024))) (fun t => t * (1 / 1024))); [exact D | dlim]|].
      replace (0 ^ 2 / 2 * (1 / 1024)) with 0 by field. rewrite exp_0. ring.
Qed.
Lemma y_g_starts : forall c, define_conditions inp_g = Some c ->
  (forall i, (i < ODE_LEN)%nat -> y_g 0 i = c_init_con c i) /\
  forall i, (i < ODE_LEN)%nat -> y'_g 0 i = get_taylor_first_order (c_init_con c) (c_γ c) (c_a_0 c) i.
Proof.
  intros c Hc. destruct inp_g_ok as (c' & Hc' & Eg & Ea & E0 & E1 & E2 & E3 & E4 & E5 & E6 & E8 & E9 & E10 & E7).
  rewrite Hc in Hc'. inversion Hc'. subst c'. clear Hc'.
  split; intros i Hi.
  - destruct i as [|[|[|[|[|[|[|[|[|[|[|i]]]]]]]]]]]; [simpl; symmetry; try assumption..|]; try (exfalso; unfold ODE_LEN in Hi; lia).
    + change (c_init_con c iB_θ = / cos 0). rewrite E2, cos_0. lra.
    + change (c_init_con c iv_θ = 0 / 32). rewrite E5. lra.
    + change (c_init_con c iρ = exp (0 ^ 2 / 2 * (1 / 1024))). rewrite E6.
      replace (0 ^ 2 / 2 * (1 / 1024)) with 0 by field. symmetry. apply exp_0.
  - assert (F0 : get_taylor_first_order (c_init_con c) (c_γ c) (c_a_0 c) iB_r = 0).
    { unfold get_taylor_first_order. change (upd iv_θ ?x (upd iB_φ ?z (upd iB_r ?t ?f)) iB_r) with t.
      rewrite E3, E4, E8, E9, E10, Eg, Ea. unfold deriv_B_r_midplane_func, B_φ_prime_boundary_func. field. }
    assert (F1 : get_taylor_first_order (c_init_con c) (c_γ c) (c_a_0 c) iB_φ = 0).
    { unfold get_taylor_first_order. change (upd iv_θ ?x (upd iB_φ ?z ?f) iB_φ) with z.
      rewrite E3, E4, Ea. unfold B_φ_prime_boundary_func. field. }
    assert (F5 : get_taylor_first_order (c_init_con c) (c_γ c) (c_a_0 c) iv_θ = 1 / 32).
    { unfold get_taylor_first_order. change (upd iv_θ ?x ?f iv_θ) with x. rewrite E3, Eg. field. }
    destruct i as [|[|[|[|[|[|[|[|[|[|[|i]]]]]]]]]]]; [first [exact (eq_sym F0) | exact (eq_sym F1) | reflexivity | idtac]..|].
    + match goal with |- ?a = ?b => change b with 0 end. simpl. rewrite tan_0. ring.
    + etransitivity; [|exact (eq_sym F5)]. simpl. lra.
    + unfold get_taylor_first_order. match goal with |- ?a = ?b => change b with 0 end. simpl. ring.
    + unfold ODE_LEN in Hi. lia.
Qed.
Lemma y_g_equations : forall θ, Rabs θ < 1 ->
  solenoidal (fluid_of (1 / 8) y_g) 1 θ /\ momentum_θ 1 (fluid_of (1 / 8) y_g) 1 θ /\
  faraday_E_r (1 / 8) θ (y_g θ) (y'_g θ).
Proof.
  intros θ Hθ. pose proof (cos_near θ Hθ) as Hc. split; [|split].
  - apply solenoidal_intro with (d := y'_g θ); [intros i _; apply y_g_deriv; assumption | assumption |].
    simpl. ring.
  - apply momentum_θ_intro with (d := y'_g θ); [intros i _; apply y_g_deriv; assumption | assumption |].
    simpl. field. assumption.
  - unfold faraday_E_r, ohm_E_θ, ohm_E, cross_r, cross_φ, cross_θ. simpl.
    unfold Rdiv. rewrite !Rmult_0_l, Ropp_0. ring.
Qed.
