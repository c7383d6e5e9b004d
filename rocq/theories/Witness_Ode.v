(** Concrete states, curves and counterexamples for the ODE theorems. *)
From Coq Require Import Reals Lra Lia List.
From Verif Require Import Model_Index Model_Deriv Model_Midplane Model_Ode Model_Validate
  Lib_Deriv Spec_MHD Spec_Ode Spec_Fields Proofs_Ode Proofs_MHD Proofs_Fields.
Open Scope R_scope.

(** A generic state: B = (1,2,2) (so |B| = 3), v = (-1,10,1/2), ρ = 3, slot 7 = 5, η = (1,1/2,1/4). *)
Definition p_ex : vec := state 1 2 2 (-1) 10 (1 / 2) 3 5 1 (1 / 2) (1 / 4).
Definition o_ex (use_E_r : bool) : ode_args :=
  mk_ode_args (1 / 8) 2 100 (state 0 0 1 (-1) 9 0 1 3 1 (1 / 2) (1 / 4)) 1 false true true use_E_r None false.

Lemma p_ex_ok : forall b x, exists e, rhs_equation (o_ex b) x p_ex = Rhs_ok (fst (rhs_derivs (o_ex b) x p_ex)) e.
Proof. intros. apply rhs_accept; unfold p_ex, state; simpl; lra. Qed.
Lemma p_ex_B : B_nonzero p_ex.
Proof. unfold B_nonzero, p_ex, state; simpl; lra. Qed.
Lemma p_ex_diffusive : diffusive p_ex.
Proof. unfold diffusive, p_ex, state; simpl; lra. Qed.
Lemma p_ex_v : p_ex iv_θ <> 0 /\ p_ex iρ <> 0 /\ p_ex iv_θ ^ 2 <> 1.
Proof. unfold p_ex, state; simpl; repeat split; lra. Qed.

(** A curve through that state that solves the system there, at the angle 1/2. *)
Lemma curve_ex : forall b, exists y, y (1 / 2) = p_ex /\ solves_at (o_ex b) y (1 / 2) /\ cos (1 / 2) <> 0.
Proof.
  intros b. destruct (p_ex_ok b (1 / 2)) as [e He].
  destruct (tangent_solves _ _ _ _ _ He) as [H1 H2]. eexists. split; [|split; [exact H2|]]; [exact H1|].
  apply Rgt_not_eq, cos_gt_0; pose proof PI2_1; lra.
Qed.

(** ** A solution on a whole interval (interpolated v_θ' = 0, as in the interpolation across the sonic point) *)
Definition o_int (η_derivs : bool) : ode_args :=
  mk_ode_args (1 / 4) 1 (9 / 4) (state 0 0 1 0 0 (1 / 2) 1 0 1 0 0) 1 false η_derivs true false
    (Some (fun _ => 0)) false.
Definition y_int (η_derivs : bool) (t : R) : vec :=
  state 0 0 (1 / cos t) 0 0 (1 / 2) (1 / cos t) 0 (if η_derivs then 1 / cos t else 1) 0 0.

Lemma dpl_inv_cos : forall x, cos x <> 0 -> derivable_pt_lim (fun t => 1 / cos t) x (1 / cos x * tan x).
Proof. intros x Hc. eapply dpl_eq; [dlim; assumption|]. unfold tan, Rsqr. field. assumption. Qed.

Lemma y_int_solves_at : forall b x, 0 < cos x -> solves_at (o_int b) (y_int b) x.
Proof.
  intros b x Hc.
  assert (Hi : 0 < 1 / cos x) by (apply Rdiv_lt_0_compat; lra).
  destruct (rhs_accept (o_int b) x (y_int b x)) as [e He]; [reflexivity | simpl; lra | simpl; lra |].
  exists (fst (rhs_derivs (o_int b) x (y_int b x))), e. split; [exact He|].
  set (d := fst (rhs_derivs (o_int b) x (y_int b x))).
  assert (Hd1 : d iB_φ = 0) by reflexivity.
  assert (Hd0 : d iB_r = 0).
  { unfold d. rewrite rhs_B_r. fold d. rewrite Hd1. unfold deriv_B_r_func. simpl. unfold Rdiv. ring. }
  assert (Hd2 : d iB_θ = 1 / cos x * tan x).
  { unfold d. rewrite rhs_B_θ. simpl. ring. }
  assert (Hd5 : d iv_θ = 0) by reflexivity.
  assert (Hk : sqrt (9 / 4) = 3 / 2).
  { replace (9 / 4) with (3 / 2 * (3 / 2)) by field. apply sqrt_square; lra. }
  assert (Hd3 : d iv_r = 0).
  { unfold d. rewrite rhs_v_r by reflexivity. fold d. rewrite Hd0. unfold deriv_v_r_normal_expr.
    simpl. rewrite Hk. field. lra. }
  assert (Hd4 : d iv_φ = 0).
  { unfold d. rewrite rhs_v_φ by reflexivity. fold d. rewrite Hd1. unfold deriv_v_φ_normal_expr.
    simpl. field. lra. }
  assert (Hd6 : d iρ = 1 / cos x * tan x).
  { unfold d. rewrite rhs_ρ by reflexivity. fold d. rewrite Hd5. unfold deriv_ρ_normal_expr. simpl. field. lra. }
  destruct (rhs_η (o_int b) x (y_int b x)) as (E8 & E9 & E10). fold d in E8, E9, E10.
  assert (Hd8 : d iη_O = if b then 1 / cos x * tan x else 0).
  { rewrite E8. destruct b; [|reflexivity]. rewrite Hd0, Hd1, Hd2, Hd6. unfold deriv_η_skw_func. simpl. field. lra. }
  assert (Hd9 : d iη_A = 0) by (rewrite E9; destruct b; simpl; ring).
  assert (Hd10 : d iη_H = 0) by (rewrite E10; destruct b; simpl; ring).
  assert (Hd7 : d iB_φ_prime = 0).
  { unfold d. rewrite rhs_B_φ_prime by reflexivity. fold d.
    unfold B_unit_derivs. cbv zeta. unfold dderiv_B_φ_soln.
    rewrite Hd0, Hd1, Hd4, Hd5, Hd9, Hd10. unfold C_func. simpl.
    unfold Rdiv. ring. }
  intros i Hi'. unfold ODE_LEN in Hi'. clear He E8 E9 E10. clearbody d.
  assert (HI : derivable_pt_lim (fun t => 1 / cos t) x (1 / cos x * tan x)) by (apply dpl_inv_cos; lra).
  destruct b;
  do 11 (destruct i as [|i];
    [cbv beta iota delta [y_int state]; first [ eapply dpl_eq; [exact HI | symmetry; first [exact Hd2 | exact Hd6 | exact Hd8]]
           | eapply dpl_eq; [apply dpl_const
             | symmetry; first [exact Hd0 | exact Hd1 | exact Hd3 | exact Hd4 | exact Hd5 | exact Hd7 | exact Hd8
                               | exact Hd9 | exact Hd10]] ] |]); lia.
Qed.

Lemma y_int_solves : forall b, solves_on (o_int b) (y_int b) 0 1.
Proof.
  intros b x Hx. apply y_int_solves_at. apply cos_gt_0; pose proof PI2_1; lra.
Qed.
Lemma y_int_cont0 : forall b i, (i < ODE_LEN)%nat -> continuity_pt (fun t => y_int b t i) 0.
Proof.
  intros b i Hi.
  assert (Hc : 0 < cos 0) by (rewrite cos_0; lra).
  destruct (y_int_solves_at b 0 Hc) as (d & e & _ & Hd).
  apply derivable_continuous_pt. exists (d i). apply Hd, Hi.
Qed.
Lemma y_int_ρ : forall b x, 0 < x < 1 -> y_int b x iρ <> 0.
Proof.
  intros b x Hx. assert (0 < cos x) by (apply cos_gt_0; pose proof PI2_1; lra).
  apply Rgt_not_eq. change (0 < 1 / cos x). apply Rdiv_lt_0_compat; lra.
Qed.
(** The diffusivity of this solution really varies: the example is not the trivial constant one. *)
Lemma y_int_varies : y_int true 0 iη_O <> y_int true (PI / 4) iη_O.
Proof.
  change (1 / cos 0 <> 1 / cos (PI / 4)). rewrite cos_0. intros H.
  assert (Hc : 0 < cos (PI / 4)) by (apply cos_gt_0; pose proof PI_RGT_0; lra).
  assert (H1 : cos (PI / 4) = 1).
  { apply Rmult_eq_reg_l with (1 / cos (PI / 4)); [rewrite <- H at 2; field; lra|].
    apply Rgt_not_eq, Rdiv_lt_0_compat; lra. }
  assert (H2 : cos (PI / 4) < cos 0) by (apply cos_decreasing_1; pose proof PI_RGT_0; lra).
  rewrite cos_0 in H2. lra.
Qed.

(** ** Counterexamples *)
Lemma sqrt_9 : sqrt 9 = 3.
Proof. replace 9 with (3 * 3) by ring. apply sqrt_square; lra. Qed.

Definition p_c07 : vec := state 0 0 1 (-1) 10 (1 / 2) 1 1 1 0 1.
Lemma c07_witness : exists e d,
  rhs_equation (o_ex false) 0 p_c07 = Rhs_ok d e /\ B_nonzero p_c07 /\ diffusive p_c07 /\
  let ic := mk_ic (1 / 8) 2 100 in
  validate_polar_induction ic (get_values ic 0 p_c07 d) = 2.
Proof.
  destruct (rhs_accept (o_ex false) 0 p_c07) as [e He]; [reflexivity | simpl; lra | simpl; lra |].
  exists e, (fst (rhs_derivs (o_ex false) 0 p_c07)). split; [exact He|].
  assert (HB : B_nonzero p_c07) by (unfold B_nonzero, p_c07, state; simpl; lra).
  assert (HD : diffusive p_c07) by (unfold diffusive, p_c07, state; simpl; lra).
  split; [exact HB|]. split; [exact HD|].
  pose proof (polar_induction_exact _ _ _ _ _ He HB HD) as H. cbv zeta.
  rewrite Rmult_0_l in H. simpl oa_γ in H. simpl oa_a_0 in H. simpl oa_norm_kepler_sq in H.
  rewrite H. rewrite rhs_B_φ. simpl.
  replace (0 * (0 * 1) + 0 * (0 * 1) + 1 * (1 * 1)) with 1 by ring. rewrite sqrt_1. field.
Qed.

Definition p_c10 : vec := state 2 1 2 0 0 (1 / 2) 1 0 1 0 1.
Lemma c10_witness : exists e d,
  rhs_equation (o_ex true) 0 p_c10 = Rhs_ok d e /\ B_nonzero p_c10 /\ diffusive p_c10 /\
  let ic := mk_ic (1 / 8) 2 100 in
  fst (fst (va_E (get_values ic 0 p_c10 d))) <> p_c10 iE_r.
Proof.
  destruct (rhs_accept (o_ex true) 0 p_c10) as [e He]; [reflexivity | simpl; lra | simpl; lra |].
  exists e, (fst (rhs_derivs (o_ex true) 0 p_c10)). split; [exact He|].
  assert (HB : B_nonzero p_c10) by (unfold B_nonzero, p_c10, state; simpl; lra).
  assert (HD : diffusive p_c10) by (unfold diffusive, p_c10, state; simpl; lra).
  split; [exact HB|]. split; [exact HD|].
  assert (Hs : sqrt (p_c10 iB_r ^ 2 + p_c10 iB_φ ^ 2 + p_c10 iB_θ ^ 2) = 3).
  { simpl. replace (2 * (2 * 1) + 1 * (1 * 1) + 2 * (2 * 1)) with 9 by ring. apply sqrt_9. }
  pose proof (E_r_defect _ _ _ _ _ He eq_refl) as H. rewrite Hs in H.
  rewrite Rmult_0_l in H. simpl oa_γ in H. simpl oa_a_0 in H. simpl oa_norm_kepler_sq in H.
  assert (HZ : Z_5_func (p_c10 iη_O) (p_c10 iη_A) (p_c10 iη_H) (p_c10 iB_r / 3)
      (p_c10 iB_θ / 3) (p_c10 iB_φ / 3) (C_func (p_c10 iη_O) (p_c10 iη_A) (p_c10 iη_H)
         (p_c10 iB_θ / 3) (p_c10 iB_r / 3) (p_c10 iB_φ / 3)) <> 0).
  { unfold Z_5_func, C_func. simpl. lra. }
  specialize (H HZ). cbv zeta. intros Hc. rewrite Hc, Rminus_diag_eq in H by reflexivity.
  revert H. unfold C_func, M_of. simpl. rewrite tan_0.
  rewrite (Rmult_0_l (1 - 1 / 3 * (1 / 3 * 1))), Rplus_0_r. intros H. lra.
Qed.

Definition o_c11 : ode_args :=
  mk_ode_args (1 / 8) 2 100 (state 0 0 1 (-1) 9 0 1 3 1 0 0) 1 false false true false None false.
Definition p_c11 : vec := state 2 1 2 (-1) 10 (1 / 2) 1 0 1 0 0.
Lemma c11_witness : exists y,
  solves_at o_c11 y 0 /\ B_nonzero (y 0) /\ diffusive (y 0) /\ Z_along y 0 <> 0 /\
  derivable_pt_lim (E_r_along o_c11 y) 0 ((oa_γ o_c11 - 3 / 4) * E_θ_along o_c11 y 0 + 2).
Proof.
  destruct (rhs_accept o_c11 0 p_c11) as [e He]; [reflexivity | simpl; lra | simpl; lra |].
  destruct (tangent_solves _ _ _ _ _ He) as [H1 H2].
  set (d := fst (rhs_derivs o_c11 0 p_c11)) in *.
  set (y := fun t i => p_c11 i + (t - 0) * d i) in *.
  change (y 0 = p_c11) in H1.
  exists y.
  assert (HB : B_nonzero (y 0)) by (rewrite H1; unfold B_nonzero, p_c11, state; simpl; lra).
  assert (HD : diffusive (y 0)) by (rewrite H1; unfold diffusive, p_c11, state; simpl; lra).
  assert (HZ : Z_along y 0 <> 0).
  { unfold Z_along. rewrite H1. simpl. unfold Rdiv. rewrite !Rmult_0_l. lra. }
  split; [exact H2|]. split; [exact HB|]. split; [exact HD|]. split; [exact HZ|].
  assert (Hc : cos 0 <> 0) by (rewrite cos_0; lra).
  pose proof (induction_defect o_c11 y 0 eq_refl eq_refl H2 Hc HB HD HZ) as HI.
  destruct (rhs_η o_c11 0 p_c11) as (E8 & E9 & E10). fold d in E8, E9, E10.
  simpl oa_η_derivs in *. cbv iota in *.
  assert (Hφ : d iB_φ = 0) by (unfold d; rewrite rhs_B_φ; reflexivity).
  assert (HN : forall t, y t iB_φ * N_along o_c11 y t = tan t).
  { intros t. unfold N_along, N_of, y. rewrite E8, E9, E10, Hφ. simpl. ring. }
  apply dpl_ext with (f := fun t => (E_r_along o_c11 y t - 2 * (y t iB_φ * N_along o_c11 y t)) + 2 * tan t).
  { intros t. rewrite HN. ring. }
  eapply dpl_eq; [apply dpl_plus; [exact HI | dlim; exact Hc]|].
  rewrite tan_0. simpl oa_γ. ring.
Qed.
