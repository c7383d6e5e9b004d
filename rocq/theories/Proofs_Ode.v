(** Proofs about the ODE right-hand side. *)
From Coq Require Import Reals Lra Lia FunctionalExtensionality.
From Verif Require Import Model_Index Model_Deriv Model_Midplane Model_Ode Model_Validate
  Lib_Deriv Spec_MHD Spec_Ode.
Open Scope R_scope.

(** ** Shape of the result *)
Lemma rhs_ok_derivs : forall o x p d e, rhs_equation o x p = Rhs_ok d e ->
  d = fst (rhs_derivs o (x * oa_θ_scale o) p).
Proof.
  intros o x p d e. unfold rhs_equation, scaled_to_rad_num.
  destruct (_ && _)%bool; [discriminate|]. destruct (_ && _)%bool; [discriminate|].
  destruct (rhs_derivs o (x * oa_θ_scale o) p) as [d' e']. simpl.
  intros H; inversion H; reflexivity.
Qed.

(** Accepted exactly when density and polar velocity are nonnegative (or no checking is asked for). *)
Lemma rhs_ok_iff : forall o x p,
  (exists d e, rhs_equation o x p = Rhs_ok d e) <->
  (oa_derivs_post_solution o = true \/ (0 <= p iρ /\ 0 <= p iv_θ)).
Proof.
  intros o x p. unfold rhs_equation.
  destruct (rhs_derivs o (scaled_to_rad_num x (oa_θ_scale o)) p) as [d' e'].
  destruct (oa_derivs_post_solution o); simpl.
  - split; [left; reflexivity | eauto].
  - destruct (Rlt_dec (p iρ) 0); [split; [intros (d & e & H); discriminate | intros [H | H]; [discriminate | lra]]|].
    destruct (Rlt_dec (p iv_θ) 0); [split; [intros (d & e & H); discriminate | intros [H | H]; [discriminate | lra]]|].
    split; [intros _; right; lra | intros _; eauto].
Qed.

Ltac rhs_comp := unfold rhs_derivs; intros;
  destruct (oa_use_E_r _) eqn:?HE; cbn -[deriv_B_r_func deriv_B_φ_func deriv_v_r_normal_expr
    deriv_v_φ_normal_expr deriv_v_θ_expr deriv_ρ_normal_expr deriv_η_skw_func dderiv_B_φ_soln taylor_series]; reflexivity.

Section Components.
Variables (o : ode_args) (θ : R) (p : vec).
Let d := fst (rhs_derivs o θ p).
Let m := sqrt (p iB_r ^ 2 + p iB_φ ^ 2 + p iB_θ ^ 2).

Lemma rhs_B_r : d iB_r =
  deriv_B_r_func θ (oa_γ o) (p iB_r) (p iB_θ) (p iB_φ) (p iv_r) (p iv_θ) (d iB_φ)
    (p iη_O) (p iη_A) (p iη_H) (p iB_r / m) (p iB_φ / m) (p iB_θ / m).
Proof. unfold d, m. clear d m. rhs_comp. Qed.
Lemma rhs_B_φ : d iB_φ =
  if oa_use_E_r o then
    let C := C_func (p iη_O) (p iη_A) (p iη_H) (p iB_θ / m) (p iB_r / m) (p iB_φ / m) in
    deriv_B_φ_func θ (oa_γ o) (p iB_r) (p iB_θ) (p iB_φ) (p iv_r) (p iv_φ) (p iv_θ)
      (p iη_O) (p iη_A) (p iη_H) (p iE_r) (p iB_r / m) (p iB_φ / m) (p iB_θ / m) C
      (Z_5_func (p iη_O) (p iη_A) (p iη_H) (p iB_r / m) (p iB_θ / m) (p iB_φ / m) C)
  else p iB_φ_prime.
Proof. unfold d, m. clear d m. rhs_comp. Qed.
Lemma rhs_B_θ : d iB_θ = p iB_θ * tan θ - (oa_γ o + 3 / 4) * p iB_r.
Proof. unfold d, m. clear d m. rhs_comp. Qed.
Lemma rhs_v_r : oa_with_taylor o = false -> d iv_r =
  deriv_v_r_normal_expr (oa_γ o) (oa_a_0 o) (sqrt (oa_norm_kepler_sq o)) (p iv_r) (p iv_θ) (p iv_φ) (p iρ)
    (p iB_θ) (p iB_φ) (d iB_r).
Proof. unfold d, m. clear d m. intros H; unfold rhs_derivs; rewrite H. destruct (oa_use_E_r o); reflexivity. Qed.
Lemma rhs_v_φ : oa_with_taylor o = false -> d iv_φ =
  deriv_v_φ_normal_expr θ (oa_γ o) (oa_a_0 o) (p iv_r) (p iv_θ) (p iv_φ) (p iρ) (p iB_r) (p iB_θ) (p iB_φ)
    (d iB_φ).
Proof. unfold d, m. clear d m. intros H; unfold rhs_derivs; rewrite H. destruct (oa_use_E_r o); reflexivity. Qed.
Lemma rhs_v_θ : oa_deriv_v_θ_func o = None -> d iv_θ =
  deriv_v_θ_expr θ (oa_γ o) (oa_a_0 o) (p iv_r) (p iv_θ) (p iv_φ) (p iρ) (p iB_r) (p iB_θ) (p iB_φ)
    (d iB_r) (d iB_φ).
Proof. unfold d, m. clear d m. intros H; unfold rhs_derivs; rewrite H. destruct (oa_use_E_r o); reflexivity. Qed.
Lemma rhs_v_θ_func : forall f, oa_deriv_v_θ_func o = Some f -> d iv_θ = f θ.
Proof. unfold d, m. clear d m. intros f H; unfold rhs_derivs; rewrite H. destruct (oa_use_E_r o); reflexivity. Qed.
Lemma rhs_ρ : oa_with_taylor o = false -> d iρ =
  deriv_ρ_normal_expr θ (oa_γ o) (p iv_r) (p iv_θ) (p iρ) (d iv_θ).
Proof. unfold d, m. clear d m. intros H; unfold rhs_derivs; rewrite H. destruct (oa_use_E_r o); reflexivity. Qed.
Lemma rhs_η : d iη_O = (if oa_η_derivs o then deriv_η_skw_func (p iρ) (p iB_r) (p iB_φ) (p iB_θ)
    (d iρ) (d iB_r) (d iB_φ) (d iB_θ) * oa_init_con o iη_O else 0) /\
  d iη_A = (if oa_η_derivs o then deriv_η_skw_func (p iρ) (p iB_r) (p iB_φ) (p iB_θ)
    (d iρ) (d iB_r) (d iB_φ) (d iB_θ) * oa_init_con o iη_A else 0) /\
  d iη_H = (if oa_η_derivs o then deriv_η_skw_func (p iρ) (p iB_r) (p iB_φ) (p iB_θ)
    (d iρ) (d iB_r) (d iB_φ) (d iB_θ) * oa_init_con o iη_H else 0).
Proof. unfold d, m. clear d m. repeat split; unfold rhs_derivs; destruct (oa_use_E_r o); reflexivity. Qed.
Lemma rhs_E_r : oa_use_E_r o = true -> d iE_r =
  deriv_E_r_func (oa_γ o) (p iv_r) (p iv_φ) (p iB_r) (p iB_φ) (p iη_O) (p iη_A) (p iη_H)
    (p iB_r / m) (p iB_θ / m) (p iB_φ / m)
    (J_r_func θ (p iB_φ) (d iB_φ)) (J_θ_func (oa_γ o) (p iB_φ)) (J_φ_func (oa_γ o) (p iB_θ) (d iB_r)).
Proof. unfold d, m. clear d m. intros H; unfold rhs_derivs; rewrite H. reflexivity. Qed.
Lemma rhs_B_φ_prime : oa_use_E_r o = false -> d iB_φ_prime =
  let '(u_r, u_φ, u_θ) := B_unit_derivs (p iB_r) (p iB_φ) (p iB_θ) (d iB_r) (d iB_φ) (d iB_θ)
     (p iB_r / m) (p iB_φ / m) (p iB_θ / m) in
  dderiv_B_φ_soln (p iB_r) (p iB_φ) (p iB_θ) (p iη_O) (p iη_H) (p iη_A) θ (p iv_r) (p iv_θ) (p iv_φ)
    (d iv_r) (d iv_θ) (d iv_φ) (d iB_r) (d iB_θ) (d iB_φ) (oa_γ o) (d iη_O) (d iη_A) (d iη_H)
    (p iB_r / m) (p iB_φ / m) (p iB_θ / m) u_r u_φ u_θ
    (C_func (p iη_O) (p iη_A) (p iη_H) (p iB_θ / m) (p iB_r / m) (p iB_φ / m))
    (A_func (p iη_O) (p iη_A) (p iη_H) (p iB_θ / m) (p iB_r / m) (p iB_φ / m) (d iη_O) (d iη_A) (d iη_H)
       u_θ u_r u_φ).
Proof. unfold d, m. clear d m. intros H; unfold rhs_derivs; rewrite H. reflexivity. Qed.
End Components.

(** ** Tangent curves: every accepted state lies on a curve that solves the system at that angle. *)
Lemma tangent_solves : forall o x p d e, rhs_equation o x p = Rhs_ok d e ->
  let y := fun t i => p i + (t - x) * d i in y x = p /\ solves_at o y x.
Proof.
  intros o x p d e H y.
  assert (Hy : y x = p) by (apply functional_extensionality; intros i; unfold y; ring).
  split; [exact Hy|]. exists d, e. rewrite Hy. split; [exact H|].
  intros i _. unfold y. dlim_to. ring.
Qed.

(** ** The validation command's residuals *)
Section Residuals.
Variables (o : ode_args) (x : R) (p d : vec) (e : option internal_entry).
Hypothesis Hok : rhs_equation o x p = Rhs_ok d e.
Let θ := x * oa_θ_scale o.
Let ic := mk_ic (oa_γ o) (oa_a_0 o) (oa_norm_kepler_sq o).
Let vals := get_values ic θ p d.

Lemma continuity_validate : oa_with_taylor o = false -> p iv_θ <> 0 -> p iρ <> 0 ->
  validate_continuity ic vals = 0.
Proof.
  intros Ht Hv Hr. unfold validate_continuity, vals, get_values. simpl.
  rewrite (rhs_ok_derivs _ _ _ _ _ Hok), rhs_ρ by assumption. fold θ.
  unfold deriv_ρ_normal_expr. field. split; assumption.
Qed.
Lemma solenoid_validate : validate_solenoid ic vals = 0.
Proof.
  unfold validate_solenoid, vals, get_values. simpl.
  rewrite (rhs_ok_derivs _ _ _ _ _ Hok), rhs_B_θ. fold θ. field.
Qed.
Lemma radial_validate : oa_with_taylor o = false -> p iv_θ <> 0 -> p iρ <> 0 ->
  0 <= oa_norm_kepler_sq o -> validate_radial_momentum ic vals = 0.
Proof.
  intros Ht Hv Hr Hk. unfold validate_radial_momentum, vals, get_values. simpl.
  rewrite (rhs_ok_derivs _ _ _ _ _ Hok), rhs_v_r by assumption.
  pose proof (sqrt_sqrt _ Hk) as Hs. unfold deriv_v_r_normal_expr.
  set (k := sqrt (oa_norm_kepler_sq o)) in *. rewrite <- Hs. field. split; assumption.
Qed.
Lemma azimuthal_validate : oa_with_taylor o = false -> p iv_θ <> 0 -> p iρ <> 0 ->
  validate_azimuthal_mometum ic vals = 0.
Proof.
  intros Ht Hv Hr. unfold validate_azimuthal_mometum, vals, get_values. simpl.
  rewrite (rhs_ok_derivs _ _ _ _ _ Hok), rhs_v_φ by assumption. fold θ.
  unfold deriv_v_φ_normal_expr. field. split; assumption.
Qed.
Lemma polar_validate : oa_with_taylor o = false -> oa_deriv_v_θ_func o = None ->
  p iv_θ <> 0 -> p iρ <> 0 -> p iv_θ ^ 2 <> 1 -> validate_polar_momentum ic vals = 0.
Proof.
  intros Ht Hn Hv Hr H1. unfold validate_polar_momentum, vals, get_values. simpl.
  rewrite (rhs_ok_derivs _ _ _ _ _ Hok), rhs_ρ, rhs_v_θ by assumption. fold θ.
  unfold deriv_ρ_normal_expr, deriv_v_θ_expr.
  field. repeat split; try assumption; intros Hc; apply H1; nra.
Qed.

Lemma B_mag_facts : B_nonzero p ->
  let m := sqrt (p iB_r ^ 2 + p iB_φ ^ 2 + p iB_θ ^ 2) in
  m <> 0 /\ m ^ 2 = p iB_r ^ 2 + p iB_φ ^ 2 + p iB_θ ^ 2.
Proof.
  intros H m. unfold B_nonzero in H. split.
  - unfold m. apply Rgt_not_eq. apply sqrt_lt_R0. exact H.
  - unfold m. rewrite pow2_sqrt by lra. reflexivity.
Qed.

Lemma E_φ_validate : B_nonzero p -> diffusive p -> validate_E_φ ic vals = 0.
Proof.
  intros HB HD. unfold validate_E_φ, vals, get_values, J_func, E_func. simpl.
  rewrite (rhs_ok_derivs _ _ _ _ _ Hok), rhs_B_r. fold θ.
  destruct (B_mag_facts HB) as [Hm Hm2]. revert Hm Hm2.
  replace (p iB_r * (p iB_r * 1) + p iB_φ * (p iB_φ * 1) + p iB_θ * (p iB_θ * 1))
    with (p iB_r ^ 2 + p iB_φ ^ 2 + p iB_θ ^ 2) by ring.
  set (m := sqrt (p iB_r ^ 2 + p iB_φ ^ 2 + p iB_θ ^ 2)). intros Hm Hm2.
  unfold diffusive in HD. rewrite <- Hm2 in HD.
  set (D := fst (rhs_derivs o θ p) iB_φ).
  unfold E_φ_func, J_r_func, J_θ_func, J_φ_func, deriv_B_r_func.
  assert (HD' : p iη_O + p iη_A * (1 - p iB_φ / m) * (1 + p iB_φ / m) <> 0).
  { intros Hc. apply HD. rewrite <- Hc. field. assumption. }
  simpl. field. repeat split; try assumption.
  intros Hc; apply HD'. apply Rmult_eq_reg_r with (m ^ 2); [|apply pow_nonzero; assumption].
  rewrite Rmult_0_l, <- Hc. field. assumption.
Qed.
End Residuals.
