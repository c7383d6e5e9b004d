(** C66 for the two hydrostatic methods: solving in a scaled angle. *)
From Coq Require Import Reals Lra Lia.
From Verif Require Import Lib_Deriv Model_Index Model_Deriv Model_Ode Model_Hydro Model_ModHydro Spec_Ode Spec_HydroUnique Spec_ModHydroUnique
  Proofs_HydroUnique Proofs_ModHydroUnique Props_HydroUnique Props_ModHydroUnique Props_HydroInduction Witness_Ode.
Open Scope R_scope.

(** The systems without scaling. *)
Definition hydro_unscaled (h : hydro_args) : hydro_args :=
  mk_hydro_args (ha_a_0 h) (ha_norm_kepler_sq h) (ha_init_con h) 1 (ha_η_derivs h) (ha_store_internal h) (ha_no_v_deriv h).
Definition mod_unscaled (m : mod_hydro_args) : mod_hydro_args :=
  mk_mod_hydro_args (ma_a_0 m) (ma_norm_kepler_sq m) (ma_init_con m) 1 (ma_η_derivs m) (ma_store_internal m) (ma_use_E_r m).
Lemma hydro_unscaled_rhs : forall h x p, hydro_rhs (hydro_unscaled h) (x * ha_θ_scale h) p = hydro_rhs h x p.
Proof. intros h x p. unfold hydro_rhs, scaled_to_rad_num. cbn [hydro_unscaled ha_θ_scale]. rewrite Rmult_1_r. reflexivity. Qed.
Lemma mod_unscaled_rhs : forall sr m root x p, mod_hydro_rhs sr (mod_unscaled m) root (x * ma_θ_scale m) p = mod_hydro_rhs sr m root x p.
Proof. intros sr m root x p. unfold mod_hydro_rhs, scaled_to_rad_num. cbn [mod_unscaled ma_θ_scale]. rewrite Rmult_1_r. reflexivity. Qed.
Lemma in_physical_angle : forall (f : R -> R) s x d, s <> 0 -> derivable_pt_lim f x d -> derivable_pt_lim (fun θ => f (θ / s)) (x * s) (d / s).
Proof.
  intros f s x d Hs D. eapply dpl_eq.
  - apply (derivable_pt_lim_comp (fun θ => θ / s) f (x * s) (/ s) d).
    + unfold Rdiv. dlim_to. ring.
    + replace (x * s / s) with x by (field; exact Hs). exact D.
  - unfold Rdiv. ring.
Qed.

(** A curve following the scaled system, read in physical angle, moves with 1/θ_scale times the derivatives of the unscaled system, in both methods. *)
Theorem C66_hydro_scaling_exact : forall h Y x, ha_θ_scale h <> 0 -> hydro_solves_at h Y x -> let s := ha_θ_scale h in let y := fun θ => Y (θ / s) in
  exists d θ, hydro_rhs (hydro_unscaled h) (x * s) (y (x * s)) = Hy_ok d θ /\ forall i, (i < ODE_LEN)%nat -> derivable_pt_lim (fun θ => y θ i) (x * s) (d i / s).
Proof.
  intros h Y x Hs (d & θ & E & D) s y. assert (Ey : y (x * s) = Y x) by (unfold y; f_equal; field; exact Hs).
  exists d, θ. split; [rewrite Ey, <- E; apply hydro_unscaled_rhs|]. intros i Hi. exact (in_physical_angle (fun t => Y t i) s x (d i) Hs (D i Hi)).
Qed.
Print Assumptions C66_hydro_scaling_exact.
Theorem C66_mod_scaling_exact : forall sr m root Y x d q r t, ma_θ_scale m <> 0 -> mod_hydro_rhs sr m root x (Y x) = Mh_ok d q r t ->
  (forall i, (i < ODE_LEN)%nat -> derivable_pt_lim (fun u => Y u i) x (d i)) -> let s := ma_θ_scale m in let y := fun θ => Y (θ / s) in
  mod_hydro_rhs sr (mod_unscaled m) root (x * s) (y (x * s)) = Mh_ok d q r t /\ forall i, (i < ODE_LEN)%nat -> derivable_pt_lim (fun θ => y θ i) (x * s) (d i / s).
Proof.
  intros sr m root Y x d q r t Hs E D s y. assert (Ey : y (x * s) = Y x) by (unfold y; f_equal; field; exact Hs).
  split; [rewrite Ey, <- E; apply mod_unscaled_rhs|]. intros i Hi. exact (in_physical_angle (fun u => Y u i) s x (d i) Hs (D i Hi)).
Qed.
Print Assumptions C66_mod_scaling_exact.

(** The midplane of C144 with the angle in units of two radians: B_φ is to change by B_φ' = -2 per radian, and changes by -1. *)
Definition h_two : hydro_args := mk_hydro_args (ha_a_0 h_mid) (ha_norm_kepler_sq h_mid) (ha_init_con h_mid) 2 (ha_η_derivs h_mid) (ha_store_internal h_mid) (ha_no_v_deriv h_mid).
Lemma tangent_slope : forall (p d : vec) i, derivable_pt_lim (fun t : R => p i + t * d i) 0 (d i).
Proof. intros p d i. dlim_to. ring. Qed.
Theorem C66_hydro_scaling_refuted : exists h Y x, 0 < ha_θ_scale h /\ hydro_solves_at h Y x /\ ~ hydro_solves_at (hydro_unscaled h) (fun θ => Y (θ / ha_θ_scale h)) (x * ha_θ_scale h).
Proof.
  destruct mid_answers as (d & E).
  assert (E2 : hydro_rhs h_two 0 p_mid = Hy_ok d 0).
  { rewrite <- E. unfold hydro_rhs, scaled_to_rad_num. cbn [h_two ha_θ_scale]. rewrite !Rmult_0_l. reflexivity. }
  set (Y := fun (t : R) i => p_mid i + t * d i). assert (Y0 : hydro_rhs h_two 0 (Y 0) = Hy_ok d 0 -> hydro_solves_at h_two Y 0).
  { intros Q. exists d, 0. split; [exact Q|]. intros i _. apply (tangent_slope p_mid d i). }
  assert (EY : Y 0 = p_mid) by (apply FunctionalExtensionality.functional_extensionality; intros i; unfold Y; ring).
  rewrite EY in Y0. specialize (Y0 E2).
  exists h_two, Y, 0. split; [cbn; lra|]. split; [exact Y0|]. intros (d1 & θ1 & E1 & D1).
  destruct (C66_hydro_scaling_exact h_two Y 0 ltac:(cbn; lra) Y0) as (d2 & θ2 & E3 & D2). cbv zeta in E3, D2. rewrite E1 in E3. injection E3 as Ed _. subst d2.
  assert (H1 : (iB_φ < ODE_LEN)%nat) by (unfold iB_φ, ODE_LEN; lia).
  pose proof (uniqueness_limite _ _ _ _ (D1 iB_φ H1) (D2 iB_φ H1)) as U.
  rewrite (hydro_pieces _ _ _ _ _ E1 iB_φ H1) in U. cbn [h_two ha_θ_scale] in U. replace (0 * 2 / 2) with 0 in U by field. rewrite EY in U.
  unfold q_d, iB_φ in U. unfold p_mid, state, iB_φ_prime in U. lra.
Qed.
Print Assumptions C66_hydro_scaling_refuted.
Definition m_two : mod_hydro_args := mk_mod_hydro_args 1 9 (fun _ => 1) 2 true false false.
Definition p_two : vec := state 0 0 1 (-2) 3 0 1 (-3) 1 0 0.
Theorem C66_mod_scaling_refuted : exists m Y x, 0 < ma_θ_scale m /\ mod_solves_at m Y x /\ ~ mod_solves_at (mod_unscaled m) (fun θ => Y (θ / ma_θ_scale m)) (x * ma_θ_scale m).
Proof.
  set (Y := fun (t : R) i => p_two i + t * m_d m_two 0 p_two i).
  assert (EY : Y 0 = p_two) by (apply FunctionalExtensionality.functional_extensionality; intros i; unfold Y; ring).
  assert (Y0 : mod_solves_at m_two Y 0).
  { intros sr root. rewrite EY. assert (A : exists d q r θ, mod_hydro_rhs sr m_two root 0 p_two = Mh_ok d q r θ).
    { unfold mod_hydro_rhs. cbv zeta. match goal with |- context [Rlt_dec ?a 0] => destruct (Rlt_dec a 0) as [N|_] end; [unfold p_two, state, iρ in N; lra|].
      unfold B_unit_derivs. cbv beta iota zeta. cbn [m_two ma_use_E_r]. repeat eexists. }
    destruct A as (d & q & r & θ & E). exists d, q, r, θ. split; [exact E|]. intros i Hi. rewrite (mod_pieces _ m_two _ _ _ _ _ _ _ eq_refl E i Hi).
    cbn [m_two ma_θ_scale]. rewrite Rmult_0_l. apply (tangent_slope p_two (m_d m_two 0 p_two) i). }
  exists m_two, Y, 0. split; [cbn; lra|]. split; [exact Y0|]. intros S1.
  destruct (S1 (fun r _ _ _ _ => r) 0) as (d1 & q1 & r1 & θ1 & E1 & D1). destruct (Y0 (fun r _ _ _ _ => r) 0) as (d0 & q0 & r0 & θ0 & E0 & D0).
  destruct (C66_mod_scaling_exact _ m_two 0 Y 0 d0 q0 r0 θ0 ltac:(cbn; lra) E0 D0) as (E3 & D2). cbv zeta in E3, D2. rewrite E1 in E3. injection E3 as Ed _ _ _. subst d0.
  assert (H1 : (iB_φ < ODE_LEN)%nat) by (unfold iB_φ, ODE_LEN; lia).
  pose proof (uniqueness_limite _ _ _ _ (D1 iB_φ H1) (D2 iB_φ H1)) as U.
  rewrite (mod_pieces _ (mod_unscaled m_two) _ _ _ _ _ _ _ eq_refl E1 iB_φ H1) in U. cbn [m_two ma_θ_scale] in U. replace (0 * 2 / 2) with 0 in U by field. rewrite EY in U.
  unfold m_d, iB_φ in U. unfold p_two, state, iB_φ_prime in U. lra.
Qed.
Print Assumptions C66_mod_scaling_refuted.
(** The refuting curves also meet the hypotheses of the exact statements; here is one that is a solution on a whole interval, with the default scale. *)
Example C66_hydro_scaling_nonvacuous : ha_θ_scale h_tor <> 0 /\ ma_θ_scale m_tor <> 0 /\ (forall x, 0 <= x <= 1 -> hydro_solves_at h_tor y_tor x /\ mod_solves_at m_tor y_tor x).
Proof. split; [cbn; lra|]. split; [cbn; lra|]. intros x Hx. split; [apply y_tor_solves, Hx | apply m_tor_solves, Hx]. Qed.
