(** C145: how each piece of the hydrostatic right-hand sides changes with the unit and the sign of the field. *)
From Coq Require Import Reals Lra Lia.
From Verif Require Import Model_Index Model_Deriv Model_Ode Model_Hydro Model_ModHydro Spec_Ode Spec_HydroUnique Spec_ModHydroUnique Spec_HydroSymmetry
  Proofs_HydroUnique Proofs_ModHydroUnique.
Open Scope R_scope.

Lemma hall_cases : forall λ, λ <> 0 -> 0 < λ /\ hall_sign λ = 1 \/ λ < 0 /\ hall_sign λ = -1.
Proof. intros λ N. unfold hall_sign. destruct (Rlt_dec λ 0); [right; lra|left; lra]. Qed.

Section Rescaled.
Variables (h : hydro_args) (θ : R) (p : vec) (λ μ : R).
Hypothesis (Hλ : λ <> 0) (Hμ : 0 < μ).
Hypothesis (HB : B_nonzero p) (Hρ : 0 < p iρ) (HD : p iη_O + p iη_A * (1 - unit p iB_φ ^ 2) <> 0) (Hv : p iv_φ <> 0).
Let h' := hydro_rescaled λ μ h.
Let p' := rescaled λ μ p.
Let s := hall_sign λ.
Ltac slots := change (p' iB_r) with (λ * p iB_r); change (p' iB_φ) with (λ * p iB_φ); change (p' iB_θ) with (λ * p iB_θ); change (p' iv_r) with (p iv_r);
  change (p' iv_φ) with (p iv_φ); change (p' iρ) with (μ * p iρ); change (p' iB_φ_prime) with (λ * p iB_φ_prime); change (p' iη_O) with (p iη_O);
  change (p' iη_A) with (p iη_A); change (p' iη_H) with (s * p iη_H); change (ha_a_0 h') with (μ / λ ^ 2 * ha_a_0 h); change (ha_norm_kepler_sq h') with (ha_norm_kepler_sq h).
Lemma s_cases : 0 < λ /\ s = 1 \/ λ < 0 /\ s = -1.
Proof. exact (hall_cases λ Hλ). Qed.
Lemma μ0 : μ <> 0. Proof. lra. Qed.
Lemma ρ0 : p iρ <> 0. Proof. lra. Qed.
Let m := sqrt (p iB_r ^ 2 + p iB_φ ^ 2 + p iB_θ ^ 2).
Lemma m0 : m <> 0.
Proof. apply Rgt_not_eq, sqrt_lt_R0. exact HB. Qed.
Lemma y_m : sqrt ((λ * p iB_r) ^ 2 + (λ * p iB_φ) ^ 2 + (λ * p iB_θ) ^ 2) = s * λ * m.
Proof.
  replace ((λ * p iB_r) ^ 2 + (λ * p iB_φ) ^ 2 + (λ * p iB_θ) ^ 2) with ((s * λ) ^ 2 * (p iB_r ^ 2 + p iB_φ ^ 2 + p iB_θ ^ 2)) by (destruct s_cases as [(_ & ->)|(_ & ->)]; ring).
  rewrite sqrt_mult_alt by (apply pow2_ge_0). rewrite sqrt_pow2; [reflexivity|]. destruct s_cases as [(L & ->)|(L & ->)]; lra.
Qed.
Lemma y_unit : forall i, p' i = λ * p i -> unit p' i = s * unit p i.
Proof. intros i E. unfold unit. rewrite E. slots. rewrite y_m. fold m. pose proof m0. destruct s_cases as [(_ & ->)|(_ & ->)]; field; auto with real. Qed.
Lemma u_r : unit p' iB_r = s * unit p iB_r. Proof. apply y_unit. reflexivity. Qed.
Lemma u_φ : unit p' iB_φ = s * unit p iB_φ. Proof. apply y_unit. reflexivity. Qed.
Lemma u_θ : unit p' iB_θ = s * unit p iB_θ. Proof. apply y_unit. reflexivity. Qed.
(** Denominators are only ever compared up to [ring]. *)
Ltac nz := repeat split; try assumption; try apply μ0; try apply ρ0; try apply m0;
  try match goal with H : ?a <> 0 |- ?b <> 0 => let Z := fresh in intro Z; apply H; rewrite <- Z; ring end.
Ltac signs := destruct s_cases as [(_ & ->)|(_ & ->)].
Lemma D1 : p iη_O + p iη_A * (1 - (1 * unit p iB_φ) ^ 2) <> 0. Proof. rewrite Rmult_1_l. exact HD. Qed.
Lemma y_X : the_X p' = the_X p.
Proof. unfold the_X. rewrite u_r, u_φ, u_θ. slots. unfold X_func. signs; field; nz. Qed.
Lemma y_b : the_b p' = the_b p.
Proof. unfold the_b. rewrite y_X. reflexivity. Qed.
Lemma y_C : the_C p' = the_C p.
Proof. unfold the_C. rewrite u_r, u_φ, u_θ. slots. unfold C_func. signs; field; nz. Qed.
Lemma y_Z5 : the_Z_5 p' = the_Z_5 p.
Proof. unfold the_Z_5. rewrite u_r, u_φ, u_θ, y_C. slots. unfold Z_5_func. signs; ring. Qed.
Lemma y_c : the_c h' θ p' = the_c h θ p.
Proof. unfold the_c. rewrite u_r, u_φ, u_θ, y_X. slots. unfold c_func. generalize (the_X p). intros X. signs; field; nz. Qed.
Lemma y_disc : discriminant h' θ p' = discriminant h θ p.
Proof. unfold discriminant. rewrite y_b, y_c. reflexivity. Qed.
Lemma y_Z4 : the_Z_4 θ p' = λ ^ 2 * the_Z_4 θ p.
Proof. unfold the_Z_4, Z_4_func. slots. field. Qed.
Lemma y_dBt : q_dBt θ p' = λ * q_dBt θ p.
Proof. unfold q_dBt. slots. field. Qed.
Lemma y_dBr : q_dBr θ p' = λ * q_dBr θ p.
Proof. unfold q_dBr. rewrite u_r, u_φ, u_θ. slots. signs; field; nz. Qed.
Lemma y_dρ : q_dρ h' θ p' = μ * q_dρ h θ p.
Proof. unfold q_dρ. rewrite y_dBr. slots. field. nz. Qed.
Lemma y_sc : q_sc h' θ p' = λ ^ 2 / μ * q_sc h θ p.
Proof. unfold q_sc. rewrite y_dBr, y_dBt, y_dρ. slots. unfold deriv_η_skw_func. cbv zeta. field. nz. Qed.
Lemma y_ηO : q_dη h' θ p' iη_O = q_dη h θ p iη_O.
Proof.
  unfold q_dη. rewrite y_sc. change (ha_η_derivs h') with (ha_η_derivs h). change (ha_init_con h' iη_O) with (μ / λ ^ 2 * ha_init_con h iη_O). destruct (ha_η_derivs h); [field; nz|reflexivity].
Qed.
Lemma y_ηA : q_dη h' θ p' iη_A = q_dη h θ p iη_A.
Proof.
  unfold q_dη. rewrite y_sc. change (ha_η_derivs h') with (ha_η_derivs h). change (ha_init_con h' iη_A) with (μ / λ ^ 2 * ha_init_con h iη_A). destruct (ha_η_derivs h); [field; nz|reflexivity].
Qed.
Lemma y_ηH : q_dη h' θ p' iη_H = s * q_dη h θ p iη_H.
Proof.
  unfold q_dη. rewrite y_sc. change (ha_η_derivs h') with (ha_η_derivs h). change (ha_init_con h' iη_H) with (s * (μ / λ ^ 2 * ha_init_con h iη_H)). destruct (ha_η_derivs h); [field; nz|ring].
Qed.
Lemma y_db : forall i d, p' i = λ * p i -> q_db θ p' i (λ * d) = s * q_db θ p i d.
Proof.
  intros i d E. unfold q_db. rewrite y_dBr, y_dBt, (y_unit i E). slots. unfold B_unit_deriv_1. cbv zeta. rewrite y_m. fold m. pose proof m0. signs; field; nz.
Qed.
Lemma y_dbr : q_dbr θ p' = s * q_dbr θ p. Proof. unfold q_dbr. rewrite y_dBr. apply y_db. reflexivity. Qed.
Lemma y_dbf : q_dbf θ p' = s * q_dbf θ p. Proof. unfold q_dbf. slots. apply y_db. reflexivity. Qed.
Lemma y_dbt : q_dbt θ p' = s * q_dbt θ p. Proof. unfold q_dbt. rewrite y_dBt. apply y_db. reflexivity. Qed.
Lemma y_A : q_A h' θ p' = q_A h θ p.
Proof. unfold q_A. rewrite y_ηO, y_ηA, y_ηH, y_dbr, y_dbf, y_dbt, u_r, u_φ, u_θ. slots. unfold A_func. signs; field; nz. Qed.
Lemma y_Xd : q_Xd h' θ p' = q_Xd h θ p.
Proof. unfold q_Xd. rewrite y_ηO, y_ηA, y_ηH, y_dbr, y_dbf, y_dbt, u_r, u_φ, u_θ. slots. unfold X_dash_func. signs; field; nz. Qed.
Lemma y_Z1 : q_Z1 h' θ p' = q_Z1 h θ p.
Proof. unfold q_Z1. rewrite y_dBr, y_dBt, y_dρ. slots. unfold Z_1_func. generalize (sec θ). intros. field. nz. Qed.
(** The hydrostatic method. *)
Section Hydro.
Hypothesis (Hd : 0 < discriminant h θ p) (HT : determinant h θ p <> 0) (HK : coefficient h θ p <> 0).
Let r := sqrt (discriminant h θ p).
Lemma r0 : r <> 0. Proof. apply Rgt_not_eq, sqrt_lt_R0. exact Hd. Qed.
Lemma y_Z3 : the_Z_3 h' θ p' = the_Z_3 h θ p.
Proof.
  unfold the_Z_3. rewrite y_X, y_b, y_c, u_φ. slots. unfold Model_Hydro.Z_3_func. fold (discriminant h θ p). fold r. pose proof r0. generalize (the_X p). intros X. signs; field; nz.
Qed.
Lemma y_det : determinant h' θ p' = μ * determinant h θ p.
Proof. unfold determinant. rewrite y_Z3, y_Z4. slots. field. nz. Qed.
Ltac dets := replace (p iv_φ ^ 2 * (μ * p iρ) + 2 * (μ / λ ^ 2 * ha_a_0 h) * the_Z_3 h θ p * (λ ^ 2 * the_Z_4 θ p)) with (μ * determinant h θ p) by (unfold determinant; field; nz);
  fold (determinant h θ p).
Lemma y_coef : coefficient h' θ p' = coefficient h θ p.
Proof.
  unfold coefficient. rewrite y_C, y_Z3, y_Z4, y_Z5. slots. unfold Model_Hydro.Z_6_func. dets. field. nz.
Qed.
Lemma y_Z2 : q_Z2 h' θ p' = q_Z2 h θ p.
Proof.
  unfold q_Z2. rewrite y_ηO, y_ηA, y_ηH, y_dbr, y_dbf, y_dbt, u_r, u_φ, u_θ, y_X, y_Xd, y_dBr, y_dBt, y_dρ, y_b, y_c. slots. unfold Model_Hydro.Z_2_func.
  fold (discriminant h θ p). fold r. pose proof r0. generalize (the_X p) (q_Xd h θ p) (sec θ). intros X Xd sc. signs; field; nz.
Qed.
(** From here on the units of field and density fit each other, so that a_0 stays as it is: Z_7 lacks a factor 2 a_0. *)
Hypothesis Hu : μ = λ ^ 2.
Lemma y_Z7 : q_Z7 h' θ p' = q_Z7 h θ p.
Proof. unfold q_Z7. rewrite y_C, y_Z1, y_Z2, y_Z3, y_Z4. slots. unfold Model_Hydro.Z_7_func. dets. rewrite Hu. field. nz. Qed.
Lemma y_dd : q_dd h' θ p' = λ * q_dd h θ p.
Proof.
  unfold q_dd. rewrite y_A, u_r, u_φ, u_θ, y_C, y_dbr, y_dbf, y_dbt, y_dBr, y_dBt, y_ηO, y_ηA, y_ηH, y_coef, y_Z7. slots. unfold dderiv_B_φ_func. signs; field; nz.
Qed.
Lemma y_dvr : q_dvr h' θ p' = q_dvr h θ p.
Proof. unfold q_dvr. rewrite y_Z1, y_Z2, y_Z3, y_Z4, y_dd. slots. unfold Model_Hydro.deriv_v_r_func. dets. field. nz. Qed.
Lemma y_dvf : q_dvf h' θ p' = q_dvf h θ p.
Proof. unfold q_dvf. rewrite y_Z2, y_Z3, y_dvr. reflexivity. Qed.
Lemma y_d : forall i, (i < ODE_LEN)%nat -> q_d h' θ p' i = rescaled λ μ (q_d h θ p) i.
Proof.
  intros i Hi. unfold ODE_LEN in Hi. pose proof y_dBr. pose proof y_dBt. pose proof y_dvr. pose proof y_dvf. pose proof y_dρ. pose proof y_dd. pose proof y_ηO. pose proof y_ηA. pose proof y_ηH.
  do 11 (destruct i as [|i]; [cbn [q_d rescaled]; unfold iB_r, iB_φ, iB_θ, iv_r, iv_φ, iv_θ, iρ, iB_φ_prime, iη_O, iη_A, iη_H in *; cbn [q_d];
    change (ha_no_v_deriv h') with (ha_no_v_deriv h); try destruct (ha_no_v_deriv h); first [assumption|reflexivity]|]). lia.
Qed.
End Hydro.
(** The modified method without E_r: only the sign may change. *)
Section Mod.
Variable m0 : mod_hydro_args.
Hypothesis (Em : h = as_hydro m0) (Hl : λ ^ 2 = 1) (Hm : μ = 1).
Let m' := mod_rescaled λ μ m0.
Hypothesis (Hk : 0 < ma_norm_kepler_sq m0) (HT : mod_determinant m0 θ p <> 0) (HN : mod_denominator m0 θ p <> 0) (HK : mod_coefficient m0 θ p <> 0).
Lemma as_h' : as_hydro m' = h'. Proof. unfold h', m'. rewrite Em. reflexivity. Qed.
Lemma k0 : kepler m0 <> 0. Proof. apply Rgt_not_eq, sqrt_lt_R0. exact Hk. Qed.
Lemma w_a : ma_a_0 m' = ma_a_0 m0. Proof. unfold m', mod_rescaled, ma_a_0. rewrite Hl, Hm. field. Qed.
Lemma w_Z3 : mod_Z_3 m' p' = mod_Z_3 m0 p.
Proof. unfold mod_Z_3. change (kepler m') with (kepler m0). pose proof k0. rewrite u_φ. slots. unfold Model_ModHydro.Z_3_func. rewrite Rpow_mult_distr, Hl. signs; field; nz. Qed.
Lemma w_Z4 : the_Z_4 θ p' = the_Z_4 θ p. Proof. rewrite y_Z4, Hl. ring. Qed.
Lemma w_ρ : p' iρ = p iρ. Proof. slots. rewrite Hm. ring. Qed.
Lemma w_coef : mod_coefficient m' θ p' = mod_coefficient m0 θ p.
Proof.
  unfold mod_coefficient. rewrite w_a, y_X, w_ρ, w_Z3, y_Z5, y_C, w_Z4. change (kepler m') with (kepler m0). slots. unfold Model_ModHydro.Z_6_func. rewrite Rpow_mult_distr, Hl, Rmult_1_l. reflexivity.
Qed.
Lemma w_Z7 : m_Z7 m' θ p' = m_Z7 m0 θ p.
Proof.
  unfold m_Z7. rewrite w_a, y_X, w_ρ, y_Z5, y_C, w_Z4. change (kepler m') with (kepler m0). slots. unfold Model_ModHydro.Z_7_func. rewrite Rpow_mult_distr, Hl, Rmult_1_l. reflexivity.
Qed.
Lemma w_Z2 : m_Z2 m' θ p' = m_Z2 m0 θ p.
Proof.
  unfold m_Z2. rewrite as_h'. rewrite <- Em. change (kepler m') with (kepler m0). rewrite y_ηO, y_ηA, y_ηH, y_dbr, y_dbf, y_dbt, u_r, u_φ, u_θ, y_X, y_Xd, y_dBt, y_dρ, w_a, w_ρ. rewrite Hm. slots.
  unfold Model_ModHydro.Z_2_func. pose proof k0. generalize (the_X p) (q_Xd h θ p). intros X Xd.
  assert (λ = 1 \/ λ = -1) as [E|E] by (assert ((λ - 1) * (λ + 1) = 0) as Z by lra; apply Rmult_integral in Z; lra); rewrite E; signs; field; nz.
Qed.
Lemma w_dd : m_dd m' θ p' = λ * m_dd m0 θ p.
Proof.
  unfold m_dd. rewrite as_h'. rewrite <- Em. rewrite y_A, u_r, u_φ, u_θ, y_C, y_dbr, y_dbf, y_dbt, y_dBr, y_dBt, y_ηO, y_ηA, y_ηH, w_coef, w_Z7. slots. unfold dderiv_B_φ_func. signs; field; nz.
Qed.
Lemma w_dvr : m_dvr m' θ p' = m_dvr m0 θ p.
Proof.
  unfold m_dvr. rewrite as_h'. rewrite <- Em. rewrite y_Z1, w_Z2, w_Z4, w_dd, w_a, w_ρ, y_X. change (kepler m') with (kepler m0). slots. unfold Model_ModHydro.deriv_v_r_func.
  replace (λ * m_dd m0 θ p * ma_a_0 m0 * (λ * p iB_θ)) with (λ ^ 2 * (m_dd m0 θ p * ma_a_0 m0 * p iB_θ)) by ring. rewrite Hl, Rmult_1_l. reflexivity.
Qed.
Lemma w_dvf : m_dvf m' θ p' = m_dvf m0 θ p.
Proof.
  unfold m_dvf. rewrite w_Z2, w_dvr, w_dd, y_X. change (kepler m') with (kepler m0). slots. unfold Model_ModHydro.deriv_v_φ_func.
  replace (λ * m_dd m0 θ p * (λ * p iB_θ)) with (λ ^ 2 * (m_dd m0 θ p * p iB_θ)) by ring. rewrite Hl, Rmult_1_l. reflexivity.
Qed.
Lemma w_d : forall i, (i < ODE_LEN)%nat -> m_d m' θ p' i = rescaled λ μ (m_d m0 θ p) i.
Proof.
  intros i Hi. unfold ODE_LEN in Hi. pose proof y_dBr. pose proof y_dBt. pose proof w_dvr. pose proof w_dvf. pose proof y_dρ. pose proof w_dd. pose proof y_ηO. pose proof y_ηA. pose proof y_ηH.
  do 11 (destruct i as [|i]; [unfold m_d; rewrite ?as_h', <- ?Em; cbn [rescaled]; unfold iB_r, iB_φ, iB_θ, iv_r, iv_φ, iv_θ, iρ, iB_φ_prime, iη_O, iη_A, iη_H in *;
    rewrite ?as_h', <- ?Em; first [assumption|reflexivity]|]). lia.
Qed.
End Mod.
End Rescaled.
