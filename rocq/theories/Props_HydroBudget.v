(** C146: the azimuthal force balance, and the budgets of magnetic flux and angular momentum, along solutions of the hydrostatic methods. *)
From Coq Require Import Reals Lra Lia.
From Coquelicot Require Import Coquelicot.
From Verif Require Import Lib_Deriv Model_Index Model_Deriv Model_Midplane Model_Ode Model_Hydro Model_ModHydro Spec_Ode Spec_Budget Spec_HydroUnique Spec_ModHydroUnique Spec_HydroBudget
  Proofs_HydroUnique Proofs_ModHydroUnique Props_Hydro Props_HydroUnique Props_ModHydroUnique Props_HydroInduction Props_ModHydro Witness_Ode Props_Budget.
Open Scope R_scope.

(** The rate at which the balance speed changes along a curve. *)
Lemma balance_rate : forall a_0 (y : R -> vec) (θ : R) (d : vec), (forall i, (i < ODE_LEN)%nat -> derivable_pt_lim (fun t => y t i) θ (d i)) ->
  cos θ <> 0 -> y θ iρ <> 0 -> y θ iv_φ <> 0 -> d iB_φ = y θ iB_φ_prime ->
  derivable_pt_lim (fun t => balance_speed a_0 t (y t)) θ
    (Z_1_func θ a_0 (y θ iB_φ) (y θ iB_θ) (y θ iB_r) (y θ iρ) (d iB_r) (y θ iB_φ_prime) (d iB_θ) (y θ iv_φ) (d iρ)
     + 2 * a_0 * (y θ iv_φ * y θ iB_θ * d iB_φ_prime - d iv_φ * the_Z_4 θ (y θ)) / (y θ iv_φ ^ 2 * y θ iρ)).
Proof.
  intros a_0 y θ d D Hc Hρ Hv EP.
  pose proof (D iB_r ltac:(idx)) as D0. pose proof (D iB_φ ltac:(idx)) as D1. pose proof (D iB_θ ltac:(idx)) as D2.
  pose proof (D iv_φ ltac:(idx)) as D4. pose proof (D iρ ltac:(idx)) as D6. pose proof (D iB_φ_prime ltac:(idx)) as D7. clear D.
  assert (Esec : sec θ ^ 2 = 1 + tan θ ^ 2).
  { unfold sec, tan. pose proof (sin2_cos2 θ) as S. unfold Rsqr in S.
    transitivity ((sin θ * sin θ + cos θ * cos θ) / cos θ ^ 2); [rewrite S; field; assumption | field; assumption]. }
  unfold balance_speed. rewrite EP in D1. eapply dpl_eq; [dlim; try eassumption; try discrR|].
  all: try (apply Rmult_integral_contrapositive_currified; assumption).
  unfold Z_1_func, the_Z_4, Z_4_func. rewrite Esec. unfold Rsqr. nrm. field. split; assumption.
Qed.

(** With the derivatives of the hydrostatic method it changes as v_r does. *)
Lemma hydro_balance_rate : forall h y a b x, hydro_solves h y a b -> ha_θ_scale h = 1 -> ha_no_v_deriv h = false -> a <= x <= b ->
  derivable_pt_lim (fun t => excess_speed (ha_a_0 h) t (y t)) x 0.
Proof.
  intros h y a b x H S1 NV Hx. pose proof (hydro_derivs h a b y H x) as D. rewrite S1, Rmult_1_r in D.
  destruct (H x Hx) as (_ & Hc & _ & Hρ & _ & Hv & _ & HD & _). rewrite S1, Rmult_1_r in Hc, HD.
  assert (Hρ' : y x iρ <> 0) by lra.
  pose proof (balance_rate (ha_a_0 h) y x (q_d h x (y x)) (fun i Hi => D i Hx Hi) Hc Hρ' Hv eq_refl) as B.
  pose proof (D iv_r Hx ltac:(idx)) as Dr.
  unfold excess_speed. eapply dpl_eq; [apply (derivable_pt_lim_minus (fun t => y t iv_r) (fun t => balance_speed (ha_a_0 h) t (y t)) x _ _ Dr B)|].
  change (q_d h x (y x) iB_r) with (q_dBr x (y x)). change (q_d h x (y x) iB_θ) with (q_dBt x (y x)). change (q_d h x (y x) iρ) with (q_dρ h x (y x)).
  change (q_d h x (y x) iB_φ_prime) with (q_dd h x (y x)). fold (q_Z1 h x (y x)).
  assert (Er : q_d h x (y x) iv_r = q_dvr h x (y x)) by (unfold q_d, iv_r; rewrite NV; reflexivity).
  assert (Ef : q_d h x (y x) iv_φ = q_Z2 h x (y x) + q_dvr h x (y x) * the_Z_3 h x (y x)) by (unfold q_d, iv_φ; rewrite NV; reflexivity).
  rewrite Er, Ef. clear Er Ef B D Dr. unfold q_dvr, Model_Hydro.deriv_v_r_func. unfold determinant in HD.
  set (Z1 := q_Z1 h x (y x)). set (Z2 := q_Z2 h x (y x)). set (Z3 := the_Z_3 h x (y x)) in *. set (Z4 := the_Z_4 x (y x)) in *. set (F := q_dd h x (y x)).
  clearbody Z1 Z2 Z3 Z4 F. field. repeat split; assumption.
Qed.
Lemma mod_balance_rate : forall m y a b x, mod_solves m y a b -> ma_use_E_r m = false -> ma_θ_scale m = 1 -> a <= x <= b ->
  derivable_pt_lim (fun t => excess_speed (ma_a_0 m) t (y t)) x 0.
Proof.
  intros m y a b x H NE S1 Hx. pose proof (mod_derivs m a b NE y H x) as D. rewrite S1, Rmult_1_r in D.
  destruct (H x Hx) as (_ & Hc & _ & Hρ & _ & HK & Hv & HD & _). rewrite S1, Rmult_1_r in Hc, HD.
  assert (Hρ' : y x iρ <> 0) by lra. assert (Hk : kepler m <> 0) by (apply Rgt_not_eq, sqrt_lt_R0; exact HK).
  pose proof (balance_rate (ma_a_0 m) y x (m_d m x (y x)) (fun i Hi => D i Hx Hi) Hc Hρ' Hv eq_refl) as B.
  pose proof (D iv_r Hx ltac:(idx)) as Dr.
  unfold excess_speed. eapply dpl_eq; [apply (derivable_pt_lim_minus (fun t => y t iv_r) (fun t => balance_speed (ma_a_0 m) t (y t)) x _ _ Dr B)|].
  change (m_d m x (y x) iB_r) with (q_dBr x (y x)). change (m_d m x (y x) iB_θ) with (q_dBt x (y x)). change (m_d m x (y x) iρ) with (q_dρ (as_hydro m) x (y x)).
  change (m_d m x (y x) iB_φ_prime) with (m_dd m x (y x)). change (ma_a_0 m) with (ha_a_0 (as_hydro m)) at 1. fold (q_Z1 (as_hydro m) x (y x)).
  change (m_d m x (y x) iv_r) with (m_dvr m x (y x)). change (m_d m x (y x) iv_φ) with (m_dvf m x (y x)).
  clear B D Dr. unfold m_dvf, Model_ModHydro.deriv_v_φ_func, m_dvr, Model_ModHydro.deriv_v_r_func. unfold mod_determinant in HD.
  set (Z1 := q_Z1 (as_hydro m) x (y x)). set (Z2 := m_Z2 m x (y x)). set (Z4 := the_Z_4 x (y x)) in *. set (F := m_dd m x (y x)). set (k := kepler m) in *. set (X := the_X (y x)).
  clearbody Z1 Z2 Z4 F k X. field. repeat split; assumption.
Qed.

Lemma constant : forall f a b, (forall x, a <= x <= b -> derivable_pt_lim f x 0) -> forall x, a <= x <= b -> f x = f a.
Proof.
  intros f a b D x Hx. destruct (Req_dec x a) as [-> |N]; [reflexivity|]. apply Rminus_diag_uniq.
  rewrite (budget f (fun _ => 0) 0 a x); [ring|lra| | |].
  - intros t Ht. apply derivable_continuous_pt. exists 0. apply D. lra.
  - intros t Ht. apply continuity_pt_const. intros u v. reflexivity.
  - intros t Ht. eapply dpl_eq; [apply D; lra|ring].
Qed.

(** Along every solution of the hydrostatic method the radial velocity departs from the one of the azimuthal force balance by the same amount at every
    angle: gas that starts in balance stays in balance, and an imbalance at the start is never mended. *)
Theorem C146_balance : forall h y a b, hydro_solves h y a b -> ha_θ_scale h = 1 -> ha_no_v_deriv h = false ->
  forall x, a <= x <= b -> excess_speed (ha_a_0 h) x (y x) = excess_speed (ha_a_0 h) a (y a).
Proof.
  intros h y a b H S1 NV. apply (constant (fun t => excess_speed (ha_a_0 h) t (y t))). intros x Hx. exact (hydro_balance_rate h y a b x H S1 NV Hx).
Qed.
Print Assumptions C146_balance.
(** The same for the modified method. *)
Theorem C146_mod_balance : forall m y a b, mod_solves m y a b -> ma_use_E_r m = false -> ma_θ_scale m = 1 ->
  forall x, a <= x <= b -> excess_speed (ma_a_0 m) x (y x) = excess_speed (ma_a_0 m) a (y a).
Proof.
  intros m y a b H NE S1. apply (constant (fun t => excess_speed (ma_a_0 m) t (y t))). intros x Hx. exact (mod_balance_rate m y a b x H NE S1 Hx).
Qed.
Print Assumptions C146_mod_balance.

(** Both methods start at the midplane in balance. *)
Theorem C146_start : forall inp, in_use_E_r inp = false -> in_v_a_on_c_s inp <> 0 ->
  (forall c, hydrostatic_define_conditions inp = Some c -> c_init_con c iv_φ <> 0 -> excess_speed (c_a_0 c) 0 (c_init_con c) = 0) /\
  (let c := mod_hydro_define_conditions inp in c_init_con c iv_φ <> 0 -> excess_speed (c_a_0 c) 0 (c_init_con c) = 0).
Proof.
  intros inp NE Hva. assert (Ha : in_v_a_on_c_s inp ^ 2 <> 0) by (apply pow_nonzero; exact Hva). split.
  - intros c. unfold hydrostatic_define_conditions. cbv zeta. destruct (v_φ_boundary_func _ _ _ _ _ _) as [v|]; [|discriminate].
    rewrite NE. intros E. injection E as <-. cbn [c_init_con c_a_0]. unfold excess_speed, balance_speed, B_φ_prime_boundary_func. rewrite tan_0.
    cbn -[Rdiv Rmult Rplus Rminus Ropp pow]. intros Hv. generalize dependent (in_v_a_on_c_s inp ^ 2). intros A Ha. field. split; assumption.
  - unfold mod_hydro_define_conditions. cbv zeta. rewrite NE. cbn [c_init_con c_a_0]. unfold excess_speed, balance_speed, B_φ_prime_boundary_func. rewrite tan_0.
    set (v := _ / (2 * sqrt _ - _)). clearbody v. cbn -[Rdiv Rmult Rplus Rminus Ropp pow]. intros Hv. generalize dependent (in_v_a_on_c_s inp ^ 2). intros A Ha. field. split; assumption.
Qed.
Print Assumptions C146_start.

(** The budgets, from what the two methods have in common. *)
Section Common.
Variables (a_0 : R) (y d : R -> vec) (a b : R).
Hypotheses (Hab : a < b) (D : forall x i, a <= x <= b -> (i < ODE_LEN)%nat -> derivable_pt_lim (fun t => y t i) x (d x i))
  (Hc : forall x, a <= x <= b -> cos x <> 0) (Dt : forall x, d x iB_θ = q_dBt x (y x)) (Df : forall x, d x iB_φ = y x iB_φ_prime).
Lemma common_cont : forall x i, a <= x <= b -> (i < ODE_LEN)%nat -> continuity_pt (fun t => y t i) x.
Proof. intros x i Hx Hi. apply derivable_continuous_pt. exists (d x i). apply D; assumption. Qed.
Ltac cc :=
  match goal with
  | |- continuity_pt (fun t => @?f t * @?g t) ?x => apply (continuity_pt_mult f g); cbv beta; cc
  | |- continuity_pt (fun t => @?f t - @?g t) ?x => apply (continuity_pt_minus f g); cbv beta; cc
  | |- continuity_pt (fun t => cos t ^ 2) ?x => change (continuity_pt (fun t => cos t * (cos t * 1)) x); cc
  | |- continuity_pt (fun t => cos t) ?x => apply continuity_cos
  | |- continuity_pt cos ?x => apply continuity_cos
  | |- _ => first [apply common_cont; [assumption|idx] | apply continuity_pt_const; intros ? ?; reflexivity]
  end.
Lemma common_flux : flux_up (y b) b - flux_up (y a) a = - (3 / 4) * RInt (fun θ => flux_out (y θ) θ) a b.
Proof.
  apply (budget (fun θ => flux_up (y θ) θ) (fun θ => flux_out (y θ) θ)); [exact Hab| | |].
  - intros x Hx. unfold flux_up. cc.
  - intros x Hx. unfold flux_out. cc.
  - intros x Hx. pose proof (Hc x ltac:(lra)) as C. pose proof (D x iB_θ ltac:(lra) ltac:(idx)) as D1. rewrite Dt in D1. unfold q_dBt in D1.
    unfold flux_up, flux_out. eapply dpl_eq; [dlim|]. unfold tan. field. assumption.
Qed.
Lemma common_torque : (forall x, a <= x <= b -> y x iρ <> 0 /\ y x iv_φ <> 0 /\ y x iv_θ = 0 /\ excess_speed a_0 x (y x) = 0) ->
  torque_up a_0 (y b) b - torque_up a_0 (y a) a = - (1 / 2) * RInt (fun θ => torque_out a_0 (y θ) θ) a b.
Proof.
  intros V.
  assert (E : forall x, a <= x <= b -> torque_up a_0 (y x) x = - a_0 * y x iB_θ * y x iB_φ * cos x ^ 2).
  { intros x Hx. destruct (V x Hx) as (_ & _ & V3 & _). unfold torque_up. rewrite V3. ring. }
  rewrite (E a), (E b) by lra.
  apply (budget (fun θ => - a_0 * y θ iB_θ * y θ iB_φ * cos θ ^ 2) (fun θ => torque_out a_0 (y θ) θ)); [exact Hab| | |].
  - intros x Hx. cc.
  - intros x Hx. unfold torque_out. cc.
  - intros x Hx. pose proof (Hc x ltac:(lra)) as C. destruct (V x ltac:(lra)) as (V1 & V2 & _ & V4).
    pose proof (D x iB_θ ltac:(lra) ltac:(idx)) as D1. rewrite Dt in D1. unfold q_dBt in D1. pose proof (D x iB_φ ltac:(lra) ltac:(idx)) as D2. rewrite Df in D2.
    assert (Er : y x iv_r = balance_speed a_0 x (y x)) by (unfold excess_speed in V4; lra).
    unfold torque_out. rewrite Er. unfold balance_speed. eapply dpl_eq; [dlim|]. cbn [INR pred]. unfold tan. field. repeat split; assumption.
Qed.
End Common.

(** Magnetic flux through two cones: what differs has come in radially between them (C125_flux with γ = 0), for both methods. *)
Theorem C146_flux : forall h y a b, a < b -> hydro_solves h y a b -> ha_θ_scale h = 1 ->
  flux_up (y b) b - flux_up (y a) a = - (3 / 4) * RInt (fun θ => flux_out (y θ) θ) a b.
Proof.
  intros h y a b Hab H S1. apply (common_flux y (fun x => q_d h x (y x))); [exact Hab| | |reflexivity].
  - intros x i Hx Hi. pose proof (hydro_derivs h a b y H x i Hx Hi) as D. rewrite S1, Rmult_1_r in D. exact D.
  - intros x Hx. destruct (H x Hx) as (_ & Hc & _). rewrite S1, Rmult_1_r in Hc. exact Hc.
Qed.
Print Assumptions C146_flux.
Theorem C146_mod_flux : forall m y a b, a < b -> mod_solves m y a b -> ma_use_E_r m = false -> ma_θ_scale m = 1 ->
  flux_up (y b) b - flux_up (y a) a = - (3 / 4) * RInt (fun θ => flux_out (y θ) θ) a b.
Proof.
  intros m y a b Hab H NE S1. apply (common_flux y (fun x => m_d m x (y x))); [exact Hab| | |reflexivity].
  - intros x i Hx Hi. pose proof (mod_derivs m a b NE y H x i Hx Hi) as D. rewrite S1, Rmult_1_r in D. exact D.
  - intros x Hx. destruct (H x Hx) as (_ & Hc & _). rewrite S1, Rmult_1_r in Hc. exact Hc.
Qed.
Print Assumptions C146_mod_flux.

(** Angular momentum of gas and field: from a start without vertical motion and in balance, as the methods' own is, the torques on two cones differ by
    what the radial flow brings in between them (C125_angular_momentum with γ = 0). *)
Theorem C146_angular_momentum : forall h y a b, a < b -> hydro_solves h y a b -> ha_θ_scale h = 1 -> ha_no_v_deriv h = false ->
  y a iv_θ = 0 -> excess_speed (ha_a_0 h) a (y a) = 0 ->
  torque_up (ha_a_0 h) (y b) b - torque_up (ha_a_0 h) (y a) a = - (1 / 2) * RInt (fun θ => torque_out (ha_a_0 h) (y θ) θ) a b.
Proof.
  intros h y a b Hab H S1 NV V0 B0.
  assert (D : forall x i, a <= x <= b -> (i < ODE_LEN)%nat -> derivable_pt_lim (fun t => y t i) x (q_d h x (y x) i)).
  { intros x i Hx Hi. pose proof (hydro_derivs h a b y H x i Hx Hi) as D. rewrite S1, Rmult_1_r in D. exact D. }
  apply (common_torque (ha_a_0 h) y (fun x => q_d h x (y x))); [exact Hab|exact D| |reflexivity|reflexivity|].
  - intros x Hx. destruct (H x Hx) as (_ & Hc & _). rewrite S1, Rmult_1_r in Hc. exact Hc.
  - intros x Hx. destruct (H x Hx) as (_ & _ & _ & Hρ & _ & Hv & _). split; [lra|]. split; [exact Hv|]. split.
    + rewrite <- V0. apply (constant (fun t => y t iv_θ) a b); [|exact Hx]. intros t Ht. exact (D t iv_θ Ht ltac:(idx)).
    + rewrite <- B0. apply (C146_balance h y a b H S1 NV x Hx).
Qed.
Print Assumptions C146_angular_momentum.
Theorem C146_mod_angular_momentum : forall m y a b, a < b -> mod_solves m y a b -> ma_use_E_r m = false -> ma_θ_scale m = 1 ->
  y a iv_θ = 0 -> excess_speed (ma_a_0 m) a (y a) = 0 ->
  torque_up (ma_a_0 m) (y b) b - torque_up (ma_a_0 m) (y a) a = - (1 / 2) * RInt (fun θ => torque_out (ma_a_0 m) (y θ) θ) a b.
Proof.
  intros m y a b Hab H NE S1 V0 B0.
  assert (D : forall x i, a <= x <= b -> (i < ODE_LEN)%nat -> derivable_pt_lim (fun t => y t i) x (m_d m x (y x) i)).
  { intros x i Hx Hi. pose proof (mod_derivs m a b NE y H x i Hx Hi) as D. rewrite S1, Rmult_1_r in D. exact D. }
  apply (common_torque (ma_a_0 m) y (fun x => m_d m x (y x))); [exact Hab|exact D| |reflexivity|reflexivity|].
  - intros x Hx. destruct (H x Hx) as (_ & Hc & _). rewrite S1, Rmult_1_r in Hc. exact Hc.
  - intros x Hx. destruct (H x Hx) as (_ & _ & _ & Hρ & _ & _ & Hv & _). split; [lra|]. split; [exact Hv|]. split.
    + rewrite <- V0. apply (constant (fun t => y t iv_θ) a b); [|exact Hx]. intros t Ht. exact (D t iv_θ Ht ltac:(idx)).
    + rewrite <- B0. apply (C146_mod_balance m y a b H NE S1 x Hx).
Qed.
Print Assumptions C146_mod_angular_momentum.

(** From the magnetised midplane of C144, which is in balance, there is a solution over a range of angles, and it stays in balance. *)
Example C146_nonvacuous : exists e y, 0 < e /\ hydro_solves h_mid y 0 e /\ y 0 iv_θ = 0 /\ y 0 iv_r = -1 /\ y 0 iB_θ = 1 /\ excess_speed (ha_a_0 h_mid) 0 (y 0) = 0 /\
  forall x, 0 <= x <= e -> y x iv_r = balance_speed (1 / 2) x (y x).
Proof.
  destruct (C136_through h_mid 0 p_mid mid_regular) as (e & y & Pe & Y0 & Y1 & _).
  assert (H : hydro_solves h_mid y 0 (e / 2)) by (intros x Hx; apply Y1; apply Rabs_def1; lra).
  assert (B0 : excess_speed (ha_a_0 h_mid) 0 (y 0) = 0).
  { unfold excess_speed, balance_speed. rewrite tan_0. rewrite !Y0 by idx. unfold p_mid, state, h_mid, ha_a_0, iB_r, iB_φ, iB_θ, iv_r, iv_φ, iρ, iB_φ_prime. field. }
  exists (e / 2), y. split; [lra|]. split; [exact H|]. rewrite !Y0 by idx. repeat split; [exact B0|].
  intros x Hx. pose proof (C146_balance h_mid y 0 (e / 2) H eq_refl eq_refl x Hx) as B. rewrite B0 in B. unfold excess_speed in B. cbn [h_mid ha_a_0] in B. lra.
Qed.

(** And so for the modified method, from a midplane whose gas flows in at twice the speed of sound. *)
Definition m_bal : mod_hydro_args := mk_mod_hydro_args 1 9 (fun _ => 1) 1 true false false.
Definition p_bal : vec := state 0 0 1 (-2) 3 0 1 (-3) 1 0 0.
Lemma bal_regular : mod_regular m_bal 0 p_bal.
Proof.
  assert (U : forall j, j = iB_r \/ j = iB_φ -> unit p_bal j = 0) by (intros j [-> | ->]; unfold unit, Rdiv; apply Rmult_0_l).
  assert (Ek : kepler m_bal = 3) by exact m_tor_kepler.
  assert (EX : the_X p_bal = 0) by (unfold the_X, X_func; rewrite (U iB_φ) by auto; unfold p_bal, state, iη_O, iη_A, iη_H; field).
  assert (E4 : the_Z_4 0 p_bal = -3) by (unfold the_Z_4, Z_4_func; rewrite tan_0; unfold p_bal, state, iB_r, iB_φ, iB_θ, iB_φ_prime; field).
  assert (EC : the_C p_bal = 0) by (unfold the_C, C_func; rewrite (U iB_φ) by auto; unfold p_bal, state, iη_O, iη_A, iη_H; field).
  assert (E5 : the_Z_5 p_bal = 1) by (unfold the_Z_5, Z_5_func; rewrite EC; unfold p_bal, state, iη_O, iη_A, iη_H; ring).
  assert (E3 : mod_Z_3 m_bal p_bal = 4 / 3).
  { unfold mod_Z_3, Model_ModHydro.Z_3_func. rewrite Ek, (U iB_φ) by auto. unfold p_bal, state, iv_r, iB_θ, iη_O, iη_A. field. }
  unfold mod_regular, mod_determinant, mod_denominator, mod_coefficient, Model_ModHydro.Z_6_func. replace (0 * ma_θ_scale m_bal) with 0 by ring.
  rewrite E3, E4, E5, EC, EX, Ek, cos_0, (U iB_φ) by auto.
  unfold B_nonzero, p_bal, state, m_bal, ma_a_0, ma_norm_kepler_sq, iB_r, iB_φ, iB_θ, iv_r, iv_φ, iρ, iη_O, iη_A. repeat split; lra.
Qed.
Example C146_mod_nonvacuous : exists e y, 0 < e /\ mod_solves m_bal y 0 e /\ y 0 iv_θ = 0 /\ y 0 iv_r = -2 /\ y 0 iB_θ = 1 /\ excess_speed (ma_a_0 m_bal) 0 (y 0) = 0 /\
  forall x, 0 <= x <= e -> y x iv_r = balance_speed 1 x (y x).
Proof.
  destruct (C140_through m_bal 0 p_bal eq_refl bal_regular) as (e & y & Pe & Y0 & Y1 & _).
  assert (H : mod_solves m_bal y 0 (e / 2)) by (intros x Hx; apply Y1; apply Rabs_def1; lra).
  assert (B0 : excess_speed (ma_a_0 m_bal) 0 (y 0) = 0).
  { unfold excess_speed, balance_speed. rewrite tan_0. rewrite !Y0 by idx. unfold p_bal, state, m_bal, ma_a_0, iB_r, iB_φ, iB_θ, iv_r, iv_φ, iρ, iB_φ_prime. field. }
  exists (e / 2), y. split; [lra|]. split; [exact H|]. rewrite !Y0 by idx. repeat split; [exact B0|].
  intros x Hx. pose proof (C146_mod_balance m_bal y 0 (e / 2) H eq_refl eq_refl x Hx) as B. rewrite B0 in B. unfold excess_speed in B. cbn [m_bal ma_a_0] in B. lra.
Qed.
(** An imbalance at the start is kept too: the gas of the solution of C136 whose field exerts no force flows in although nothing drives it. *)
Example C146_imbalance : forall x, 0 <= x <= 1 -> excess_speed (ha_a_0 h_tor) x (y_tor x) = excess_speed (ha_a_0 h_tor) 0 (y_tor 0) /\ excess_speed (ha_a_0 h_tor) 0 (y_tor 0) < 0.
Proof.
  intros x Hx. split; [apply (C146_balance h_tor y_tor 0 1 y_tor_solves eq_refl eq_refl x Hx)|].
  unfold excess_speed, balance_speed, h_tor, ha_a_0, y_tor, state, iv_r. unfold Rdiv. rewrite Rmult_0_r, !Rmult_0_l. lra.
Qed.
(** A disc with v_rin = v_a = c_s = v_k / 10 and unit Ohmic diffusivity meets the hypotheses of [C146_start]. *)
Example C146_start_nonvacuous : in_use_E_r ohmic_inp = false /\ in_v_a_on_c_s ohmic_inp <> 0 /\
  (exists c, hydrostatic_define_conditions ohmic_inp = Some c /\ c_init_con c iv_φ <> 0) /\ c_init_con (mod_hydro_define_conditions ohmic_inp) iv_φ <> 0.
Proof.
  split; [reflexivity|]. split; [cbn; lra|]. split.
  - unfold hydrostatic_define_conditions, v_φ_boundary_func, v_φ_radicand, ohmic_inp. cbn [in_v_rin_on_c_s in_v_a_on_c_s in_c_s_on_v_k in_η_O in_η_A in_η_H in_use_E_r].
    destruct (Rlt_dec _ 0) as [N|N].
    + exfalso. revert N. apply Rle_not_lt. match goal with |- 0 <= ?l => replace l with 96 by field end. lra.
    + eexists. split; [reflexivity|]. cbn -[Rdiv Rmult Rplus Rminus Ropp pow sqrt].
      match goal with |- context [sqrt ?l] => pose proof (sqrt_lt_R0 l) as S; replace l with 96 in * by field end. specialize (S ltac:(lra)). lra.
  - change (c_init_con (mod_hydro_define_conditions ohmic_inp) iv_φ) with ((2 * (1 / (1 / 10) ^ 2) - 5 / 2 + -1 * (1 ^ 2 / (1 + 0) - -1 / 2)) /
      (2 * sqrt (c_norm_kepler_sq (mod_hydro_define_conditions (mh_inp false))) - -1 * 0 / (2 * (1 + 0)))).
    rewrite mh_kepler. lra.
Qed.
