(** C145: the unit and the sign of the field in the hydrostatic methods. *)
From Coq Require Import Reals Lra Lia.
From Verif Require Import Model_Index Model_Deriv Model_Ode Model_Hydro Model_ModHydro Lib_Deriv Spec_Ode Spec_HydroUnique Spec_ModHydroUnique Spec_HydroSymmetry
  Proofs_HydroUnique Proofs_ModHydroUnique Proofs_HydroSymmetry Props_HydroUnique Props_ModHydroUnique.
Open Scope R_scope.

Lemma hydro_answers : forall h x p, 0 <= p iρ -> 0 <= discriminant h (x * ha_θ_scale h) p -> exists d, hydro_rhs h x p = Hy_ok d (x * ha_θ_scale h).
Proof.
  intros h x p Hρ Hd. unfold hydro_rhs. cbv zeta. destruct (Rlt_dec (p iρ) 0) as [N|_]; [lra|].
  match goal with |- context [Rlt_dec ?a 0] => destruct (Rlt_dec a 0) as [N|_] end.
  { exfalso. change (discriminant h (x * ha_θ_scale h) p < 0) in N. lra. }
  unfold B_unit_derivs. cbv beta iota zeta. eexists. reflexivity.
Qed.
Lemma rescaled_regular : forall h x p λ, λ <> 0 -> hydro_regular h x p -> hydro_regular (hydro_rescaled λ (λ ^ 2) h) x (rescaled λ (λ ^ 2) p).
Proof.
  intros h x p λ Hλ (Hc & HB & Hρ & HD & Hv & Hd & HT & HK).
  assert (Hμ : 0 < λ ^ 2) by (rewrite <- Rsqr_pow2; apply Rsqr_pos_lt; exact Hλ).
  unfold hydro_regular. change (ha_θ_scale (hydro_rescaled λ (λ ^ 2) h)) with (ha_θ_scale h). set (θ := x * ha_θ_scale h) in *.
  rewrite (y_disc h θ p λ (λ ^ 2)), (y_det h θ p λ (λ ^ 2)), (y_coef h θ p λ (λ ^ 2)), (u_φ p λ (λ ^ 2)) by assumption.
  split; [exact Hc|]. split; [|split; [|split; [|split; [|split; [exact Hd|split; [|exact HK]]]]]].
  - unfold B_nonzero in *. change (0 < (λ * p iB_r) ^ 2 + (λ * p iB_φ) ^ 2 + (λ * p iB_θ) ^ 2).
    replace ((λ * p iB_r) ^ 2 + (λ * p iB_φ) ^ 2 + (λ * p iB_θ) ^ 2) with (λ ^ 2 * (p iB_r ^ 2 + p iB_φ ^ 2 + p iB_θ ^ 2)) by ring. apply Rmult_lt_0_compat; assumption.
  - apply Rmult_lt_0_compat; assumption.
  - change (p iη_O + p iη_A * (1 - (hall_sign λ * unit p iB_φ) ^ 2) <> 0). replace ((hall_sign λ * unit p iB_φ) ^ 2) with (unit p iB_φ ^ 2); [exact HD|].
    destruct (hall_cases λ Hλ) as [(_ & ->)|(_ & ->)]; ring.
  - exact Hv.
  - apply Rmult_integral_contrapositive_currified; [lra|exact HT].
Qed.
(** The derivatives of the rescaled disc are the rescaled derivatives, whatever the unit and the sign of the field, if the unit of density goes with it. *)
Theorem C145_hydro_partial : forall h x p d θ λ, λ <> 0 -> hydro_regular h x p -> hydro_rhs h x p = Hy_ok d θ ->
  exists d', hydro_rhs (hydro_rescaled λ (λ ^ 2) h) x (rescaled λ (λ ^ 2) p) = Hy_ok d' θ /\ forall i, (i < ODE_LEN)%nat -> d' i = rescaled λ (λ ^ 2) d i.
Proof.
  intros h x p d θ λ Hλ Reg E. pose proof (rescaled_regular h x p λ Hλ Reg) as Reg'. destruct Reg as (Hc & HB & Hρ & HD & Hv & Hd & HT & HK).
  assert (Hμ : 0 < λ ^ 2) by (rewrite <- Rsqr_pow2; apply Rsqr_pos_lt; exact Hλ).
  destruct (hydro_answers h x p ltac:(lra) ltac:(lra)) as (d0 & E0). assert (Et : θ = x * ha_θ_scale h) by congruence.
  destruct Reg' as (_ & _ & Hρ' & _ & _ & Hd' & _).
  destruct (hydro_answers _ _ _ (Rlt_le _ _ Hρ') (Rlt_le _ _ Hd')) as (d' & E'). exists d'. split; [rewrite Et; exact E'|].
  intros i Hi. rewrite (hydro_pieces _ _ _ _ _ E' i Hi). change (ha_θ_scale (hydro_rescaled λ (λ ^ 2) h)) with (ha_θ_scale h).
  rewrite (y_d h (x * ha_θ_scale h) p λ (λ ^ 2)) by (assumption || reflexivity).
  assert (Q := fun j Hj => hydro_pieces _ _ _ _ _ E j Hj). unfold ODE_LEN in *.
  do 11 (destruct i as [|i]; [cbn [rescaled]; try (rewrite (Q 0%nat) by lia); rewrite ?Q by (unfold iB_r, iB_φ, iB_θ, iv_r, iv_φ, iv_θ, iρ, iB_φ_prime, iη_O, iη_A, iη_H; lia); reflexivity|]). lia.
Qed.
(** So the rescaled curve solves the rescaled system. *)
Theorem C145_solutions_partial : forall h y a b λ, λ <> 0 -> hydro_solves h y a b -> hydro_solves (hydro_rescaled λ (λ ^ 2) h) (fun t => rescaled λ (λ ^ 2) (y t)) a b.
Proof.
  intros h y a b λ Hλ H x Hx. destruct (H x Hx) as ((d & θ & E & D) & Reg). split; [|apply rescaled_regular; assumption].
  destruct (C145_hydro_partial h x (y x) d θ λ Hλ Reg E) as (d' & E' & Q). exists d', θ. split; [exact E'|].
  intros i Hi. rewrite (Q i Hi). unfold ODE_LEN in *.
  assert (Dm : forall j k, (j < 11)%nat -> derivable_pt_lim (fun t => k * y t j) x (k * d j)).
  { intros j k Hj. apply (derivable_pt_lim_scal (fun t => y t j)). apply D. exact Hj. }
  do 11 (destruct i as [|i]; [cbn [rescaled]; first [apply Dm; unfold iB_r, iB_φ, iB_θ, iv_r, iv_φ, iv_θ, iρ, iB_φ_prime, iη_O, iη_A, iη_H; lia
    | apply D; unfold iB_r, iB_φ, iB_θ, iv_r, iv_φ, iv_θ, iρ, iB_φ_prime, iη_O, iη_A, iη_H; lia]|]). lia.
Qed.
(** The modified method without E_r: reversing the field, and with it the sign of the Hall effect, reverses the field in the derivatives and changes
    nothing else. *)
Theorem C145_mod_sign : forall sr m root x p d q r θ, ma_use_E_r m = false -> mod_regular m x p -> mod_hydro_rhs sr m root x p = Mh_ok d q r θ ->
  exists d' q' r', mod_hydro_rhs sr (mod_rescaled (-1) 1 m) root x (rescaled (-1) 1 p) = Mh_ok d' q' r' θ /\ forall i, (i < ODE_LEN)%nat -> d' i = rescaled (-1) 1 d i.
Proof.
  intros sr m root x p d q r θ NE (Hc & HB & Hρ & HD & Hk & Hv & HT & HN & HK) E.
  assert (A : forall m2 p2, ma_use_E_r m2 = false -> 0 <= p2 iρ -> exists d' q' r', mod_hydro_rhs sr m2 root x p2 = Mh_ok d' q' r' (x * ma_θ_scale m2)).
  { intros m2 p2 N2 R2. unfold mod_hydro_rhs. cbv zeta. rewrite N2. destruct (Rlt_dec (p2 iρ) 0) as [N|_]; [lra|]. unfold B_unit_derivs. cbv beta iota zeta. repeat eexists. }
  destruct (A m p NE ltac:(lra)) as (d0 & q0 & r0 & E0). assert (Et : θ = x * ma_θ_scale m) by congruence.
  destruct (A (mod_rescaled (-1) 1 m) (rescaled (-1) 1 p) NE) as (d' & q' & r' & E').
  { change (0 <= 1 * p iρ). lra. }
  exists d', q', r'. split; [rewrite Et; exact E'|]. intros i Hi. rewrite (mod_pieces sr (mod_rescaled (-1) 1 m) root x (rescaled (-1) 1 p) d' q' r' _ NE E' i Hi).
  change (ma_θ_scale (mod_rescaled (-1) 1 m)) with (ma_θ_scale m).
  rewrite (w_d (as_hydro m) (x * ma_θ_scale m) p (-1) 1 ltac:(lra) ltac:(lra) HB Hρ HD Hv m eq_refl ltac:(ring) eq_refl Hk HK i Hi).
  assert (Q := fun j Hj => mod_pieces _ _ _ _ _ _ _ _ _ NE E j Hj). unfold ODE_LEN in *.
  do 11 (destruct i as [|i]; [cbn [rescaled]; rewrite ?Q by (unfold iB_r, iB_φ, iB_θ, iv_r, iv_φ, iv_θ, iρ, iB_φ_prime, iη_O, iη_A, iη_H; lia); reflexivity|]). lia.
Qed.

(** With a unit of density of its own, so that a_0 is another number, the hydrostatic method gives another disc: Z_7 lacks a factor 2 a_0. *)
Definition h_u : hydro_args := mk_hydro_args (1 / 2) (15 / 2) (fun _ => 1) 1 false false false.
Definition p_u : vec := state 1 0 1 (-1) 2 0 1 (-2) 1 0 0.
Section Values.
Variables (h : hydro_args) (p : vec) (ρ a : R).
Hypothesis (Ph : h = mk_hydro_args a (15 / 2) (ha_init_con h) 1 false false false) (Hρ : 0 < ρ) (Ha : a / ρ = 1 / 2).
Hypothesis (P0 : p iB_r = 1) (P1 : p iB_φ = 0) (P2 : p iB_θ = 1) (P3 : p iv_r = -1) (P4 : p iv_φ = 2) (P6 : p iρ = ρ) (P7 : p iB_φ_prime = -2) (P8 : p iη_O = 1) (P9 : p iη_A = 0)
  (P10 : p iη_H = 0).
Lemma u_values : discriminant h 0 p = 16 /\ determinant h 0 p = 3 * ρ /\ coefficient h 0 p = 4 / 3 /\ q_dd h 0 p = (7 / 2 - (1 / 8 + 1 / 2 * (2 * ρ + 1 / 4) / (3 * ρ))) / (4 / 3).
Proof.
  assert (Ea : ha_a_0 h = a) by (rewrite Ph; reflexivity). assert (Ek : ha_norm_kepler_sq h = 15 / 2) by (rewrite Ph; reflexivity).
  assert (Eη : ha_η_derivs h = false) by (rewrite Ph; reflexivity). clear Ph.
  assert (Aρ : a = ρ / 2) by (rewrite <- (Rmult_1_r a); rewrite <- (Rinv_r ρ) by lra; unfold Rdiv in Ha; rewrite <- Rmult_assoc, (Rmult_comm a ρ), Rmult_assoc, Ha; field).
  assert (EX : the_X p = 0) by (unfold the_X, X_func; rewrite P8, P9, P10; field; lra).
  assert (EC : the_C p = 0) by (unfold the_C, C_func; rewrite P8, P9, P10; field; lra).
  assert (E5 : the_Z_5 p = 1) by (unfold the_Z_5, Z_5_func; rewrite P8, P9, EC; ring).
  assert (E4 : the_Z_4 0 p = -2) by (unfold the_Z_4, Z_4_func; rewrite P0, P1, P2, P7, tan_0; field).
  assert (Eb : the_b p = 0) by (unfold the_b, b_func; rewrite EX; field).
  assert (Ec : the_c h 0 p = -4) by (unfold the_c, c_func; rewrite EX, Ek, Ea, P0, P1, P2, P3, P6, P8, P9, P10, tan_0, Aρ; field; lra).
  assert (S : sqrt (0 ^ 2 - 4 * -4) = 4) by (replace (0 ^ 2 - 4 * -4) with (4 * 4) by ring; apply sqrt_square; lra).
  assert (E3 : the_Z_3 h 0 p = 1 / 2) by (unfold the_Z_3, Model_Hydro.Z_3_func; rewrite EX, Eb, Ec, S, Ea, P2, P3, P6, P8, P9, Aρ; field; lra).
  assert (ET : q_dBt 0 p = - 3 / 4) by (unfold q_dBt; rewrite P0, P2, tan_0; field).
  assert (ER : q_dBr 0 p = 3 / 4) by (unfold q_dBr; rewrite P1, P2, P3, P7, P8, P9, P10, tan_0; field; lra).
  assert (Eρ : q_dρ h 0 p = - ρ / 2) by (unfold q_dρ; rewrite ER, Ea, P0, P1, P2, P4, P6, P7, tan_0, Aρ; field).
  assert (EE : forall i, q_dη h 0 p i = 0) by (intro i; unfold q_dη; rewrite Eη; reflexivity).
  assert (EA : q_A h 0 p = 0) by (unfold q_A, A_func; rewrite !EE, P8, P9, P10; field; lra).
  assert (EXd : q_Xd h 0 p = 0) by (unfold q_Xd, X_dash_func; rewrite !EE, P8, P9, P10; field; lra).
  assert (E1 : q_Z1 h 0 p = 1 / 2) by (unfold q_Z1, Z_1_func; rewrite ER, ET, Eρ, Ea, P0, P1, P2, P4, P6, P7, tan_0, Aρ; field; lra).
  assert (E2 : q_Z2 h 0 p = 1 / 8) by (unfold q_Z2, Model_Hydro.Z_2_func; rewrite EX, EXd, ER, ET, Eρ, Eb, Ec, !EE, S, Ea, P0, P1, P2, P3, P6, P7, P8, P9, P10, tan_0, Aρ; field; lra).
  assert (E6 : coefficient h 0 p = 4 / 3) by (unfold coefficient, Model_Hydro.Z_6_func; rewrite EC, E3, E4, E5, Ea, P2, P4, P6, Aρ; field; lra).
  assert (E7 : q_Z7 h 0 p = 1 / 8 + 1 / 2 * (2 * ρ + 1 / 4) / (3 * ρ)).
  { unfold q_Z7, Model_Hydro.Z_7_func. rewrite EC, E1, E2, E3, E4, Ea, P4, P6, Aρ. field. lra. }
  split; [unfold discriminant; rewrite Eb, Ec; ring|]. split; [unfold determinant; rewrite E3, E4, Ea, P4, P6, Aρ; field|]. split; [exact E6|].
  unfold q_dd, dderiv_B_φ_func. rewrite EA, EC, E6, E7, ET, ER, !EE, P1, P2, P3, P4, P7, P8, P9, P10, tan_0. field. lra.
Qed.
End Values.
Lemma u_regular : forall h p ρ a, h = mk_hydro_args a (15 / 2) (ha_init_con h) 1 false false false -> 0 < ρ -> a / ρ = 1 / 2 ->
  p iB_r = 1 -> p iB_φ = 0 -> p iB_θ = 1 -> p iv_r = -1 -> p iv_φ = 2 -> p iρ = ρ -> p iB_φ_prime = -2 -> p iη_O = 1 -> p iη_A = 0 -> p iη_H = 0 -> hydro_regular h 0 p.
Proof.
  intros h p ρ a Ph Hρ Ha P0 P1 P2 P3 P4 P6 P7 P8 P9 P10. destruct (u_values h p ρ a) as (Ed & Et & Ek & _); try assumption.
  unfold hydro_regular. rewrite Rmult_0_l, Ed, Et, Ek, cos_0. unfold B_nonzero. rewrite P0, P1, P2, P4, P6, P8, P9. repeat split; lra.
Qed.
Theorem C145_units_refuted : exists h p d d', hydro_regular h 0 p /\ hydro_rhs h 0 p = Hy_ok d 0 /\
  hydro_rhs (hydro_rescaled 1 2 h) 0 (rescaled 1 2 p) = Hy_ok d' 0 /\ d iB_φ_prime = 9 / 4 /\ d' iB_φ_prime = 145 / 64 /\ rescaled 1 2 d iB_φ_prime = 9 / 4.
Proof.
  assert (Hs : hall_sign 1 = 1) by (unfold hall_sign; destruct (Rlt_dec 1 0); lra).
  assert (P' : hydro_rescaled 1 2 h_u = mk_hydro_args 1 (15 / 2) (ha_init_con (hydro_rescaled 1 2 h_u)) 1 false false false).
  { unfold hydro_rescaled, h_u. cbn [ha_a_0 ha_norm_kepler_sq ha_θ_scale ha_η_derivs ha_store_internal ha_no_v_deriv ha_init_con]. f_equal. field. }
  assert (V := u_values h_u p_u 1 (1 / 2) eq_refl ltac:(lra) ltac:(field) eq_refl eq_refl eq_refl eq_refl eq_refl eq_refl eq_refl eq_refl eq_refl eq_refl).
  assert (V' := u_values (hydro_rescaled 1 2 h_u) (rescaled 1 2 p_u) 2 1 P' ltac:(lra) ltac:(field) ltac:(unfold rescaled, p_u, state, iB_r; ring) ltac:(unfold rescaled, p_u, state, iB_φ; ring)
    ltac:(unfold rescaled, p_u, state, iB_θ; ring) eq_refl eq_refl ltac:(unfold rescaled, p_u, state, iρ; ring) ltac:(unfold rescaled, p_u, state, iB_φ_prime; ring) eq_refl eq_refl
    ltac:(unfold rescaled, p_u, state, iη_H; ring)).
  destruct V as (Vd & _ & _ & V). destruct V' as (Vd' & _ & _ & V').
  destruct (hydro_answers h_u 0 p_u) as (d & E); [unfold p_u, state, iρ; lra|rewrite Rmult_0_l, Vd; lra|].
  destruct (hydro_answers (hydro_rescaled 1 2 h_u) 0 (rescaled 1 2 p_u)) as (d' & E'); [unfold rescaled, p_u, state, iρ; lra|rewrite Rmult_0_l, Vd'; lra|].
  rewrite Rmult_0_l in E, E'. exists h_u, p_u, d, d'.
  split; [exact (u_regular h_u p_u 1 (1 / 2) eq_refl ltac:(lra) ltac:(field) eq_refl eq_refl eq_refl eq_refl eq_refl eq_refl eq_refl eq_refl eq_refl eq_refl)|].
  split; [exact E|]. split; [exact E'|].
  assert (Q : d iB_φ_prime = 9 / 4).
  { rewrite (hydro_pieces _ _ _ _ _ E iB_φ_prime ltac:(unfold ODE_LEN, iB_φ_prime; lia)), Rmult_0_l. change (q_dd h_u 0 p_u = 9 / 4). rewrite V. field. }
  split; [exact Q|]. split.
  - rewrite (hydro_pieces _ _ _ _ _ E' iB_φ_prime ltac:(unfold ODE_LEN, iB_φ_prime; lia)), Rmult_0_l. change (q_dd (hydro_rescaled 1 2 h_u) 0 (rescaled 1 2 p_u) = 145 / 64). rewrite V'. field.
  - change (1 * d iB_φ_prime = 9 / 4). rewrite Q. field.
Qed.

(** In the modified method the field has a unit of its own even if the unit of density goes with it: Z_3 adds B_θ² over a diffusivity to a velocity ratio. *)
Definition m_u : mod_hydro_args := mk_mod_hydro_args 1 9 (fun _ => 1) 1 false false false.
Definition q_u : vec := state 0 0 1 (-1) 3 0 1 0 1 0 0.
Lemma mod_values : forall m p λ, 0 < λ -> m = mk_mod_hydro_args 1 9 (ma_init_con m) 1 false false false -> p iB_r = 0 -> p iB_φ = 0 -> p iB_θ = λ -> p iv_r = -1 -> p iv_φ = 3 ->
  p iρ = λ ^ 2 -> p iB_φ_prime = 0 -> p iη_O = 1 -> p iη_A = 0 -> p iη_H = 0 -> m_dd m 0 p = - λ * (10 / 9) / (1 + 2 / 3 * (λ ^ 2 + 1 / 6)).
Proof.
  intros m p λ Hλ Pm P0 P1 P2 P3 P4 P6 P7 P8 P9 P10.
  assert (Ea : ma_a_0 m = 1) by (rewrite Pm; reflexivity). assert (Eη : ha_η_derivs (as_hydro m) = false) by (rewrite Pm; reflexivity).
  assert (Ek : kepler m = 3).
  { unfold kepler. replace (ma_norm_kepler_sq m) with (3 * 3) by (rewrite Pm; cbn; ring). apply sqrt_square. lra. }
  clear Pm. pose proof (pow2_ge_0 λ) as Hp. assert (Hn : λ <> 0) by lra.
  assert (EX : the_X p = 0) by (unfold the_X, X_func; rewrite P8, P9, P10; field; lra).
  assert (EC : the_C p = 0) by (unfold the_C, C_func; rewrite P8, P9, P10; field; lra).
  assert (E5 : the_Z_5 p = 1) by (unfold the_Z_5, Z_5_func; rewrite P8, P9, EC; ring).
  assert (E4 : the_Z_4 0 p = 0) by (unfold the_Z_4, Z_4_func; rewrite P0, P1, P7; field).
  assert (E3 : mod_Z_3 m p = λ ^ 2 + 1 / 6) by (unfold mod_Z_3, Model_ModHydro.Z_3_func; rewrite Ek, P2, P3, P8, P9; field; lra).
  assert (E6 : mod_coefficient m 0 p = 1 + 2 / 3 * (λ ^ 2 + 1 / 6)).
  { unfold mod_coefficient, Model_ModHydro.Z_6_func. rewrite EX, EC, E3, E4, E5, Ek, Ea, P2, P3, P4, P6. field. exact Hn. }
  assert (E7 : m_Z7 m 0 p = 10 / 9) by (unfold m_Z7, Model_ModHydro.Z_7_func; rewrite EX, EC, E4, E5, Ek, Ea, P2, P3, P4, P6; field; exact Hn).
  assert (ET : q_dBt 0 p = 0) by (unfold q_dBt; rewrite P0, tan_0; ring).
  assert (EE : forall i, q_dη (as_hydro m) 0 p i = 0) by (intro i; unfold q_dη; rewrite Eη; reflexivity).
  assert (EA : q_A (as_hydro m) 0 p = 0) by (unfold q_A, A_func; rewrite !EE, P8, P9, P10; field; lra).
  unfold m_dd, dderiv_B_φ_func. rewrite EA, EC, E6, E7, ET, !EE, P1, P2, P7, P8, P9, P10. field. lra.
Qed.
Theorem C145_mod_units_refuted : exists m p d d' q q', ma_use_E_r m = false /\ mod_regular m 0 p /\ forall sr root, mod_hydro_rhs sr m root 0 p = Mh_ok d q root 0 /\
  mod_hydro_rhs sr (mod_rescaled 2 4 m) root 0 (rescaled 2 4 p) = Mh_ok d' q' root 0 /\ rescaled 2 4 d iB_φ_prime = - (5 / 4) /\ d' iB_φ_prime = - (10 / 17).
Proof.
  assert (Hs : hall_sign 2 = 1) by (unfold hall_sign; destruct (Rlt_dec 2 0); lra).
  assert (A : forall m2 p2, ma_use_E_r m2 = false -> 0 <= p2 iρ -> exists d' q', forall sr root, mod_hydro_rhs sr m2 root 0 p2 = Mh_ok d' q' root 0).
  { intros m2 p2 N2 R2. unfold mod_hydro_rhs. cbv zeta. rewrite N2. destruct (Rlt_dec (p2 iρ) 0) as [N|_]; [lra|]. unfold B_unit_derivs. cbv beta iota zeta.
    unfold scaled_to_rad_num. rewrite Rmult_0_l. eexists. eexists. intros sr root. reflexivity. }
  destruct (A m_u q_u eq_refl ltac:(unfold q_u, state, iρ; lra)) as (d & q & E).
  destruct (A (mod_rescaled 2 4 m_u) (rescaled 2 4 q_u) eq_refl ltac:(unfold rescaled, q_u, state, iρ; lra)) as (d' & q' & E').
  exists m_u, q_u, d, d', q, q'. split; [reflexivity|]. split; [exact C140_through_nonvacuous|]. intros sr root. split; [exact (E sr root)|]. split; [exact (E' sr root)|]. split.
  - change (2 * d iB_φ_prime = - (5 / 4)). rewrite (mod_pieces sr m_u root 0 q_u d q root 0 eq_refl (E sr root) iB_φ_prime ltac:(unfold ODE_LEN, iB_φ_prime; lia)), Rmult_0_l.
    change (2 * m_dd m_u 0 q_u = - (5 / 4)). rewrite (mod_values m_u q_u 1) by (try reflexivity; try lra; unfold q_u, state, iρ; ring). field.
  - rewrite (mod_pieces sr (mod_rescaled 2 4 m_u) root 0 _ d' q' root 0 eq_refl (E' sr root) iB_φ_prime ltac:(unfold ODE_LEN, iB_φ_prime; lia)), Rmult_0_l.
    change (m_dd (mod_rescaled 2 4 m_u) 0 (rescaled 2 4 q_u) = - (10 / 17)). rewrite (mod_values (mod_rescaled 2 4 m_u) (rescaled 2 4 q_u) 2); try lra.
    + unfold mod_rescaled, m_u. cbn [ma_a_0 ma_norm_kepler_sq ma_θ_scale ma_η_derivs ma_store_internal ma_use_E_r ma_init_con]. f_equal. field.
    + unfold rescaled, q_u, state, iB_r. ring.
    + unfold rescaled, q_u, state, iB_φ. ring.
    + unfold rescaled, q_u, state, iB_θ. ring.
    + reflexivity.
    + reflexivity.
    + unfold rescaled, q_u, state, iρ. ring.
    + unfold rescaled, q_u, state, iB_φ_prime. ring.
    + reflexivity.
    + reflexivity.
    + unfold rescaled, q_u, state, iη_H. ring.
Qed.
(** The hypotheses of the positive statements are met: the reversed disc of a curve known to solve the system solves it too. *)
Example C145_nonvacuous : hydro_solves (hydro_rescaled (-3) ((-3) ^ 2) h_tor) (fun t => rescaled (-3) ((-3) ^ 2) (y_tor t)) 0 1 /\
  (forall t, rescaled (-3) ((-3) ^ 2) (y_tor t) iB_φ = -3 * exp (- t / 4)) /\ hydro_regular (mk_hydro_args 1 10 (fun _ => 1) 1 true false false) 0 (state 0 0 1 (-1) 3 0 1 0 1 0 0).
Proof. split; [exact (C145_solutions_partial h_tor y_tor 0 1 (-3) ltac:(lra) y_tor_solves)|]. split; [reflexivity|exact C136_through_nonvacuous]. Qed.
Example C145_mod_nonvacuous : (forall sr root, exists d q, mod_hydro_rhs sr m_u root 0 q_u = Mh_ok d q root 0) /\ ma_use_E_r m_u = false /\ mod_regular m_u 0 q_u.
Proof.
  split; [|split; [reflexivity|exact C140_through_nonvacuous]]. intros sr root. unfold mod_hydro_rhs. cbv zeta. cbn [ma_use_E_r m_u].
  match goal with |- context [Rlt_dec ?a 0] => destruct (Rlt_dec a 0) as [N|_] end; [unfold q_u, state, iρ in N; lra|].
  unfold B_unit_derivs. cbv beta iota zeta. unfold scaled_to_rad_num. rewrite Rmult_0_l. repeat eexists.
Qed.
