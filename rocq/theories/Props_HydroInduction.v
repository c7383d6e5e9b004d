(** C144: the induction equation in the hydrostatic methods. *)
From Coq Require Import Reals Lra Lia.
From Verif Require Import Model_Index Model_Deriv Model_Midplane Model_Ode Model_Hydro Model_ModHydro Lib_Deriv Spec_MHD Spec_Ode Spec_HydroUnique Spec_ModHydroUnique
  Spec_HydroInduction Proofs_HydroUnique Proofs_ModHydroUnique Props_ModHydroUnique.
Open Scope R_scope.

(** The numerator of the shared formula, with any coefficient and anything subtracted. *)
Lemma shared_formula : forall θ p d Z_6 Z_7, Z_6 <> 0 -> full_coefficient p <> 0 -> d iB_φ = p iB_φ_prime ->
  Z_6 * dderiv_B_φ_func (A_func (p iη_O) (p iη_A) (p iη_H) (unit p iB_θ) (unit p iB_r) (unit p iB_φ) (d iη_O) (d iη_A) (d iη_H) (unit_rate p d iB_θ) (unit_rate p d iB_r) (unit_rate p d iB_φ))
    (unit p iB_r) (unit p iB_θ) (p iB_θ) (unit p iB_φ) (p iB_φ) (the_C p) (unit_rate p d iB_r) (d iB_r) (unit_rate p d iB_θ) (d iB_θ) (unit_rate p d iB_φ) (d iB_φ)
    (d iη_A) (d iη_H) (d iη_O) (p iv_r) (p iv_φ) Z_6 Z_7 (p iη_A) (p iη_H) (p iη_O) θ =
  full_coefficient p * full_second_derivative θ p d + p iB_θ * (d iv_φ + the_C p * d iv_r) + shared_slips θ p d - p iB_θ * Z_7.
Proof.
  intros θ p d Z_6 Z_7 HZ HM E. unfold full_second_derivative, dderiv_B_φ_soln, dderiv_B_φ_func.
  set (A := A_func _ _ _ _ _ _ _ _ _ _ _ _). clearbody A. unfold shared_slips, coupling, coupling_rate, resistance, resistance_rate.
  set (u1 := unit_rate p d iB_r). set (u2 := unit_rate p d iB_φ). set (u3 := unit_rate p d iB_θ). clearbody u1 u2 u3.
  unfold full_coefficient in *. set (b1 := unit p iB_r) in *. set (b2 := unit p iB_φ) in *. set (b3 := unit p iB_θ) in *. set (C := the_C p) in *. clearbody b1 b2 b3 C.
  set (t := tan θ). set (s := sec θ). clearbody t s. unfold Rdiv at 1. rewrite (Rmult_comm Z_6), Rmult_assoc, Rinv_l, Rmult_1_r by exact HZ.
  match goal with |- _ = ?M * (?n / ?M') + _ + _ - _ => replace (M * (n / M')) with n by (field; exact HM) end.
  field.
Qed.

(** What the hydrostatic right-hand side returns, at every regular state.  Were it not for the last two terms, B_φ'' would obey the induction equation of
    the full system.  The last one is a factor 2 a_0 that Z_7 lacks (hydrostatic.py:257): it vanishes only for a_0 = 1/2. *)
Theorem C144_hydro_exact : forall h x p d θ, hydro_rhs h x p = Hy_ok d θ -> ha_no_v_deriv h = false -> hydro_regular h x p -> full_coefficient p <> 0 ->
  the_Z_5 p * d iB_φ_prime = full_coefficient p * full_second_derivative (x * ha_θ_scale h) p d + shared_slips (x * ha_θ_scale h) p d +
    (1 - 2 * ha_a_0 h) * p iB_θ * (the_C p + the_Z_3 h (x * ha_θ_scale h) p) * (d iv_φ - the_Z_3 h (x * ha_θ_scale h) p * d iv_r) * the_Z_4 (x * ha_θ_scale h) p /
    determinant h (x * ha_θ_scale h) p.
Proof.
  intros h x p d θ0 E NV (Hc & HB & Hρ & Hη & Hv & Hd & HD & HK) HM. pose proof (hydro_pieces _ _ _ _ _ E) as Q. set (θ := x * ha_θ_scale h) in *. clearbody θ.
  assert (Q0 := Q 0%nat ltac:(unfold ODE_LEN; lia)). assert (Q1 := Q 1%nat ltac:(unfold ODE_LEN; lia)). assert (Q2 := Q 2%nat ltac:(unfold ODE_LEN; lia)).
  assert (Q3 := Q 3%nat ltac:(unfold ODE_LEN; lia)). assert (Q4 := Q 4%nat ltac:(unfold ODE_LEN; lia)). assert (Q7 := Q 7%nat ltac:(unfold ODE_LEN; lia)).
  assert (Q8 := Q 8%nat ltac:(unfold ODE_LEN; lia)). assert (Q9 := Q 9%nat ltac:(unfold ODE_LEN; lia)). assert (Q10 := Q 10%nat ltac:(unfold ODE_LEN; lia)). clear Q.
  cbn [q_d] in *. rewrite NV in Q3, Q4.
  change (d 0%nat) with (d iB_r) in Q0. change (d 1%nat) with (d iB_φ) in Q1. change (d 2%nat) with (d iB_θ) in Q2. change (d 3%nat) with (d iv_r) in Q3.
  change (d 4%nat) with (d iv_φ) in Q4. change (d 7%nat) with (d iB_φ_prime) in Q7. change (d 8%nat) with (d iη_O) in Q8. change (d 9%nat) with (d iη_A) in Q9. change (d 10%nat) with (d iη_H) in Q10.
  pose proof (shared_formula θ p d (coefficient h θ p) (q_Z7 h θ p) HK HM Q1) as S.
  pose proof Q7 as Q7a. unfold q_dd, q_A, q_dbr, q_dbf, q_dbt, q_db in Q7. rewrite <- Q1, <- Q0, <- Q2, <- Q8, <- Q9, <- Q10 in Q7. fold (unit_rate p d iB_r) (unit_rate p d iB_φ) (unit_rate p d iB_θ) in Q7.
  rewrite <- Q7 in S. set (F := d iB_φ_prime) in *.
  assert (Vr : d iv_r * determinant h θ p = q_Z1 h θ p * p iv_φ ^ 2 * p iρ + 2 * ha_a_0 h * (p iv_φ * p iB_θ * F - q_Z2 h θ p * the_Z_4 θ p)).
  { rewrite Q3. unfold q_dvr, Model_Hydro.deriv_v_r_func. rewrite <- Q7a. unfold determinant in HD |- *.
    set (Z1 := q_Z1 h θ p). set (Z2 := q_Z2 h θ p). set (Z3 := the_Z_3 h θ p) in *. set (Z4 := the_Z_4 θ p) in *. clearbody Z1 Z2 Z3 Z4 F. field. exact HD. }
  assert (Vf : d iv_φ = q_Z2 h θ p + d iv_r * the_Z_3 h θ p) by (rewrite Q4, Q3; reflexivity).
  assert (E6 : coefficient h θ p = the_Z_5 p + 2 * ha_a_0 h * p iB_θ ^ 2 * p iv_φ * (the_C p + the_Z_3 h θ p) / determinant h θ p) by reflexivity.
  assert (E7 : q_Z7 h θ p = q_Z2 h θ p + (the_C p + the_Z_3 h θ p) * (q_Z1 h θ p * p iv_φ ^ 2 * p iρ - q_Z2 h θ p * the_Z_4 θ p) / determinant h θ p) by reflexivity.
  rewrite E6, E7 in S. rewrite Vf. rewrite Vf in S.
  replace (q_Z2 h θ p + d iv_r * the_Z_3 h θ p - the_Z_3 h θ p * d iv_r) with (q_Z2 h θ p) by ring.
  set (D := determinant h θ p) in *. set (vr := d iv_r) in *. set (W := full_coefficient p * full_second_derivative θ p d) in *. set (L := shared_slips θ p d) in *.
  assert (Evr : vr = (q_Z1 h θ p * p iv_φ ^ 2 * p iρ + 2 * ha_a_0 h * (p iv_φ * p iB_θ * F - q_Z2 h θ p * the_Z_4 θ p)) / D) by (rewrite <- Vr; field; exact HD).
  clearbody D vr W L F. clear - S Evr HD. set (Z1 := q_Z1 h θ p) in *. set (Z2 := q_Z2 h θ p) in *. set (Z3 := the_Z_3 h θ p) in *. set (Z4 := the_Z_4 θ p) in *. set (Z5 := the_Z_5 p) in *.
  clearbody Z1 Z2 Z3 Z4 Z5.
  assert (S' : Z5 * F = W + p iB_θ * (Z2 + vr * Z3 + the_C p * vr) + L - p iB_θ * (Z2 + (the_C p + Z3) * (Z1 * p iv_φ ^ 2 * p iρ - Z2 * Z4) / D)
    - 2 * ha_a_0 h * p iB_θ ^ 2 * p iv_φ * (the_C p + Z3) / D * F) by lra.
  rewrite S', Evr. field. exact HD.
Qed.

(** What the right-hand side of the modified method returns without E_r.  Its Z_7 (mod_hydro.py:184-192) is not the part of v_φ' + C v_r' that has no
    B_φ'' in it: it does not cancel the velocity derivatives, and its Z_6 has another determinant than its v_r'. *)
Theorem C144_mod_exact : forall sr m root x p d q r θ0, ma_use_E_r m = false -> mod_hydro_rhs sr m root x p = Mh_ok d q r θ0 -> mod_regular m x p -> full_coefficient p <> 0 ->
  let θ := x * ma_θ_scale m in let k := sqrt (ma_norm_kepler_sq m) in let a_0 := ma_a_0 m in
  let wrong_Z_3 := p iB_θ ^ 2 / (p iη_O + p iη_A * (1 - unit p iB_φ ^ 2)) - p iv_r / (2 * k) in
  the_Z_5 p * d iB_φ_prime = full_coefficient p * full_second_derivative θ p d + shared_slips θ p d + p iB_θ * (d iv_φ + the_C p * d iv_r)
    - p iB_θ * (the_Z_5 p + p iB_θ ^ 2 * (the_X p / k + a_0 * (the_C p - p iv_r / (2 * k)) * (2 * k * p iv_φ - the_Z_4 θ p * the_X p) /
        (p iv_φ ^ 2 * p iρ * k - the_Z_4 θ p * a_0 * p iv_r)))
    - p iB_θ ^ 2 * (the_X p / (2 * k) + a_0 * (the_C p + wrong_Z_3) * (2 * p iv_φ - the_Z_4 θ p * the_X p / k) /
        (p iv_φ ^ 2 * p iρ - wrong_Z_3 * the_Z_4 θ p * a_0 * p iv_r)) * d iB_φ_prime.
Proof.
  intros sr m root x p d q r θ0 NE E (Hc & HB & Hρ & Hη & Hk & Hv & HD & HN & HK) HM. pose proof (mod_pieces _ _ _ _ _ _ _ _ _ NE E) as Q. cbv zeta. set (θ := x * ma_θ_scale m) in *. clearbody θ.
  assert (Q0 := Q 0%nat ltac:(unfold ODE_LEN; lia)). assert (Q1 := Q 1%nat ltac:(unfold ODE_LEN; lia)). assert (Q2 := Q 2%nat ltac:(unfold ODE_LEN; lia)).
  assert (Q7 := Q 7%nat ltac:(unfold ODE_LEN; lia)).
  assert (Q8 := Q 8%nat ltac:(unfold ODE_LEN; lia)). assert (Q9 := Q 9%nat ltac:(unfold ODE_LEN; lia)). assert (Q10 := Q 10%nat ltac:(unfold ODE_LEN; lia)). clear Q.
  cbn [m_d] in *.
  change (d 0%nat) with (d iB_r) in Q0. change (d 1%nat) with (d iB_φ) in Q1. change (d 2%nat) with (d iB_θ) in Q2.
  change (d 7%nat) with (d iB_φ_prime) in Q7. change (d 8%nat) with (d iη_O) in Q8. change (d 9%nat) with (d iη_A) in Q9. change (d 10%nat) with (d iη_H) in Q10.
  pose proof (shared_formula θ p d (mod_coefficient m θ p) (m_Z7 m θ p) HK HM Q1) as S.
  unfold m_dd, q_A, q_dbr, q_dbf, q_dbt, q_db in Q7. rewrite <- Q1, <- Q0, <- Q2, <- Q8, <- Q9, <- Q10 in Q7. fold (unit_rate p d iB_r) (unit_rate p d iB_φ) (unit_rate p d iB_θ) in Q7.
  rewrite <- Q7 in S. set (F := d iB_φ_prime) in *.
  assert (E6 : mod_coefficient m θ p = the_Z_5 p + p iB_θ ^ 2 * (the_X p / (2 * kepler m) + ma_a_0 m * (the_C p + mod_Z_3 m p) * (2 * p iv_φ - the_Z_4 θ p * the_X p / kepler m) /
        (p iv_φ ^ 2 * p iρ - mod_Z_3 m p * the_Z_4 θ p * ma_a_0 m * p iv_r))) by reflexivity.
  assert (E7 : m_Z7 m θ p = the_Z_5 p + p iB_θ ^ 2 * (the_X p / kepler m + ma_a_0 m * (the_C p - p iv_r / (2 * kepler m)) * (2 * kepler m * p iv_φ - the_Z_4 θ p * the_X p) /
        (p iv_φ ^ 2 * p iρ * kepler m - the_Z_4 θ p * ma_a_0 m * p iv_r))) by reflexivity.
  rewrite E6, E7 in S. change (p iB_θ ^ 2 / (p iη_O + p iη_A * (1 - unit p iB_φ ^ 2)) - p iv_r / (2 * sqrt (ma_norm_kepler_sq m))) with (mod_Z_3 m p).
  fold (kepler m). rewrite Rmult_plus_distr_r in S. lra.
Qed.

(** At the midplane, with Ohmic diffusion only: gas drifts inwards at the sound speed and orbits at the speed that balances it, and B_φ' carries off its
    angular momentum.  The method does not return the B_φ'' of the full equations. *)
Definition h_mid : hydro_args := mk_hydro_args (1 / 2) (15 / 2) (fun _ => 1) 1 true false false.
Definition p_mid : vec := state 0 0 1 (-1) 2 0 1 (-2) 1 0 0.
Lemma mid_numbers : unit p_mid iB_r = 0 /\ unit p_mid iB_φ = 0 /\ the_X p_mid = 0 /\ the_C p_mid = 0 /\ the_Z_5 p_mid = 1 /\ discriminant h_mid 0 p_mid = 16 /\ the_Z_3 h_mid 0 p_mid = 1 / 2 /\ the_Z_4 0 p_mid = -2 /\ determinant h_mid 0 p_mid = 3 /\ coefficient h_mid 0 p_mid = 4 / 3.
Proof.
  set (h := h_mid). set (p := p_mid).
  assert (U : forall j, j = iB_r \/ j = iB_φ -> unit p j = 0) by (intros j [-> | ->]; unfold unit, Rdiv; apply Rmult_0_l).
  assert (EX : the_X p = 0) by (unfold the_X, X_func; rewrite (U iB_φ) by auto; unfold p, p_mid, state, iη_O, iη_A, iη_H; field).
  assert (Eb : the_b p = 0) by (unfold the_b, b_func; rewrite EX; field).
  assert (Ec : the_c h 0 p = -4).
  { unfold the_c, c_func. rewrite EX, (U iB_r), (U iB_φ) by auto. rewrite tan_0. generalize (unit p iB_θ). intros u.
    unfold p, p_mid, state, h, h_mid, ha_norm_kepler_sq, ha_a_0, iB_r, iB_φ, iB_θ, iv_r, iρ, iη_O, iη_A, iη_H. field. }
  assert (Ed : discriminant h 0 p = 16) by (unfold discriminant; rewrite Eb, Ec; ring).
  assert (E4 : the_Z_4 0 p = -2) by (unfold the_Z_4, Z_4_func; rewrite tan_0; unfold p, p_mid, state, iB_r, iB_φ, iB_θ, iB_φ_prime; field).
  assert (E3 : the_Z_3 h 0 p = 1 / 2).
  { unfold the_Z_3, Model_Hydro.Z_3_func. rewrite EX, Eb, Ec, (U iB_φ) by auto. replace (0 ^ 2 - 4 * -4) with (4 * 4) by ring. rewrite sqrt_square by lra.
    unfold p, p_mid, state, h, h_mid, ha_a_0, iB_θ, iv_r, iρ, iη_O, iη_A. field. }
  assert (EC : the_C p = 0) by (unfold the_C, C_func; rewrite (U iB_φ) by auto; unfold p, p_mid, state, iη_O, iη_A, iη_H; field).
  assert (E5 : the_Z_5 p = 1) by (unfold the_Z_5, Z_5_func; rewrite EC; unfold p, p_mid, state, iη_O, iη_A, iη_H; ring).
  assert (Et : determinant h 0 p = 3) by (unfold determinant; rewrite E4, E3; unfold p, p_mid, h, h_mid, ha_a_0, state, iv_φ, iρ; field).
  assert (Ek : coefficient h 0 p = 4 / 3).
  { unfold coefficient, Model_Hydro.Z_6_func. rewrite E4, E3, EC, E5. unfold p, p_mid, state, h, h_mid, ha_a_0, iB_θ, iv_φ, iρ. field. }
  repeat split; auto.
Qed.
Lemma mid_regular : hydro_regular h_mid 0 p_mid.
Proof.
  destruct mid_numbers as (U1 & U2 & _ & _ & _ & Ed & _ & _ & Et & Ek). unfold hydro_regular. replace (0 * ha_θ_scale h_mid) with 0 by ring.
  rewrite Ed, Et, Ek, cos_0, U2. unfold B_nonzero, p_mid, state, iB_r, iB_φ, iB_θ, iv_φ, iρ, iη_O, iη_A. repeat split; lra.
Qed.
Lemma mid_answers : exists d, hydro_rhs h_mid 0 p_mid = Hy_ok d 0.
Proof.
  destruct mid_numbers as (_ & _ & _ & _ & _ & Ed & _). unfold hydro_rhs. cbv zeta.
  destruct (Rlt_dec (p_mid iρ) 0) as [N|_]; [unfold p_mid, state, iρ in N; lra|].
  match goal with |- context [Rlt_dec ?a 0] => destruct (Rlt_dec a 0) as [N|_] end.
  { exfalso. change (scaled_to_rad_num 0 (ha_θ_scale h_mid)) with (0 * 1) in N. rewrite Rmult_0_l in N. change (discriminant h_mid 0 p_mid < 0) in N. lra. }
  unfold B_unit_derivs. cbv beta iota zeta. eexists. replace (scaled_to_rad_num 0 (ha_θ_scale h_mid)) with 0; [reflexivity|]. symmetry. apply Rmult_0_l.
Qed.
Theorem C144_refuted : exists h p d, hydro_rhs h 0 p = Hy_ok d 0 /\ hydro_regular h 0 p /\ full_coefficient p = 1 /\ d iB_φ_prime = full_second_derivative 0 p d + 2.
Proof.
  destruct mid_answers as (d & E). exists h_mid, p_mid, d. split; [exact E|]. split; [exact mid_regular|].
  destruct mid_numbers as (U1 & U2 & _ & EC & E5 & _).
  assert (M : full_coefficient p_mid = 1) by (unfold full_coefficient; rewrite U1, EC; unfold p_mid, state, iη_O, iη_A; ring).
  split; [exact M|]. pose proof (C144_hydro_exact _ _ _ _ _ E eq_refl mid_regular ltac:(rewrite M; lra)) as X.
  replace (0 * ha_θ_scale h_mid) with 0 in X by (cbn; ring). rewrite M, E5 in X. replace (1 - 2 * ha_a_0 h_mid) with 0 in X by (cbn; field).
  assert (D1 : d iB_φ = -2).
  { exact (hydro_pieces _ _ _ _ _ E 1%nat ltac:(unfold ODE_LEN; lia)). }
  assert (L : shared_slips 0 p_mid d = 2).
  { unfold shared_slips, resistance. rewrite EC, U1, D1, tan_0. unfold p_mid at 1 2 3 4 5 6, state, iB_r, iB_φ, iη_O, iη_A, iv_r, iv_φ. unfold p_mid, state, iη_O, iη_A. field. }
  rewrite L in X. unfold Rdiv in X. rewrite !Rmult_0_l in X. lra.
Qed.
(** The hypotheses of both exact statements are met. *)
Example C144_nonvacuous : exists d, hydro_rhs h_mid 0 p_mid = Hy_ok d 0 /\ ha_no_v_deriv h_mid = false /\ hydro_regular h_mid 0 p_mid /\ full_coefficient p_mid <> 0.
Proof.
  destruct mid_answers as (d & E). exists d. repeat split; auto; try apply mid_regular. destruct mid_numbers as (U1 & U2 & _ & EC & _).
  unfold full_coefficient; rewrite U1, EC; unfold p_mid, state, iη_O, iη_A; lra.
Qed.
Example C144_mod_nonvacuous : let m := mk_mod_hydro_args 1 9 (fun _ => 1) 1 true false false in let p := state 0 0 1 (-1) 3 0 1 0 1 0 0 in
  (forall sr root, exists d q r θ, mod_hydro_rhs sr m root 0 p = Mh_ok d q r θ) /\ ma_use_E_r m = false /\ mod_regular m 0 p /\ full_coefficient p <> 0.
Proof.
  cbv zeta. split; [|split; [reflexivity|split; [exact C140_through_nonvacuous|]]].
  - intros sr root. unfold mod_hydro_rhs. cbv zeta. match goal with |- context [Rlt_dec ?a 0] => destruct (Rlt_dec a 0) as [N|_] end; [unfold state, iρ in N; lra|].
    unfold B_unit_derivs. cbv beta iota zeta. cbn [ma_use_E_r]. repeat eexists.
  - unfold full_coefficient, the_C, C_func. replace (unit (state 0 0 1 (-1) 3 0 1 0 1 0 0) iB_r) with 0 by (unfold unit, Rdiv; cbn; ring).
    unfold state, iη_O, iη_A, iη_H. unfold Rdiv. lra.
Qed.
