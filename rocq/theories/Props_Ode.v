(** C01-C13: the ODE right-hand side against the equations of magnetohydrodynamics.

    [solves_at o y θ] (Spec_Ode.v): the curve of states [y] has at θ exactly the derivatives the right-hand
    side returns.  [fluid_of γ y]: the radially self-similar fluid with those profiles.  The equations of
    Spec_MHD.v are the full partial differential equations in spherical coordinates. *)
From Coq Require Import Reals List Lra.
From Verif Require Import Model_Index Model_Deriv Model_Ode Model_Validate
  Spec_MHD Spec_Ode Spec_Fields Proofs_Ode Proofs_MHD Proofs_Fields Witness_Ode.
Open Scope R_scope.

(** The right-hand side accepts a state exactly when density and polar velocity are nonnegative. *)
Theorem C01_rhs_accepts_iff : forall o x p,
  (exists d e, rhs_equation o x p = Rhs_ok d e) <->
  (oa_derivs_post_solution o = true \/ (0 <= p iρ /\ 0 <= p iv_θ)).
Proof. exact rhs_ok_iff. Qed.

(** C01. Mass conservation: div(ρ v) = 0 for the fluid described by a solution. *)
Theorem C01_mass_conserved : forall o y θ, oa_θ_scale o = 1 -> solves_at o y θ ->
  forall r, 0 < r -> cos θ <> 0 -> oa_with_taylor o = false -> y θ iv_θ <> 0 ->
  mass_conserved (fluid_of (oa_γ o) y) r θ.
Proof. exact mass. Qed.
Print Assumptions C01_mass_conserved.
(** The same at the level of the validation command: its continuity residual is zero for every accepted state. *)
Theorem C01_validate_continuity : forall o x p d e, rhs_equation o x p = Rhs_ok d e ->
  oa_with_taylor o = false -> p iv_θ <> 0 -> p iρ <> 0 ->
  let ic := mk_ic (oa_γ o) (oa_a_0 o) (oa_norm_kepler_sq o) in
  validate_continuity ic (get_values ic (x * oa_θ_scale o) p d) = 0.
Proof. exact continuity_validate. Qed.
Print Assumptions C01_validate_continuity.

(** C02. No monopoles: div B = 0, in every mode (Taylor mode included). *)
Theorem C02_solenoidal : forall o y θ, oa_θ_scale o = 1 -> solves_at o y θ ->
  forall r, 0 < r -> cos θ <> 0 -> solenoidal (fluid_of (oa_γ o) y) r θ.
Proof. exact sole. Qed.
Print Assumptions C02_solenoidal.
Theorem C02_validate_solenoid : forall o x p d e, rhs_equation o x p = Rhs_ok d e ->
  let ic := mk_ic (oa_γ o) (oa_a_0 o) (oa_norm_kepler_sq o) in
  validate_solenoid ic (get_values ic (x * oa_θ_scale o) p d) = 0.
Proof. exact solenoid_validate. Qed.
Print Assumptions C02_validate_solenoid.

(** C03. Radial momentum. *)
Theorem C03_momentum_r : forall o y θ, oa_θ_scale o = 1 -> solves_at o y θ ->
  forall r, 0 < r -> cos θ <> 0 -> oa_with_taylor o = false -> y θ iv_θ <> 0 -> y θ iρ <> 0 ->
  0 <= oa_norm_kepler_sq o ->
  momentum_r (oa_norm_kepler_sq o) (oa_a_0 o) (fluid_of (oa_γ o) y) r θ.
Proof. exact mom_r. Qed.
Print Assumptions C03_momentum_r.
Theorem C03_validate_radial : forall o x p d e, rhs_equation o x p = Rhs_ok d e ->
  oa_with_taylor o = false -> p iv_θ <> 0 -> p iρ <> 0 -> 0 <= oa_norm_kepler_sq o ->
  let ic := mk_ic (oa_γ o) (oa_a_0 o) (oa_norm_kepler_sq o) in
  validate_radial_momentum ic (get_values ic (x * oa_θ_scale o) p d) = 0.
Proof. exact radial_validate. Qed.
Print Assumptions C03_validate_radial.

(** C04. Azimuthal momentum. *)
Theorem C04_momentum_φ : forall o y θ, oa_θ_scale o = 1 -> solves_at o y θ ->
  forall r, 0 < r -> cos θ <> 0 -> oa_with_taylor o = false -> y θ iv_θ <> 0 -> y θ iρ <> 0 ->
  momentum_φ (oa_a_0 o) (fluid_of (oa_γ o) y) r θ.
Proof. exact mom_φ. Qed.
Print Assumptions C04_momentum_φ.
Theorem C04_validate_azimuthal : forall o x p d e, rhs_equation o x p = Rhs_ok d e ->
  oa_with_taylor o = false -> p iv_θ <> 0 -> p iρ <> 0 ->
  let ic := mk_ic (oa_γ o) (oa_a_0 o) (oa_norm_kepler_sq o) in
  validate_azimuthal_mometum ic (get_values ic (x * oa_θ_scale o) p d) = 0.
Proof. exact azimuthal_validate. Qed.
Print Assumptions C04_validate_azimuthal.

(** C05. Polar momentum, away from the sonic singularity. *)
Theorem C05_momentum_θ : forall o y θ, oa_θ_scale o = 1 -> solves_at o y θ ->
  forall r, 0 < r -> cos θ <> 0 -> oa_with_taylor o = false -> oa_deriv_v_θ_func o = None ->
  y θ iv_θ <> 0 -> y θ iρ <> 0 -> y θ iv_θ ^ 2 <> 1 ->
  momentum_θ (oa_a_0 o) (fluid_of (oa_γ o) y) r θ.
Proof. exact mom_θ. Qed.
Print Assumptions C05_momentum_θ.
Theorem C05_validate_polar : forall o x p d e, rhs_equation o x p = Rhs_ok d e ->
  oa_with_taylor o = false -> oa_deriv_v_θ_func o = None ->
  p iv_θ <> 0 -> p iρ <> 0 -> p iv_θ ^ 2 <> 1 ->
  let ic := mk_ic (oa_γ o) (oa_a_0 o) (oa_norm_kepler_sq o) in
  validate_polar_momentum ic (get_values ic (x * oa_θ_scale o) p d) = 0.
Proof. exact polar_validate. Qed.
Print Assumptions C05_validate_polar.

(** C06. The azimuthal electric field of generalised Ohm's law vanishes. *)
Theorem C06_E_φ_vanishes : forall o y θ, oa_θ_scale o = 1 -> solves_at o y θ ->
  forall r, 0 < r -> cos θ <> 0 -> B_nonzero (y θ) -> diffusive (y θ) ->
  E_φ_vanishes (fluid_of (oa_γ o) y) r θ.
Proof. exact E_φ_zero. Qed.
Print Assumptions C06_E_φ_vanishes.
Theorem C06_validate_E_φ : forall o x p d e, rhs_equation o x p = Rhs_ok d e ->
  B_nonzero p -> diffusive p ->
  let ic := mk_ic (oa_γ o) (oa_a_0 o) (oa_norm_kepler_sq o) in
  validate_E_φ ic (get_values ic (x * oa_θ_scale o) p d) = 0.
Proof. exact E_φ_validate. Qed.
Print Assumptions C06_validate_E_φ.

(** The hypotheses of C01-C06 are met by the generic state of Witness_Ode.v, for both formulations. *)
Example C01_C06_nonvacuous : forall b, exists y, y (1 / 2) = p_ex /\ solves_at (o_ex b) y (1 / 2) /\
  cos (1 / 2) <> 0 /\ oa_θ_scale (o_ex b) = 1 /\ oa_with_taylor (o_ex b) = false /\
  oa_deriv_v_θ_func (o_ex b) = None /\ 0 <= oa_norm_kepler_sq (o_ex b) /\
  y (1 / 2) iv_θ <> 0 /\ y (1 / 2) iρ <> 0 /\ y (1 / 2) iv_θ ^ 2 <> 1 /\
  B_nonzero (y (1 / 2)) /\ diffusive (y (1 / 2)).
Proof.
  intros b. destruct (curve_ex b) as (y & H1 & H2 & H3). exists y. rewrite H1.
  destruct p_ex_v as (A & B & C).
  repeat (split; [first [assumption | reflexivity | exact p_ex_B | simpl; lra]|]). exact p_ex_diffusive.
Qed.

(** C07. Refuted: the validation command's polar induction residual is not zero on the right-hand side's own
    derivatives (it is 2 for a simple Hall-dominated state). *)
Theorem C07_polar_induction_refuted : exists o x p d e,
  rhs_equation o x p = Rhs_ok d e /\ B_nonzero p /\ diffusive p /\
  let ic := mk_ic (oa_γ o) (oa_a_0 o) (oa_norm_kepler_sq o) in
  validate_polar_induction ic (get_values ic (x * oa_θ_scale o) p d) <> 0.
Proof.
  destruct c07_witness as (e & d & H1 & H2 & H3 & H4).
  exists (o_ex false), 0, p_c07, d, e. repeat (split; [assumption|]).
  rewrite Rmult_0_l. simpl in *. rewrite H4. lra.
Qed.
Print Assumptions C07_polar_induction_refuted.
(** What it is instead, for every accepted state: twice the Hall and ambipolar terms whose sign is wrong. *)
Theorem C07_polar_induction_exact : forall o x p d e, rhs_equation o x p = Rhs_ok d e ->
  B_nonzero p -> diffusive p ->
  let ic := mk_ic (oa_γ o) (oa_a_0 o) (oa_norm_kepler_sq o) in
  let θ := x * oa_θ_scale o in
  let m := sqrt (p iB_r ^ 2 + p iB_φ ^ 2 + p iB_θ ^ 2) in
  validate_polar_induction ic (get_values ic θ p d) =
  2 * (d iB_φ * p iη_H * (p iB_θ / m)
       - p iB_φ * (p iη_H * (p iB_r / m * (1 / 4 - oa_γ o) + p iB_θ / m * tan θ)
                   - p iη_A * (p iB_φ / m) * (p iB_θ / m) * (1 / 4 - oa_γ o))).
Proof. exact polar_induction_exact. Qed.
Print Assumptions C07_polar_induction_exact.
(** So it does vanish for purely Ohmic diffusivity. *)
Theorem C07_polar_induction_partial : forall o x p d e, rhs_equation o x p = Rhs_ok d e ->
  B_nonzero p -> diffusive p -> p iη_A = 0 -> p iη_H = 0 ->
  let ic := mk_ic (oa_γ o) (oa_a_0 o) (oa_norm_kepler_sq o) in
  validate_polar_induction ic (get_values ic (x * oa_θ_scale o) p d) = 0.
Proof.
  intros o x p d e Hok HB HD HA HH ic. unfold ic. rewrite (polar_induction_exact _ _ _ _ _ Hok HB HD).
  rewrite HA, HH. ring.
Qed.
Print Assumptions C07_polar_induction_partial.
Example C07_partial_nonvacuous : exists e, 
  rhs_equation o_c11 0 p_c11 = Rhs_ok (fst (rhs_derivs o_c11 0 p_c11)) e /\
  B_nonzero p_c11 /\ diffusive p_c11 /\ p_c11 iη_A = 0 /\ p_c11 iη_H = 0.
Proof.
  destruct (rhs_accept o_c11 0 p_c11) as [e He]; [reflexivity | simpl; lra | simpl; lra |].
  exists e. split; [exact He|]. unfold B_nonzero, diffusive. simpl. repeat split; lra.
Qed.

(** C08. Along a solution with diffusivity derivatives, η_X - η_X0 B²/ρ is constant (X = O, A, H). *)
Theorem C08_eta_tracks_B_sq_over_ρ : forall o y lo hi, solves_on o y lo hi ->
  oa_η_derivs o = true -> (forall x, lo < x < hi -> y x iρ <> 0) ->
  forall X, In X DIFFUSIVE_INDEXES -> forall a b, lo < a < hi -> lo < b < hi ->
  y a X - oa_init_con o X * B_sq_over_ρ (y a) = y b X - oa_init_con o X * B_sq_over_ρ (y b).
Proof. exact eta_const. Qed.
Print Assumptions C08_eta_tracks_B_sq_over_ρ.
(** Started consistently (as the midplane state is: B = 1, ρ = 1, η = η_0) and continuously, η_X is η_X0 B²/ρ
    throughout. *)
Theorem C08_eta_from_midplane : forall o y lo hi, solves_on o y lo hi ->
  oa_η_derivs o = true -> (forall x, lo < x < hi -> y x iρ <> 0) -> lo < hi ->
  (forall i, (i < ODE_LEN)%nat -> continuity_pt (fun t => y t i) lo) -> y lo iρ <> 0 ->
  forall X, In X DIFFUSIVE_INDEXES -> y lo X = oa_init_con o X * B_sq_over_ρ (y lo) ->
  forall x, lo < x < hi -> y x X = oa_init_con o X * B_sq_over_ρ (y x).
Proof. exact eta_from_start. Qed.
Print Assumptions C08_eta_from_midplane.
(** With diffusivity derivatives switched off the diffusivities are constant. *)
Theorem C08_eta_constant_without_derivs : forall o y lo hi, solves_on o y lo hi -> oa_η_derivs o = false ->
  forall X, In X DIFFUSIVE_INDEXES -> forall a b, lo < a < hi -> lo < b < hi -> y a X = y b X.
Proof. exact eta_const_no_derivs. Qed.
Print Assumptions C08_eta_constant_without_derivs.
(** An explicit solution on (0, 1), with varying diffusivity, started consistently. *)
Example C08_nonvacuous :
  solves_on (o_int true) (y_int true) 0 1 /\ oa_η_derivs (o_int true) = true /\
  (forall x, 0 < x < 1 -> y_int true x iρ <> 0) /\
  (forall i, (i < ODE_LEN)%nat -> continuity_pt (fun t => y_int true t i) 0) /\ y_int true 0 iρ <> 0 /\
  (forall X, In X DIFFUSIVE_INDEXES ->
     y_int true 0 X = oa_init_con (o_int true) X * B_sq_over_ρ (y_int true 0)) /\
  y_int true 0 iη_O <> y_int true (PI / 4) iη_O.
Proof.
  split; [apply y_int_solves|]. split; [reflexivity|]. split; [apply y_int_ρ|].
  split; [apply y_int_cont0|]. split; [simpl; rewrite cos_0; lra|]. split; [|exact y_int_varies].
  unfold B_sq_over_ρ.
  intros X [<- | [<- | [<- | []]]]; simpl; rewrite ?cos_0; field.
Qed.
Example C08_nonvacuous_const :
  solves_on (o_int false) (y_int false) 0 1 /\ oa_η_derivs (o_int false) = false.
Proof. split; [apply y_int_solves | reflexivity]. Qed.

(** C09. Unit-vector derivatives are the derivatives of B/|B|, orthogonal to it; A is the derivative of C. *)
Theorem C09_unit_derivs : forall (B_r B_φ B_θ : R -> R) x d_r d_φ d_θ,
  derivable_pt_lim B_r x d_r -> derivable_pt_lim B_φ x d_φ -> derivable_pt_lim B_θ x d_θ ->
  0 < B_r x ^ 2 + B_φ x ^ 2 + B_θ x ^ 2 ->
  let m := fun t => sqrt (B_r t ^ 2 + B_φ t ^ 2 + B_θ t ^ 2) in
  let '(u_r, u_φ, u_θ) := B_unit_derivs (B_r x) (B_φ x) (B_θ x) d_r d_φ d_θ
     (B_r x / m x) (B_φ x / m x) (B_θ x / m x) in
  derivable_pt_lim (fun t => B_r t / m t) x u_r /\
  derivable_pt_lim (fun t => B_φ t / m t) x u_φ /\
  derivable_pt_lim (fun t => B_θ t / m t) x u_θ /\
  u_r * (B_r x / m x) + u_φ * (B_φ x / m x) + u_θ * (B_θ x / m x) = 0.
Proof. exact unit_derivs_correct. Qed.
Print Assumptions C09_unit_derivs.
Theorem C09_A_is_derivative_of_C : forall (η_O η_A η_H b_θ b_r b_φ : R -> R) x dO dA dH dθ dr dφ,
  derivable_pt_lim η_O x dO -> derivable_pt_lim η_A x dA -> derivable_pt_lim η_H x dH ->
  derivable_pt_lim b_θ x dθ -> derivable_pt_lim b_r x dr -> derivable_pt_lim b_φ x dφ ->
  η_O x + η_A x * (1 - b_φ x ^ 2) <> 0 ->
  derivable_pt_lim (fun t => C_func (η_O t) (η_A t) (η_H t) (b_θ t) (b_r t) (b_φ t)) x
    (A_func (η_O x) (η_A x) (η_H x) (b_θ x) (b_r x) (b_φ x) dO dA dH dθ dr dφ).
Proof. exact A_is_C_deriv. Qed.
Print Assumptions C09_A_is_derivative_of_C.
Example C09_nonvacuous : exists B_r B_φ B_θ : R -> R,
  derivable_pt_lim B_r 1 1 /\ derivable_pt_lim B_φ 1 (1 + 1) /\ derivable_pt_lim B_θ 1 0 /\
  0 < B_r 1 ^ 2 + B_φ 1 ^ 2 + B_θ 1 ^ 2 /\ 1 + 1 * (1 - B_r (1 / 2) ^ 2) <> 0.
Proof.
  exists (fun t => t), (fun t => t + t), (fun _ => 3).
  split; [apply derivable_pt_lim_id|].
  split; [apply (derivable_pt_lim_plus (fun t => t) (fun t => t)); apply derivable_pt_lim_id|].
  split; [apply (derivable_pt_lim_const 3)|]. split; lra.
Qed.

(** C10. Refuted: with the E_r formulation, the radial electric field recomputed from the state and the returned
    derivatives is not the stored E_r. *)
Theorem C10_E_r_consistency_refuted : exists o x p d e,
  oa_use_E_r o = true /\ rhs_equation o x p = Rhs_ok d e /\ B_nonzero p /\ diffusive p /\
  let ic := mk_ic (oa_γ o) (oa_a_0 o) (oa_norm_kepler_sq o) in
  fst (fst (va_E (get_values ic (x * oa_θ_scale o) p d))) <> p iE_r.
Proof.
  destruct c10_witness as (e & d & H1 & H2 & H3 & H4).
  exists (o_ex true), 0, p_c10, d, e. split; [reflexivity|]. repeat (split; [assumption|]).
  rewrite Rmult_0_l. exact H4.
Qed.
Print Assumptions C10_E_r_consistency_refuted.
(** The exact difference, for every accepted state. *)
Theorem C10_E_r_defect_exact : forall o x p d e, rhs_equation o x p = Rhs_ok d e ->
  let θ := x * oa_θ_scale o in
  let ic := mk_ic (oa_γ o) (oa_a_0 o) (oa_norm_kepler_sq o) in
  let m := sqrt (p iB_r ^ 2 + p iB_φ ^ 2 + p iB_θ ^ 2) in
  let b_r := p iB_r / m in
  let b_φ := p iB_φ / m in
  let b_θ := p iB_θ / m in
  let C := C_func (p iη_O) (p iη_A) (p iη_H) b_θ b_r b_φ in
  oa_use_E_r o = true ->
  Z_5_func (p iη_O) (p iη_A) (p iη_H) b_r b_θ b_φ C <> 0 ->
  fst (fst (va_E (get_values ic θ p d))) - p iE_r =
  2 * C * (p iB_φ * M_of (oa_γ o) θ (p iη_A) (p iη_H) b_r b_φ b_θ - p iη_A * b_r * b_φ * d iB_φ).
Proof. exact E_r_defect. Qed.
Print Assumptions C10_E_r_defect_exact.
(** Consistency does hold where the toroidal field vanishes (the midplane in particular), or without Hall and
    ambipolar diffusion. *)
Theorem C10_E_r_consistency_partial : forall o x p d e, rhs_equation o x p = Rhs_ok d e ->
  let m := sqrt (p iB_r ^ 2 + p iB_φ ^ 2 + p iB_θ ^ 2) in
  oa_use_E_r o = true ->
  Z_5_func (p iη_O) (p iη_A) (p iη_H) (p iB_r / m) (p iB_θ / m) (p iB_φ / m)
    (C_func (p iη_O) (p iη_A) (p iη_H) (p iB_θ / m) (p iB_r / m) (p iB_φ / m)) <> 0 ->
  p iB_φ = 0 \/ (p iη_A = 0 /\ p iη_H = 0) ->
  let ic := mk_ic (oa_γ o) (oa_a_0 o) (oa_norm_kepler_sq o) in
  fst (fst (va_E (get_values ic (x * oa_θ_scale o) p d))) = p iE_r.
Proof.
  intros o x p d e Hok m HE HZ Hz ic. pose proof (E_r_defect _ _ _ _ _ Hok HE HZ) as H.
  fold ic m in H. unfold M_of, C_func in H.
  destruct Hz as [Hz | [Hz1 Hz2]]; [rewrite Hz in H | rewrite Hz1, Hz2 in H]; unfold Rdiv in H; lra.
Qed.
Print Assumptions C10_E_r_consistency_partial.

Example C10_nonvacuous : exists e,
  rhs_equation (o_ex true) 0 p_c11 = Rhs_ok (fst (rhs_derivs (o_ex true) 0 p_c11)) e /\
  p_c11 iη_A = 0 /\ p_c11 iη_H = 0 /\
  forall m, Z_5_func (p_c11 iη_O) (p_c11 iη_A) (p_c11 iη_H) (p_c11 iB_r / m) (p_c11 iB_θ / m) (p_c11 iB_φ / m)
    (C_func (p_c11 iη_O) (p_c11 iη_A) (p_c11 iη_H) (p_c11 iB_θ / m) (p_c11 iB_r / m) (p_c11 iB_φ / m)) <> 0.
Proof.
  destruct (rhs_accept (o_ex true) 0 p_c11) as [e He]; [reflexivity | simpl; lra | simpl; lra |].
  exists e. split; [exact He|]. split; [reflexivity|]. split; [reflexivity|].
  intros m. unfold Z_5_func, C_func. simpl. lra.
Qed.

(** C11. Refuted: in the B_φ' formulation dE_r/dθ differs from (γ-3/4) E_θ along a solution. *)
Theorem C11_induction_refuted : exists o y θ,
  oa_use_E_r o = false /\ oa_θ_scale o = 1 /\ solves_at o y θ /\ cos θ <> 0 /\
  B_nonzero (y θ) /\ diffusive (y θ) /\ Z_along y θ <> 0 /\
  ~ derivable_pt_lim (E_r_along o y) θ ((oa_γ o - 3 / 4) * E_θ_along o y θ).
Proof.
  destruct c11_witness as (y & H1 & H2 & H3 & H4 & H5). exists o_c11, y, 0.
  split; [reflexivity|]. split; [reflexivity|]. split; [exact H1|]. split; [rewrite cos_0; lra|].
  repeat (split; [assumption|]). intros H.
  pose proof (uniqueness_limite _ _ _ _ H H5). lra.
Qed.
Print Assumptions C11_induction_refuted.
(** The exact defect, for every solution: E_r - 2 B_φ N obeys the law instead of E_r. *)
Theorem C11_induction_defect_exact : forall o y θ, oa_θ_scale o = 1 -> oa_use_E_r o = false ->
  solves_at o y θ -> cos θ <> 0 -> B_nonzero (y θ) -> diffusive (y θ) -> Z_along y θ <> 0 ->
  derivable_pt_lim (fun t => E_r_along o y t - 2 * (y t iB_φ * N_along o y t)) θ
    ((oa_γ o - 3 / 4) * E_θ_along o y θ).
Proof. exact induction_defect. Qed.
Print Assumptions C11_induction_defect_exact.
Example C11_nonvacuous : exists y, solves_at o_c11 y 0 /\ B_nonzero (y 0) /\ diffusive (y 0) /\
  Z_along y 0 <> 0 /\ oa_use_E_r o_c11 = false /\ oa_θ_scale o_c11 = 1.
Proof.
  destruct c11_witness as (y & H1 & H2 & H3 & H4 & H5). exists y. repeat (split; [assumption|]).
  split; reflexivity.
Qed.

(** C12. Hall diffusion does no work; Ohmic and ambipolar diffusion dissipate. *)
Theorem C12_dissipation : forall ic θ p d, B_nonzero p ->
  let v := get_values ic θ p d in
  let '(J_r, J_θ, J_φ) := va_J v in
  let '(E_r, E_θ, E_φ) := va_E_dash v in
  let '(b_r, b_θ, b_φ) := (va_norm_B_r v, va_norm_B_θ v, va_norm_B_φ v) in
  dot E_r E_φ E_θ b_r b_φ b_θ = p iη_O * dot J_r J_φ J_θ b_r b_φ b_θ /\
  dot E_r E_φ E_θ J_r J_φ J_θ = p iη_O * dot J_r J_φ J_θ J_r J_φ J_θ
    + p iη_A * (cross_r J_r J_φ J_θ b_r b_φ b_θ ^ 2 + cross_φ J_r J_φ J_θ b_r b_φ b_θ ^ 2
                + cross_θ J_r J_φ J_θ b_r b_φ b_θ ^ 2) /\
  (0 <= p iη_O -> 0 <= p iη_A -> 0 <= dot E_r E_φ E_θ J_r J_φ J_θ).
Proof. exact dissipation. Qed.
Print Assumptions C12_dissipation.
Example C12_nonvacuous : B_nonzero p_ex /\ 0 <= p_ex iη_O /\ 0 <= p_ex iη_A.
Proof. split; [exact p_ex_B | simpl; lra]. Qed.
(** The electric field the code computes is generalised Ohm's law. *)
Theorem C12_E_is_ohms_law : forall v_r v_φ v_θ B_r B_φ B_θ J_r J_φ J_θ η_O η_A η_H,
  0 < B_r ^ 2 + B_φ ^ 2 + B_θ ^ 2 ->
  E_func v_r v_θ v_φ B_r B_θ B_φ J_r J_θ J_φ η_O η_A η_H =
  (ohm_E_r v_r v_φ v_θ B_r B_φ B_θ J_r J_φ J_θ η_O η_A η_H,
   ohm_E_θ v_r v_φ v_θ B_r B_φ B_θ J_r J_φ J_θ η_O η_A η_H,
   ohm_E_φ v_r v_φ v_θ B_r B_φ B_θ J_r J_φ J_θ η_O η_A η_H).
Proof.
  intros. unfold E_func. rewrite ohm_r_func, ohm_θ_func, ohm_φ_func by assumption. reflexivity.
Qed.
Print Assumptions C12_E_is_ohms_law.
(** The current the code computes is the curl of the magnetic field. *)
Theorem C12_J_is_curl_B : forall o y θ, oa_θ_scale o = 1 -> solves_at o y θ ->
  forall r, 0 < r -> cos θ <> 0 ->
  let d := fst (rhs_derivs o θ (y θ)) in
  let F := fluid_of (oa_γ o) y in
  exists j_r j_φ j_θ,
  curl_is (f_B_r F) (f_B_φ F) (f_B_θ F) r θ j_r j_φ j_θ /\
  j_r = Rpower r (oa_γ o - 5 / 4) / r * J_r_func θ (y θ iB_φ) (d iB_φ) /\
  j_φ = Rpower r (oa_γ o - 5 / 4) / r * J_φ_func (oa_γ o) (y θ iB_θ) (d iB_r) /\
  j_θ = Rpower r (oa_γ o - 5 / 4) / r * J_θ_func (oa_γ o) (y θ iB_φ).
Proof. exact curl_B. Qed.
Print Assumptions C12_J_is_curl_B.

(** C13. The current is divergence free. *)
Theorem C13_current_divergence_free : forall γ (B_φ dB_φ : R -> R) r θ, 0 < r -> cos θ <> 0 ->
  derivable_pt_lim B_φ θ (dB_φ θ) ->
  divergence_is (self_similar (γ - 9 / 4) (fun t => J_r_func t (B_φ t) (dB_φ t)))
                (self_similar (γ - 9 / 4) (fun t => J_θ_func γ (B_φ t))) r θ 0.
Proof. exact div_J. Qed.
Print Assumptions C13_current_divergence_free.
Example C13_nonvacuous : derivable_pt_lim sin 0 (cos 0) /\ cos 0 <> 0 /\ 0 < 1.
Proof. split; [apply derivable_pt_lim_sin | rewrite cos_0; lra]. Qed.
