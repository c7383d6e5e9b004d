(** C20-C24 and C67-C70: shocks, wave speeds, coordinate changes, rescaling, normalisation. *)
From Coq Require Import Reals List Lra Lia Psatz.
From Verif Require Import Model_Index Model_Deriv Model_Ode Model_Validate Model_Waves Spec_MHD Spec_Ode Spec_Fields Spec_Waves
  Lib_Deriv Proofs_Ode Proofs_Fields Proofs_Waves.
Import ListNotations.
Open Scope R_scope.

(** C20. The post-shock state satisfies the jump conditions... *)
Theorem C20_jump_conditions : forall a_0 p, p iv_θ <> 0 -> jump_conditions a_0 p (post_jump_values p).
Proof. exact jump_ok. Qed.
Print Assumptions C20_jump_conditions.
(** ... and is the only state other than the pre-shock one that does. *)
Theorem C20_jump_unique : forall a_0 p q, 0 < p iρ -> p iv_θ <> 0 -> jump_conditions a_0 p q -> q iv_θ <> p iv_θ ->
  q iv_θ = post_jump_values p iv_θ /\ q iρ = post_jump_values p iρ /\
  q iv_r = post_jump_values p iv_r /\ q iv_φ = post_jump_values p iv_φ.
Proof. exact jump_unique. Qed.
Theorem C20_involution : forall p, p iv_θ <> 0 -> forall i, post_jump_values (post_jump_values p) i = p i.
Proof.
  intros p Hv i. destruct (Nat.eq_dec i iv_θ) as [->|N1].
  - rewrite !post_v_θ. field. exact Hv.
  - destruct (Nat.eq_dec i iρ) as [->|N2].
    + rewrite !post_ρ, post_v_θ. field. exact Hv.
    + rewrite !post_other; auto.
Qed.
Theorem C20_supersonic_iff : forall p, 0 < p iv_θ ->
  (1 < p iv_θ <-> post_jump_values p iv_θ < 1) /\ 0 < post_jump_values p iv_θ /\
  (1 < p iv_θ -> 0 < p iρ -> p iρ < post_jump_values p iρ).
Proof.
  intros p Hv. rewrite post_v_θ, post_ρ. split; [split; intro H|split].
  - rewrite <- Rinv_1. apply Rinv_lt_contravar; lra.
  - destruct (Rlt_or_le 1 (p iv_θ)) as [|Hle]; [assumption|].
    pose proof (Rinv_le_contravar (p iv_θ) 1 Hv Hle) as K. rewrite Rinv_1 in K. lra.
  - apply Rinv_0_lt_compat, Hv.
  - intros H Hρ. rewrite <- (Rmult_1_r (p iρ)) at 1. apply Rmult_lt_compat_l; [assumption|]. nra.
Qed.
Theorem C20_others_unchanged : forall p i, i <> iv_θ -> i <> iρ -> post_jump_values p i = p i.
Proof. exact post_other. Qed.
Theorem C20_angles : forall angles j, (forall a, In a (post_jump_angles angles j) <-> In a angles /\ j <= a).
Proof.
  intros angles j a. unfold post_jump_angles. rewrite filter_In.
  destruct (Rle_dec j a); intuition; discriminate.
Qed.
Example C20_nonvacuous : let p := state 1 2 3 4 5 2 1 0 1 0 0 in
  p iv_θ <> 0 /\ 1 < p iv_θ /\ 0 < p iρ /\ post_jump_values p iv_θ = 1 / 2 /\ post_jump_values p iρ = 4.
Proof. simpl. unfold post_jump_values, get_v_θ_post, get_ρ_post, upd; simpl. repeat split; lra. Qed.

(** C21. The squared wave speeds are real and ordered. *)
Theorem C21_discriminant_nonneg : forall p c, 0 < p iρ ->
  0 < p iB_r ^ 2 + p iB_φ ^ 2 + p iB_θ ^ 2 ->
  let m := p iB_r ^ 2 + p iB_φ ^ 2 + p iB_θ ^ 2 in
  0 <= (m / (4 * PI * p iρ) + c ^ 2) ^ 2 - 4 * (m / (4 * PI * p iρ)) * c ^ 2 * (p iB_θ ^ 2 / m).
Proof.
  intros p c Hρ Hm m. apply (disc_pos (m / (4 * PI * p iρ)) c (p iB_θ ^ 2 / m)).
  - left. apply v_a_sq_nonneg; assumption.
  - apply cos_sq_bounds. exact Hm.
Qed.
Theorem C21_ordered : forall p c slow alfven fast, 0 < p iρ ->
  0 < p iB_r ^ 2 + p iB_φ ^ 2 + p iB_θ ^ 2 -> mhd_wave_speeds p c = (slow, alfven, fast) ->
  let m := p iB_r ^ 2 + p iB_φ ^ 2 + p iB_θ ^ 2 in
  0 <= slow <= alfven /\ alfven <= fast /\ slow <= c ^ 2 <= fast /\
  alfven = p iB_θ ^ 2 / (4 * PI * p iρ) /\
  slow + fast = m / (4 * PI * p iρ) + c ^ 2 /\ slow * fast = alfven * c ^ 2.
Proof.
  intros p c slow alfven fast Hρ Hm Hw m. unfold mhd_wave_speeds in Hw. cbv zeta in Hw. fold m in Hw.
  pose proof (v_a_sq_nonneg m (p iρ) Hm Hρ) as HV. pose proof (cos_sq_bounds (p iB_r) (p iB_φ) (p iB_θ) Hm) as Hx.
  fold m in Hx. apply triple_eq in Hw; destruct Hw as (E1 & E2 & E3).
  set (V := m / (4 * PI * p iρ)) in *. set (x := p iB_θ ^ 2 / m) in *. fold (disc V c x) in E1, E3.
  assert (HV' : 0 <= V) by lra.
  pose proof (sp_alfven V c x HV' Hx). pose proof (sp_sound V c x HV' Hx).
  pose proof (sp_slow_nonneg V c x HV' Hx). pose proof (sp_sum V c x) as Hs.
  pose proof (sp_prod V c x HV' Hx) as Hp.
  subst slow alfven fast. split; [lra|]. split; [lra|]. split; [lra|]. split; [|split; [lra|]].
  - unfold V, x. field. fold m in Hm. pose proof PI_RGT_0. repeat split; lra.
  - rewrite Hp. ring.
Qed.
Print Assumptions C21_ordered.
(** Mach numbers are ordered accordingly: slow ≥ Alfvén ≥ fast, and slow ≥ sonic ≥ fast. *)
Theorem C21_mach_ordered : forall p M_s M_c M_a M_f, 0 < p iρ -> p iB_θ <> 0 -> 0 <= p iv_θ ->
  get_mach_numbers p = (M_s, M_c, M_a, M_f) ->
  M_f <= M_a <= M_s /\ M_f <= M_c <= M_s /\ M_c = p iv_θ.
Proof.
  intros p M_s M_c M_a M_f Hρ HB Hv HM.
  pose proof (B_sq_pos p HB) as Hm. unfold get_mach_numbers in HM.
  destruct (mhd_wave_speeds p 1) as [[s a] f] eqn:Ew.
  destruct (C21_ordered p 1 s a f Hρ Hm Ew) as (H1 & H2 & H3 & H4 & H5 & H6).
  apply quad_eq in HM; destruct HM as (E1 & E2 & E3 & E4).
  assert (Ha : 0 < a).
  { rewrite H4. apply Rmult_lt_0_compat; [rewrite <- Rsqr_pow2; apply Rlt_0_sqr; assumption|].
    apply Rinv_0_lt_compat. pose proof PI_RGT_0. apply Rmult_lt_0_compat; lra. }
  assert (Hs : 0 < s).
  { destruct (Rle_lt_or_eq_dec 0 s) as [|E]; [lra | assumption |]. rewrite <- E in H6. lra. }
  rewrite pow1 in H3.
  assert (Hmono : forall x y, 0 < x -> x <= y -> sqrt (p iv_θ ^ 2 / y) <= sqrt (p iv_θ ^ 2 / x)).
  { intros x y Hx Hxy. apply sqrt_le_1_alt. apply Rmult_le_compat_l; [apply pow2_ge_0|].
    apply Rinv_le_contravar; assumption. }
  assert (Hone : sqrt (p iv_θ ^ 2 / 1) = p iv_θ).
  { replace (p iv_θ ^ 2 / 1) with (p iv_θ ^ 2) by field. apply sqrt_pow2. exact Hv. }
  pose proof (Hmono s a Hs) as K1. pose proof (Hmono a f Ha) as K2.
  pose proof (Hmono s 1 Hs) as K3. pose proof (Hmono 1 f Rlt_0_1) as K4.
  rewrite Hone in K3, K4. subst M_s M_c M_a M_f. lra.
Qed.
Print Assumptions C21_mach_ordered.
(** A super-fast point is super-Alfvénic and super-slow. *)
Theorem C21_superfast : forall p M_s M_c M_a M_f, 0 < p iρ -> p iB_θ <> 0 -> 0 <= p iv_θ ->
  get_mach_numbers p = (M_s, M_c, M_a, M_f) -> 1 < M_f -> 1 < M_a /\ 1 < M_c /\ 1 < M_s.
Proof.
  intros p M_s M_c M_a M_f Hρ HB Hv HM Hf.
  pose proof (C21_mach_ordered p _ _ _ _ Hρ HB Hv HM). lra.
Qed.
Example C21_nonvacuous : let p := state 1 2 3 4 5 2 1 0 1 0 0 in 0 < p iρ /\ p iB_θ <> 0 /\ 0 <= p iv_θ.
Proof. simpl. lra. Qed.

(** C68. The three squared speeds are exactly the speeds of linear waves of a fluid with magnetic coupling
    1/(4π)... *)
Theorem C68_wave_speeds_exact : forall p c u slow alfven fast, c <> 0 -> 0 < p iρ -> p iB_θ <> 0 ->
  mhd_wave_speeds p c = (slow, alfven, fast) ->
  (wave_speed (1 / (4 * PI)) c p u <-> u ^ 2 = slow \/ u ^ 2 = alfven \/ u ^ 2 = fast).
Proof.
  intros p c u slow alfven fast Hc Hρ HB Hw. pose proof (B_sq_pos p HB) as Hm.
  assert (Ha : 0 < 1 / (4 * PI)) by (apply Rmult_lt_0_compat; [lra|]; apply Rinv_0_lt_compat; pose proof PI_RGT_0; lra).
  pose proof (wave_iff (1 / (4 * PI)) c p u Ha Hc Hρ HB) as Hiff. cbv zeta in Hiff. rewrite Hiff. clear Hiff.
  unfold mhd_wave_speeds in Hw. cbv zeta in Hw. set (m := p iB_r ^ 2 + p iB_φ ^ 2 + p iB_θ ^ 2) in *.
  pose proof (v_a_sq_nonneg m (p iρ) Hm Hρ) as HV. pose proof (cos_sq_bounds (p iB_r) (p iB_φ) (p iB_θ) Hm) as Hx.
  fold m in Hx. apply triple_eq in Hw; destruct Hw as (E1 & E2 & E3).
  assert (EV : 1 / (4 * PI) * m / p iρ = m / (4 * PI * p iρ)) by (field; pose proof PI_RGT_0; split; lra).
  rewrite EV.
  assert (EA : 1 / (4 * PI) * p iB_θ ^ 2 / p iρ = alfven).
  { rewrite <- E2. field. pose proof PI_RGT_0. repeat split; lra. }
  rewrite EA. set (V := m / (4 * PI * p iρ)) in *. set (x := p iB_θ ^ 2 / m) in *. fold (disc V c x) in E1, E3.
  assert (HV' : 0 <= V) by lra.
  rewrite (sp_roots V c x HV' Hx). rewrite E1, E3. tauto.
Qed.
Print Assumptions C68_wave_speeds_exact.
(** ... but the equations being solved (Spec_MHD.momentum_r, _φ, _θ) have coupling a_0 = (v_a/c_s)²: the Alfvén
    speed of the fluid is a_0 B_θ²/ρ, so the computed one is off by the factor 4π a_0 ... *)
Theorem C68_alfven_factor : forall p c a_0, 0 < a_0 -> 0 < p iρ -> p iB_θ <> 0 ->
  let alfven := snd (fst (mhd_wave_speeds p c)) in
  (forall u, u ^ 2 = 4 * PI * a_0 * alfven -> c <> 0 -> wave_speed a_0 c p u) /\
  (alfven = a_0 * p iB_θ ^ 2 / p iρ <-> a_0 = 1 / (4 * PI)).
Proof.
  intros p c a_0 Ha Hρ HB alfven. pose proof (B_sq_pos p HB) as Hm. pose proof PI_RGT_0 as HPI.
  assert (E : alfven = p iB_θ ^ 2 / (4 * PI * p iρ)).
  { unfold alfven, mhd_wave_speeds; simpl fst; simpl snd. field. repeat split; lra. }
  rewrite E. split.
  - intros u Hu Hc. apply (wave_iff a_0 c p u Ha Hc Hρ HB). left. rewrite Hu. field. split; lra.
  - assert (HZ : 0 < p iB_θ ^ 2) by (rewrite <- Rsqr_pow2; apply Rlt_0_sqr; assumption).
    split; intro H.
    + apply Rmult_eq_reg_r with (p iB_θ ^ 2 / p iρ).
      * transitivity (a_0 * p iB_θ ^ 2 / p iρ); [field; lra|]. rewrite <- H. field. split; lra.
      * apply Rgt_not_eq. apply Rmult_lt_0_compat; [assumption | apply Rinv_0_lt_compat; assumption].
    + rewrite H. field. split; lra.
Qed.
Print Assumptions C68_alfven_factor.
(** ... and for coupling 1 the computed Alfvén speed is not the speed of any wave. *)
Theorem C68_wave_speeds_refuted : exists a_0 p, 0 < a_0 /\ 0 < p iρ /\ p iB_θ <> 0 /\
  exists u, u ^ 2 = snd (fst (mhd_wave_speeds p 1)) /\ ~ wave_speed a_0 1 p u.
Proof.
  set (p := state 0 0 1 0 0 1 1 0 1 0 0). exists 1, p.
  split; [lra|]. split; [simpl; lra|]. split; [simpl; lra|].
  pose proof PI_RGT_0 as HPI. assert (H3 : 3 / 4 < PI / 4) by (pose proof PI2_3_2; lra).
  assert (Ea : snd (fst (mhd_wave_speeds p 1)) = 1 / (4 * PI)).
  { unfold mhd_wave_speeds; simpl. field. lra. }
  exists (sqrt (1 / (4 * PI))). rewrite Ea.
  assert (Hpos : 0 < 1 / (4 * PI)) by (apply Rmult_lt_0_compat; [lra|]; apply Rinv_0_lt_compat; lra).
  assert (Eu : sqrt (1 / (4 * PI)) ^ 2 = 1 / (4 * PI)) by (rewrite <- Rsqr_pow2; apply Rsqr_sqrt; lra).
  split; [exact Eu|]. intro Hw. apply (wave_iff 1 1 p) in Hw; [|lra|lra|simpl; lra|simpl; lra].
  rewrite Eu in Hw. simpl in Hw.
  assert (Hlt : 1 / (4 * PI) < 1).
  { apply Rmult_lt_reg_r with (4 * PI); [lra|]. unfold Rdiv. rewrite Rmult_assoc, Rinv_l by lra. lra. }
  set (w := 1 / (4 * PI)) in *.
  destruct Hw as [Hw|Hw].
  - replace (1 * (1 * (1 * 1)) / 1) with 1 in Hw by field. lra.
  - assert (E : (w - 1) * (w - 1) = 0) by (rewrite <- Hw; field).
    apply Rmult_integral in E. lra.
Qed.
Print Assumptions C68_wave_speeds_refuted.

(** C70. The physical normalisation: in physical units the Alfvén speed along θ of a normalised state is the speed of
    a wave of the normalised equations with coupling a_0 = (v_a/c_s)², times v_norm. *)
Theorem C70_normalisation : forall c_s_on_v_k v_a_on_c_s G radius mass density p,
  0 < G -> 0 < radius -> 0 < mass -> 0 < density -> 0 < p iρ ->
  let n := get_normalisation c_s_on_v_k v_a_on_c_s G radius mass density in
  n_v n ^ 2 = c_s_on_v_k ^ 2 * (G * mass / radius) /\
  n_η n = radius * n_v n /\ n_ρ n = density /\
  (n_B n * p iB_θ) ^ 2 / (4 * PI * (n_ρ n * p iρ)) = (v_a_on_c_s ^ 2 * p iB_θ ^ 2 / p iρ) * n_v n ^ 2.
Proof.
  intros c v G r M d p HG Hr HM Hd Hρ n. unfold n, get_normalisation; simpl n_v; simpl n_η; simpl n_ρ; simpl n_B.
  pose proof PI_RGT_0 as HPI.
  assert (HK : 0 <= G * M / r).
  { apply Rmult_le_pos; [apply Rmult_le_pos; lra | left; apply Rinv_0_lt_compat; assumption]. }
  assert (EK : sqrt (G * M / r) ^ 2 = G * M / r) by (rewrite <- Rsqr_pow2; apply Rsqr_sqrt; exact HK).
  assert (ED : sqrt (PI * d) ^ 2 = PI * d) by (rewrite <- Rsqr_pow2; apply Rsqr_sqrt; apply Rmult_le_pos; lra).
  repeat split.
  - rewrite Rpow_mult_distr, EK. reflexivity.
  - replace ((v * (c * sqrt (G * M / r)) * 2 * sqrt (PI * d) * p iB_θ) ^ 2)
      with (v ^ 2 * (c * sqrt (G * M / r)) ^ 2 * 4 * (sqrt (PI * d) ^ 2) * p iB_θ ^ 2) by ring.
    rewrite ED. field. repeat split; lra.
Qed.
Print Assumptions C70_normalisation.
Example C70_nonvacuous : 0 < 6 / 100000000 /\ 0 < (state 0 0 1 0 0 0 1 0 0 0 0) iρ. Proof. simpl; lra. Qed.

(** C22. The change of components is the one of the position vector: along any path with latitude θ(t) and radius
    r(t), velocity components (r', rθ') become (R', z') where R = r cos θ, z = r sin θ. *)
Theorem C22_is_coordinate_change : forall (r θ : R -> R) t r' θ', derivable_pt_lim r t r' -> derivable_pt_lim θ t θ' ->
  let '(v_R, v_z) := spherical_r_θ_to_cylindrical_R_z r' (r t * θ') (θ t) in
  derivable_pt_lim (fun t => r t * cos (θ t)) t v_R /\ derivable_pt_lim (fun t => r t * sin (θ t)) t v_z.
Proof.
  intros r θ t r' θ' Hr Hθ. unfold spherical_r_θ_to_cylindrical_R_z.
  assert (Hc : derivable_pt_lim (fun t => cos (θ t)) t (- sin (θ t) * θ'))
    by (apply (derivable_pt_lim_comp θ cos); [assumption | apply derivable_pt_lim_cos]).
  assert (Hs : derivable_pt_lim (fun t => sin (θ t)) t (cos (θ t) * θ'))
    by (apply (derivable_pt_lim_comp θ sin); [assumption | apply derivable_pt_lim_sin]).
  split.
  - eapply dpl_eq; [apply (dpl_mult r (fun t => cos (θ t)) t _ _ Hr Hc) | cbv beta; ring].
  - eapply dpl_eq; [apply (dpl_mult r (fun t => sin (θ t)) t _ _ Hr Hs) | cbv beta; ring].
Qed.
Print Assumptions C22_is_coordinate_change.
Theorem C22_rotation : forall a b c d θ,
  let '(x, z) := spherical_r_θ_to_cylindrical_R_z a b θ in
  let '(u, w) := spherical_r_θ_to_cylindrical_R_z c d θ in
  x * u + z * w = a * c + b * d /\ x ^ 2 + z ^ 2 = a ^ 2 + b ^ 2 /\
  spherical_r_θ_to_cylindrical_R_z x z (- θ) = (a, b) /\
  (forall θ', spherical_r_θ_to_cylindrical_R_z x z θ' = spherical_r_θ_to_cylindrical_R_z a b (θ + θ')) /\
  spherical_r_θ_to_cylindrical_R_z a b 0 = (a, b).
Proof.
  intros. unfold spherical_r_θ_to_cylindrical_R_z.
  pose proof (sin2_cos2 θ) as H. unfold Rsqr in H.
  assert (Hc : cos θ * cos θ = 1 - sin θ * sin θ) by lra.
  repeat split.
  - transitivity ((a * c + b * d) * (sin θ * sin θ + cos θ * cos θ)); [ring | rewrite H; ring].
  - transitivity ((a ^ 2 + b ^ 2) * (sin θ * sin θ + cos θ * cos θ)); [ring | rewrite H; ring].
  - rewrite cos_neg, sin_neg. f_equal.
    + transitivity (a * (sin θ * sin θ + cos θ * cos θ)); [ring | rewrite H; ring].
    + transitivity (b * (sin θ * sin θ + cos θ * cos θ)); [ring | rewrite H; ring].
  - intro θ'. rewrite cos_plus, sin_plus. f_equal; ring.
  - rewrite cos_0, sin_0. f_equal; ring.
Qed.
Print Assumptions C22_rotation.
(** The conversion of a whole state writes every slot, rotates both vector fields and keeps lengths. *)
Theorem C22_conversion_complete : forall θ soln γ c, 
  exists h out, convert_spherical_to_cylindrical θ soln false γ c = Conv_ok (h, out) /\
  h = tan θ / c /\
  exists s, scale_solution_to_radii soln (get_vertical_scaling θ c) γ false = Conv_ok s /\
  (forall i, (i < ODE_LEN)%nat -> exists x, out i = Some x) /\
  (forall i, In i [cv_φ; cB_φ; cρ; cη_O; cη_A; cη_H; cB_φ_prime] -> out i = s i) /\
  exists v_r v_θ B_r B_θ, s iv_r = Some v_r /\ s iv_θ = Some v_θ /\ s iB_r = Some B_r /\ s iB_θ = Some B_θ /\
    out cv_r = Some (fst (spherical_r_θ_to_cylindrical_R_z v_r v_θ θ)) /\
    out cv_z = Some (snd (spherical_r_θ_to_cylindrical_R_z v_r v_θ θ)) /\
    out cB_r = Some (fst (spherical_r_θ_to_cylindrical_R_z B_r B_θ θ)) /\
    out cB_z = Some (snd (spherical_r_θ_to_cylindrical_R_z B_r B_θ θ)).
Proof.
  intros θ soln γ c. eexists. eexists. split; [reflexivity|]. split; [reflexivity|].
  eexists. split; [reflexivity|]. split; [|split].
  - intros i Hi. unfold ODE_LEN in Hi. do 11 (destruct i as [|i]; [eexists; reflexivity|]). lia.
  - intros i Hi. repeat (destruct Hi as [<-|Hi]; [reflexivity|]). destruct Hi.
  - do 4 eexists. repeat split; reflexivity.
Qed.
Theorem C22_E_r_rejected : forall θ soln γ c, convert_spherical_to_cylindrical θ soln true γ c = Conv_error.
Proof. reflexivity. Qed.

(** C23. Rescaling to radius r gives the values at radius r of the self-similar fluid described by the solution. *)
Theorem C23_is_self_similar_fluid : forall γ (y : R -> vec) θ r, 0 < r ->
  exists s, scale_solution_to_radii (y θ) r γ false = Conv_ok s /\
  s iB_r = Some (f_B_r (fluid_of γ y) r θ) /\ s iB_φ = Some (f_B_φ (fluid_of γ y) r θ) /\
  s iB_θ = Some (f_B_θ (fluid_of γ y) r θ) /\ s iv_r = Some (f_v_r (fluid_of γ y) r θ) /\
  s iv_φ = Some (f_v_φ (fluid_of γ y) r θ) /\ s iv_θ = Some (f_v_θ (fluid_of γ y) r θ) /\
  s iρ = Some (f_ρ (fluid_of γ y) r θ) /\ s iη_O = Some (f_η_O (fluid_of γ y) r θ) /\
  s iη_A = Some (f_η_A (fluid_of γ y) r θ) /\ s iη_H = Some (f_η_H (fluid_of γ y) r θ).
Proof.
  intros γ y θ r Hr. destruct (scale_slots (y θ) r γ Hr) as (s & Hs & H). exists s. split; [exact Hs|].
  repeat split; rewrite H by (apply Nat.ltb_lt; reflexivity); reflexivity.
Qed.
Print Assumptions C23_is_self_similar_fluid.
(** The azimuthal-field derivative slot is rescaled like the field itself: it stays the derivative of the
    rescaled B_φ. *)
Theorem C23_derivative_slot : forall γ (y : R -> vec) θ r s, 0 < r ->
  derivable_pt_lim (fun t => y t iB_φ) θ (y θ iB_φ_prime) ->
  scale_solution_to_radii (y θ) r γ false = Conv_ok s ->
  exists d, s iB_φ_prime = Some d /\ pd_θ (f_B_φ (fluid_of γ y)) r θ d.
Proof.
  intros γ y θ r s Hr Hd Hs. destruct (scale_slots (y θ) r γ Hr) as (s' & Hs' & H). rewrite Hs in Hs'.
  injection Hs' as <-. exists (Rpower r (γ - 5 / 4) * y θ iB_φ_prime). split.
  - apply (H 7%nat). apply Nat.ltb_lt; reflexivity.
  - unfold pd_θ, fluid_of, self_similar_fluid, self_similar; simpl.
    eapply dpl_eq; [apply (dpl_mult (fun _ => Rpower r (γ - 5 / 4)) (fun t => y t iB_φ) θ 0 _ (dpl_const _ _) Hd)|].
    cbv beta. ring.
Qed.
Theorem C23_identity : forall soln γ, exists s, scale_solution_to_radii soln 1 γ false = Conv_ok s /\
  forall i, (i < ODE_LEN)%nat -> s i = Some (soln i).
Proof.
  intros soln γ. destruct (scale_slots soln 1 γ Rlt_0_1) as (s & Hs & H). exists s. split; [exact Hs|].
  intros i Hi. rewrite H, Rpower_1', Rmult_1_l by exact Hi. reflexivity.
Qed.
Theorem C23_compose : forall soln t r1 r2 γ s1, 0 < r1 -> 0 < r2 ->
  scale_solution_to_radii soln r1 γ false = Conv_ok s1 ->
  (forall i, (i < ODE_LEN)%nat -> s1 i = Some (t i)) ->
  exists s2 s12, scale_solution_to_radii t r2 γ false = Conv_ok s2 /\
    scale_solution_to_radii soln (r1 * r2) γ false = Conv_ok s12 /\
    forall i, (i < ODE_LEN)%nat -> s2 i = s12 i.
Proof.
  intros soln t r1 r2 γ s1 H1 H2 Hs1 Ht.
  destruct (scale_slots soln r1 γ H1) as (s1' & Hs1' & K1). rewrite Hs1 in Hs1'. injection Hs1' as <-.
  destruct (scale_slots t r2 γ H2) as (s2 & Hs2 & K2).
  destruct (scale_slots soln (r1 * r2) γ) as (s12 & Hs12 & K12); [apply Rmult_lt_0_compat; assumption|].
  exists s2, s12. split; [exact Hs2|]. split; [exact Hs12|]. intros i Hi.
  rewrite K2, K12 by exact Hi. f_equal.
  assert (E : t i = Rpower r1 (slot_exponent γ i) * soln i).
  { specialize (Ht i Hi). rewrite K1 in Ht by exact Hi. injection Ht as ->. reflexivity. }
  rewrite E, <- Rpower_mult_distr by assumption. ring.
Qed.
Print Assumptions C23_compose.
(** All wave speeds rescale like the velocity when the sound speed does, so Mach numbers are unchanged. *)
Theorem C23_mach_invariant : forall soln t r γ s c, 0 < r -> 0 < soln iρ ->
  0 < soln iB_r ^ 2 + soln iB_φ ^ 2 + soln iB_θ ^ 2 ->
  scale_solution_to_radii soln r γ false = Conv_ok s -> (forall i, (i < ODE_LEN)%nat -> s i = Some (t i)) ->
  let '(slow, alfven, fast) := mhd_wave_speeds soln c in
  mhd_wave_speeds t (c / sqrt r) = (slow / r, alfven / r, fast / r) /\
  t iv_θ ^ 2 = soln iv_θ ^ 2 / r.
Proof.
  intros soln t r γ s c Hr Hρ HB Hs Ht.
  destruct (scale_slots soln r γ Hr) as (s' & Hs' & K). rewrite Hs in Hs'. injection Hs' as <-.
  assert (E : forall i, (i < ODE_LEN)%nat -> t i = Rpower r (slot_exponent γ i) * soln i).
  { intros i Hi. specialize (Ht i Hi). rewrite K in Ht by exact Hi. injection Ht as ->. reflexivity. }
  assert (EB : Rpower r (γ - 5 / 4) ^ 2 = Rpower r (2 * γ - 3 / 2) / r).
  { simpl. rewrite Rmult_1_r, <- Rpower_plus. unfold Rdiv. rewrite <- (Rpower_1 r Hr) at 3.
    rewrite <- Rpower_Ropp, <- Rpower_plus. f_equal. field. }
  assert (Ev : Rpower r (- 1 / 2) ^ 2 = 1 / r).
  { simpl. rewrite Rmult_1_r, <- Rpower_plus. replace (- 1 / 2 + - 1 / 2) with (- (1)) by field.
    rewrite Rpower_Ropp, Rpower_1 by assumption. field. lra. }
  assert (Hq : 0 < Rpower r (2 * γ - 3 / 2)) by (unfold Rpower; apply exp_pos).
  assert (Er : sqrt r ^ 2 = r) by (rewrite <- Rsqr_pow2; apply Rsqr_sqrt; lra).
  assert (Hsr : sqrt r <> 0) by (intro H0; rewrite H0 in Er; simpl in Er; lra).
  assert (Ec : (c / sqrt r) ^ 2 = c ^ 2 / r) by (rewrite <- Er at 2; field; assumption).
  pose proof PI_RGT_0 as HPI.
  unfold mhd_wave_speeds.
  rewrite (E iB_r), (E iB_φ), (E iB_θ), (E iρ), (E iv_θ) by (unfold ODE_LEN, iB_r, iB_φ, iB_θ, iρ, iv_θ; lia).
  simpl slot_exponent. rewrite !Rpow_mult_distr, !EB, Ev, Ec.
  set (q := Rpower r (2 * γ - 3 / 2)) in *. set (m := soln iB_r ^ 2 + soln iB_φ ^ 2 + soln iB_θ ^ 2) in *.
  replace (q / r * soln iB_r ^ 2 + q / r * soln iB_φ ^ 2 + q / r * soln iB_θ ^ 2) with (q / r * m)
    by (unfold m; ring).
  replace (q / r * m / (4 * PI * (q * soln iρ))) with (m / (4 * PI * soln iρ) / r) by (field; repeat split; lra).
  replace (q / r * soln iB_θ ^ 2 / (q / r * m)) with (soln iB_θ ^ 2 / m) by (field; repeat split; lra).
  set (V := m / (4 * PI * soln iρ)). set (x := soln iB_θ ^ 2 / m).
  replace ((V / r + c ^ 2 / r) ^ 2 - 4 * (V / r) * (c ^ 2 / r) * x)
    with (((V + c ^ 2) ^ 2 - 4 * V * c ^ 2 * x) / (r ^ 2)) by (field; lra).
  assert (Hd : sqrt (((V + c ^ 2) ^ 2 - 4 * V * c ^ 2 * x) / r ^ 2)
          = sqrt ((V + c ^ 2) ^ 2 - 4 * V * c ^ 2 * x) / r).
  { rewrite sqrt_div_alt by (apply pow_lt; assumption). rewrite sqrt_pow2 by lra. reflexivity. }
  rewrite Hd. split; [|field; lra]. apply f_equal2; [apply f_equal2|]; field; lra.
Qed.
Print Assumptions C23_mach_invariant.
Theorem C23_E_r_rejected : forall soln r γ, scale_solution_to_radii soln r γ true = Conv_error.
Proof. reflexivity. Qed.
Example C23_nonvacuous : exists s t, let soln := state 1 2 3 4 5 2 1 0 1 0 0 in 0 < 2 /\
  0 < soln iρ /\ 0 < soln iB_r ^ 2 + soln iB_φ ^ 2 + soln iB_θ ^ 2 /\
  scale_solution_to_radii soln 2 1 false = Conv_ok s /\ (forall i, (i < ODE_LEN)%nat -> s i = Some (t i)).
Proof.
  destruct (scale_slots (state 1 2 3 4 5 2 1 0 1 0 0) 2 1 Rlt_0_2) as (s & Hs & H).
  exists s. exists (fun i => Rpower 2 (slot_exponent 1 i) * state 1 2 3 4 5 2 1 0 1 0 0 i). simpl iρ.
  repeat split; try (simpl; lra); assumption.
Qed.

(** C24. *)
Theorem C24_inverse : forall x s, s <> 0 ->
  scaled_to_rad (rad_to_scaled x s) s = x /\ rad_to_scaled (scaled_to_rad x s) s = x /\
  (rad_to_scaled x s = None <-> x = None) /\ (scaled_to_rad x s = None <-> x = None).
Proof.
  intros [x|] s Hs; simpl; repeat split; try (f_equal; field; exact Hs); intro H; try discriminate H; reflexivity.
Qed.
Print Assumptions C24_inverse.
Theorem C24_monotone : forall x y s, 0 < s -> (rad_to_scaled_num x s < rad_to_scaled_num y s <-> x < y).
Proof.
  intros x y s Hs. unfold rad_to_scaled_num, Rdiv. pose proof (Rinv_0_lt_compat s Hs). split; intro H0.
  - apply Rmult_lt_reg_r with (/ s); assumption.
  - apply Rmult_lt_compat_r; assumption.
Qed.

(** C67. Conversion "at constant cylindrical radius".  A point of latitude θ on the cylinder R = 1 has spherical
    radius 1/cos θ.  The code rescales to that radius only if c_s/v_k = 1 (or in the midplane)... *)
Theorem C67_constant_radius_exact : forall θ c, 0 < cos θ -> 0 < c ->
  get_heights θ c * (c * (1 / cos θ * cos θ)) = 1 / cos θ * sin θ /\
  (get_vertical_scaling θ c = 1 / cos θ <-> c = 1 \/ tan θ = 0).
Proof.
  intros θ c Hcos Hc. unfold get_vertical_scaling, get_heights. split.
  { unfold tan. field. split; lra. }
  assert (E : (1 / cos θ) ^ 2 = 1 + tan θ ^ 2).
  { unfold tan. pose proof (sin2_cos2 θ) as H. unfold Rsqr in H.
    replace ((1 / cos θ) ^ 2) with ((sin θ * sin θ + cos θ * cos θ) / (cos θ * cos θ)) by (rewrite H; field; lra).
    field. lra. }
  assert (Hp : 0 < 1 / cos θ) by (apply Rmult_lt_0_compat; [lra | apply Rinv_0_lt_compat; lra]).
  assert (Hge : 0 <= 1 + (tan θ / c) ^ 2) by (pose proof (pow2_ge_0 (tan θ / c)); lra).
  split.
  - intro H. assert (E2 : 1 + (tan θ / c) ^ 2 = 1 + tan θ ^ 2).
    { rewrite <- E, <- H. rewrite <- Rsqr_pow2 with (x := sqrt _). rewrite Rsqr_sqrt by exact Hge. reflexivity. }
    destruct (Req_dec (tan θ) 0) as [|N]; [right; assumption|]. left.
    assert (E3 : tan θ ^ 2 * (1 - c ^ 2) = 0).
    { apply Rmult_eq_reg_r with (/ c ^ 2).
      - transitivity ((tan θ / c) ^ 2 - tan θ ^ 2); [field; lra | lra].
      - apply Rinv_neq_0_compat. apply pow_nonzero. lra. }
    apply Rmult_integral in E3. destruct E3 as [E3|E3].
    + exfalso. apply (pow_nonzero _ 2 N). exact E3.
    + assert (E4 : (1 - c) * (1 + c) = 0) by (rewrite <- E3; ring).
      apply Rmult_integral in E4. lra.
  - intro H. rewrite <- (sqrt_pow2 (1 / cos θ)) by lra. f_equal. rewrite E.
    destruct H as [-> | ->]; [|unfold Rdiv; ring]. unfold Rdiv. rewrite Rinv_1. ring.
Qed.
Print Assumptions C67_constant_radius_exact.
(** ... so in general the converted values are not the fluid's values at that point. *)
Theorem C67_constant_radius_refuted : exists γ y θ c h out, 0 < θ < PI / 2 /\ 0 < c < 1 /\
  convert_spherical_to_cylindrical θ (y θ) false γ c = Conv_ok (h, out) /\
  out cv_φ <> Some (f_v_φ (fluid_of γ y) (1 / cos θ) θ).
Proof.
  set (y := fun _ : R => state 0 0 1 0 1 0 1 0 1 0 0).
  assert (Hθ : 0 < PI / 4 < PI / 2) by (pose proof PI_RGT_0; lra).
  exists 1, y, (PI / 4), (1 / 2). do 2 eexists. split; [exact Hθ|]. split; [lra|]. split; [reflexivity|].
  assert (Hc : 0 < cos (PI / 4)) by (apply cos_gt_0; lra).
  unfold upd, fluid_of, self_similar_fluid, self_similar; simpl.
  intro H. injection H as H.
  assert (Hs : 0 < sqrt (1 + (1 / (1 / 2)) ^ 2)) by (apply sqrt_lt_R0; simpl; lra).
  unfold get_vertical_scaling, get_heights in H. rewrite tan_PI4 in H.
  rewrite !Rmult_1_r in H.
  rewrite inv_sqrt_Rpower in H by exact Hs.
  assert (Hp : 0 < 1 / cos (PI / 4)) by (apply Rmult_lt_0_compat; [lra | apply Rinv_0_lt_compat; lra]).
  unfold Rpower in H. apply exp_inv in H.
  assert (Hl : ln (sqrt (1 + (1 / (1 / 2)) ^ 2)) = ln (1 / cos (PI / 4))) by lra.
  apply ln_inv in Hl; [|exact Hs|exact Hp].
  pose proof (proj1 (proj2 (C67_constant_radius_exact (PI / 4) (1 / 2) Hc ltac:(lra)))) as K.
  unfold get_vertical_scaling, get_heights in K. rewrite tan_PI4 in K. destruct (K Hl) as [K'|K']; lra.
Qed.
Print Assumptions C67_constant_radius_refuted.

(** C69. Tangential electric field across the shock.  E_r of a state, as the validation command computes it: *)
Definition E_r_of (o : ode_args) (θ : R) (p : vec) : R := E_r_along o (fun _ => p) θ.
(** With the B_φ' formulation it jumps whenever B_φ ≠ 0 (Hall and ambipolar diffusion off). *)
Theorem C69_tangential_E_exact : forall o θ p, oa_use_E_r o = false -> B_nonzero p -> p iv_θ <> 0 ->
  p iη_A = 0 -> p iη_H = 0 ->
  E_r_of o θ (post_jump_values p) - E_r_of o θ p = (post_jump_values p iv_θ - p iv_θ) * p iB_φ.
Proof.
  intros o θ p Hu HB Hv HA HH. unfold E_r_of, E_r_along.
  rewrite post_v_θ.
  assert (Hd : forall q, fst (rhs_derivs o θ q) iB_φ = q iB_φ_prime).
  { intro q. pose proof (rhs_B_φ o θ q) as K. cbv zeta in K. rewrite Hu in K. exact K. }
  pose proof (Hd p) as K1. pose proof (Hd (post_jump_values p)) as K2.
  set (d1 := fst (rhs_derivs o θ p)) in *. set (d2 := fst (rhs_derivs o θ (post_jump_values p))) in *.
  clearbody d1 d2. unfold get_values, J_func, E_func. simpl va_E. simpl fst.
  unfold E_r_func, J_r_func. rewrite K1, K2. rewrite post_v_θ, !post_other by (intro K; discriminate K).
  rewrite HA, HH. ring.
Qed.
Print Assumptions C69_tangential_E_exact.
(** With the E_r formulation the slot itself is E_r and is carried over unchanged. *)
Theorem C69_E_r_formulation_partial : forall p, post_jump_values p iE_r = p iE_r.
Proof. intro p. apply post_other; intro K; discriminate K. Qed.
Theorem C69_tangential_E_refuted : exists o θ p, 0 < p iρ /\ 1 < p iv_θ /\ B_nonzero p /\
  E_r_of o θ (post_jump_values p) <> E_r_of o θ p.
Proof.
  set (p := state 0 1 1 0 0 2 1 0 1 0 0).
  exists (mk_ode_args 1 1 1 zeros 1 false false false false None false), 0, p.
  split; [simpl; lra|]. split; [simpl; lra|]. split; [unfold B_nonzero; simpl; lra|].
  intro E. pose proof (C69_tangential_E_exact (mk_ode_args 1 1 1 zeros 1 false false false false None false) 0 p
    eq_refl ltac:(unfold B_nonzero; simpl; lra) ltac:(simpl; lra) eq_refl eq_refl) as K.
  rewrite E, post_v_θ in K. simpl in K. lra.
Qed.
Print Assumptions C69_tangential_E_refuted.
