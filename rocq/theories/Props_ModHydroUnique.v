(** C140: what the modified hydrostatic method integrates without E_r is determined by where it starts. *)
From Coq Require Import Reals Lra Lia FunctionalExtensionality.
From Verif Require Import Model_Index Model_Deriv Model_Midplane Model_Ode Model_Hydro Model_ModHydro Lib_Deriv Lib_LocalLip Spec_MHD Spec_Ode Spec_Unique Spec_HydroUnique
  Spec_ModHydroUnique Proofs_Ode Proofs_Unique Proofs_HydroUnique Proofs_ModHydroUnique Witness_Ode Props_Unique Props_HydroUnique.
Open Scope R_scope.

(** Two regular solutions on [a, b] move apart, in either direction, at most exponentially. *)
Theorem C140_stays_close : forall m y z a b, ma_use_E_r m = false -> a <= b -> mod_solves m y a b -> mod_solves m z a b ->
  exists K, 0 <= K /\ forall s t, a <= s <= b -> a <= t <= b ->
    dist_sq (y t) (z t) <= dist_sq (y s) (z s) * exp (K * Rabs (t - s)).
Proof. intros m y z a b NE Hab Hy Hz. exact (mod_stays_close m y z a b Hab NE Hy Hz). Qed.
Print Assumptions C140_stays_close.

(** Two regular solutions that agree at one angle agree at every angle, above it and below it. *)
Theorem C140_determined : forall m y z a b, ma_use_E_r m = false -> a <= b -> mod_solves m y a b -> mod_solves m z a b ->
  forall s, a <= s <= b -> (forall i, (i < ODE_LEN)%nat -> y s i = z s i) ->
  forall t, a <= t <= b -> forall i, (i < ODE_LEN)%nat -> y t i = z t i.
Proof.
  intros m y z a b NE Hab Hy Hz s Hs E t Ht i Hl.
  destruct (C140_stays_close m y z a b NE Hab Hy Hz) as (K & _ & H). specialize (H s t Hs Ht).
  rewrite (dist_zero _ _ E), Rmult_0_l in H. pose proof (slot_le (y t) (z t) i Hl) as L.
  assert (Z : (y t i - z t i) ^ 2 = 0) by (apply Rle_antisym; [lra|apply pow2_ge_0]).
  apply Rminus_diag_uniq. destruct (Req_dec (y t i - z t i) 0) as [|N]; [assumption|]. exfalso. exact (pow_nonzero _ 2 N Z).
Qed.
Print Assumptions C140_determined.

(** Through every state that is not singular there is exactly one solution. *)
Theorem C140_through : forall m x0 p0, ma_use_E_r m = false -> mod_regular m x0 p0 ->
  exists e y, 0 < e /\ (forall i, (i < ODE_LEN)%nat -> y x0 i = p0 i) /\
    (forall x, Rabs (x - x0) < e -> mod_solves_at m y x /\ mod_regular m x (y x)) /\
    forall z, (forall i, (i < ODE_LEN)%nat -> z x0 i = p0 i) -> (forall x, Rabs (x - x0) < e -> mod_solves_at m z x /\ mod_regular m x (z x)) ->
    forall x, Rabs (x - x0) < e -> forall i, (i < ODE_LEN)%nat -> z x i = y x i.
Proof.
  intros m x0 p0 NE Hr. destruct (mod_regular_near m x0 p0 Hr) as (r & Pr & R).
  destruct (local_solution ODE_LEN x0 p0 (fun t p i => m_d m (t * ma_θ_scale m) p i) (proj1 (mod_lip m x0 p0 Hr)) r Pr) as (e & y & Pe & Y0 & Y1).
  assert (Y : forall x, Rabs (x - x0) < e -> mod_solves_at m y x /\ mod_regular m x (y x)).
  { intros x Hx. destruct (Y1 x Hx) as (Nx & Dx). pose proof (R x (y x) Nx) as G. split; [|exact G].
    intros sr root. destruct (mod_regular_answers sr m root x (y x) NE G) as (d & q & r' & θ & E). exists d, q, r', θ. split; [exact E|]. intros i Hl.
    rewrite (mod_pieces _ _ _ _ _ _ _ _ _ NE E i Hl). exact (Dx i Hl). }
  exists e, y. split; [exact Pe|]. split; [exact Y0|]. split; [exact Y|]. intros z Z0 Z x Hx i Hl.
  assert (In : forall t, Rmin x0 x <= t <= Rmax x0 x -> Rabs (t - x0) < e).
  { intros t Ht. unfold Rmin, Rmax in Ht. destruct (Rle_dec x0 x); unfold Rabs in *; repeat destruct Rcase_abs; lra. }
  assert (Ends : Rmin x0 x <= x0 <= Rmax x0 x /\ Rmin x0 x <= x <= Rmax x0 x) by (unfold Rmin, Rmax; destruct (Rle_dec x0 x); lra).
  refine (C140_determined m z y (Rmin x0 x) (Rmax x0 x) NE _ _ _ x0 (proj1 Ends) _ x (proj2 Ends) i Hl).
  - lra.
  - intros t Ht. exact (Z t (In t Ht)).
  - intros t Ht. exact (Y t (In t Ht)).
  - intros j Hj. rewrite (Z0 j Hj), (Y0 j Hj). reflexivity.
Qed.
Print Assumptions C140_through.

(** A solution whose quantities tend to a state that is not singular goes on beyond it: the only way for a solution to end is at a
    singular state, or without a limit. *)
Theorem C140_continues : forall m a b y p, ma_use_E_r m = false -> a < b -> (forall x, a <= x < b -> mod_solves_at m y x /\ mod_regular m x (y x)) ->
  (forall i, (i < ODE_LEN)%nat -> forall e, 0 < e -> exists d, 0 < d /\ forall x, b - d < x < b -> Rabs (y x i - p i) < e) ->
  mod_regular m b p ->
  exists e z, 0 < e /\ (forall x, x < b -> z x = y x) /\ (forall i, (i < ODE_LEN)%nat -> z b i = p i) /\
  forall x, a <= x < b + e -> mod_solves_at m z x /\ mod_regular m x (z x).
Proof.
  intros m a b y p NE Hab Hy Hl Hr. destruct (mod_regular_near m b p Hr) as (r & Pr & Rg).
  destruct (local_continuation ODE_LEN b p (fun t p i => m_d m (t * ma_θ_scale m) p i) (proj1 (mod_lip m b p Hr)) y (b - a)) with (e := r)
    as (e & z & Pe & Z1 & Z2 & Z3).
  - lra.
  - intros t i Ht Hi. destruct (Hy t ltac:(lra)) as (W & _). destruct (W (fun r _ _ _ _ => r) 0) as (d & q & r' & θ & E & D). rewrite <- (mod_pieces _ _ _ _ _ _ _ _ _ NE E i Hi). exact (D i Hi).
  - intros ε Pε. assert (V : forall k, (k <= ODE_LEN)%nat -> exists d, 0 < d /\ forall t, b - d < t < b -> forall j, (j < k)%nat -> Rabs (y t j - p j) <= ε).
    { induction k as [|k IH]; intros Hk; [exists 1; split; [lra|intros; lia]|]. destruct IH as (d & Pd & Hd); [lia|].
      destruct (Hl k Hk ε Pε) as (d' & Pd' & Hd'). exists (Rmin d d'). split; [apply Rmin_pos; assumption|].
      intros t Ht j Hj. pose proof (Rmin_l d d'). pose proof (Rmin_r d d').
      destruct (Nat.eq_dec j k) as [-> |Ne]; [apply Rlt_le, Hd'; lra|apply Hd; [lra|lia]]. }
    destruct (V ODE_LEN (le_n _)) as (d & Pd & Hd). exists (Rmin d ε). split; [apply Rmin_pos; assumption|]. intros t Ht.
    pose proof (Rmin_l d ε). pose proof (Rmin_r d ε). split; [apply Rabs_le; lra|apply Hd; lra].
  - exact Pr.
  - assert (Z1' : forall x, x < b -> z x = y x) by (intros x Hx; apply functional_extensionality; intros i; apply Z1, Hx).
    exists e, z. split; [exact Pe|]. split; [exact Z1'|]. split; [exact Z2|]. intros x Hx. destruct (Rlt_dec x b) as [L|L].
    + rewrite (Z1' x L). destruct (Hy x ltac:(lra)) as (W & G). split; [|exact G]. intros sr root. destruct (W sr root) as (d & q & r' & θ & E & D). exists d, q, r', θ.
      split; [rewrite (Z1' x L); exact E|]. intros i Hi. apply (dpl_ext_loc (fun t => y t i) _ x _ (b - x)); [lra| |exact (D i Hi)].
      intros t Ht. apply Rabs_def2 in Ht. rewrite (Z1' t) by lra. reflexivity.
    + destruct (Z3 x ltac:(lra)) as (Nx & Dx). pose proof (Rg x (z x) Nx) as G. split; [|exact G].
      intros sr root. destruct (mod_regular_answers sr m root x (z x) NE G) as (d & q & r' & θ & E). exists d, q, r', θ. split; [exact E|]. intros i Hi.
      rewrite (mod_pieces _ _ _ _ _ _ _ _ _ NE E i Hi). exact (Dx i Hi).
Qed.
Print Assumptions C140_continues.

(** Not empty: a toroidal field in a disc it does not press on, resisting by Ohm's law alone. *)
Definition m_tor : mod_hydro_args := mk_mod_hydro_args 0 9 (fun _ => 1) 1 false false false.
Lemma m_tor_kepler : kepler m_tor = 3.
Proof. unfold kepler, m_tor. cbn [ma_norm_kepler_sq]. replace 9 with (3 * 3) by ring. apply sqrt_square. lra. Qed.
Lemma m_tor_numbers : forall t, 0 < cos t -> mod_determinant m_tor t (y_tor t) = 3 * cos t /\ mod_denominator m_tor t (y_tor t) = cos t /\
  mod_coefficient m_tor t (y_tor t) = 1 /\ the_Z_5 (y_tor t) = 1.
Proof.
  intros t Hc. assert (E5 : the_Z_5 (y_tor t) = 1).
  { unfold the_Z_5, the_C. generalize (unit (y_tor t) iB_r) (unit (y_tor t) iB_φ) (unit (y_tor t) iB_θ). intros ur uf ut.
    unfold y_tor, state, iη_O, iη_A, iη_H. unfold Z_5_func, C_func. unfold Rdiv. ring. }
  unfold mod_determinant, mod_denominator, mod_coefficient, Model_ModHydro.Z_6_func. rewrite m_tor_kepler, E5.
  generalize (the_Z_4 t (y_tor t)) (mod_Z_3 m_tor (y_tor t)) (the_X (y_tor t)) (the_C (y_tor t)). intros z4 z3 xx cc.
  unfold m_tor, ma_a_0, y_tor, state, iB_θ, iv_r, iv_φ, iρ. split; [ring|]. split; [ring|]. split; [|reflexivity]. unfold Rdiv. ring.
Qed.
Lemma m_tor_solves : mod_solves m_tor y_tor 0 1.
Proof.
  intros t Ht. assert (Hc : 0 < cos t) by (apply cos_gt_0; pose proof PI2_1; lra).
  destruct (m_tor_numbers t Hc) as (N1 & N2 & N3 & N5). assert (He : 0 < exp (- t / 4)) by apply exp_pos.
  assert (G : mod_regular m_tor t (y_tor t)).
  { unfold mod_regular, B_nonzero. cbn [m_tor ma_θ_scale ma_norm_kepler_sq]. rewrite Rmult_1_r. fold m_tor. rewrite N1, N2, N3.
    generalize (unit (y_tor t) iB_φ). intros u. unfold y_tor, state, iB_r, iB_φ, iB_θ, iv_r, iv_φ, iρ, iη_O, iη_A, iη_H.
    assert (0 < exp (- t / 4) ^ 2) by (apply sq_pos; lra). repeat split; lra. }
  split; [|exact G]. intros sr root. destruct (mod_regular_answers sr m_tor root t (y_tor t) eq_refl G) as (d & q & r & θ & E).
  exists d, q, r, θ. split; [exact E|]. intros i Hl. rewrite (mod_pieces sr m_tor root t (y_tor t) d q r θ eq_refl E i Hl).
  cbn [m_tor ma_θ_scale]. rewrite Rmult_1_r. fold m_tor.
  assert (U : forall j, j = iB_r \/ j = iB_θ -> unit (y_tor t) j = 0).
  { intros j [-> | ->]; unfold unit, y_tor at 1, state at 1, iB_r at 1, iB_θ at 1; unfold Rdiv; apply Rmult_0_l. }
  assert (E1 : forall q, 1 + 0 * q = 1) by (intros q'; ring). set (h := as_hydro m_tor).
  assert (Dr : q_dBr t (y_tor t) = 0).
  { unfold q_dBr. rewrite (U iB_r), (U iB_θ) by auto. generalize (unit (y_tor t) iB_φ). intros u.
    unfold y_tor, state, iB_r, iB_φ, iB_θ, iv_r, iv_φ, iρ, iη_O, iη_A, iη_H, iB_φ_prime. replace (1 + 0 * (1 - u) * (1 + u)) with 1 by ring. field. }
  assert (Dt : q_dBt t (y_tor t) = 0) by (unfold q_dBt, y_tor, state, iB_θ, iB_r; ring).
  assert (De : forall j, q_dη h t (y_tor t) j = 0) by reflexivity.
  assert (Dρ : q_dρ h t (y_tor t) = - sin t).
  { unfold q_dρ. rewrite Dr. unfold h. cbn [as_hydro m_tor ha_a_0 ma_a_0]. unfold y_tor, state, iB_r, iB_φ, iB_θ, iv_φ, iρ. unfold tan. field. lra. }
  assert (DA : q_A h t (y_tor t) = 0).
  { unfold q_A. rewrite !De. unfold A_func. generalize (unit (y_tor t) iB_φ) (unit (y_tor t) iB_r) (unit (y_tor t) iB_θ) (q_dbt t (y_tor t)) (q_dbr t (y_tor t)) (q_dbf t (y_tor t)).
    intros. unfold y_tor, state, iη_O, iη_A, iη_H. rewrite !E1. unfold Rdiv. ring. }
  assert (D1 : q_Z1 h t (y_tor t) = 0).
  { unfold q_Z1, Z_1_func. unfold h. cbn [as_hydro m_tor ha_a_0 ma_a_0]. unfold Rdiv. ring. }
  assert (D2 : m_Z2 m_tor t (y_tor t) = 0).
  { unfold m_Z2, Model_ModHydro.Z_2_func. cbn [m_tor ma_a_0]. unfold Rdiv. ring. }
  assert (DC : the_C (y_tor t) = 0).
  { unfold the_C, C_func, Rdiv. change (y_tor t iη_H) with 0. change (y_tor t iη_A) with 0. ring. }
  assert (Dd : m_dd m_tor t (y_tor t) = / 16 * exp (- t / 4)).
  { unfold m_dd. fold h. rewrite N3, DA, DC, !De, Dr, Dt, (U iB_r), (U iB_θ) by auto. unfold dderiv_B_φ_func.
    generalize (unit (y_tor t) iB_φ) (q_dbr t (y_tor t)) (q_dbt t (y_tor t)) (q_dbf t (y_tor t)) (m_Z7 m_tor t (y_tor t)). intros.
    unfold y_tor, state, iB_r, iB_φ, iB_θ, iv_r, iv_φ, iρ, iη_O, iη_A, iη_H, iB_φ_prime. field. }
  assert (Dvr : m_dvr m_tor t (y_tor t) = 0).
  { unfold m_dvr. fold h. rewrite D1, D2. unfold Model_ModHydro.deriv_v_r_func. cbn [m_tor ma_a_0]. unfold Rdiv. ring. }
  assert (Dvf : m_dvf m_tor t (y_tor t) = 0).
  { unfold m_dvf, Model_ModHydro.deriv_v_φ_func. rewrite D2, Dvr. change (y_tor t iB_θ) with 0. unfold Rdiv. ring. }
  assert (Dexp : derivable_pt_lim (fun x => exp (- x / 4)) t (- / 4 * exp (- t / 4))).
  { eapply dpl_eq; [apply (derivable_pt_lim_comp (fun x => - x / 4) exp t (- / 4) (exp (- t / 4)))|ring].
    - eapply dpl_eq; [apply (derivable_pt_lim_mult (fun x => - x) (fun _ => / 4) t (- 1) 0)|cbv beta; ring].
      + exact (derivable_pt_lim_opp (fun x => x) t 1 (derivable_pt_lim_id t)).
      + apply derivable_pt_lim_const.
    - apply derivable_pt_lim_exp. }
  unfold ODE_LEN in Hl. unfold m_d. fold h.
  destruct i as [|[|[|[|[|[|[|[|[|[|[|i]]]]]]]]]]]; cbv iota; rewrite ?Dr, ?Dt, ?De, ?Dρ, ?Dd, ?Dvr, ?Dvf; try lia.
  + exact (derivable_pt_lim_const 0 t).
  + exact Dexp.
  + exact (derivable_pt_lim_const 0 t).
  + exact (derivable_pt_lim_const (-1) t).
  + exact (derivable_pt_lim_const 1 t).
  + exact (derivable_pt_lim_const 0 t).
  + exact (derivable_pt_lim_cos t).
  + eapply dpl_eq; [exact (derivable_pt_lim_scal _ (- / 4) t _ Dexp)|field].
  + exact (derivable_pt_lim_const 1 t).
  + exact (derivable_pt_lim_const 0 t).
  + exact (derivable_pt_lim_const 0 t).
Qed.
Example C140_nonvacuous : mod_solves m_tor y_tor 0 1 /\
  forall z, mod_solves m_tor z 0 1 -> (forall i, (i < ODE_LEN)%nat -> z 0 i = y_tor 0 i) -> z 1 iB_φ = exp (- (1) / 4).
Proof.
  split; [exact m_tor_solves|]. intros z Hz E.
  exact (C140_determined m_tor z y_tor 0 1 eq_refl ltac:(lra) Hz m_tor_solves 0 ltac:(lra) E 1 ltac:(lra) iB_φ ltac:(unfold iB_φ, ODE_LEN; lia)).
Qed.
(** A regular state in which the field does press on the gas: a vertical field, gas that orbits and drifts inwards. *)
Example C140_through_nonvacuous : mod_regular (mk_mod_hydro_args 1 9 (fun _ => 1) 1 true false false) 0 (state 0 0 1 (-1) 3 0 1 0 1 0 0).
Proof.
  set (m := mk_mod_hydro_args 1 9 (fun _ => 1) 1 true false false). set (p := state 0 0 1 (-1) 3 0 1 0 1 0 0).
  assert (U : forall j, j = iB_r \/ j = iB_φ -> unit p j = 0) by (intros j [-> | ->]; unfold unit, Rdiv; apply Rmult_0_l).
  assert (Ek : kepler m = 3) by exact m_tor_kepler.
  assert (EX : the_X p = 0) by (unfold the_X, X_func; rewrite (U iB_φ) by auto; unfold p, state, iη_O, iη_A, iη_H; field).
  assert (E4 : the_Z_4 0 p = 0) by (unfold the_Z_4, Z_4_func, p, state, iB_r, iB_φ, iB_θ, iB_φ_prime; field).
  assert (EC : the_C p = 0) by (unfold the_C, C_func; rewrite (U iB_φ) by auto; unfold p, state, iη_O, iη_A, iη_H; field).
  assert (E5 : the_Z_5 p = 1) by (unfold the_Z_5, Z_5_func; rewrite EC; unfold p, state, iη_O, iη_A, iη_H; ring).
  assert (E3 : mod_Z_3 m p = 7 / 6).
  { unfold mod_Z_3, Model_ModHydro.Z_3_func. rewrite Ek, (U iB_φ) by auto. unfold p, state, iv_r, iB_θ, iη_O, iη_A. field. }
  unfold mod_regular, mod_determinant, mod_denominator, mod_coefficient, Model_ModHydro.Z_6_func. replace (0 * ma_θ_scale m) with 0 by ring.
  rewrite E3, E4, E5, EC, EX, Ek, cos_0, (U iB_φ) by auto.
  unfold B_nonzero, p, state, m, ma_a_0, ma_norm_kepler_sq, iB_r, iB_φ, iB_θ, iv_r, iv_φ, iρ, iη_O, iη_A. repeat split; lra.
Qed.
Example C140_continues_nonvacuous : exists e z, 0 < e /\ (forall x, x < 1 -> z x = y_tor x) /\ forall x, 0 <= x < 1 + e -> mod_solves_at m_tor z x.
Proof.
  destruct (C140_continues m_tor 0 1 y_tor (y_tor 1) eq_refl ltac:(lra)) as (e & z & Pe & Z1 & _ & Z3).
  - intros x Hx. apply m_tor_solves. lra.
  - intros i Hi ε Pε. destruct (m_tor_solves 1 ltac:(lra)) as (W & _). destruct (W (fun r _ _ _ _ => r) 0) as (d & q & r & θ & _ & D).
    assert (C : continuity_pt (fun t => y_tor t i) 1) by (apply derivable_continuous_pt; exists (d i); exact (D i Hi)).
    destruct (C ε Pε) as (δ & Pδ & H). exists δ. split; [exact Pδ|]. intros x Hx. apply (H x). split; [split; [exact I|lra]|]. cbn. unfold R_dist. apply Rabs_def1; lra.
  - apply m_tor_solves. lra.
  - exists e, z. split; [exact Pe|]. split; [exact Z1|]. intros x Hx. apply Z3, Hx.
Qed.
