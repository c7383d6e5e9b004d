(** C136: what the hydrostatic method integrates is determined by where it starts. *)
From Coq Require Import Reals Lra Lia FunctionalExtensionality.
From Verif Require Import Model_Index Model_Deriv Model_Midplane Model_Ode Model_Hydro Lib_Deriv Lib_LocalLip Spec_MHD Spec_Ode Spec_Unique Spec_HydroUnique
  Proofs_Ode Proofs_Unique Proofs_HydroUnique Witness_Ode Props_Unique.
Open Scope R_scope.

(** Two regular solutions on [a, b] move apart, in either direction, at most exponentially. *)
Theorem C136_stays_close : forall h y z a b, a <= b -> hydro_solves h y a b -> hydro_solves h z a b ->
  exists K, 0 <= K /\ forall s t, a <= s <= b -> a <= t <= b ->
    dist_sq (y t) (z t) <= dist_sq (y s) (z s) * exp (K * Rabs (t - s)).
Proof. intros h y z a b Hab Hy Hz. exact (hydro_stays_close h y z a b Hab Hy Hz). Qed.
Print Assumptions C136_stays_close.

(** Two regular solutions that agree at one angle agree at every angle, above it and below it. *)
Theorem C136_determined : forall h y z a b, a <= b -> hydro_solves h y a b -> hydro_solves h z a b ->
  forall s, a <= s <= b -> (forall i, (i < ODE_LEN)%nat -> y s i = z s i) ->
  forall t, a <= t <= b -> forall i, (i < ODE_LEN)%nat -> y t i = z t i.
Proof.
  intros h y z a b Hab Hy Hz s Hs E t Ht i Hl.
  destruct (C136_stays_close h y z a b Hab Hy Hz) as (K & _ & H). specialize (H s t Hs Ht).
  rewrite (dist_zero _ _ E), Rmult_0_l in H. pose proof (slot_le (y t) (z t) i Hl) as L.
  assert (Z : (y t i - z t i) ^ 2 = 0) by (apply Rle_antisym; [lra|apply pow2_ge_0]).
  apply Rminus_diag_uniq. destruct (Req_dec (y t i - z t i) 0) as [|N]; [assumption|]. exfalso. exact (pow_nonzero _ 2 N Z).
Qed.
Print Assumptions C136_determined.

(** Through every state that is not singular there is exactly one solution. *)
Theorem C136_through : forall h x0 p0, hydro_regular h x0 p0 ->
  exists e y, 0 < e /\ (forall i, (i < ODE_LEN)%nat -> y x0 i = p0 i) /\
    (forall x, Rabs (x - x0) < e -> hydro_solves_at h y x /\ hydro_regular h x (y x)) /\
    forall z, (forall i, (i < ODE_LEN)%nat -> z x0 i = p0 i) -> (forall x, Rabs (x - x0) < e -> hydro_solves_at h z x /\ hydro_regular h x (z x)) ->
    forall x, Rabs (x - x0) < e -> forall i, (i < ODE_LEN)%nat -> z x i = y x i.
Proof.
  intros h x0 p0 Hr. destruct (regular_near h x0 p0 Hr) as (r & Pr & R).
  destruct (local_solution ODE_LEN x0 p0 (fun t p i => q_d h (t * ha_θ_scale h) p i) (proj1 (hydro_lip h x0 p0 Hr)) r Pr) as (e & y & Pe & Y0 & Y1).
  assert (Y : forall x, Rabs (x - x0) < e -> hydro_solves_at h y x /\ hydro_regular h x (y x)).
  { intros x Hx. destruct (Y1 x Hx) as (Nx & Dx). pose proof (R x (y x) Nx) as G. split; [|exact G].
    destruct (regular_answers h x (y x) G) as (d & θ & E). exists d, θ. split; [exact E|]. intros i Hl.
    rewrite (hydro_pieces _ _ _ _ _ E i Hl). exact (Dx i Hl). }
  exists e, y. split; [exact Pe|]. split; [exact Y0|]. split; [exact Y|]. intros z Z0 Z x Hx i Hl.
  assert (In : forall t, Rmin x0 x <= t <= Rmax x0 x -> Rabs (t - x0) < e).
  { intros t Ht. unfold Rmin, Rmax in Ht. destruct (Rle_dec x0 x); unfold Rabs in *; repeat destruct Rcase_abs; lra. }
  assert (Ends : Rmin x0 x <= x0 <= Rmax x0 x /\ Rmin x0 x <= x <= Rmax x0 x) by (unfold Rmin, Rmax; destruct (Rle_dec x0 x); lra).
  refine (C136_determined h z y (Rmin x0 x) (Rmax x0 x) _ _ _ x0 (proj1 Ends) _ x (proj2 Ends) i Hl).
  - lra.
  - intros t Ht. exact (Z t (In t Ht)).
  - intros t Ht. exact (Y t (In t Ht)).
  - intros j Hj. rewrite (Z0 j Hj), (Y0 j Hj). reflexivity.
Qed.
Print Assumptions C136_through.

(** A solution whose quantities tend to a state that is not singular goes on beyond it: the only way for a solution to end is at a
    singular state, or without a limit. *)
Theorem C136_continues : forall h a b y p, a < b -> (forall x, a <= x < b -> hydro_solves_at h y x /\ hydro_regular h x (y x)) ->
  (forall i, (i < ODE_LEN)%nat -> forall e, 0 < e -> exists d, 0 < d /\ forall x, b - d < x < b -> Rabs (y x i - p i) < e) ->
  hydro_regular h b p ->
  exists e z, 0 < e /\ (forall x, x < b -> z x = y x) /\ (forall i, (i < ODE_LEN)%nat -> z b i = p i) /\
  forall x, a <= x < b + e -> hydro_solves_at h z x /\ hydro_regular h x (z x).
Proof.
  intros h a b y p Hab Hy Hl Hr. destruct (regular_near h b p Hr) as (r & Pr & Rg).
  destruct (local_continuation ODE_LEN b p (fun t p i => q_d h (t * ha_θ_scale h) p i) (proj1 (hydro_lip h b p Hr)) y (b - a)) with (e := r)
    as (e & z & Pe & Z1 & Z2 & Z3).
  - lra.
  - intros t i Ht Hi. destruct (Hy t ltac:(lra)) as ((d & θ & E & D) & _). rewrite <- (hydro_pieces _ _ _ _ _ E i Hi). exact (D i Hi).
  - intros ε Pε. assert (V : forall k, (k <= ODE_LEN)%nat -> exists d, 0 < d /\ forall t, b - d < t < b -> forall j, (j < k)%nat -> Rabs (y t j - p j) <= ε).
    { induction k as [|k IH]; intros Hk; [exists 1; split; [lra|intros; lia]|]. destruct IH as (d & Pd & Hd); [lia|].
      destruct (Hl k Hk ε Pε) as (d' & Pd' & Hd'). exists (Rmin d d'). split; [apply Rmin_pos; assumption|].
      intros t Ht j Hj. pose proof (Rmin_l d d'). pose proof (Rmin_r d d').
      destruct (Nat.eq_dec j k) as [-> |Ne]; [apply Rlt_le, Hd'; lra|apply Hd; [lra|lia]]. }
    destruct (V ODE_LEN (le_n _)) as (d & Pd & Hd). exists (Rmin d ε). split; [apply Rmin_pos; assumption|]. intros t Ht.
    pose proof (Rmin_l d ε). pose proof (Rmin_r d ε). split; [apply Rabs_le; lra|apply Hd; lra].
  - exact Pr.
  - assert (Z1' : forall x, x < b -> z x = y x) by (intros x Hx; apply functional_extensionality; intros i; apply Z1, Hx).
    exists e, z. split; [exact Pe|]. split; [exact Z1'|]. split; [exact Z2|]. intros x Hx. destruct (Rlt_dec x b) as [L|L].
    + rewrite (Z1' x L). destruct (Hy x ltac:(lra)) as ((d & θ & E & D) & G). split; [|exact G]. exists d, θ.
      split; [rewrite (Z1' x L); exact E|]. intros i Hi. apply (dpl_ext_loc (fun t => y t i) _ x _ (b - x)); [lra| |exact (D i Hi)].
      intros t Ht. apply Rabs_def2 in Ht. rewrite (Z1' t) by lra. reflexivity.
    + destruct (Z3 x ltac:(lra)) as (Nx & Dx). pose proof (Rg x (z x) Nx) as G. split; [|exact G].
      destruct (regular_answers h x (z x) G) as (d & θ & E). exists d, θ. split; [exact E|]. intros i Hi.
      rewrite (hydro_pieces _ _ _ _ _ E i Hi). exact (Dx i Hi).
Qed.
Print Assumptions C136_continues.

(** Not empty: a toroidal field in a disc it does not press on, resisting by Ohm's law alone. *)
Definition h_tor : hydro_args := mk_hydro_args 0 10 (fun _ => 1) 1 false false false.
Definition y_tor (t : R) : vec := state 0 (exp (- t / 4)) 0 (-1) 1 0 (cos t) (- / 4 * exp (- t / 4)) 1 0 0.

Lemma y_tor_numbers : forall t, 0 < cos t -> discriminant h_tor t (y_tor t) = 28 /\ determinant h_tor t (y_tor t) = cos t /\
  coefficient h_tor t (y_tor t) = 1.
Proof.
  intros t Hc.
  unfold discriminant, determinant, coefficient, the_Z_5, the_Z_4, the_Z_3, the_C, the_c, the_b, the_X.
  generalize (unit (y_tor t) iB_r) (unit (y_tor t) iB_φ) (unit (y_tor t) iB_θ). intros ur uf ut.
  unfold y_tor, state, iB_r, iB_φ, iB_θ, iv_r, iv_φ, iρ, iη_O, iη_A, iη_H, iB_φ_prime.
  unfold Z_6_func, Z_5_func, Z_4_func, Z_3_func, C_func, c_func, b_func, X_func. cbn [h_tor ha_a_0 ha_norm_kepler_sq].
  assert (E1 : 1 + 0 * (1 - uf ^ 2) = 1) by ring. rewrite !E1.
  split; [field; lra|]. unfold Rdiv. split; ring.
Qed.

Lemma y_tor_solves : hydro_solves h_tor y_tor 0 1.
Proof.
  intros t Ht. assert (Hc : 0 < cos t) by (apply cos_gt_0; pose proof PI2_1; lra).
  destruct (y_tor_numbers t Hc) as (N1 & N2 & N3).
  assert (He : 0 < exp (- t / 4)) by apply exp_pos.
  assert (RH : exists d θ, hydro_rhs h_tor t (y_tor t) = Hy_ok d θ).
  { unfold hydro_rhs, B_unit_derivs. cbv beta iota zeta. destruct (Rlt_dec (y_tor t iρ) 0) as [L|_].
    - exfalso. unfold y_tor, state, iρ in L. lra.
    - match goal with |- exists _ _, (if Rlt_dec ?q 0 then _ else _) = _ => change q with (discriminant h_tor (t * 1) (y_tor t)) end.
      rewrite Rmult_1_r, N1. destruct (Rlt_dec 28 0) as [L|_]; [lra|]. eexists. eexists. reflexivity. }
  split.
  - destruct RH as (d & θ & E). exists d, θ. split; [exact E|]. intros i Hl. rewrite (hydro_pieces _ _ _ _ _ E i Hl).
    cbn [h_tor ha_θ_scale]. rewrite Rmult_1_r.
    assert (U : forall j, j = iB_r \/ j = iB_θ -> unit (y_tor t) j = 0).
    { intros j [-> | ->]; unfold unit, y_tor at 1, state at 1, iB_r at 1, iB_θ at 1; unfold Rdiv; apply Rmult_0_l. }
    assert (E1 : forall q, 1 + 0 * q = 1) by (intros q; ring).
    assert (Dr : q_dBr t (y_tor t) = 0).
    { unfold q_dBr. rewrite (U iB_r), (U iB_θ) by auto. generalize (unit (y_tor t) iB_φ). intros u.
      unfold y_tor, state, iB_r, iB_φ, iB_θ, iv_r, iv_φ, iρ, iη_O, iη_A, iη_H, iB_φ_prime. replace (1 + 0 * (1 - u) * (1 + u)) with 1 by ring. field. }
    assert (Dt : q_dBt t (y_tor t) = 0) by (unfold q_dBt, y_tor, state, iB_θ, iB_r; ring).
    assert (De : forall j, q_dη h_tor t (y_tor t) j = 0) by reflexivity.
    assert (Dρ : q_dρ h_tor t (y_tor t) = - sin t).
    { unfold q_dρ. rewrite Dr. cbn [h_tor ha_a_0]. unfold y_tor, state, iB_r, iB_φ, iB_θ, iv_φ, iρ. unfold tan. field. lra. }
    assert (DA : q_A h_tor t (y_tor t) = 0).
    { unfold q_A. rewrite !De. unfold A_func. generalize (unit (y_tor t) iB_φ) (unit (y_tor t) iB_r) (unit (y_tor t) iB_θ) (q_dbt t (y_tor t)) (q_dbr t (y_tor t)) (q_dbf t (y_tor t)).
      intros. unfold y_tor, state, iη_O, iη_A, iη_H. rewrite !E1. unfold Rdiv. ring. }
    assert (DX : q_Xd h_tor t (y_tor t) = 0).
    { unfold q_Xd. rewrite !De. unfold X_dash_func. generalize (unit (y_tor t) iB_φ) (unit (y_tor t) iB_r) (unit (y_tor t) iB_θ) (q_dbt t (y_tor t)) (q_dbr t (y_tor t)) (q_dbf t (y_tor t)).
      intros. unfold y_tor, state, iη_O, iη_A, iη_H. rewrite !E1. unfold Rdiv. ring. }
    assert (D1 : q_Z1 h_tor t (y_tor t) = 0).
    { unfold q_Z1, Z_1_func. cbn [h_tor ha_a_0]. unfold Rdiv. ring. }
    assert (D2 : q_Z2 h_tor t (y_tor t) = 0).
    { unfold q_Z2. rewrite DX, !De. unfold Z_2_func. cbn [h_tor ha_a_0]. unfold Rdiv. ring. }
    assert (D7 : q_Z7 h_tor t (y_tor t) = 0).
    { unfold q_Z7. rewrite D1, D2. unfold Z_7_func. unfold Rdiv. ring. }
    assert (DC : the_C (y_tor t) = 0).
    { unfold the_C, C_func, Rdiv.
      change (y_tor t iη_H) with 0. change (y_tor t iη_A) with 0. ring. }
    assert (Dd : q_dd h_tor t (y_tor t) = / 16 * exp (- t / 4)).
    { unfold q_dd. rewrite N3, D7, DA, DC, !De, Dr, Dt, (U iB_r), (U iB_θ) by auto. unfold dderiv_B_φ_func.
      generalize (unit (y_tor t) iB_φ) (q_dbr t (y_tor t)) (q_dbt t (y_tor t)) (q_dbf t (y_tor t)). intros.
      unfold y_tor, state, iB_r, iB_φ, iB_θ, iv_r, iv_φ, iρ, iη_O, iη_A, iη_H, iB_φ_prime. field. }
    assert (Dvr : q_dvr h_tor t (y_tor t) = 0).
    { unfold q_dvr. rewrite D1, D2. unfold deriv_v_r_func. cbn [h_tor ha_a_0]. unfold Rdiv. ring. }
    assert (Dvf : q_dvf h_tor t (y_tor t) = 0) by (unfold q_dvf, deriv_v_φ_func; rewrite D2, Dvr; ring).
    assert (Dexp : derivable_pt_lim (fun x => exp (- x / 4)) t (- / 4 * exp (- t / 4))).
    { eapply dpl_eq; [apply (derivable_pt_lim_comp (fun x => - x / 4) exp t (- / 4) (exp (- t / 4)))|ring].
      - eapply dpl_eq; [apply (derivable_pt_lim_mult (fun x => - x) (fun _ => / 4) t (- 1) 0)|cbv beta; ring].
        + exact (derivable_pt_lim_opp (fun x => x) t 1 (derivable_pt_lim_id t)).
        + apply derivable_pt_lim_const.
      - apply derivable_pt_lim_exp. }
    unfold ODE_LEN in Hl. unfold q_d. cbn [h_tor ha_no_v_deriv].
    destruct i as [|[|[|[|[|[|[|[|[|[|[|i]]]]]]]]]]]; cbv iota; rewrite ?Dr, ?Dt, ?De, ?Dρ, ?Dd, ?Dvr, ?Dvf; try lia.
    + exact (derivable_pt_lim_const 0 t).
    + exact Dexp.
    + exact (derivable_pt_lim_const 0 t).
    + exact (derivable_pt_lim_const (-1) t).
    + exact (derivable_pt_lim_const 1 t).
    + exact (derivable_pt_lim_const 0 t).
    + exact (derivable_pt_lim_cos t).
    + eapply dpl_eq; [exact (derivable_pt_lim_scal _ (- / 4) t _ Dexp)|field].
    + exact (derivable_pt_lim_const 1 t).
    + exact (derivable_pt_lim_const 0 t).
    + exact (derivable_pt_lim_const 0 t).
  - unfold hydro_regular, B_nonzero. cbn [h_tor ha_θ_scale]. rewrite Rmult_1_r. fold h_tor. rewrite N1, N2, N3.
    generalize (unit (y_tor t) iB_φ). intros u. unfold y_tor, state, iB_r, iB_φ, iB_θ, iv_r, iv_φ, iρ, iη_O, iη_A, iη_H.
    assert (0 < exp (- t / 4) ^ 2) by (apply sq_pos; lra). repeat split; lra.
Qed.
Example C136_nonvacuous : hydro_solves h_tor y_tor 0 1 /\
  forall z, hydro_solves h_tor z 0 1 -> (forall i, (i < ODE_LEN)%nat -> z 0 i = y_tor 0 i) -> z 1 iB_φ = exp (- (1) / 4).
Proof.
  split; [exact y_tor_solves|]. intros z Hz E.
  exact (C136_determined h_tor z y_tor 0 1 ltac:(lra) Hz y_tor_solves 0 ltac:(lra) E 1 ltac:(lra) iB_φ ltac:(unfold iB_φ, ODE_LEN; lia)).
Qed.
(** A regular state in which the field does press on the gas: a vertical field, gas that orbits and drifts inwards. *)
Example C136_through_nonvacuous : hydro_regular (mk_hydro_args 1 10 (fun _ => 1) 1 true false false) 0 (state 0 0 1 (-1) 3 0 1 0 1 0 0).
Proof.
  set (h := mk_hydro_args 1 10 (fun _ => 1) 1 true false false). set (p := state 0 0 1 (-1) 3 0 1 0 1 0 0).
  assert (U : forall j, j = iB_r \/ j = iB_φ -> unit p j = 0) by (intros j [-> | ->]; unfold unit, Rdiv; apply Rmult_0_l).
  assert (EX : the_X p = 0) by (unfold the_X, X_func; rewrite (U iB_φ) by auto; unfold p, state, iη_O, iη_A, iη_H; field).
  assert (Eb : the_b p = 0) by (unfold the_b, b_func; rewrite EX; field).
  assert (Ec : the_c h 0 p = -6).
  { unfold the_c, c_func. rewrite EX, (U iB_r), (U iB_φ) by auto. rewrite tan_0. generalize (unit p iB_θ). intros u.
    unfold p, state, h, ha_norm_kepler_sq, ha_a_0, iB_r, iB_φ, iB_θ, iv_r, iρ, iη_O, iη_A, iη_H. field. }
  assert (Ed : discriminant h 0 p = 24) by (unfold discriminant; rewrite Eb, Ec; ring).
  assert (E4 : the_Z_4 0 p = 0) by (unfold the_Z_4, Z_4_func, p, state, iB_r, iB_φ, iB_θ, iB_φ_prime; field).
  assert (S : 0 < sqrt 24) by (apply sqrt_lt_R0; lra).
  assert (E3 : the_Z_3 h 0 p = 3 / sqrt 24).
  { unfold the_Z_3, Z_3_func. rewrite EX, Eb, Ec, (U iB_φ) by auto. replace (0 ^ 2 - 4 * -6) with 24 by ring.
    unfold p, state, h, ha_a_0, iB_θ, iv_r, iρ, iη_O, iη_A. field. lra. }
  assert (EC : the_C p = 0) by (unfold the_C, C_func; rewrite (U iB_φ) by auto; unfold p, state, iη_O, iη_A, iη_H; field).
  assert (E5 : the_Z_5 p = 1) by (unfold the_Z_5, Z_5_func; rewrite EC; unfold p, state, iη_O, iη_A, iη_H; ring).
  assert (Et : determinant h 0 p = 9) by (unfold determinant; rewrite E4; unfold p, state, iv_φ, iρ; ring).
  assert (Ek : coefficient h 0 p = 1 + 2 / sqrt 24).
  { unfold coefficient, Z_6_func. rewrite E4, E3, EC, E5. unfold p, state, h, ha_a_0, iB_θ, iv_φ, iρ. field. lra. }
  unfold hydro_regular. replace (0 * ha_θ_scale h) with 0 by ring. rewrite Ed, Et, Ek, cos_0, (U iB_φ) by auto.
  assert (0 < 2 / sqrt 24) by (apply Rdiv_lt_0_compat; lra).
  unfold B_nonzero, p, state, iB_r, iB_φ, iB_θ, iv_φ, iρ, iη_O, iη_A. repeat split; lra.
Qed.
Example C136_continues_nonvacuous : exists e z, 0 < e /\ (forall x, x < 1 -> z x = y_tor x) /\ forall x, 0 <= x < 1 + e -> hydro_solves_at h_tor z x.
Proof.
  destruct (C136_continues h_tor 0 1 y_tor (y_tor 1) ltac:(lra)) as (e & z & Pe & Z1 & _ & Z3).
  - intros x Hx. apply y_tor_solves. lra.
  - intros i Hi ε Pε. destruct (y_tor_solves 1 ltac:(lra)) as ((d & θ & _ & D) & _).
    assert (C : continuity_pt (fun t => y_tor t i) 1) by (apply derivable_continuous_pt; exists (d i); exact (D i Hi)).
    destruct (C ε Pε) as (δ & Pδ & H). exists δ. split; [exact Pδ|]. intros x Hx. apply (H x). split; [split; [exact I|lra]|]. cbn. unfold R_dist. apply Rabs_def1; lra.
  - apply y_tor_solves. lra.
  - exists e, z. split; [exact Pe|]. split; [exact Z1|]. intros x Hx. apply Z3, Hx.
Qed.
