(** C127: the accuracy of the Taylor start. *)
From Coq Require Import Reals Lra Lia List.
From Verif Require Import Model_Index Model_Deriv Model_Midplane Model_Ode Lib_Deriv Spec_MHD Spec_Ode Spec_Midplane Spec_Start
  Proofs_Midplane Witness_Midplane Props_Midplane.
Import ListNotations.
Open Scope R_scope.

Lemma div_1 : forall x, x / 1 = x.
Proof. intros. field. Qed.
Lemma square_law_of : forall h h' ε c, 0 < ε -> h 0 = 0 -> h' 0 = 0 -> (forall θ, Rabs θ < ε -> derivable_pt_lim h θ (h' θ)) ->
  derivable_pt_lim h' 0 (2 * c) -> square_law h c.
Proof.
  intros h h' ε c Pε H0 H1 D D2 η Pη. destruct (D2 η Pη) as (δ & Hδ).
  exists (Rmin ε δ). split; [apply Rmin_pos; [exact Pε|apply cond_pos]|]. intros θ Hθ.
  assert (Hε : Rabs θ < ε) by (eapply Rlt_le_trans; [exact Hθ|apply Rmin_l]).
  assert (Hd : Rabs θ < δ) by (eapply Rlt_le_trans; [exact Hθ|apply Rmin_r]).
  assert (S : forall ξ, Rabs ξ <= Rabs θ -> Rabs (h' ξ - 2 * c * ξ) <= η * Rabs θ).
  { intros ξ Hξ. destruct (Req_dec ξ 0) as [-> |N].
    - rewrite H1, Rmult_0_r, Rminus_0_r, Rabs_R0. apply Rmult_le_pos; [lra|apply Rabs_pos].
    - specialize (Hδ ξ N ltac:(lra)). rewrite Rplus_0_l, H1, Rminus_0_r in Hδ.
      replace (h' ξ - 2 * c * ξ) with ((h' ξ / ξ - 2 * c) * ξ) by (field; exact N). rewrite Rabs_mult.
      apply Rmult_le_compat; try apply Rabs_pos; lra. }
  set (g := fun t => h t - c * t ^ 2).
  assert (Dg : forall t, Rabs t < ε -> derivable_pt_lim g t (h' t - 2 * c * t)).
  { intros t Ht. unfold g. pose proof (D t Ht) as Dh. eapply dpl_eq; [dlim|]. cbn [INR pred]. ring. }
  assert (G0 : g 0 = 0) by (unfold g; rewrite H0; ring).
  assert (M : Rabs (g θ) <= η * Rabs θ * Rabs θ).
  { destruct (Rtotal_order θ 0) as [L|[-> |L]].
    - rewrite Rabs_left in Hε by exact L.
      destruct (MVT_cor2 g (fun t => h' t - 2 * c * t) θ 0 L) as (ξ & E & Hξ); [intros t Ht; apply Dg; apply Rabs_def1; lra|].
      rewrite G0 in E. replace (g θ) with ((h' ξ - 2 * c * ξ) * θ) by lra. rewrite Rabs_mult.
      apply Rmult_le_compat_r; [apply Rabs_pos|]. apply S. rewrite (Rabs_left ξ), (Rabs_left θ); lra.
    - rewrite G0, Rabs_R0. lra.
    - rewrite Rabs_right in Hε by lra.
      destruct (MVT_cor2 g (fun t => h' t - 2 * c * t) 0 θ L) as (ξ & E & Hξ); [intros t Ht; apply Dg; apply Rabs_def1; lra|].
      rewrite G0 in E. replace (g θ) with ((h' ξ - 2 * c * ξ) * θ) by lra. rewrite Rabs_mult.
      apply Rmult_le_compat_r; [apply Rabs_pos|]. apply S. rewrite (Rabs_right ξ), (Rabs_right θ); lra. }
  unfold g in M. replace (η * θ ^ 2) with (η * Rabs θ * Rabs θ); [exact M|].
  rewrite Rmult_assoc, <- Rabs_mult, Rabs_right by (apply Rle_ge; replace (θ * θ) with (θ ^ 2) by ring; apply pow2_ge_0). ring.
Qed.

(** The error of the Taylor start against a curve that starts regularly: no error of first order, and one of second order if and
    only if the second-order coefficient is not the second derivative. *)
Theorem C127_error_exact : forall c y y' y'' ε, twice_differentiable y y' y'' ε -> starts_regularly c y y' ->
  forall angles ηd uE i, (i < ODE_LEN)%nat ->
  square_law (fun θ => ts_new_initial_conditions (taylor_jump angles (c_init_con c) (c_γ c) (c_a_0 c) θ ηd 1 uE) i - y θ i)
    ((get_taylor_second_order (c_init_con c) (c_γ c) (c_a_0 c) ηd uE i - y'' i) / 2).
Proof.
  intros c y y' y'' ε (Pε & Hy & Hy') (S0 & S1) angles ηd uE i Hl.
  destruct (C17_taylor_polynomial angles (c_init_con c) (c_γ c) (c_a_0 c) ηd 1 uE i) as (f & f1 & f2 & f3 & (D0 & D1 & _) & F0 & F1 & F2 & F3 & E).
  apply (square_law_of _ (fun θ => f1 θ - y' θ i) ε _ Pε).
  - rewrite E, div_1, F0, (S0 i Hl). ring.
  - rewrite F1, (S1 i Hl). ring.
  - intros θ Hθ. apply (dpl_ext (fun t => f t - y t i)).
    + intros t. rewrite E, div_1. reflexivity.
    + apply (derivable_pt_lim_minus f (fun t => y t i)); [apply D0|apply Hy; assumption].
  - eapply dpl_eq; [apply (derivable_pt_lim_minus f1 (fun t => y' t i)); [apply D1|apply Hy', Hl]|]. rewrite F2. field.
Qed.
Print Assumptions C127_error_exact.

(** A deviation with a nonzero second-order part is not of third order; one of third order has none. *)
Lemma square_law_third : forall h c, square_law h c -> third_order_small h -> c = 0.
Proof.
  intros h c S (K & δ & Pδ & T). destruct (Req_dec c 0) as [E|N]; [exact E|exfalso].
  assert (Pc : 0 < Rabs c) by (apply Rabs_pos_lt, N).
  destruct (S (Rabs c / 2) ltac:(lra)) as (δ' & Pδ' & H).
  pose (K' := Rabs K + 1). assert (PK : 0 < K') by (unfold K'; pose proof (Rabs_pos K); lra).
  pose (θ := Rmin (Rmin (δ / 2) (δ' / 2)) (Rabs c / (4 * K'))).
  assert (P : 0 < θ) by (unfold θ; repeat apply Rmin_pos; try lra; apply Rdiv_lt_0_compat; lra).
  assert (L1 : θ <= δ / 2) by (unfold θ; eapply Rle_trans; [apply Rmin_l|apply Rmin_l]).
  assert (L2 : θ <= δ' / 2) by (unfold θ; eapply Rle_trans; [apply Rmin_l|apply Rmin_r]).
  assert (L3 : θ <= Rabs c / (4 * K')) by (unfold θ; apply Rmin_r).
  assert (L4 : K' * θ <= Rabs c / 4).
  { apply Rmult_le_compat_l with (r := K') in L3; [|lra]. replace (K' * (Rabs c / (4 * K'))) with (Rabs c / 4) in L3; [exact L3|field; lra]. }
  specialize (T θ ltac:(lra)). specialize (H θ ltac:(rewrite Rabs_right; lra)).
  assert (LK : K <= K') by (unfold K'; pose proof (Rle_abs K); lra).
  assert (P2 : 0 < θ ^ 2) by (apply pow_lt, P).
  assert (A : Rabs c * θ ^ 2 <= Rabs (h θ - c * θ ^ 2) + Rabs (h θ)).
  { replace (Rabs c * θ ^ 2) with (Rabs (c * θ ^ 2)) by (rewrite Rabs_mult; f_equal; apply Rabs_right; lra).
    replace (c * θ ^ 2) with (- (h θ - c * θ ^ 2) + h θ) at 1 by ring.
    eapply Rle_trans; [apply Rabs_triang|]. rewrite Rabs_Ropp. lra. }
  assert (B : K * θ ^ 3 <= Rabs c / 4 * θ ^ 2).
  { replace (K * θ ^ 3) with (K * θ * θ ^ 2) by ring. apply Rmult_le_compat_r; [lra|].
    eapply Rle_trans; [|exact L4]. apply Rmult_le_compat_r; lra. }
  assert (C : 0 < Rabs c * θ ^ 2) by (apply Rmult_lt_0_compat; lra). lra.
Qed.

(** The polar field of the start has no error of second order either, if the curve has no magnetic charges. *)
Theorem C127_B_θ_partial : forall inp c, define_conditions inp = Some c ->
  forall y y' y'' ε, twice_differentiable y y' y'' ε -> starts_regularly c y y' ->
  (forall θ, Rabs θ < ε -> solenoidal (fluid_of (c_γ c) y) 1 θ) ->
  forall angles ηd uE,
  square_law (fun θ => ts_new_initial_conditions (taylor_jump angles (c_init_con c) (c_γ c) (c_a_0 c) θ ηd 1 uE) iB_θ - y θ iB_θ) 0.
Proof.
  intros inp c Hc y y' y'' ε Hy Hs Hd angles ηd uE.
  pose proof (C127_error_exact c y y' y'' ε Hy Hs angles ηd uE iB_θ ltac:(unfold ODE_LEN, iB_θ; lia)) as S.
  rewrite <- (C65_B_θ_second inp c Hc y y' y'' ε Hy Hs Hd) in S.
  replace ((y'' iB_θ - y'' iB_θ) / 2) with 0 in S by field. exact S.
Qed.
Print Assumptions C127_B_θ_partial.

(** Nor has the electric field, when it is integrated. *)
Theorem C127_E_r_partial : forall inp c, define_conditions inp = Some c -> in_η_O inp + in_η_A inp <> 0 ->
  forall y y' y'' ε, twice_differentiable y y' y'' ε -> starts_regularly c y y' ->
  (forall θ, Rabs θ < ε -> faraday_E_r (c_γ c) θ (y θ) (y' θ)) ->
  forall angles ηd,
  square_law (fun θ => ts_new_initial_conditions (taylor_jump angles (c_init_con c) (c_γ c) (c_a_0 c) θ ηd 1 true) iE_r - y θ iE_r) 0.
Proof.
  intros inp c Hc Hη y y' y'' ε Hy Hs Hd angles ηd.
  pose proof (C127_error_exact c y y' y'' ε Hy Hs angles ηd true iE_r ltac:(unfold ODE_LEN, iE_r; lia)) as S.
  rewrite <- (C65_E_r_second inp c Hc Hη y y' y'' ε Hy Hs Hd) in S.
  replace ((y'' iE_r - y'' iE_r) / 2) with 0 in S by field. exact S.
Qed.
Print Assumptions C127_E_r_partial.

(** The density of the start is too small by γ(1-4γ)v_r²/4 times the square of the stop angle, to leading order. *)
Theorem C127_density_exact : forall inp c, define_conditions inp = Some c ->
  forall y y' y'' ε, twice_differentiable y y' y'' ε -> starts_regularly c y y' ->
  (forall θ, Rabs θ < ε -> momentum_θ (c_a_0 c) (fluid_of (c_γ c) y) 1 θ) ->
  forall angles ηd uE,
  square_law (fun θ => ts_new_initial_conditions (taylor_jump angles (c_init_con c) (c_γ c) (c_a_0 c) θ ηd 1 uE) iρ - y θ iρ)
    (- (c_γ c * (1 - 4 * c_γ c) * c_init_con c iv_r ^ 2 / 4)).
Proof.
  intros inp c Hc y y' y'' ε Hy Hs Hm angles ηd uE.
  pose proof (C127_error_exact c y y' y'' ε Hy Hs angles ηd uE iρ ltac:(unfold ODE_LEN, iρ; lia)) as S.
  rewrite (C65_ρ_second_exact inp c Hc y y' y'' ε Hy Hs Hm) in S.
  replace (- (c_γ c * (1 - 4 * c_γ c) * c_init_con c iv_r ^ 2 / 4))
    with ((y'' iρ - c_γ c * (1 - 4 * c_γ c) * c_init_con c iv_r ^ 2 / 2 - y'' iρ) / 2) by field. exact S.
Qed.
Print Assumptions C127_density_exact.

(** So the error of the density can be of third order only if the flow has no radial speed in the midplane or γ is 0 or 1/4. *)
Theorem C127_density_third_order : forall inp c, define_conditions inp = Some c ->
  forall y y' y'' ε, twice_differentiable y y' y'' ε -> starts_regularly c y y' ->
  (forall θ, Rabs θ < ε -> momentum_θ (c_a_0 c) (fluid_of (c_γ c) y) 1 θ) ->
  forall angles ηd uE,
  third_order_small (fun θ => ts_new_initial_conditions (taylor_jump angles (c_init_con c) (c_γ c) (c_a_0 c) θ ηd 1 uE) iρ - y θ iρ) ->
  c_γ c = 0 \/ c_γ c = 1 / 4 \/ c_init_con c iv_r = 0.
Proof.
  intros inp c Hc y y' y'' ε Hy Hs Hm angles ηd uE T.
  pose proof (square_law_third _ _ (C127_density_exact inp c Hc y y' y'' ε Hy Hs Hm angles ηd uE) T) as Z.
  assert (Z' : c_γ c * (1 - 4 * c_γ c) * c_init_con c iv_r ^ 2 = 0) by lra.
  apply Rmult_integral in Z'. destruct Z' as [Z'|Z'].
  - apply Rmult_integral in Z'. destruct Z'; [left; lra|right; left; lra].
  - right; right. destruct (Req_dec (c_init_con c iv_r) 0) as [E|N]; [exact E|]. exfalso. exact (pow_nonzero _ 2 N Z').
Qed.
Print Assumptions C127_density_third_order.

(** Refuted: the error of the start is not of third order for a curve that satisfies polar momentum and div B = 0. *)
Theorem C127_third_order_refuted : exists inp c y y' y'' ε, define_conditions inp = Some c /\
  twice_differentiable y y' y'' ε /\ starts_regularly c y y' /\
  (forall θ, Rabs θ < ε -> momentum_θ (c_a_0 c) (fluid_of (c_γ c) y) 1 θ) /\
  (forall θ, Rabs θ < ε -> solenoidal (fluid_of (c_γ c) y) 1 θ) /\
  forall angles ηd uE,
  ~ third_order_small (fun θ => ts_new_initial_conditions (taylor_jump angles (c_init_con c) (c_γ c) (c_a_0 c) θ ηd 1 uE) iρ - y θ iρ).
Proof.
  destruct inp_g_ok as (c & Hc & Eg & Ea & _ & _ & _ & E3 & _).
  exists inp_g, c, y_g, y'_g, y''_g, 1.
  assert (Hst : starts_regularly c y_g y'_g) by (destruct (y_g_starts c Hc); split; assumption).
  assert (Hmom : forall θ, Rabs θ < 1 -> momentum_θ (c_a_0 c) (fluid_of (c_γ c) y_g) 1 θ)
    by (intros θ Ht; rewrite Eg, Ea; apply y_g_equations, Ht).
  split; [exact Hc|]. split; [exact y_g_twice|]. split; [exact Hst|]. split; [exact Hmom|].
  split; [intros θ Ht; rewrite Eg; apply y_g_equations, Ht|].
  intros angles ηd uE T.
  destruct (C127_density_third_order inp_g c Hc y_g y'_g y''_g 1 y_g_twice Hst Hmom angles ηd uE T) as [Z|[Z|Z]];
    [rewrite Eg in Z|rewrite Eg in Z|rewrite E3 in Z]; lra.
Qed.
Print Assumptions C127_third_order_refuted.

Example C127_nonvacuous : exists c, define_conditions inp_g = Some c /\ in_η_O inp_g + in_η_A inp_g <> 0 /\
  twice_differentiable y_g y'_g y''_g 1 /\ starts_regularly c y_g y'_g /\
  (forall θ, Rabs θ < 1 -> solenoidal (fluid_of (c_γ c) y_g) 1 θ) /\
  (forall θ, Rabs θ < 1 -> momentum_θ (c_a_0 c) (fluid_of (c_γ c) y_g) 1 θ) /\
  (forall θ, Rabs θ < 1 -> faraday_E_r (c_γ c) θ (y_g θ) (y'_g θ)).
Proof. exact C65_nonvacuous. Qed.
