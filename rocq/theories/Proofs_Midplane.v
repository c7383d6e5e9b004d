(** Proofs about the midplane boundary values and the Taylor start. *)
From Coq Require Import Reals List Lra Lia FunctionalExtensionality.
From Verif Require Import Model_Index Model_Deriv Model_Midplane Model_Ode Lib_Deriv
  Spec_MHD Spec_Ode Spec_Midplane Proofs_Ode Proofs_MHD.
Open Scope R_scope.

(** ** The rotation speed *)
Lemma balance_quadratic : forall v_r a_0 K γ η_P η_H w, a_0 <> 0 -> η_P <> 0 ->
  midplane_balance v_r a_0 K γ η_P η_H w <->
  (w - v_r * η_H / (4 * η_P)) ^ 2 = v_φ_radicand v_r η_H η_P K a_0 γ.
Proof.
  intros v_r a_0 K γ η_P η_H w Ha HP. unfold midplane_balance, v_φ_radicand. cbv zeta.
  assert (E : v_r ^ 2 / 2 + 5 / 2 - 2 * γ + w ^ 2 - K + a_0 *
     (γ - 1 / 4 - (η_H * (w * v_r / (2 * a_0)) + v_r) / η_P + (1 / 4 - γ)) =
     (w - v_r * η_H / (4 * η_P)) ^ 2 - (K - 5 / 2 + 2 * γ + v_r * (a_0 / η_P + v_r / 2 *
       (η_H ^ 2 / (8 * η_P ^ 2) - 1)))) by (field; split; assumption).
  rewrite E. split; intros H; lra.
Qed.

Lemma v_φ_boundary_some : forall v_r a_0 K γ η_P η_H v, a_0 <> 0 -> η_P <> 0 ->
  v_φ_boundary_func v_r η_H η_P K a_0 γ = Some v ->
  midplane_balance v_r a_0 K γ η_P η_H v /\
  (forall w, midplane_balance v_r a_0 K γ η_P η_H w -> w <= v).
Proof.
  intros v_r a_0 K γ η_P η_H v Ha HP. unfold v_φ_boundary_func. destruct (Rlt_dec _ _) as [H | H]; [discriminate|].
  intros E. inversion E as [E']. clear E E'. apply Rnot_lt_le in H.
  set (R := v_φ_radicand v_r η_H η_P K a_0 γ) in *.
  assert (Hs : sqrt R ^ 2 = R) by (apply pow2_sqrt; assumption).
  pose proof (sqrt_pos R) as Hp. split.
  - apply balance_quadratic; [assumption..|]. fold R. rewrite <- Hs at 2. ring.
  - intros w Hw. apply balance_quadratic in Hw; [|assumption..]. fold R in Hw.
    rewrite <- Hs in Hw. destruct (Rle_lt_dec w (v_r * η_H / (4 * η_P) + sqrt R)) as [|Hlt]; [assumption|].
    exfalso. nra.
Qed.
Lemma v_φ_boundary_none : forall v_r a_0 K γ η_P η_H, a_0 <> 0 -> η_P <> 0 ->
  v_φ_boundary_func v_r η_H η_P K a_0 γ = None <-> (forall w, ~ midplane_balance v_r a_0 K γ η_P η_H w).
Proof.
  intros v_r a_0 K γ η_P η_H Ha HP. unfold v_φ_boundary_func. destruct (Rlt_dec _ _) as [H | H]; split.
  - intros _ w Hw. apply balance_quadratic in Hw; [|assumption..]. pose proof (pow2_ge_0 (w - v_r * η_H / (4 * η_P))). lra.
  - reflexivity.
  - discriminate.
  - intros Hn. exfalso. apply (Hn (v_r * η_H / (4 * η_P) + sqrt (v_φ_radicand v_r η_H η_P K a_0 γ))).
    apply balance_quadratic; [assumption..|]. apply Rnot_lt_le in H.
    rewrite <- (pow2_sqrt _ H) at 2. ring.
Qed.

Section Conditions.
Variables (inp : cond_input) (c : conditions).
Hypothesis Hc : define_conditions inp = Some c.
Let v_r := - in_v_rin_on_c_s inp.
Let η_P := in_η_O inp + in_η_A inp.
Let η_H := in_η_H inp.
Hypothesis Ha : in_v_a_on_c_s inp <> 0.
Hypothesis HP : in_η_O inp + in_η_A inp <> 0.

Lemma a_0_nz : in_v_a_on_c_s inp ^ 2 <> 0.
Proof. apply pow_nonzero. exact Ha. Qed.

Lemma cond_fields : exists v_φ,
  v_φ_boundary_func v_r η_H η_P (1 / in_c_s_on_v_k inp ^ 2) (in_v_a_on_c_s inp ^ 2) (in_γ inp) = Some v_φ /\
  c_γ c = in_γ inp /\ c_a_0 c = in_v_a_on_c_s inp ^ 2 /\ c_norm_kepler_sq c = 1 / in_c_s_on_v_k inp ^ 2 /\
  c_init_con c iB_r = 0 /\ c_init_con c iB_φ = 0 /\ c_init_con c iB_θ = 1 /\ c_init_con c iv_r = v_r /\
  c_init_con c iv_φ = v_φ /\ c_init_con c iv_θ = 0 /\ c_init_con c iρ = 1 /\
  c_init_con c iη_O = in_η_O inp /\ c_init_con c iη_A = in_η_A inp /\ c_init_con c iη_H = η_H /\
  c_init_con c iB_φ_prime = (if in_use_E_r inp then
    E_r_boundary_func v_r v_φ η_P η_H (η_P ^ 2 + η_H ^ 2) (in_v_a_on_c_s inp ^ 2)
    else B_φ_prime_boundary_func v_r v_φ (in_v_a_on_c_s inp ^ 2)).
Proof.
  unfold define_conditions in Hc. cbv zeta in Hc. fold v_r η_H η_P in Hc.
  destruct (v_φ_boundary_func _ _ _ _ _ _) as [v|] eqn:E; [|discriminate].
  exists v. split; [reflexivity|]. inversion Hc as [E']. clear Hc E'. simpl.
  destruct (in_use_E_r inp); repeat split; reflexivity.
Qed.
Lemma sqrt_1' : forall p : vec, p iB_r = 0 -> p iB_φ = 0 -> p iB_θ = 1 ->
  sqrt (p iB_r ^ 2 + p iB_φ ^ 2 + p iB_θ ^ 2) = 1.
Proof.
  intros p H1 H2 H3. rewrite H1, H2, H3. replace (0 ^ 2 + 0 ^ 2 + 1 ^ 2) with 1 by ring. apply sqrt_1.
Qed.

(** ** First order: the right-hand side at the midplane *)
Lemma first_order_components : forall b wt ηd, b = in_use_E_r inp ->
  let d := fst (rhs_derivs (system_of c b wt ηd) 0 (c_init_con c)) in
  let f := get_taylor_first_order (c_init_con c) (c_γ c) (c_a_0 c) in
  d iB_r = f iB_r /\ d iB_φ = f iB_φ /\ d iB_θ = 0 /\ d iv_θ = f iv_θ.
Proof.
  intros b wt ηd Hb d f.
  destruct cond_fields as (v & Hv & F1 & F2 & F3 & G0 & G1 & G2 & G3 & G4 & G5 & G6 & G8 & G9 & G10 & G7).
  set (p := c_init_con c) in *. pose proof (sqrt_1' p G0 G1 G2) as Hm.
  pose proof a_0_nz as Ha0.
  assert (Hnz : η_P ^ 2 + η_H ^ 2 <> 0).
  { assert (0 < η_P ^ 2) by (rewrite <- Rsqr_pow2; apply Rlt_0_sqr; exact HP). pose proof (pow2_ge_0 η_H). lra. }
  assert (HP' : η_P <> 0) by exact HP.
  assert (Eφ : d iB_φ = f iB_φ).
  { unfold d. rewrite rhs_B_φ. unfold f, get_taylor_first_order. simpl (upd _ _ _ _).
    change (upd iv_θ (-2 * c_γ c * p iv_r) (upd iB_φ (B_φ_prime_boundary_func (p iv_r) (p iv_φ) (c_a_0 c))
     (upd iB_r (deriv_B_r_midplane_func (c_γ c) (B_φ_prime_boundary_func (p iv_r) (p iv_φ) (c_a_0 c)) (p iη_H)
      (p iη_O + p iη_A) (p iv_r)) zeros)) iB_φ) with (B_φ_prime_boundary_func (p iv_r) (p iv_φ) (c_a_0 c)).
    cbn [system_of oa_use_E_r]. subst b. destruct (in_use_E_r inp) eqn:Eu.
    - change iE_r with iB_φ_prime. rewrite Hm, G0, G1, G2, G3, G4, G5, G8, G9, G10, G7, F2.
      cbn [system_of oa_γ]. unfold deriv_B_φ_func, Z_5_func, C_func, E_r_boundary_func, B_φ_prime_boundary_func.
      rewrite tan_0. fold η_P. unfold η_P. fold η_P.
      assert (Hnz' : (in_η_O inp + in_η_A inp) ^ 2 + η_H ^ 2 <> 0) by exact Hnz. unfold η_P.
      field. repeat split; try assumption.
      intros Hq. apply Hnz'. rewrite <- Hq. ring.
    - rewrite G7, G3, G4, F2. reflexivity. }
  assert (Er : d iB_r = f iB_r).
  { unfold d. rewrite rhs_B_r. fold d. rewrite Eφ, Hm. 
    unfold f, get_taylor_first_order. 
    change (upd iv_θ (-2 * c_γ c * p iv_r) (upd iB_φ (B_φ_prime_boundary_func (p iv_r) (p iv_φ) (c_a_0 c))
     (upd iB_r (deriv_B_r_midplane_func (c_γ c) (B_φ_prime_boundary_func (p iv_r) (p iv_φ) (c_a_0 c)) (p iη_H)
      (p iη_O + p iη_A) (p iv_r)) zeros)) iB_r) with (deriv_B_r_midplane_func (c_γ c) (B_φ_prime_boundary_func (p iv_r) (p iv_φ) (c_a_0 c)) (p iη_H)
      (p iη_O + p iη_A) (p iv_r)).
    change (upd iv_θ (-2 * c_γ c * p iv_r) (upd iB_φ (B_φ_prime_boundary_func (p iv_r) (p iv_φ) (c_a_0 c))
     (upd iB_r (deriv_B_r_midplane_func (c_γ c) (B_φ_prime_boundary_func (p iv_r) (p iv_φ) (c_a_0 c)) (p iη_H)
      (p iη_O + p iη_A) (p iv_r)) zeros)) iB_φ) with (B_φ_prime_boundary_func (p iv_r) (p iv_φ) (c_a_0 c)).
    cbn [system_of oa_γ]. 
    set (D := B_φ_prime_boundary_func (p iv_r) (p iv_φ) (c_a_0 c)). clearbody D.
    rewrite G0, G1, G2, G3, G5, G8, G9, G10. unfold deriv_B_r_func, deriv_B_r_midplane_func.
    rewrite tan_0. field. exact HP. }
  split; [exact Er|]. split; [exact Eφ|]. split.
  - unfold d. rewrite rhs_B_θ. rewrite G0, tan_0. ring.
  - unfold d. rewrite rhs_v_θ by reflexivity. rewrite G0, G1, G2, G3, G5. unfold f, get_taylor_first_order, deriv_v_θ_expr.
    cbn [system_of oa_γ]. 
    change (upd iv_θ (-2 * c_γ c * p iv_r) (upd iB_φ (B_φ_prime_boundary_func (p iv_r) (p iv_φ) (c_a_0 c))
     (upd iB_r (deriv_B_r_midplane_func (c_γ c) (B_φ_prime_boundary_func (p iv_r) (p iv_φ) (c_a_0 c)) (p iη_H)
      (p iη_O + p iη_A) (p iv_r)) zeros)) iv_θ) with (- 2 * c_γ c * p iv_r).
    rewrite G3, G6. field.
Qed.

Lemma first_order_all : forall b ηd, b = in_use_E_r inp -> forall i, (i < ODE_LEN)%nat ->
  fst (rhs_derivs (system_of c b true ηd) 0 (c_init_con c)) i =
  get_taylor_first_order (c_init_con c) (c_γ c) (c_a_0 c) i.
Proof.
  intros b ηd Hb.
  destruct (first_order_components b true ηd Hb) as (Er & Eφ & Eθ & Evθ).
  destruct cond_fields as (v & Hv & F1 & F2 & F3 & G0 & G1 & G2 & G3 & G4 & G5 & G6 & G8 & G9 & G10 & G7).
  set (p := c_init_con c) in *. pose proof (sqrt_1' p G0 G1 G2) as Hm.
  set (o := system_of c b true ηd) in *. set (d := fst (rhs_derivs o 0 p)) in *.
  assert (Dv : d iv_r = 0 /\ d iv_φ = 0 /\ d iρ = 0).
  { unfold d, o, rhs_derivs, system_of. destruct b; repeat split; cbn -[taylor_series]; apply Rmult_0_l. }
  destruct Dv as (Dvr & Dvφ & Dρ).
  assert (Dη : d iη_O = 0 /\ d iη_A = 0 /\ d iη_H = 0).
  { pose proof (rhs_η o 0 p) as (H1 & H2 & H3). fold d in H1, H2, H3. cbn [o system_of oa_η_derivs] in *.
    assert (Hs : deriv_η_skw_func (p iρ) (p iB_r) (p iB_φ) (p iB_θ) (d iρ) (d iB_r) (d iB_φ) (d iB_θ) = 0).
    { rewrite Eθ, Dρ, G0, G1, G2, G6. unfold deriv_η_skw_func. field. }
    rewrite Hs in H1, H2, H3. destruct ηd; rewrite H1, H2, H3; repeat split; ring. }
  destruct Dη as (DO & DA & DH).
  assert (Ds : d iB_φ_prime = 0).
  { destruct b eqn:Eb.
    - change iB_φ_prime with iE_r. unfold d. rewrite rhs_E_r by reflexivity. fold d. rewrite Hm, G0, G1, G2.
      unfold deriv_E_r_func, E_θ_func, J_r_func, J_φ_func, J_θ_func. field.
    - unfold d. rewrite rhs_B_φ_prime by reflexivity. fold d. rewrite DO, DA, DH, Dvr, Dvφ, Eθ, Hm, G0, G1, G2, G5.
      unfold B_unit_derivs. cbv zeta. 
      match goal with |- dderiv_B_φ_soln _ _ _ _ _ _ _ _ _ _ _ _ _ _ _ _ _ _ _ _ _ _ _ ?ur ?up ?ut ?C ?A = 0 =>
        assert (HA : A = 0); [|rewrite HA; clear HA] end.
      { unfold A_func, B_unit_deriv_1. replace (0 ^ 2 + 0 ^ 2 + 1 ^ 2) with 1 by ring. rewrite sqrt_1, G8, G9.
        unfold Rdiv. rewrite Rinv_1. field. replace (in_η_O inp + in_η_A inp * 1) with (in_η_O inp + in_η_A inp) by ring.
        repeat split; try lra; intros Hq; apply HP; lra. }
      unfold dderiv_B_φ_soln. unfold Rdiv at 1. apply Rmult_eq_0_compat_r.
      unfold B_unit_deriv_1. replace (0 ^ 2 + 0 ^ 2 + 1 ^ 2) with 1 by ring. rewrite sqrt_1, tan_0. 
      replace (0 / 1) with 0 by field. unfold sec. field. rewrite cos_0. lra. }
  intros i Hi. unfold get_taylor_first_order in *. cbv zeta in *.
  do 11 (destruct i as [|i]; [first [exact Er | exact Eφ | exact Eθ | exact Evθ | exact Dvr | exact Dvφ | exact Dρ
    | exact Ds | exact DO | exact DA | exact DH]|]).
  unfold ODE_LEN in Hi. lia.
Qed.

(** ** Every equation holds at the midplane *)
Variables (ηd : bool) (y : R -> vec).
Let o := system_of c (in_use_E_r inp) true ηd.
Hypothesis Hy : y 0 = c_init_con c.
Hypothesis Hsol : solves_at o y 0.
Variable r : R.
Hypothesis Hr : 0 < r.
Let Hs : oa_θ_scale o = 1 := eq_refl.
Let C0 : cos 0 <> 0.
Proof. rewrite cos_0. lra. Qed.

Lemma mid_mass : mass_conserved (fluid_of (c_γ c) y) r 0.
Proof.
  destruct (first_order_components _ true ηd eq_refl) as (_ & _ & _ & Ev). fold o in Ev.
  destruct cond_fields as (v & Hv & F1 & F2 & F3 & G0 & G1 & G2 & G3 & G4 & G5 & G6 & G8 & G9 & G10 & G7).
  unfold mass_conserved, divergence_is, fluid_of, self_similar_fluid. simpl.
  pose proof (sol_d o y 0 Hs Hsol iρ ltac:(unfold iρ, ODE_LEN; lia)) as Dρ.
  pose proof (sol_d o y 0 Hs Hsol iv_θ ltac:(unfold iv_θ, ODE_LEN; lia)) as Dv.
  rewrite Hy, Ev in Dv.
  eexists. eexists. split; [|split].
  - unfold pd_r, self_similar. dlim; assumption.
  - unfold pd_θ, self_similar. dlim.
  - rewrite Hy, G3, G5, G6. unfold get_taylor_first_order.
    change (upd iv_θ ?x ?f iv_θ) with x. rewrite G3, sin_0, cos_0. field. lra.
Qed.
Lemma mid_sole : solenoidal (fluid_of (c_γ c) y) r 0.
Proof. apply (sole o y 0 Hs Hsol r Hr C0). Qed.
Lemma mid_E_φ : E_φ_vanishes (fluid_of (c_γ c) y) r 0.
Proof.
  destruct cond_fields as (v & Hv & F1 & F2 & F3 & G0 & G1 & G2 & G3 & G4 & G5 & G6 & G8 & G9 & G10 & G7).
  apply (E_φ_zero o y 0 Hs Hsol r Hr C0); rewrite Hy; unfold B_nonzero, diffusive; rewrite G0, G1, G2.
  - lra.
  - rewrite G8, G9. intros Hq. apply HP. rewrite <- Hq. field.
Qed.
Lemma mid_mom_r : momentum_r (c_norm_kepler_sq c) (c_a_0 c) (fluid_of (c_γ c) y) r 0.
Proof.
  destruct (first_order_components _ true ηd eq_refl) as (Er & Eφ & _ & _). fold o in Er, Eφ.
  destruct cond_fields as (v & Hv & F1 & F2 & F3 & G0 & G1 & G2 & G3 & G4 & G5 & G6 & G8 & G9 & G10 & G7).
  destruct (adv o y 0 Hs Hsol r Hr) as (ar & ap & at_ & Ha' & Ear & Eap & Eat).
  destruct (grad_p o y 0 Hs Hsol r Hr) as (gr & gt & Hg & Egr & Egt).
  destruct (curl_B o y 0 Hs Hsol r Hr C0) as (jr & jp & jt & Hj & Ejr & Ejp & Ejt).
  set (d := fst (rhs_derivs o 0 (y 0))) in *. rewrite <- Hy in Er, Eφ. fold d in Er, Eφ. clearbody d.
  exists ar, ap, at_, gr, gt, jr, jp, jt. repeat (split; [assumption|]).
  subst ar gr jr jp jt. clear Eap Eat Egt. unfold fluid_of, self_similar_fluid, self_similar. simpl.
  rewrite Er, Hy, G0, G1, G2, G3, G4, G5, G6. unfold cross_r, J_φ_func, J_θ_func.
  pose proof (Rpower_B_sq r (c_γ c) Hr) as HB.
  set (PB := Rpower r (c_γ c - 5 / 4)) in *. set (Pρ := Rpower r (2 * c_γ c - 3 / 2)) in *.
  assert (HPρ : Pρ = PB ^ 2 * r) by (rewrite HB; field; lra). 
  change (oa_γ o) with (c_γ c).  fold PB Pρ. rewrite HPρ.
  unfold get_taylor_first_order. change (upd iv_θ ?x (upd iB_φ ?z (upd iB_r ?t ?f)) iB_r) with t.
  pose proof (proj1 (v_φ_boundary_some _ _ _ _ _ _ _ a_0_nz HP Hv)) as HQ. unfold midplane_balance in HQ.
  cbv zeta in HQ. fold η_P in HQ. unfold deriv_B_r_midplane_func, B_φ_prime_boundary_func.
  rewrite G3, G4, G8, G9, G10. rewrite <- F1, <- F2, <- F3 in HQ. fold η_P.
  assert (HPB : PB <> 0) by (apply Rgt_not_eq, Rpower_pos).
  apply Rmult_eq_reg_r with (/ PB ^ 2 * r); [|apply Rmult_integral_contrapositive_currified;
    [apply Rinv_neq_0_compat, pow_nonzero; assumption | lra]].
  assert (Ha0 : c_a_0 c <> 0) by (rewrite F2; apply a_0_nz). assert (HP' : η_P <> 0) by exact HP.
  set (K := c_norm_kepler_sq c) in *. set (a := c_a_0 c) in *. set (g := c_γ c) in *.
  rewrite (Rmult_comm η_H (v * v_r / (2 * a))) in HQ.
  set (X := g - 1 / 4 - (v * v_r / (2 * a) * η_H + v_r) / η_P) in *.
  clearbody X. replace K with (v_r ^ 2 / 2 + 5 / 2 - 2 * g + v ^ 2 + a * (X + (1 / 4 - g))) by lra.
  field. repeat split; try assumption; lra.
Qed.
Lemma mid_mom_φ : momentum_φ (c_a_0 c) (fluid_of (c_γ c) y) r 0.
Proof.
  destruct (first_order_components _ true ηd eq_refl) as (Er & Eφ & _ & _). fold o in Er, Eφ.
  destruct cond_fields as (v & Hv & F1 & F2 & F3 & G0 & G1 & G2 & G3 & G4 & G5 & G6 & G8 & G9 & G10 & G7).
  destruct (adv o y 0 Hs Hsol r Hr) as (ar & ap & at_ & Ha' & Ear & Eap & Eat).
  destruct (curl_B o y 0 Hs Hsol r Hr C0) as (jr & jp & jt & Hj & Ejr & Ejp & Ejt).
  set (d := fst (rhs_derivs o 0 (y 0))) in *. rewrite <- Hy in Er, Eφ. fold d in Er, Eφ. clearbody d.
  exists ar, ap, at_, jr, jp, jt. repeat (split; [assumption|]).
  subst ap jr jp jt. clear Ear Eat. unfold fluid_of, self_similar_fluid, self_similar. simpl.
  rewrite Eφ, Hy, G0, G1, G2, G3, G4, G5, G6. unfold cross_φ, J_r_func, J_θ_func.
  pose proof (Rpower_B_sq r (c_γ c) Hr) as HB.
  set (PB := Rpower r (c_γ c - 5 / 4)) in *. set (Pρ := Rpower r (2 * c_γ c - 3 / 2)) in *.
  assert (HPρ : Pρ = PB ^ 2 * r) by (rewrite HB; field; lra). 
  change (oa_γ o) with (c_γ c).  fold PB Pρ. rewrite HPρ.
  unfold get_taylor_first_order. change (upd iv_θ ?x (upd iB_φ ?z ?f) iB_φ) with z.
  unfold B_φ_prime_boundary_func. rewrite G3, G4.
  assert (Ha0 : c_a_0 c <> 0) by (rewrite F2; apply a_0_nz). rewrite tan_0.
  field. repeat split; try assumption; lra.
Qed.
Lemma mid_mom_θ : momentum_θ (c_a_0 c) (fluid_of (c_γ c) y) r 0.
Proof.
  destruct cond_fields as (v & Hv & F1 & F2 & F3 & G0 & G1 & G2 & G3 & G4 & G5 & G6 & G8 & G9 & G10 & G7).
  destruct (adv o y 0 Hs Hsol r Hr) as (ar & ap & at_ & Ha' & Ear & Eap & Eat).
  destruct (grad_p o y 0 Hs Hsol r Hr) as (gr & gt & Hg & Egr & Egt).
  destruct (curl_B o y 0 Hs Hsol r Hr C0) as (jr & jp & jt & Hj & Ejr & Ejp & Ejt).
  pose proof (first_order_all _ ηd eq_refl iρ ltac:(unfold iρ, ODE_LEN; lia)) as Eρ. fold o in Eρ.
  set (d := fst (rhs_derivs o 0 (y 0))) in *. rewrite <- Hy in Eρ. fold d in Eρ. clearbody d.
  exists ar, ap, at_, gr, gt, jr, jp, jt. repeat (split; [assumption|]).
  subst at_ gt. clear Ear Eap Egr. unfold fluid_of, self_similar_fluid, self_similar. simpl.
  rewrite Eρ, Hy, G0, G1, G2, G3, G4, G5, G6. unfold cross_θ. rewrite tan_0.
  unfold get_taylor_first_order. change (upd iv_θ ?x (upd iB_φ ?z (upd iB_r ?t ?f)) iρ) with 0.
  field. lra.
Qed.
End Conditions.

Lemma cond_iff : forall inp, in_v_a_on_c_s inp <> 0 -> in_η_O inp + in_η_A inp <> 0 ->
  (exists c, define_conditions inp = Some c) <->
  exists w, midplane_balance (- in_v_rin_on_c_s inp) (in_v_a_on_c_s inp ^ 2) (1 / in_c_s_on_v_k inp ^ 2) (in_γ inp)
    (in_η_O inp + in_η_A inp) (in_η_H inp) w.
Proof.
  intros inp Ha HP. assert (Ha0 : in_v_a_on_c_s inp ^ 2 <> 0) by (apply pow_nonzero; exact Ha).
  split; intros [x H].
  - destruct (cond_fields _ _ H) as (v & Hv & _). exists v.
    apply (v_φ_boundary_some _ _ _ _ _ _ _ Ha0 HP Hv).
  - unfold define_conditions. cbv zeta.
    destruct (v_φ_boundary_func _ _ _ _ _ _) as [v|] eqn:E; [eauto|].
    exfalso. apply (proj1 (v_φ_boundary_none _ _ _ _ _ _ Ha0 HP) E x H).
Qed.

(** ** The Taylor jump *)
Lemma taylor_jump_cubic : forall angles init_con γ a_0 ηd θ_scale use_E_r i,
  exists f f1 f2 f3, cubic_with_derivatives f f1 f2 f3 /\
  f 0 = init_con i /\ f1 0 = get_taylor_first_order init_con γ a_0 i /\
  f2 0 = get_taylor_second_order init_con γ a_0 ηd use_E_r i /\
  f3 0 = get_taylor_third_order init_con γ a_0 ηd use_E_r i /\
  forall t, ts_new_initial_conditions (taylor_jump angles init_con γ a_0 t ηd θ_scale use_E_r) i = f (t / θ_scale).
Proof.
  intros. unfold taylor_jump. simpl.
  set (A := init_con i). set (B := get_taylor_first_order init_con γ a_0 i).
  set (C := get_taylor_second_order init_con γ a_0 ηd use_E_r i).
  set (D := get_taylor_third_order init_con γ a_0 ηd use_E_r i). clearbody A B C D.
  exists (fun t => A + t * (B + t / 2 * (C + t / 3 * D))), (fun t => B + t * C + t ^ 2 / 2 * D),
    (fun t => C + t * D), (fun _ => D).
  split; [|repeat split; try ring; field].
  split; [|split; [|split]]; intros t.
  - dlim_to; [lra..|]. unfold Rsqr. field.
  - dlim_to; [lra|]. simpl. unfold Rsqr. field.
  - dlim_to. ring.
  - dlim.
Qed.

Lemma increasing_filter : forall f l, increasing l -> increasing (filter f l).
Proof.
  assert (H : forall f l a, increasing (a :: l) -> match filter f l with nil => True | b :: _ => a < b end).
  { intros f. induction l as [|b l IH]; intros a Ha; [exact I|].
    simpl. destruct (f b); [apply Ha|]. apply IH. destruct Ha as [H1 H2]. split; [|apply H2].
    destruct l; [exact I|]. destruct H2 as [H2 _]. lra. }
  intros f. induction l as [|a l IH]; intros Hl; [exact I|]. simpl. destruct (f a).
  - split; [apply H; exact Hl | apply IH, Hl].
  - apply IH, Hl.
Qed.
Lemma filter_hd_gt : forall a l, match angles_gt a l with nil => True | b :: _ => a < b end.
Proof.
  intros a. induction l as [|b l IH]; [exact I|]. unfold angles_gt. simpl. destruct (Rlt_dec a b); [assumption | exact IH].
Qed.
Lemma angles_gt_In : forall a l x, In x (angles_gt a l) <-> In x l /\ a < x.
Proof.
  intros a l x. unfold angles_gt. rewrite filter_In. destruct (Rlt_dec a x); split; intros [H1 H2]; split; auto; try discriminate; contradiction.
Qed.

Section Jump.
Variables (x : R) (p : vec) (angles : list R) (sic : vec) (γ a_0 K : R) (ηd : bool) (sc : R) (uE : bool)
  (before : R) (after : option R) (angles' : list R) (p' : vec).
Hypothesis Hj : jump_across_sonic x p angles sic γ a_0 K ηd sc uE before after = Some (angles', p').
Let o := mk_ode_args γ a_0 K sic sc false ηd false uE None false.
Let total := before + match after with Some a => a | None => before end.

Lemma jump_facts : exists d e dθ,
  rhs_equation o x p = Rhs_ok d e /\ d iv_θ <> 0 /\ dθ = total / d iv_θ /\
  angles' = (x + dθ) :: angles_gt ((x + dθ) / sc) angles /\ (forall i, p' i = p i + d i * dθ).
Proof.
  unfold jump_across_sonic in Hj. cbv zeta in Hj. fold o in Hj.
  destruct (rhs_equation o x p) as [| |d e] eqn:E; try discriminate.
  destruct (Req_EM_T (d iv_θ) 0) as [|Hn]; [discriminate|].
  exists d, e. eexists. split; [reflexivity|]. split; [exact Hn|]. split; [reflexivity|].
  inversion Hj as [[E1 E2]]. split.
  - unfold total, rad_to_scaled_num. destruct after; reflexivity.
  - intros i. unfold total. destruct after; reflexivity.
Qed.
Lemma jump_velocity : p' iv_θ = p iv_θ + total.
Proof.
  destruct jump_facts as (d & e & dθ & H1 & H2 & H3 & H4 & H5). rewrite H5, H3. field. exact H2.
Qed.
Lemma jump_tangent : exists d e, rhs_equation o x p = Rhs_ok d e /\
  forall a, hd_error angles' = Some a -> forall i, p' i = p i + d i * (a - x).
Proof.
  destruct jump_facts as (d & e & dθ & H1 & H2 & H3 & H4 & H5). exists d, e. split; [exact H1|].
  intros a. rewrite H4. simpl. intros Ha i. inversion Ha. rewrite H5. ring.
Qed.
Lemma jump_angles : sc = 1 -> increasing angles -> increasing angles' /\
  (exists a rest, angles' = a :: rest /\ forall b, In b rest <-> In b angles /\ a < b).
Proof.
  intros Hs Hi. destruct jump_facts as (d & e & dθ & H1 & H2 & H3 & H4 & H5). subst sc.
  replace ((x + dθ) / 1) with (x + dθ) in H4 by field. rewrite H4. split.
  - split; [apply filter_hd_gt | apply increasing_filter, Hi].
  - eexists. eexists. split; [reflexivity|]. intros b. apply angles_gt_In.
Qed.
End Jump.
