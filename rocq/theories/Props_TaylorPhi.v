(** C65, continued: the second-order Taylor coefficients of v_r and v_φ (with the third-order one of B_φ) against azimuthal
    momentum conservation. *)
From Coq Require Import Reals List Lra Lia.
From Verif Require Import Model_Index Model_Deriv Model_Midplane Model_Ode Lib_Deriv Spec_Fields
  Spec_MHD Spec_Ode Spec_Midplane Proofs_Ode Proofs_MHD Proofs_Midplane Proofs_Taylor Witness_Midplane Proofs_TaylorPhi.
Open Scope R_scope.

(** What the code's three coefficients satisfy. *)
Lemma code_φ : forall γ a_0 p ηd uE, a_0 <> 0 ->
  let η_P := p iη_O + p iη_A in
  Y_5_func a_0 (p iv_r) γ (midplane_Z_5_func (η_P ^ 2 + p iη_H ^ 2) η_P) <> 0 ->
  let D := taylor_series γ a_0 p ηd uE in
  let f1 := get_taylor_first_order p γ a_0 in
  p iv_r * (1 - 8 * γ) * D iv_φ + p iv_φ * D iv_r - 2 * a_0 * D iB_φ =
  p iv_φ * p iv_r * (- D iρ - f1 iB_r * (5 / 4 - γ) - 4 * γ).
Proof.
  intros γ a_0 p ηd uE Ha η_P H5 D f1.
  assert (E : exists Y_2 C, 
    D iv_φ = dderiv_v_φ_midplane a_0 (p iv_φ) (D iv_r) C (midplane_Z_5_func (η_P ^ 2 + p iη_H ^ 2) η_P)
      (Y_5_func a_0 (p iv_r) γ (midplane_Z_5_func (η_P ^ 2 + p iη_H ^ 2) η_P))
      (Y_4_func a_0 (p iv_r) (p iv_φ) (f1 iB_r) (f1 iB_φ) γ Y_2 (- D iρ)) /\
    D iB_φ = ddderiv_B_φ_midplane (D iv_r) (D iv_φ) Y_2 C (midplane_Z_5_func (η_P ^ 2 + p iη_H ^ 2) η_P)).
  { do 2 eexists. assert (R : D iρ = - Y_1_func (p iv_r) (p iv_φ) (f1 iB_r) (f1 iB_φ) γ a_0) by (destruct uE; reflexivity).
    rewrite R, Ropp_involutive. split; destruct uE; reflexivity. }
  destruct E as (Y_2 & C & E1 & E2).
  assert (B : 2 * a_0 * f1 iB_φ = p iv_φ * p iv_r)
    by (change (f1 iB_φ) with (p iv_φ * p iv_r / (2 * a_0)); field; exact Ha).
  set (Z := midplane_Z_5_func _ _) in *. clearbody Z D f1.
  rewrite E2. unfold ddderiv_B_φ_midplane.
  assert (E3 : Y_5_func a_0 (p iv_r) γ Z * D iv_φ =
    Y_4_func a_0 (p iv_r) (p iv_φ) (f1 iB_r) (f1 iB_φ) γ Y_2 (- D iρ) - D iv_r * (2 * a_0 * C / Z + p iv_φ)).
  { rewrite E1. unfold dderiv_v_φ_midplane. set (K := 2 * a_0 * C / Z) in *. field. exact H5. }
  unfold Y_5_func, Y_4_func in E3. unfold Rdiv in *. set (iZ := / Z) in *. clearbody iZ.
  transitivity ((p iv_r * (1 - 8 * γ) + 2 * a_0 * iZ) * D iv_φ + D iv_r * (2 * a_0 * C * iZ + p iv_φ) - 2 * a_0 * Y_2); [ring|].
  rewrite E3.
  transitivity (- (2 * a_0 * f1 iB_φ) * (f1 iB_r * (5 * / 4 - γ) - - D iρ) - 4 * γ * p iv_r * p iv_φ); [ring|].
  rewrite B. ring.
Qed.

(** The exact defect: along any curve that starts regularly and satisfies div B = 0 and the azimuthal and polar momentum equations
    near the midplane, this combination of the code's errors in v_φ'', v_r'' and B_φ''' is fixed, whatever the diffusivities and
    the solver's mode.  (The code divides by the expression required to be different from 0.) *)
Theorem C65_v_second_exact : forall inp c, define_conditions inp = Some c -> in_v_a_on_c_s inp <> 0 ->
  let v_r := c_init_con c iv_r in let v_φ := c_init_con c iv_φ in let γ := c_γ c in let a_0 := c_a_0 c in
  let η_P := in_η_O inp + in_η_A inp in
  η_P <> 0 -> v_r * (1 - 8 * γ) + 2 * a_0 * η_P / (η_P ^ 2 + in_η_H inp ^ 2) <> 0 ->
  forall y y' y'' ε, twice_differentiable y y' y'' ε -> starts_regularly c y y' ->
  forall v2 b2 v3 b3,
  (forall θ, Rabs θ < ε -> derivable_pt_lim (fun t => y' t iv_φ) θ (v2 θ)) -> derivable_pt_lim v2 0 v3 ->
  (forall θ, Rabs θ < ε -> derivable_pt_lim (fun t => y' t iB_φ) θ (b2 θ)) -> derivable_pt_lim b2 0 b3 ->
  (forall θ, Rabs θ < ε -> solenoidal (fluid_of γ y) 1 θ) ->
  (forall θ, Rabs θ < ε -> momentum_φ a_0 (fluid_of γ y) 1 θ) ->
  (forall θ, Rabs θ < ε -> momentum_θ a_0 (fluid_of γ y) 1 θ) ->
  forall ηd uE,
  let C2 := get_taylor_second_order (c_init_con c) γ a_0 ηd uE in
  let C3 := get_taylor_third_order (c_init_con c) γ a_0 ηd uE in
  v_r * (1 - 8 * γ) * (C2 iv_φ - y'' iv_φ) + v_φ * (C2 iv_r - y'' iv_r) - 2 * a_0 * (C3 iB_φ - b3) =
  v_φ * v_r * (1 + 4 * γ + γ * (1 - 4 * γ) * v_r ^ 2 / 2).
Proof.
  intros inp c Hc Hva v_r v_φ γ a_0 η_P HP H5 y y' y'' ε Hy Hs v2 b2 v3 b3 Hv2 Hv3 Hb2 Hb3 Hdiv Hφ Hθ ηd uE C2 C3.
  destruct (cond_fields _ _ Hc) as (v & Hv & F1 & F2 & F3 & G0 & G1 & G2 & G3 & G4 & G5 & G6 & G8 & G9 & G10 & G7).
  assert (Ha : a_0 <> 0) by (unfold a_0; rewrite F2; apply pow_nonzero; exact Hva).
  pose proof (φ_second inp c Hc y y' y'' ε Hy Hs v2 b2 v3 b3 Hv2 Hv3 Hb2 Hb3 Hφ) as E.
  pose proof (B_θ_second inp c Hc y y' y'' ε Hy Hs Hdiv ηd uE) as EB.
  pose proof (ρ_second inp c Hc y y' y'' ε Hy Hs Hθ) as Eρ.
  pose proof (code_dderiv_ρ c ηd uE) as Cρ.
  assert (Hn : η_P ^ 2 + in_η_H inp ^ 2 <> 0).
  { apply Rgt_not_eq. pose proof (pow2_ge_0 (in_η_H inp)). assert (0 < η_P ^ 2) by (rewrite <- Rsqr_pow2; apply Rlt_0_sqr; exact HP). lra. }
  assert (K5 : Y_5_func a_0 v_r γ (midplane_Z_5_func ((c_init_con c iη_O + c_init_con c iη_A) ^ 2 + c_init_con c iη_H ^ 2) (c_init_con c iη_O + c_init_con c iη_A)) <> 0).
  { rewrite G8, G9, G10. fold η_P. intros H. apply H5. rewrite <- H. unfold Y_5_func, midplane_Z_5_func. field. split; assumption. }
  pose proof (code_φ γ a_0 (c_init_con c) ηd uE Ha K5) as Ec. cbv zeta in Ec.
  set (D := taylor_series γ a_0 (c_init_con c) ηd uE) in *.
  assert (X1 : C2 iv_φ = D iv_φ) by (unfold C2, D; destruct uE; reflexivity).
  assert (X2 : C2 iv_r = D iv_r) by (unfold C2, D; destruct uE; reflexivity).
  assert (X3 : C3 iB_φ = D iB_φ) by (unfold C3, D; destruct uE; reflexivity).
  assert (X4 : get_taylor_second_order (c_init_con c) (c_γ c) (c_a_0 c) ηd uE iρ = D iρ) by (unfold D; destruct uE; reflexivity).
  rewrite X1, X2, X3. rewrite X4 in Cρ.
  set (f1 := get_taylor_first_order (c_init_con c) (c_γ c) (c_a_0 c)) in *.
  assert (X5 : get_taylor_second_order (c_init_con c) (c_γ c) (c_a_0 c) ηd uE iB_θ = 1 - (γ + 3 / 4) * f1 iB_r) by (destruct uE; reflexivity).
  rewrite X5 in EB.
  assert (X6 : f1 iv_θ = - 2 * γ * v_r) by reflexivity.
  assert (B : 2 * a_0 * f1 iB_φ = v_φ * v_r)
    by (change (f1 iB_φ) with (v_φ * v_r / (2 * a_0)); field; exact Ha).
  change (get_taylor_first_order (c_init_con c) γ a_0) with f1 in Ec.
  rewrite EB, X6 in E. fold γ a_0 v_r v_φ in E, Ec, Cρ, Eρ. clearbody D f1 C2 C3.
  assert (Cρ' : D iρ = y'' iρ - γ * (1 - 4 * γ) * v_r ^ 2 / 2) by (rewrite Eρ; exact Cρ).
  assert (E' : v_r * (1 - 8 * γ) * y'' iv_φ + v_φ * y'' iv_r - 2 * a_0 * b3 =
    v_φ * v_r * (- y'' iρ - 1 - f1 iB_r * (5 / 4 - γ)) - 8 * γ * v_r * v_φ).
  { match type of E with ?l = ?r =>
      match goal with |- ?a = ?b =>
        assert (K : a - b = 2 * (l - r) + (- 1 - f1 iB_r * (5 / 4 - γ)) * (2 * a_0 * f1 iB_φ - v_φ * v_r)) by field;
        rewrite E, B in K; lra end end. }
  transitivity ((v_r * (1 - 8 * γ) * D iv_φ + v_φ * D iv_r - 2 * a_0 * D iB_φ)
    - (v_r * (1 - 8 * γ) * y'' iv_φ + v_φ * y'' iv_r - 2 * a_0 * b3)); [ring|].
  rewrite Ec, E', Cρ'. field.
Qed.
Print Assumptions C65_v_second_exact.

(** So for γ between 0 and 1/4, an accreting and rotating disc never gets all three right. *)
Theorem C65_v_second_wrong : forall inp c, define_conditions inp = Some c -> in_v_a_on_c_s inp <> 0 ->
  let v_r := c_init_con c iv_r in let v_φ := c_init_con c iv_φ in let γ := c_γ c in let a_0 := c_a_0 c in
  let η_P := in_η_O inp + in_η_A inp in
  η_P <> 0 -> v_r * (1 - 8 * γ) + 2 * a_0 * η_P / (η_P ^ 2 + in_η_H inp ^ 2) <> 0 ->
  0 <= γ <= 1 / 4 -> v_r <> 0 -> v_φ <> 0 ->
  forall y y' y'' ε, twice_differentiable y y' y'' ε -> starts_regularly c y y' ->
  forall v2 b2 v3 b3,
  (forall θ, Rabs θ < ε -> derivable_pt_lim (fun t => y' t iv_φ) θ (v2 θ)) -> derivable_pt_lim v2 0 v3 ->
  (forall θ, Rabs θ < ε -> derivable_pt_lim (fun t => y' t iB_φ) θ (b2 θ)) -> derivable_pt_lim b2 0 b3 ->
  (forall θ, Rabs θ < ε -> solenoidal (fluid_of γ y) 1 θ) ->
  (forall θ, Rabs θ < ε -> momentum_φ a_0 (fluid_of γ y) 1 θ) ->
  (forall θ, Rabs θ < ε -> momentum_θ a_0 (fluid_of γ y) 1 θ) ->
  forall ηd uE,
  let C2 := get_taylor_second_order (c_init_con c) γ a_0 ηd uE in
  let C3 := get_taylor_third_order (c_init_con c) γ a_0 ηd uE in
  ~ (C2 iv_φ = y'' iv_φ /\ C2 iv_r = y'' iv_r /\ C3 iB_φ = b3).
Proof.
  intros inp c Hc Hva v_r v_φ γ a_0 η_P HP H5 Hγ Hr Hφ y y' y'' ε Hy Hs v2 b2 v3 b3 Hv2 Hv3 Hb2 Hb3 Hdiv Hmφ Hmθ ηd uE C2 C3 (E1 & E2 & E3).
  pose proof (C65_v_second_exact inp c Hc Hva HP H5 y y' y'' ε Hy Hs v2 b2 v3 b3 Hv2 Hv3 Hb2 Hb3 Hdiv Hmφ Hmθ ηd uE) as E.
  cbv zeta in E. fold γ a_0 v_r v_φ in E. fold C2 C3 in E. rewrite E1, E2, E3 in E.
  assert (P : 0 < 1 + 4 * γ + γ * (1 - 4 * γ) * v_r ^ 2 / 2).
  { pose proof (pow2_ge_0 v_r). assert (0 <= γ * (1 - 4 * γ)) by (apply Rmult_le_pos; lra).
    assert (0 <= γ * (1 - 4 * γ) * v_r ^ 2) by (apply Rmult_le_pos; assumption). lra. }
  assert (N : v_φ * v_r * (1 + 4 * γ + γ * (1 - 4 * γ) * v_r ^ 2 / 2) <> 0).
  { repeat apply Rmult_integral_contrapositive_currified; try assumption. lra. }
  apply N. rewrite <- E. ring.
Qed.
Print Assumptions C65_v_second_wrong.

(** ** A disc and a curve *)
Definition inp_φ (uE : bool) : cond_input := mk_cond_input 2 1 (sqrt (1 / 5)) (1 / 4) 1 0 (-2) uE 0 1 3.
Lemma inp_φ_ok : forall uE, exists c, define_conditions (inp_φ uE) = Some c /\ c_γ c = 1 / 4 /\ c_a_0 c = 1 /\
  c_init_con c iB_r = 0 /\ c_init_con c iB_φ = 0 /\ c_init_con c iB_θ = 1 /\ c_init_con c iv_r = -2 /\
  c_init_con c iv_φ = 1 /\ c_init_con c iv_θ = 0 /\ c_init_con c iρ = 1 /\
  c_init_con c iη_O = 1 /\ c_init_con c iη_A = 0 /\ c_init_con c iη_H = -2.
Proof.
  intros uE. assert (ER : v_φ_radicand (Ropp 2) (-2) (1 + 0) (1 / sqrt (1 / 5) ^ 2) (1 ^ 2) (1 / 4) = 0).
  { unfold v_φ_radicand. rewrite pow2_sqrt by lra. field. }
  unfold define_conditions, v_φ_boundary_func.
  cbn [inp_φ in_v_rin_on_c_s in_v_a_on_c_s in_c_s_on_v_k in_γ in_η_O in_η_A in_η_H in_use_E_r].
  rewrite ER. destruct (Rlt_dec _ _) as [H|H]; [lra|].
  eexists. split; [reflexivity|]. rewrite sqrt_0. destruct uE; repeat split; cbn; lra.
Qed.
(** B = (0, -tan θ, 1/cos θ), v = (2 sin²θ/cos θ - 2/cos³θ, 1, sin θ), ρ = cos²θ; [s] is the midplane value of slot 7. *)
Definition y_φ (s θ : R) : vec := state 0 (- tan θ) (/ cos θ) (2 * (sin θ * tan θ) - 2 * (/ cos θ * (/ cos θ * / cos θ))) 1 (sin θ) (cos θ * cos θ) s 1 0 (-2).
Definition y'_φ (θ : R) : vec := state 0 (- (1 + tan θ ^ 2)) (/ cos θ * tan θ)
  (2 * (cos θ * tan θ + sin θ * (1 + tan θ ^ 2)) - 6 * (/ cos θ * tan θ * (/ cos θ * / cos θ))) 0 (cos θ) (- (2 * (sin θ * cos θ))) 0 0 0 0.
Definition y''_φ : vec := state 0 0 1 (-2) 0 0 (-2) 0 0 0 0.
Lemma dpl_inv_cos' : forall x, cos x <> 0 -> derivable_pt_lim (fun t => / cos t) x (/ cos x * tan x).
Proof.
  intros x H. pose proof (y_g_deriv x 2 H) as D. exact D.
Qed.
Lemma y_φ_deriv : forall s θ i, cos θ <> 0 -> (i < ODE_LEN)%nat -> derivable_pt_lim (fun t => y_φ s t i) θ (y'_φ θ i).
Proof.
  intros s θ i H Hi. unfold ODE_LEN in Hi. pose proof (dpl_inv_cos' θ H) as D.
  do 11 (destruct i as [|i]; [unfold y_φ, y'_φ, state; first [apply dpl_const | dlim_to; try exact H; try ring]|]). lia.
Qed.
Lemma y_φ_twice : forall s, twice_differentiable (y_φ s) y'_φ y''_φ 1.
Proof.
  intros s. split; [lra|]. split.
  - intros θ i Hθ Hi. apply y_φ_deriv; [apply cos_near, Hθ | exact Hi].
  - intros i Hi. unfold ODE_LEN in Hi. assert (H : cos 0 <> 0) by (rewrite cos_0; lra). pose proof (dpl_inv_cos' 0 H) as D.
    do 11 (destruct i as [|i]; [unfold y'_φ, y''_φ, state;
      first [apply dpl_const | dlim_to; try exact H; rewrite ?tan_0, ?cos_0, ?sin_0; try lra; cbn; field]|]). lia.
Qed.
Lemma y_φ_starts : forall uE c, define_conditions (inp_φ uE) = Some c -> starts_regularly c (y_φ (c_init_con c iB_φ_prime)) y'_φ.
Proof.
  intros uE c Hc. destruct (inp_φ_ok uE) as (c' & Hc' & Eg & Ea & E0 & E1 & E2 & E3 & E4 & E5 & E6 & E8 & E9 & E10).
  rewrite Hc in Hc'. inversion Hc'. subst c'. clear Hc'. split; intros i Hi; unfold ODE_LEN in Hi.
  - unfold iB_r, iB_φ, iB_θ, iv_r, iv_φ, iv_θ, iρ, iη_O, iη_A, iη_H in *.
    do 11 (destruct i as [|i]; [unfold y_φ, state; rewrite ?E0, ?E1, ?E2, ?E3, ?E4, ?E5, ?E6, ?E8, ?E9, ?E10, ?tan_0, ?cos_0, ?sin_0; first [reflexivity | field]|]). lia.
  - assert (F0 : get_taylor_first_order (c_init_con c) (c_γ c) (c_a_0 c) iB_r = 0).
    { unfold get_taylor_first_order. change (upd iv_θ ?x (upd iB_φ ?z (upd iB_r ?t ?f)) iB_r) with t.
      rewrite E3, E4, E8, E9, E10, Eg, Ea. unfold deriv_B_r_midplane_func, B_φ_prime_boundary_func. field. }
    assert (F1 : get_taylor_first_order (c_init_con c) (c_γ c) (c_a_0 c) iB_φ = -1).
    { unfold get_taylor_first_order. change (upd iv_θ ?x (upd iB_φ ?z ?f) iB_φ) with z.
      rewrite E3, E4, Ea. unfold B_φ_prime_boundary_func. field. }
    assert (F5 : get_taylor_first_order (c_init_con c) (c_γ c) (c_a_0 c) iv_θ = 1).
    { unfold get_taylor_first_order. change (upd iv_θ ?x ?f iv_θ) with x. rewrite E3, Eg. field. }
    assert (FZ : forall j, j <> iB_r -> j <> iB_φ -> j <> iv_θ -> get_taylor_first_order (c_init_con c) (c_γ c) (c_a_0 c) j = 0).
    { intros j J0 J1 J2. unfold get_taylor_first_order, upd, zeros, iB_r, iB_φ, iv_θ in *.
      destruct (Nat.eqb_spec j 5), (Nat.eqb_spec j 1), (Nat.eqb_spec j 0); try contradiction. reflexivity. }
    unfold iB_r, iB_φ, iv_θ in *.
    do 11 (destruct i as [|i]; [unfold y'_φ, state;
      first [rewrite F0 | rewrite F1 | rewrite F5 | rewrite FZ by lia]; rewrite ?tan_0, ?cos_0, ?sin_0; first [reflexivity | field]|]). lia.
Qed.
Lemma y_φ_equations : forall s θ, Rabs θ < 1 -> solenoidal (fluid_of (1 / 4) (y_φ s)) 1 θ /\
  momentum_φ 1 (fluid_of (1 / 4) (y_φ s)) 1 θ /\ momentum_θ 1 (fluid_of (1 / 4) (y_φ s)) 1 θ.
Proof.
  intros s θ Hθ. pose proof (cos_near θ Hθ) as H.
  assert (P : sin θ * sin θ + cos θ * cos θ = 1) by (pose proof (sin2_cos2 θ) as Q; unfold Rsqr in Q; exact Q).
  assert (P' : sin θ * sin θ = 1 - cos θ * cos θ) by lra.
  split; [|split].
  - apply solenoidal_intro with (d := y'_φ θ); [intros; apply y_φ_deriv; assumption | assumption |].
    unfold y_φ, y'_φ, state, iB_θ, iB_r. ring.
  - apply momentum_φ_intro with (d := y'_φ θ); [intros; apply y_φ_deriv; assumption | assumption |].
    cbv beta iota delta [y_φ y'_φ state iρ iv_θ iv_φ iv_r iB_θ iB_φ iB_r]. unfold tan. field. assumption.
  - apply momentum_θ_intro with (d := y'_φ θ); [intros; apply y_φ_deriv; assumption | assumption |].
    cbv beta iota delta [y_φ y'_φ state iρ iv_θ iv_φ iv_r iB_θ iB_φ iB_r]. unfold tan. 
    transitivity (- (sin θ * cos θ) * (sin θ * sin θ + cos θ * cos θ) - sin θ * cos θ); [rewrite P; ring|].
    unfold tan. field. assumption.
Qed.
Lemma y_φ_more : (forall θ, Rabs θ < 1 -> derivable_pt_lim (fun t => y'_φ t iv_φ) θ 0) /\
  (forall θ, Rabs θ < 1 -> derivable_pt_lim (fun t => y'_φ t iB_φ) θ (- (2 * tan θ * (1 + tan θ ^ 2)))) /\
  derivable_pt_lim (fun t => - (2 * tan t * (1 + tan t ^ 2))) 0 (-2).
Proof.
  split; [|split].
  - intros θ _. exact (dpl_const 0 θ).
  - intros θ H. apply cos_near in H. change (derivable_pt_lim (fun t => - (1 + tan t ^ 2)) θ (- (2 * tan θ * (1 + tan θ ^ 2)))).
    dlim_to; [exact H|]. cbn. ring.
  - assert (H : cos 0 <> 0) by (rewrite cos_0; lra). dlim_to; try exact H. rewrite tan_0. cbn. ring.
Qed.

(** Refuted: for this disc, whichever derivatives of the diffusivities and whichever mode are asked for, v_φ'', v_r'' and B_φ''' of this
    curve are not those of the code. *)
Theorem C65_v_second_refuted : forall ηd uE, exists inp c y y' y'' ε b2 b3, define_conditions inp = Some c /\ in_use_E_r inp = uE /\
  twice_differentiable y y' y'' ε /\ starts_regularly c y y' /\
  (forall θ, Rabs θ < ε -> derivable_pt_lim (fun t => y' t iB_φ) θ (b2 θ)) /\ derivable_pt_lim b2 0 b3 /\
  (forall θ, Rabs θ < ε -> solenoidal (fluid_of (c_γ c) y) 1 θ /\ momentum_φ (c_a_0 c) (fluid_of (c_γ c) y) 1 θ /\
     momentum_θ (c_a_0 c) (fluid_of (c_γ c) y) 1 θ) /\
  ~ (get_taylor_second_order (c_init_con c) (c_γ c) (c_a_0 c) ηd uE iv_φ = y'' iv_φ /\
     get_taylor_second_order (c_init_con c) (c_γ c) (c_a_0 c) ηd uE iv_r = y'' iv_r /\
     get_taylor_third_order (c_init_con c) (c_γ c) (c_a_0 c) ηd uE iB_φ = b3).
Proof.
  intros ηd uE. destruct (inp_φ_ok uE) as (c & Hc & Eg & Ea & E0 & E1 & E2 & E3 & E4 & E5 & E6 & E8 & E9 & E10).
  destruct y_φ_more as (M1 & M2 & M3). pose proof (y_φ_starts uE c Hc) as Hs.
  set (s := c_init_con c iB_φ_prime) in *.
  exists (inp_φ uE), c, (y_φ s), y'_φ, y''_φ, 1, (fun θ => - (2 * tan θ * (1 + tan θ ^ 2))), (-2).
  split; [exact Hc|]. split; [reflexivity|]. split; [apply y_φ_twice|]. split; [exact Hs|]. split; [exact M2|]. split; [exact M3|].
  split; [intros θ H; rewrite Eg, Ea; apply y_φ_equations, H|].
  apply (C65_v_second_wrong (inp_φ uE) c Hc) with (y := y_φ s) (y' := y'_φ) (ε := 1) (v2 := fun _ => 0) (v3 := 0) (b2 := fun θ => - (2 * tan θ * (1 + tan θ ^ 2)));
    try assumption.
  - simpl. lra.
  - simpl. lra.
  - rewrite E3, Eg, Ea. simpl. apply Rgt_not_eq. lra.
  - rewrite Eg. lra.
  - rewrite E3. lra.
  - rewrite E4. lra.
  - apply y_φ_twice.
  - apply dpl_const.
  - intros θ H. rewrite Eg. apply y_φ_equations, H.
  - intros θ H. rewrite Eg, Ea. apply y_φ_equations, H.
  - intros θ H. rewrite Eg, Ea. apply y_φ_equations, H.
Qed.
Print Assumptions C65_v_second_refuted.

(** ** Radial momentum *)
(** The divisors of the code's coefficients. *)
Definition code_Z_5 (p : vec) : R := midplane_Z_5_func ((p iη_O + p iη_A) ^ 2 + p iη_H ^ 2) (p iη_O + p iη_A).
Definition code_Y_5 (γ a_0 : R) (p : vec) : R := Y_5_func a_0 (p iv_r) γ (code_Z_5 p).
Definition code_Y_6 (γ a_0 : R) (p : vec) : R :=
  Y_6_func (p iv_φ) (code_Y_5 γ a_0 p) a_0 (midplane_C_func (p iη_H) (p iη_O + p iη_A)) (code_Z_5 p) γ (p iv_r) (p iη_O + p iη_A) (p iη_H).
Lemma code_r : forall γ a_0 p ηd uE, code_Y_6 γ a_0 p <> 0 ->
  let D := taylor_series γ a_0 p ηd uE in
  let f1 := get_taylor_first_order p γ a_0 in
  (4 * γ + 1) * p iv_r * D iv_r + 2 * p iv_φ * D iv_φ + a_0 * D iB_r =
  - 8 * γ ^ 2 * p iv_r ^ 2 - a_0 * (D iB_θ * f1 iB_r + 2 * (1 / 4 - γ) * (D iB_θ + f1 iB_φ ^ 2)
     - D iρ * (f1 iB_r + (1 / 4 - γ))).
Proof.
  intros γ a_0 p ηd uE H6 D f1.
  assert (E : exists Y_2 Y_3 Y_4,
    D iv_r = dderiv_v_r_midplane a_0 Y_3 Y_2 (- D iρ) (code_Y_6 γ a_0 p) (code_Y_5 γ a_0 p) Y_4 (p iη_H) (p iη_O + p iη_A) (code_Z_5 p)
      (p iv_φ) (p iv_r) γ (D iB_θ) (f1 iB_r) (f1 iB_φ) /\
    D iv_φ = dderiv_v_φ_midplane a_0 (p iv_φ) (D iv_r) (midplane_C_func (p iη_H) (p iη_O + p iη_A)) (code_Z_5 p) (code_Y_5 γ a_0 p) Y_4 /\
    D iB_φ = ddderiv_B_φ_midplane (D iv_r) (D iv_φ) Y_2 (midplane_C_func (p iη_H) (p iη_O + p iη_A)) (code_Z_5 p) /\
    D iB_r = ddderiv_B_r_midplane Y_3 (p iη_H) (p iη_O + p iη_A) (D iv_r) (D iB_φ)).
  { do 3 eexists. assert (R : D iρ = - Y_1_func (p iv_r) (p iv_φ) (f1 iB_r) (f1 iB_φ) γ a_0) by (destruct uE; reflexivity).
    rewrite R, Ropp_involutive. repeat split; destruct uE; reflexivity. }
  destruct E as (Y_2 & Y_3 & Y_4 & E1 & E2 & E3 & E4).
  unfold dderiv_v_r_midplane in E1.
  assert (E5 : D iv_r * code_Y_6 γ a_0 p = (a_0 / 2 * (Y_3 - Y_2 * p iη_H / (p iη_O + p iη_A) + p iη_H * Y_4 / ((p iη_O + p iη_A) * code_Y_5 γ a_0 p * code_Z_5 p))
   + p iv_φ * Y_4 / code_Y_5 γ a_0 p + 4 * γ ^ 2 * p iv_r ^ 2 + a_0 / 2 * (
       D iB_θ * f1 iB_r + 2 * f1 iB_φ ^ 2 * (1 / 4 - γ)
       + 2 * D iB_θ * (1 / 4 - γ) + - D iρ * (f1 iB_r + (1 / 4 - γ))))).
  { rewrite E1 at 1. unfold Rdiv at 1. rewrite Rmult_assoc, Rinv_l, Rmult_1_r by exact H6. reflexivity. }
  clear E1. unfold code_Y_6, Y_6_func, midplane_C_func in E5. rewrite E4, E3, E2.
  unfold ddderiv_B_r_midplane, ddderiv_B_φ_midplane, dderiv_v_φ_midplane, midplane_C_func, Rdiv in *.
  rewrite !Rinv_mult in *.
  set (i5 := / code_Y_5 γ a_0 p) in *. set (iZ := / code_Z_5 p) in *. set (iP := / (p iη_O + p iη_A)) in *.
  set (V := D iv_r) in *. clearbody i5 iZ iP V. clear E2 E3 E4.
  match type of E5 with ?l = ?r => match goal with |- ?a = ?b => assert (K : a - b = - 2 * (l - r)) by field end end.
  rewrite E5 in K. lra.
Qed.
(** Radial momentum is obeyed up to the defect of ρ'': along any curve that starts regularly and satisfies div B = 0 and radial
    momentum near the midplane, the errors of v_r'', v_φ'' and B_r''' add up to that of ρ''. *)
Theorem C65_radial_exact : forall inp c, define_conditions inp = Some c ->
  let v_r := c_init_con c iv_r in let v_φ := c_init_con c iv_φ in let γ := c_γ c in let a_0 := c_a_0 c in
  code_Y_6 γ a_0 (c_init_con c) <> 0 ->
  forall y y' y'' ε, twice_differentiable y y' y'' ε -> starts_regularly c y y' ->
  forall v2 b2 v3 b3,
  (forall θ, Rabs θ < ε -> derivable_pt_lim (fun t => y' t iv_r) θ (v2 θ)) -> derivable_pt_lim v2 0 v3 ->
  (forall θ, Rabs θ < ε -> derivable_pt_lim (fun t => y' t iB_r) θ (b2 θ)) -> derivable_pt_lim b2 0 b3 ->
  (forall θ, Rabs θ < ε -> solenoidal (fluid_of γ y) 1 θ) ->
  (forall θ, Rabs θ < ε -> momentum_r (c_norm_kepler_sq c) a_0 (fluid_of γ y) 1 θ) ->
  forall ηd uE,
  let C2 := get_taylor_second_order (c_init_con c) γ a_0 ηd uE in
  let C3 := get_taylor_third_order (c_init_con c) γ a_0 ηd uE in
  (4 * γ + 1) * v_r * (C2 iv_r - y'' iv_r) + 2 * v_φ * (C2 iv_φ - y'' iv_φ) + a_0 * (C3 iB_r - b3) =
  a_0 * (y' 0 iB_r + (1 / 4 - γ)) * (C2 iρ - y'' iρ).
Proof.
  intros inp c Hc v_r v_φ γ a_0 H6 y y' y'' ε Hy Hs v2 b2 v3 b3 Hv2 Hv3 Hb2 Hb3 Hdiv Hr ηd uE C2 C3.
  pose proof (r_second inp c Hc y y' y'' ε Hy Hs v2 b2 v3 b3 Hv2 Hv3 Hb2 Hb3 Hr) as E.
  pose proof (B_θ_second inp c Hc y y' y'' ε Hy Hs Hdiv ηd uE) as EB.
  pose proof (code_r γ a_0 (c_init_con c) ηd uE H6) as Ec. cbv zeta in Ec.
  set (D := taylor_series γ a_0 (c_init_con c) ηd uE) in *.
  assert (X1 : C2 iv_φ = D iv_φ) by (unfold C2, D; destruct uE; reflexivity).
  assert (X2 : C2 iv_r = D iv_r) by (unfold C2, D; destruct uE; reflexivity).
  assert (X3 : C3 iB_r = D iB_r) by (unfold C3, D; destruct uE; reflexivity).
  assert (X4 : C2 iρ = D iρ) by (unfold C2, D; destruct uE; reflexivity).
  assert (X5 : get_taylor_second_order (c_init_con c) (c_γ c) (c_a_0 c) ηd uE iB_θ = D iB_θ) by (unfold D; destruct uE; reflexivity).
  rewrite X1, X2, X3, X4. rewrite X5 in EB. rewrite EB in E.
  destruct Hs as (_ & Y1). rewrite Y1 by lt11.
  set (f1 := get_taylor_first_order (c_init_con c) (c_γ c) (c_a_0 c)) in *.
  change (get_taylor_first_order (c_init_con c) γ a_0) with f1 in Ec.
  assert (X6 : f1 iv_θ = - 2 * γ * v_r) by reflexivity. rewrite X6 in E.
  fold γ a_0 v_r v_φ in E, Ec. clearbody D f1 C2 C3.
  match type of E with ?l = ?r => match type of Ec with ?l' = ?r' => match goal with |- ?a = ?b =>
    assert (K : a - b = (l - r) + (l' - r')) by field end end end.
  rewrite E, Ec in K. lra.
Qed.
Print Assumptions C65_radial_exact.
(** B = (0, - sin θ, 1/cos θ), v = (-2, cos θ, sin θ), ρ = 1. *)
Definition y_r (s θ : R) : vec := state 0 (- sin θ) (/ cos θ) (-2) (cos θ) (sin θ) 1 s 1 0 (-2).
Definition y'_r (θ : R) : vec := state 0 (- cos θ) (/ cos θ * tan θ) 0 (- sin θ) (cos θ) 0 0 0 0 0.
Definition y''_r : vec := state 0 0 1 0 (-1) 0 0 0 0 0 0.
Lemma y_r_deriv : forall s θ i, cos θ <> 0 -> (i < ODE_LEN)%nat -> derivable_pt_lim (fun t => y_r s t i) θ (y'_r θ i).
Proof.
  intros s θ i H Hi. unfold ODE_LEN in Hi. pose proof (dpl_inv_cos' θ H) as D.
  do 11 (destruct i as [|i]; [unfold y_r, y'_r, state; first [apply dpl_const | dlim_to; try exact H; try ring]|]). lia.
Qed.
Lemma momentum_r_intro : forall K γ a_0 y d θ, (forall i, (i < ODE_LEN)%nat -> derivable_pt_lim (fun t => y t i) θ (d i)) -> cos θ <> 0 ->
  y θ iρ * (y θ iv_θ * d iv_r - y θ iv_r ^ 2 / 2 - y θ iv_θ ^ 2 - y θ iv_φ ^ 2) =
  y θ iρ * (5 / 2 - 2 * γ - K) + a_0 * (y θ iB_θ * d iB_r + (1 / 4 - γ) * (y θ iB_θ ^ 2 + y θ iB_φ ^ 2)) ->
  momentum_r K a_0 (fluid_of γ y) 1 θ.
Proof.
  intros K γ a_0 y d θ Hd Hcos E.
  assert (P1 : forall k, Rpower 1 k = 1) by (intros k; unfold Rpower; rewrite ln_1, Rmult_0_r; apply exp_0).
  pose proof Rlt_0_1 as H1. unfold momentum_r. do 8 eexists. split; [|split; [|split]].
  - unfold advection_is. do 6 eexists. unfold fluid_of, self_similar_fluid. simpl.
    split; [apply (ss_pd_r _ 1 θ (fun t => y t iv_r) H1)|].
    split; [apply (ss_pd_θ _ 1 θ (fun t => y t iv_r) _ (Hd iv_r ltac:(lt11)))|].
    split; [apply (ss_pd_r _ 1 θ (fun t => y t iv_φ) H1)|].
    split; [apply (ss_pd_θ _ 1 θ (fun t => y t iv_φ) _ (Hd iv_φ ltac:(lt11)))|].
    split; [apply (ss_pd_r _ 1 θ (fun t => y t iv_θ) H1)|].
    split; [apply (ss_pd_θ _ 1 θ (fun t => y t iv_θ) _ (Hd iv_θ ltac:(lt11)))|].
    repeat split; reflexivity.
  - unfold gradient_is. pose proof (Hd iρ ltac:(lt11)). exists ((2 * γ - 5 / 2) * y θ iρ). eexists.
    unfold pressure, fluid_of, self_similar_fluid, self_similar. simpl.
    split; [unfold pd_r; dlim_to; try lra; rewrite !P1; unfold Rsqr; field|]. split; [unfold pd_θ; dlim; lra|]. split; reflexivity.
  - unfold curl_is. do 4 eexists. unfold fluid_of, self_similar_fluid. simpl.
    split; [apply (ss_pd_θ_cos _ 1 θ (fun t => y t iB_φ) _ (Hd iB_φ ltac:(lt11)))|].
    split; [apply (ss_pd_θ _ 1 θ (fun t => y t iB_r) _ (Hd iB_r ltac:(lt11)))|].
    split; [apply (ss_pd_r_r _ 1 θ (fun t => y t iB_θ) H1)|].
    split; [apply (ss_pd_r_r _ 1 θ (fun t => y t iB_φ) H1)|].
    repeat split; reflexivity.
  - unfold fluid_of, self_similar_fluid, self_similar, cross_r. simpl. rewrite !P1.
    match type of E with ?l = ?r => match goal with |- ?a = ?b => assert (Q : a - b = l - r) by field end end. lra.
Qed.
Example C65_radial_nonvacuous : exists c s, define_conditions (inp_φ false) = Some c /\ code_Y_6 (c_γ c) (c_a_0 c) (c_init_con c) <> 0 /\
  twice_differentiable (y_r s) y'_r y''_r 1 /\ starts_regularly c (y_r s) y'_r /\
  (forall θ, Rabs θ < 1 -> derivable_pt_lim (fun t => y'_r t iv_r) θ 0) /\
  (forall θ, Rabs θ < 1 -> derivable_pt_lim (fun t => y'_r t iB_r) θ 0) /\
  (forall θ, Rabs θ < 1 -> solenoidal (fluid_of (c_γ c) (y_r s)) 1 θ /\
     momentum_r (c_norm_kepler_sq c) (c_a_0 c) (fluid_of (c_γ c) (y_r s)) 1 θ).
Proof.
  destruct (inp_φ_ok false) as (c & Hc & Eg & Ea & E0 & E1 & E2 & E3 & E4 & E5 & E6 & E8 & E9 & E10).
  exists c, (c_init_con c iB_φ_prime). split; [exact Hc|]. pose proof (y_φ_starts false c Hc) as (S0 & S1). split; [|split; [|split; [|split; [|split]]]].
  - unfold code_Y_6, Y_6_func, code_Y_5, Y_5_func, code_Z_5, midplane_Z_5_func, midplane_C_func. rewrite E3, E4, E8, E9, E10, Eg, Ea.
    match goal with |- ?x <> 0 => assert (Q : x = 13 / 6) by field end. rewrite Q. lra.
  - split; [lra|]. split.
    + intros θ i Hθ Hi. apply y_r_deriv; [apply cos_near, Hθ | exact Hi].
    + intros i Hi. unfold ODE_LEN in Hi. assert (H : cos 0 <> 0) by (rewrite cos_0; lra). pose proof (dpl_inv_cos' 0 H) as D.
      do 11 (destruct i as [|i]; [unfold y'_r, y''_r, state;
        first [apply dpl_const | dlim_to; try exact H; rewrite ?tan_0, ?cos_0, ?sin_0; try lra; cbn; field]|]). lia.
  - split; intros i Hi; [rewrite <- (S0 i Hi) | rewrite <- (S1 i Hi)]; unfold ODE_LEN in Hi;
    do 11 (destruct i as [|i]; [unfold y_r, y_φ, y'_r, y'_φ, state; rewrite ?tan_0, ?cos_0, ?sin_0; field|]); lia.
  - intros θ _. exact (dpl_const 0 θ).
  - intros θ _. exact (dpl_const 0 θ).
  - intros θ Hθ. pose proof (cos_near θ Hθ) as H. rewrite Eg, Ea. split.
    + apply solenoidal_intro with (d := y'_r θ); [intros; apply y_r_deriv; assumption | assumption |]. unfold y_r, y'_r, state, iB_θ, iB_r. ring.
    + apply momentum_r_intro with (d := y'_r θ); [intros; apply y_r_deriv; assumption | assumption |].
      destruct (cond_fields _ _ Hc) as (v & _ & _ & _ & F3 & _). rewrite F3. cbn [inp_φ in_c_s_on_v_k]. rewrite pow2_sqrt by lra.
      cbv beta iota delta [y_r y'_r state iρ iv_θ iv_φ iv_r iB_θ iB_φ iB_r].
      pose proof (sin2_cos2 θ) as Q. unfold Rsqr in Q. lra.
Qed.
