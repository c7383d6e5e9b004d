(** C65, continued: the third-order Taylor coefficient of B_r (with those of B_φ and v_r) against Ohm's law. *)
From Coq Require Import Reals List Lra Lia.
From Verif Require Import Model_Index Model_Deriv Model_Midplane Model_Ode Lib_Deriv Spec_Fields
  Spec_MHD Spec_Ode Spec_Midplane Proofs_Ode Proofs_MHD Proofs_Midplane Proofs_Taylor Proofs_SelfSimilar Proofs_TaylorInd
  Witness_Midplane Props_TaylorPhi.
Open Scope R_scope.

(** The exact defect: along any curve that starts regularly and satisfies div B = 0 and E_φ = 0 near the midplane, this is the
    combination of the code's errors in B_r''', B_φ''' and v_r''.  [code] is what the code's formulas amount to and [ohm] what Ohm's law
    asks for, in terms of the values and slopes at the midplane: b, d, u are B_r', B_φ', v_θ'; t is B_θ''; O'', A'', H'' the second
    derivatives of the diffusivities that the code uses. *)
Theorem C65_induction_exact : forall inp c, define_conditions inp = Some c ->
  let v_r := c_init_con c iv_r in let v_φ := c_init_con c iv_φ in let γ := c_γ c in let κ := 1 / 4 - γ in
  let η_A := in_η_A inp in let η_H := in_η_H inp in let η_P := in_η_O inp + in_η_A inp in
  η_P <> 0 -> η_P ^ 2 + η_H ^ 2 <> 0 ->
  forall y y' y'' ε, twice_differentiable y y' y'' ε -> starts_regularly c y y' ->
  forall r2 b2 r3 b3,
  (forall θ, Rabs θ < ε -> derivable_pt_lim (fun t => y' t iB_r) θ (r2 θ)) -> derivable_pt_lim r2 0 r3 ->
  (forall θ, Rabs θ < ε -> derivable_pt_lim (fun t => y' t iB_φ) θ (b2 θ)) -> derivable_pt_lim b2 0 b3 ->
  (forall θ, Rabs θ < ε -> solenoidal (fluid_of γ y) 1 θ) ->
  (forall θ, Rabs θ < ε -> E_φ_vanishes (fluid_of γ y) 1 θ) ->
  forall ηd uE,
  let C2 := get_taylor_second_order (c_init_con c) γ (c_a_0 c) ηd uE in
  let C3 := get_taylor_third_order (c_init_con c) γ (c_a_0 c) ηd uE in
  let b := y' 0 iB_r in let d := y' 0 iB_φ in let u := y' 0 iv_θ in let t := y'' iB_θ in
  let P'' := C2 iη_O + C2 iη_A in let H'' := C2 iη_H in
  let h := η_H / η_P in
  let E'' := - (3 / 4 - γ) * (b * (v_φ - η_H * κ) - d * (v_r + η_P * κ) - η_H * (b ^ 2 + d ^ 2)) in
  let N := H'' - η_H * (b ^ 2 + d ^ 2) - 2 * η_A * b * d in
  let M := P'' - 2 * η_A * d ^ 2 in
  let A' := (N - h * M) / η_P in
  let code := - (η_P ^ 2 / (η_P ^ 2 + η_H ^ 2)) *
    (A' * v_r - h * (u * b - v_r * t) + E'' + v_φ * t
     - d * (u + η_P + κ * (η_H * d + η_A * b) + h * (η_A * d * κ - η_H * (b * κ + 1)))
     + d * (M + A' * η_H + h * N)) in
  let ohm := 2 * u * b - v_r * t - η_P * κ * t - (y'' iη_O + y'' iη_A) * (b + κ) - y'' iη_H * d
    + η_H * d * (2 * (1 + κ * b) + b ^ 2 + d ^ 2) in
  η_P * (C3 iB_r - r3) + η_H * (C3 iB_φ - b3) + (C2 iv_r - y'' iv_r) = code - ohm.
Proof.
  intros inp c Hc v_r v_φ γ κ η_A η_H η_P HP HPH y y' y'' ε Hy Hs r2 b2 r3 b3 Hr2 Hr3 Hb2 Hb3 Hdiv Hind ηd uE C2 C3 b d u t P'' H'' h E'' N M A' code ohm.
  pose proof (ind_second inp c Hc y y' y'' ε Hy Hs r2 b2 r3 b3 Hr2 Hr3 Hb2 Hb3 Hind) as E. cbv zeta in E. fold κ η_P in E. fold η_H v_r t in E.
  pose proof (B_θ_second inp c Hc y y' y'' ε Hy Hs Hdiv ηd uE) as EB.
  destruct (cond_fields _ _ Hc) as (v & Hv & F1 & F2 & F3 & G0 & G1 & G2 & G3 & G4 & G5 & G6 & G8 & G9 & G10 & G7).
  destruct Hs as (_ & Y1).
  assert (Eb : get_taylor_first_order (c_init_con c) (c_γ c) (c_a_0 c) iB_r = b) by (unfold b; rewrite Y1 by lt11; reflexivity).
  assert (Ed : get_taylor_first_order (c_init_con c) (c_γ c) (c_a_0 c) iB_φ = d) by (unfold d; rewrite Y1 by lt11; reflexivity).
  assert (Eu : get_taylor_first_order (c_init_con c) (c_γ c) (c_a_0 c) iv_θ = u) by (unfold u; rewrite Y1 by lt11; reflexivity).
  rewrite Eb, Ed, Eu in E.
  set (D := taylor_series γ (c_a_0 c) (c_init_con c) ηd uE).
  assert (X : η_P * D iB_r + η_H * D iB_φ + D iv_r = code).
  { pose (p := c_init_con c). pose (f1 := get_taylor_first_order p γ (c_a_0 c)).
    pose (eP := p iη_O + p iη_A). pose (C := midplane_C_func (p iη_H) eP). pose (bt := dderiv_b_θ_midplane (f1 iB_r) (f1 iB_φ)).
    pose (dA := midplane_deriv_A_func (D iη_H) bt C (p iη_A) (f1 iB_φ) (f1 iB_r) eP (p iη_H) (D iη_O + D iη_A)).
    pose (Y3 := Y_3_func dA (p iv_r) C (f1 iv_θ) (f1 iB_r) (D iB_θ)
      (dderiv_E_r_midplane (p iv_r) (p iv_φ) (f1 iB_r) (f1 iB_φ) γ (p iη_H) eP) (p iv_φ) (f1 iB_φ) eP γ (p iη_H) (f1 iB_φ) (p iη_A) (f1 iB_r)
      (dderiv_Z_5_midplane (D iη_O + D iη_A) (p iη_A) (f1 iB_φ) dA (p iη_H) C (D iη_H) bt (f1 iB_r)) (midplane_Z_5_func (eP ^ 2 + p iη_H ^ 2) eP)).
    assert (Q : D iB_r = ddderiv_B_r_midplane Y3 (p iη_H) eP (D iv_r) (D iB_φ)) by (unfold D; destruct uE; reflexivity).
    assert (T : D iB_θ = t) by (unfold t; rewrite EB; unfold D; destruct uE; reflexivity).
    assert (Z0 : D iη_O = C2 iη_O) by (unfold D, C2; destruct uE; reflexivity).
    assert (Z1 : D iη_A = C2 iη_A) by (unfold D, C2; destruct uE; reflexivity).
    assert (Z2 : D iη_H = C2 iη_H) by (unfold D, C2; destruct uE; reflexivity).
    rewrite Q. unfold ddderiv_B_r_midplane, Y3, dA, bt, C, Y_3_func, dderiv_E_r_midplane, dderiv_Z_5_midplane, midplane_Z_5_func, midplane_deriv_A_func,
      midplane_C_func, dderiv_b_θ_midplane. rewrite T, Z0, Z1, Z2.
    change (f1 iB_r) with (get_taylor_first_order (c_init_con c) (c_γ c) (c_a_0 c) iB_r).
    change (f1 iB_φ) with (get_taylor_first_order (c_init_con c) (c_γ c) (c_a_0 c) iB_φ).
    change (f1 iv_θ) with (get_taylor_first_order (c_init_con c) (c_γ c) (c_a_0 c) iv_θ).
    rewrite Eb, Ed, Eu. unfold eP, p. rewrite G8, G9, G10. fold η_P η_H η_A v_r v_φ.
    unfold code, A', M, N, E'', P'', H'', h, κ. generalize (D iB_φ) (D iv_r). clearbody b d u t C2 γ v_r v_φ η_P η_H η_A. clear - HP HPH.
    intros. field. split; assumption. }
  assert (X1 : C3 iB_r = D iB_r) by (unfold C3, D; destruct uE; reflexivity).
  assert (X2 : C3 iB_φ = D iB_φ) by (unfold C3, D; destruct uE; reflexivity).
  assert (X3 : C2 iv_r = D iv_r) by (unfold C2, D; destruct uE; reflexivity).
  rewrite X1, X2, X3. transitivity (code - (η_P * r3 + η_H * b3 + y'' iv_r)); [rewrite <- X; ring|]. clearbody code. unfold ohm, κ, γ, t, v_r, η_H, η_P in *.
  match type of E with ?l = ?r => match goal with |- ?a = ?b => assert (K : a - b = - (l - r)) by field end end. lra.
Qed.
Print Assumptions C65_induction_exact.

(** ** A disc with Ohmic diffusion and a curve *)
Definition inp_i (uE : bool) : cond_input := mk_cond_input (1 / 8) 1 (sqrt (128 / 433)) (1 / 8) 1 0 0 uE 0 1 3.
Lemma inp_i_ok : forall uE, exists c, define_conditions (inp_i uE) = Some c /\ c_γ c = 1 / 8 /\ c_a_0 c = 1 /\
  c_init_con c iB_r = 0 /\ c_init_con c iB_φ = 0 /\ c_init_con c iB_θ = 1 /\ c_init_con c iv_r = - (1 / 8) /\
  c_init_con c iv_φ = 1 /\ c_init_con c iv_θ = 0 /\ c_init_con c iρ = 1 /\
  c_init_con c iη_O = 1 /\ c_init_con c iη_A = 0 /\ c_init_con c iη_H = 0.
Proof.
  intros uE. assert (ER : v_φ_radicand (Ropp (1 / 8)) 0 (1 + 0) (1 / sqrt (128 / 433) ^ 2) (1 ^ 2) (1 / 8) = 1).
  { unfold v_φ_radicand. rewrite pow2_sqrt by lra. field. }
  unfold define_conditions, v_φ_boundary_func.
  cbn [inp_i in_v_rin_on_c_s in_v_a_on_c_s in_c_s_on_v_k in_γ in_η_O in_η_A in_η_H in_use_E_r].
  rewrite ER. destruct (Rlt_dec _ _) as [H|H]; [lra|].
  eexists. split; [reflexivity|]. rewrite sqrt_1. destruct uE; repeat split; cbn; lra.
Qed.
(** B = (0, -θ/16, 1/cos θ), v = (-1/8, 1, θ/32), ρ = 1, η_O = 1; [s] is the midplane value of slot 7. *)
Definition y_i (s θ : R) : vec := state 0 (- (1 / 16) * θ) (/ cos θ) (- (1 / 8)) 1 (1 / 32 * θ) 1 s 1 0 0.
Definition y'_i (θ : R) : vec := state 0 (- (1 / 16)) (/ cos θ * tan θ) 0 0 (1 / 32) 0 0 0 0 0.
Definition y''_i : vec := state 0 0 1 0 0 0 0 0 0 0 0.
Lemma y_i_deriv : forall s θ i, cos θ <> 0 -> (i < ODE_LEN)%nat -> derivable_pt_lim (fun t => y_i s t i) θ (y'_i θ i).
Proof.
  intros s θ i H Hi. unfold ODE_LEN in Hi. pose proof (dpl_inv_cos' θ H) as D.
  do 11 (destruct i as [|i]; [unfold y_i, y'_i, state; first [apply dpl_const | dlim_to; try exact H; try ring]|]). lia.
Qed.
Lemma y_i_twice : forall s, twice_differentiable (y_i s) y'_i y''_i 1.
Proof.
  intros s. split; [lra|]. split.
  - intros θ i Hθ Hi. apply y_i_deriv; [apply cos_near, Hθ | exact Hi].
  - intros i Hi. unfold ODE_LEN in Hi. assert (H : cos 0 <> 0) by (rewrite cos_0; lra). pose proof (dpl_inv_cos' 0 H) as D.
    do 11 (destruct i as [|i]; [unfold y'_i, y''_i, state;
      first [apply dpl_const | dlim_to; try exact H; rewrite ?tan_0, ?cos_0, ?sin_0; try lra; cbn; field]|]). lia.
Qed.
Lemma y_i_starts : forall uE c, define_conditions (inp_i uE) = Some c -> starts_regularly c (y_i (c_init_con c iB_φ_prime)) y'_i.
Proof.
  intros uE c Hc. destruct (inp_i_ok uE) as (c' & Hc' & Eg & Ea & E0 & E1 & E2 & E3 & E4 & E5 & E6 & E8 & E9 & E10).
  rewrite Hc in Hc'. inversion Hc'. subst c'. clear Hc'. split; intros i Hi; unfold ODE_LEN in Hi.
  - unfold iB_r, iB_φ, iB_θ, iv_r, iv_φ, iv_θ, iρ, iη_O, iη_A, iη_H in *.
    do 11 (destruct i as [|i]; [unfold y_i, state; rewrite ?E0, ?E1, ?E2, ?E3, ?E4, ?E5, ?E6, ?E8, ?E9, ?E10, ?tan_0, ?cos_0, ?sin_0; first [reflexivity | field]|]). lia.
  - assert (F0 : get_taylor_first_order (c_init_con c) (c_γ c) (c_a_0 c) iB_r = 0).
    { unfold get_taylor_first_order. change (upd iv_θ ?x (upd iB_φ ?z (upd iB_r ?t ?f)) iB_r) with t.
      rewrite E3, E4, E8, E9, E10, Eg, Ea. unfold deriv_B_r_midplane_func, B_φ_prime_boundary_func. field. }
    assert (F1 : get_taylor_first_order (c_init_con c) (c_γ c) (c_a_0 c) iB_φ = - (1 / 16)).
    { unfold get_taylor_first_order. change (upd iv_θ ?x (upd iB_φ ?z ?f) iB_φ) with z.
      rewrite E3, E4, Ea. unfold B_φ_prime_boundary_func. field. }
    assert (F5 : get_taylor_first_order (c_init_con c) (c_γ c) (c_a_0 c) iv_θ = 1 / 32).
    { unfold get_taylor_first_order. change (upd iv_θ ?x ?f iv_θ) with x. rewrite E3, Eg. field. }
    assert (FZ : forall j, j <> iB_r -> j <> iB_φ -> j <> iv_θ -> get_taylor_first_order (c_init_con c) (c_γ c) (c_a_0 c) j = 0).
    { intros j J0 J1 J2. unfold get_taylor_first_order, upd, zeros, iB_r, iB_φ, iv_θ in *.
      destruct (Nat.eqb_spec j 5), (Nat.eqb_spec j 1), (Nat.eqb_spec j 0); try contradiction. reflexivity. }
    unfold iB_r, iB_φ, iv_θ in *.
    do 11 (destruct i as [|i]; [unfold y'_i, state;
      first [rewrite F0 | rewrite F1 | rewrite F5 | rewrite FZ by lia]; rewrite ?tan_0, ?cos_0, ?sin_0; first [reflexivity | field]|]). lia.
Qed.
Lemma y_i_equations : forall s θ, Rabs θ < 1 -> solenoidal (fluid_of (1 / 8) (y_i s)) 1 θ /\ E_φ_vanishes (fluid_of (1 / 8) (y_i s)) 1 θ.
Proof.
  intros s θ Hθ. pose proof (cos_near θ Hθ) as H. split.
  - apply solenoidal_intro with (d := y'_i θ); [intros; apply y_i_deriv; assumption | assumption |]. unfold y_i, y'_i, state, iB_θ, iB_r. ring.
  - apply (E_φ_iff (1 / 8) (y_i s) (y'_i θ) θ 1 (fun i Hi => y_i_deriv s θ i H Hi) H Rlt_0_1).
    + unfold B_nonzero. cbv beta iota delta [y_i state iB_θ iB_φ iB_r].
      assert (Q : 0 < (/ cos θ) ^ 2) by (rewrite <- Rsqr_pow2; apply Rsqr_pos_lt, Rinv_neq_0_compat, H). pose proof (pow2_ge_0 (- (1 / 16) * θ)). lra.
    + unfold ohm_E_φ, ohm_E. cbv beta iota delta [y_i y'_i state iB_θ iB_φ iB_r iv_r iv_φ iv_θ iη_O iη_A iη_H]. cbv zeta.
      rewrite !Rmult_0_l. unfold cross_φ. field. exact H.
Qed.
Lemma y_i_more : (forall θ, Rabs θ < 1 -> derivable_pt_lim (fun t => y'_i t iB_r) θ 0) /\ (forall θ, Rabs θ < 1 -> derivable_pt_lim (fun t => y'_i t iB_φ) θ 0).
Proof. split; intros θ _; [exact (dpl_const 0 θ) | exact (dpl_const (- (1 / 16)) θ)]. Qed.

(** Refuted: for this disc, with constant diffusivity and in either mode, B_r''', B_φ''' and v_r'' of this curve are not those of the code. *)
Theorem C65_induction_refuted : forall uE, exists inp c y y' y'' ε r2 r3 b2 b3, define_conditions inp = Some c /\ in_use_E_r inp = uE /\
  twice_differentiable y y' y'' ε /\ starts_regularly c y y' /\
  (forall θ, Rabs θ < ε -> derivable_pt_lim (fun t => y' t iB_r) θ (r2 θ)) /\ derivable_pt_lim r2 0 r3 /\
  (forall θ, Rabs θ < ε -> derivable_pt_lim (fun t => y' t iB_φ) θ (b2 θ)) /\ derivable_pt_lim b2 0 b3 /\
  (forall θ, Rabs θ < ε -> solenoidal (fluid_of (c_γ c) y) 1 θ /\ E_φ_vanishes (fluid_of (c_γ c) y) 1 θ) /\
  ~ (get_taylor_third_order (c_init_con c) (c_γ c) (c_a_0 c) false uE iB_r = r3 /\
     get_taylor_third_order (c_init_con c) (c_γ c) (c_a_0 c) false uE iB_φ = b3 /\
     get_taylor_second_order (c_init_con c) (c_γ c) (c_a_0 c) false uE iv_r = y'' iv_r).
Proof.
  intros uE. destruct (inp_i_ok uE) as (c & Hc & Eg & Ea & E0 & E1 & E2 & E3 & E4 & E5 & E6 & E8 & E9 & E10).
  destruct y_i_more as (M1 & M2). pose proof (y_i_starts uE c Hc) as Hs.
  set (s := c_init_con c iB_φ_prime) in *.
  exists (inp_i uE), c, (y_i s), y'_i, y''_i, 1, (fun _ => 0), 0, (fun _ => 0), 0.
  split; [exact Hc|]. split; [reflexivity|]. split; [apply y_i_twice|]. split; [exact Hs|].
  split; [exact M1|]. split; [apply dpl_const|]. split; [exact M2|]. split; [apply dpl_const|].
  split; [intros θ H; rewrite Eg; apply y_i_equations, H|].
  intros (N1 & N2 & N3).
  assert (HP : in_η_O (inp_i uE) + in_η_A (inp_i uE) <> 0) by (apply Rgt_not_eq; simpl; lra).
  assert (HPH : (in_η_O (inp_i uE) + in_η_A (inp_i uE)) ^ 2 + in_η_H (inp_i uE) ^ 2 <> 0) by (apply Rgt_not_eq; simpl; lra).
  assert (Hd : forall θ, Rabs θ < 1 -> solenoidal (fluid_of (c_γ c) (y_i s)) 1 θ) by (intros θ H; rewrite Eg; apply y_i_equations, H).
  assert (Ho : forall θ, Rabs θ < 1 -> E_φ_vanishes (fluid_of (c_γ c) (y_i s)) 1 θ) by (intros θ H; rewrite Eg; apply y_i_equations, H).
  pose proof (C65_induction_exact (inp_i uE) c Hc HP HPH (y_i s) y'_i y''_i 1 (y_i_twice s) Hs (fun _ => 0) (fun _ => 0) 0 0
    M1 (dpl_const 0 0) M2 (dpl_const 0 0) Hd Ho false uE) as E.
  cbv zeta in E. rewrite N1, N2, N3 in E.
  assert (ZO : get_taylor_second_order (c_init_con c) (c_γ c) (c_a_0 c) false uE iη_O = 0 * c_init_con c iη_O) by (destruct uE; reflexivity).
  assert (ZA : get_taylor_second_order (c_init_con c) (c_γ c) (c_a_0 c) false uE iη_A = 0 * c_init_con c iη_A) by (destruct uE; reflexivity).
  assert (ZH : get_taylor_second_order (c_init_con c) (c_γ c) (c_a_0 c) false uE iη_H = 0 * c_init_con c iη_H) by (destruct uE; reflexivity).
  rewrite ZO, ZA, ZH, E3, E4, E8, E9, E10, Eg in E. clear - E.
  cbv beta iota delta [y_i y'_i y''_i state iB_θ iB_φ iB_r iv_r iv_φ iv_θ iη_O iη_A iη_H inp_i in_η_O in_η_A in_η_H] in E.
  match type of E with ?l = ?r => assert (K : l - r = 545 / 512) by field end. lra.
Qed.
Print Assumptions C65_induction_refuted.
Example C65_induction_nonvacuous : forall uE, exists c s, define_conditions (inp_i uE) = Some c /\ in_η_O (inp_i uE) + in_η_A (inp_i uE) <> 0 /\
  twice_differentiable (y_i s) y'_i y''_i 1 /\ starts_regularly c (y_i s) y'_i /\
  (forall θ, Rabs θ < 1 -> derivable_pt_lim (fun t => y'_i t iB_r) θ 0) /\ (forall θ, Rabs θ < 1 -> derivable_pt_lim (fun t => y'_i t iB_φ) θ 0) /\
  (forall θ, Rabs θ < 1 -> solenoidal (fluid_of (c_γ c) (y_i s)) 1 θ /\ E_φ_vanishes (fluid_of (c_γ c) (y_i s)) 1 θ).
Proof.
  intros uE. destruct (inp_i_ok uE) as (c & Hc & Eg & _). exists c, (c_init_con c iB_φ_prime). destruct y_i_more as (M1 & M2).
  split; [exact Hc|]. split; [apply Rgt_not_eq; simpl; lra|]. split; [apply y_i_twice|]. split; [exact (y_i_starts uE c Hc)|]. split; [exact M1|]. split; [exact M2|].
  intros θ H. rewrite Eg. apply y_i_equations, H.
Qed.
