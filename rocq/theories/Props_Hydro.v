(** C61, C62, C86: the hydrostatic method's functions. *)
From Coq Require Import Reals Lra Lia List Bool.
From Verif Require Import Lib_Deriv Model_Index Model_Deriv Model_Midplane Model_Ode Model_Hydro Spec_MHD Spec_Ode Proofs_Ode Proofs_MHD Proofs_SelfSimilar.
Open Scope R_scope.
Ltac nrm := replace (INR 2) with 2 by (simpl; ring); change (Init.Nat.pred 2) with 1%nat.
Ltac sidec H := let Z := fresh in intro Z; apply H; rewrite <- Z; ring.

(** ** C61: the derivative of X *)
Section X.
Variables (θ : R) (η_O η_A η_H b_r b_φ b_θ : R -> R) (η_O' η_A' η_H' b_r' b_φ' b_θ' : R).
Hypotheses (Dη_O : derivable_pt_lim η_O θ η_O') (Dη_A : derivable_pt_lim η_A θ η_A') (Dη_H : derivable_pt_lim η_H θ η_H')
  (Db_r : derivable_pt_lim b_r θ b_r') (Db_φ : derivable_pt_lim b_φ θ b_φ') (Db_θ : derivable_pt_lim b_θ θ b_θ').
Hypothesis HD : η_O θ + η_A θ * (1 - b_φ θ ^ 2) <> 0.
Let X := fun t => X_func (η_O t) (η_A t) (η_H t) (b_θ t) (b_r t) (b_φ t).
Let X_dash := X_dash_func (η_O θ) (η_A θ) (η_H θ) (b_θ θ) (b_r θ) (b_φ θ) η_O' η_A' η_H' b_θ' b_r' b_φ'.
Let D := η_O θ + η_A θ * (1 - b_φ θ ^ 2).
Let D' := η_O' + η_A' * (1 - b_φ θ ^ 2) - 2 * η_A θ * b_φ θ * b_φ'.

(** C61: how far X_dash is from the derivative of X. *)
Theorem C61_exact : derivable_pt_lim X θ (X_dash - 2 * η_A θ * b_r θ * b_φ θ * D' / D ^ 2).
Proof.
  unfold X, X_func. eapply dpl_eq; [dlim; try assumption|]. unfold X_dash, X_dash_func, D', D, Rsqr. nrm. field. sidec HD.
Qed.
(** C61: it is the derivative exactly when this term vanishes. *)
Theorem C61_partial : derivable_pt_lim X θ X_dash <-> η_A θ * b_r θ * b_φ θ * D' = 0.
Proof.
  pose proof C61_exact as E. assert (HD2 : D ^ 2 <> 0) by (apply pow_nonzero; exact HD). split.
  - intros H. pose proof (uniqueness_limite _ _ _ _ H E) as U.
    assert (K : 2 * η_A θ * b_r θ * b_φ θ * D' / D ^ 2 = 0) by lra.
    replace (η_A θ * b_r θ * b_φ θ * D') with (2 * η_A θ * b_r θ * b_φ θ * D' / D ^ 2 * D ^ 2 / 2) by (field; exact HD).
    rewrite K. field.
  - intros H. replace X_dash with (X_dash - 2 * η_A θ * b_r θ * b_φ θ * D' / D ^ 2); [exact E|].
    replace (2 * η_A θ * b_r θ * b_φ θ * D') with (2 * (η_A θ * b_r θ * b_φ θ * D')) by ring. rewrite H. field. exact HD.
Qed.
End X.
Print Assumptions C61_exact. Print Assumptions C61_partial.

(** C61 is false: a field rotating in the (r, φ) plane with constant diffusivities. *)
Theorem C61_refuted : exists (θ : R) (η_O η_A η_H b_r b_φ b_θ : R -> R) (η_O' η_A' η_H' b_r' b_φ' b_θ' : R),
  derivable_pt_lim η_O θ η_O' /\ derivable_pt_lim η_A θ η_A' /\ derivable_pt_lim η_H θ η_H' /\
  derivable_pt_lim b_r θ b_r' /\ derivable_pt_lim b_φ θ b_φ' /\ derivable_pt_lim b_θ θ b_θ' /\
  (forall t, b_r t ^ 2 + b_φ t ^ 2 + b_θ t ^ 2 = 1) /\ (forall t, 0 < η_O t /\ 0 <= η_A t /\ 0 <= η_H t) /\
  ~ derivable_pt_lim (fun t => X_func (η_O t) (η_A t) (η_H t) (b_θ t) (b_r t) (b_φ t)) θ
      (X_dash_func (η_O θ) (η_A θ) (η_H θ) (b_θ θ) (b_r θ) (b_φ θ) η_O' η_A' η_H' b_θ' b_r' b_φ').
Proof.
  exists (PI / 4), (fun _ => 1), (fun _ => 1), (fun _ => 0), cos, sin, (fun _ => 0), 0, 0, 0, (- sin (PI / 4)), (cos (PI / 4)), 0.
  pose proof sin_PI4 as Es. pose proof cos_PI4 as Ec.
  assert (H2 : 1 / sqrt 2 * (1 / sqrt 2) = 1 / 2).
  { replace (1 / sqrt 2 * (1 / sqrt 2)) with (/ (sqrt 2 * sqrt 2)) by (field; apply Rgt_not_eq, sqrt_lt_R0; lra).
    rewrite sqrt_sqrt by lra. lra. }
  do 3 (split; [apply dpl_const|]).
  split; [apply derivable_pt_lim_cos|]. split; [apply derivable_pt_lim_sin|]. split; [apply dpl_const|].
  split; [intros t; pose proof (sin2_cos2 t) as S; unfold Rsqr in S; simpl; lra|].
  split; [intros t; lra|].
  rewrite (C61_partial (PI / 4) (fun _ => 1) (fun _ => 1) (fun _ => 0) cos sin (fun _ => 0));
    try apply dpl_const; try apply derivable_pt_lim_cos; try apply derivable_pt_lim_sin.
  - rewrite Es, Ec. set (u := 1 / sqrt 2) in *.
    replace (1 * u * u * (0 + 0 * (1 - u ^ 2) - 2 * 1 * u * u)) with (- 2 * (u * u) * (u * u)) by ring.
    rewrite H2. lra.
  - rewrite Es. set (u := 1 / sqrt 2) in *. replace (u ^ 2) with (u * u) by ring. rewrite H2. lra.
Qed.
Print Assumptions C61_refuted.

(** ** C62: the quadratic for v_φ *)

(** The quadratic's coefficients at a state, as the right-hand side computes them. *)
Definition hydro_X (p : vec) : R :=
  let m := sqrt (p iB_r ^ 2 + p iB_φ ^ 2 + p iB_θ ^ 2) in
  X_func (p iη_O) (p iη_A) (p iη_H) (p iB_θ / m) (p iB_r / m) (p iB_φ / m).
Definition hydro_b (p : vec) : R := b_func (hydro_X p) (p iv_r).
Definition hydro_c (K a_0 θ : R) (p : vec) : R :=
  let m := sqrt (p iB_r ^ 2 + p iB_φ ^ 2 + p iB_θ ^ 2) in
  c_func θ K a_0 (hydro_X p) (p iv_r) (p iB_φ) (p iB_θ) (p iB_r) (p iρ) (p iη_A) (p iη_O) (p iη_H) (p iB_φ / m) (p iB_r / m) (p iB_θ / m).

Lemma hydro_ok_inv : forall h x p d θ, hydro_rhs h x p = Hy_ok d θ ->
  θ = scaled_to_rad_num x (ha_θ_scale h) /\ 0 <= p iρ /\
  0 <= hydro_b p ^ 2 - 4 * hydro_c (ha_norm_kepler_sq h) (ha_a_0 h) θ p /\
  d iB_φ = p iB_φ_prime /\ d iB_θ = p iB_θ * tan θ - 3 / 4 * p iB_r /\ d iv_θ = 0 /\
  (let m := sqrt (p iB_r ^ 2 + p iB_φ ^ 2 + p iB_θ ^ 2) in
   let b_r := p iB_r / m in let b_φ := p iB_φ / m in let b_θ := p iB_θ / m in
   d iB_r = (p iB_φ * (p iη_A * b_φ * (b_r * tan θ - b_θ / 4) + p iη_H * (b_r / 4 + b_θ * tan θ))
     - p iB_φ_prime * (p iη_H * b_θ + p iη_A * b_r * b_φ) - p iv_r * p iB_θ) / (p iη_O + p iη_A * (1 - b_φ) * (1 + b_φ)) - p iB_θ / 4) /\
  d iρ = - p iρ * p iv_φ ^ 2 * tan θ - ha_a_0 h * (p iB_θ * p iB_r / 4 + p iB_r * d iB_r + p iB_φ * p iB_φ_prime - p iB_φ ^ 2 * tan θ).
Proof.
  intros h x p d θ. unfold hydro_rhs, B_unit_derivs. cbv zeta beta iota. destruct (Rlt_dec (p iρ) 0) as [|Hρ]; [discriminate|].
  set (m := sqrt (p iB_r ^ 2 + p iB_φ ^ 2 + p iB_θ ^ 2)).
  match goal with |- (if ?c then _ else _) = _ -> _ => destruct c as [|Hdisc]; [discriminate|] end.
  intros E. apply Rnot_lt_le in Hρ. apply Rnot_lt_le in Hdisc.
  match type of E with Hy_ok ?D ?t = _ => assert (E1 : D = d) by congruence; assert (E2 : t = θ) by congruence end.
  clear E. subst θ. split; [reflexivity|]. split; [exact Hρ|]. split; [exact Hdisc|].
  subst d. destruct (ha_no_v_deriv h); repeat split; reflexivity.
Qed.

Lemma hydro_unit : forall p, B_nonzero p -> let m := sqrt (p iB_r ^ 2 + p iB_φ ^ 2 + p iB_θ ^ 2) in
  0 < m /\ (p iB_r / m) ^ 2 + (p iB_θ / m) ^ 2 = 1 - (p iB_φ / m) ^ 2 /\
  (diffusive p -> p iη_O + p iη_A * (1 - (p iB_φ / m) ^ 2) <> 0).
Proof.
  intros p HB m. assert (Hm : m ^ 2 = p iB_r ^ 2 + p iB_φ ^ 2 + p iB_θ ^ 2) by (unfold m; rewrite pow2_sqrt by (red in HB; lra); reflexivity).
  assert (Hm0 : 0 < m) by (apply sqrt_lt_R0; exact HB). split; [exact Hm0|]. split.
  - apply Rmult_eq_reg_r with (m ^ 2); [|apply pow_nonzero; lra]. field_simplify; [lra | lra..].
  - unfold diffusive. rewrite <- Hm. intros HD. replace ((p iB_φ / m) ^ 2) with (p iB_φ ^ 2 / m ^ 2) by (field; lra). exact HD.
Qed.

Section Static.
Variables (h : hydro_args) (y : R -> vec) (d : vec) (θ r : R).
Hypothesis Hd : forall i, (i < ODE_LEN)%nat -> derivable_pt_lim (fun t => y t i) θ (d i).
Hypotheses (Hcos : cos θ <> 0) (Hr : 0 < r) (Hscale : ha_θ_scale h = 1).
Hypotheses (Hv_θ : y θ iv_θ = 0) (Hρ : 0 < y θ iρ) (HB : B_nonzero (y θ)) (HD : diffusive (y θ)).
Hypothesis Hslot : y θ iB_φ_prime = d iB_φ.
Let F := fluid_of 0 y.
Let K := ha_norm_kepler_sq h.
Let a_0 := ha_a_0 h.
Let p := y θ.

(** The value of B_r' at which E_φ vanishes. *)
Lemma E_φ_B_r : let m := sqrt (p iB_r ^ 2 + p iB_φ ^ 2 + p iB_θ ^ 2) in
  let b_r := p iB_r / m in let b_φ := p iB_φ / m in let b_θ := p iB_θ / m in
  E_φ_vanishes F r θ <->
  d iB_r = (p iB_φ * (p iη_A * b_φ * (b_r * tan θ - b_θ / 4) + p iη_H * (b_r / 4 + b_θ * tan θ))
     - d iB_φ * (p iη_H * b_θ + p iη_A * b_r * b_φ) - p iv_r * p iB_θ) / (p iη_O + p iη_A * (1 - b_φ ^ 2)) - p iB_θ / 4.
Proof.
  intros m b_r b_φ b_θ. unfold F. rewrite (E_φ_iff 0 y d θ r Hd Hcos Hr) by exact HB. fold p.
  rewrite ohm_φ_func by exact HB. cbv zeta. fold m b_r b_φ b_θ.
  destruct (hydro_unit p HB) as (Hm & Hu & Hn). specialize (Hn HD). fold m b_r b_φ b_θ in Hn, Hu.
  change (y θ iv_θ) with (p iv_θ) in Hv_θ. unfold E_φ_func. rewrite Hv_θ.
  set (Dn := p iη_O + p iη_A * (1 - b_φ ^ 2)) in *.
  match goal with |- ?l = 0 <-> ?a = ?b => assert (E : l = Dn * (a - b)) end.
  { unfold Dn. field. exact Hn. }
  rewrite E. split; intros H.
  - apply Rmult_integral in H. destruct H; [contradiction | lra].
  - rewrite H. ring.
Qed.

(** C62: with the azimuthal momentum equation and a vanishing E_φ, the radial momentum equation is the quadratic. *)
Theorem C62_quadratic : E_φ_vanishes F r θ -> momentum_φ a_0 F r θ ->
  (momentum_r K a_0 F r θ <-> p iv_φ ^ 2 + hydro_b p * p iv_φ + hydro_c K a_0 θ p = 0).
Proof.
  intros HE Hφ. apply E_φ_B_r in HE. unfold F in *.
  apply (momentum_φ_iff 0 y d θ r Hd Hcos Hr) in Hφ. rewrite (momentum_r_iff 0 y d θ r Hd Hcos Hr).
  fold p in HE, Hφ. fold p. change (y θ iv_θ) with (p iv_θ) in Hv_θ. change (y θ iρ) with (p iρ) in Hρ. rewrite Hv_θ in Hφ. rewrite Hv_θ.
  destruct (hydro_unit p HB) as (Hm & Hu & Hn). specialize (Hn HD).
  unfold hydro_b, hydro_c, hydro_X, b_func, c_func, X_func.
  set (m := sqrt (p iB_r ^ 2 + p iB_φ ^ 2 + p iB_θ ^ 2)) in *.
  set (b_r := p iB_r / m) in *. set (b_φ := p iB_φ / m) in *. set (b_θ := p iB_θ / m) in *.
  set (Dn := p iη_O + p iη_A * (1 - b_φ ^ 2)) in *.
  set (X := (p iη_H * b_θ + p iη_A * b_r * b_φ) / Dn).
  assert (HX : p iη_H * b_θ + p iη_A * b_r * b_φ = X * Dn) by (unfold X; field; exact Hn). rewrite HX in HE.
  match goal with |- ?l = ?rr <-> ?q = 0 => assert (E : rr - l = p iρ * q + X * (p iρ * (p iv_r * p iv_φ / 2) - a_0 *
      (- (1 / 4 - 0) * p iB_φ * p iB_r - - (d iB_φ - p iB_φ * tan θ) * p iB_θ))) end.
  { rewrite HE. field. split; [exact Hn | lra]. }
  replace (p iρ * (p iv_r * p iv_φ / 2 + 0 * d iv_φ - 0 * p iv_φ * tan θ)) with (p iρ * (p iv_r * p iv_φ / 2)) in Hφ by ring.
  rewrite Hφ in E.
  match type of E with ?a - ?b = _ => assert (E' : a - b = p iρ * (p iv_φ ^ 2 + - X * p iv_r / 2 * p iv_φ +
    (p iv_r ^ 2 / 2 + 5 / 2 - K + a_0 / p iρ * (p iB_φ ^ 2 / 4 - X * p iB_φ * (1 / 4 * p iB_r + p iB_θ * tan θ) - p iB_θ / Dn *
     (p iv_r * p iB_θ - p iB_φ * (p iη_A * b_φ * (b_r * tan θ - b_θ / 4) + p iη_H * (b_r / 4 + b_θ * tan θ))))))) by (rewrite E; ring) end.
  split; intros H.
  - rewrite H in E'. rewrite Rminus_diag_eq in E' by reflexivity. symmetry in E'. apply Rmult_integral in E'.
    destruct E' as [E' | E']; [lra | exact E'].
  - rewrite H, Rmult_0_r in E'. lra.
Qed.

(** C62: so an exact vertically static solution is never refused for a negative discriminant. *)
Theorem C62_accepts : E_φ_vanishes F r θ -> momentum_φ a_0 F r θ -> momentum_r K a_0 F r θ ->
  exists d', hydro_rhs h θ (y θ) = Hy_ok d' θ.
Proof.
  intros HE Hφ Hmr. pose proof (proj1 (C62_quadratic HE Hφ) Hmr) as Q.
  assert (Hdisc : 0 <= hydro_b p ^ 2 - 4 * hydro_c K a_0 θ p).
  { replace (hydro_b p ^ 2 - 4 * hydro_c K a_0 θ p) with ((2 * p iv_φ + hydro_b p) ^ 2); [apply pow2_ge_0|].
    replace (hydro_c K a_0 θ p) with (- (p iv_φ ^ 2) - hydro_b p * p iv_φ) by lra. ring. }
  assert (Hθ : scaled_to_rad_num θ (ha_θ_scale h) = θ) by (unfold scaled_to_rad_num; rewrite Hscale; field).
  unfold hydro_rhs. cbv zeta. rewrite Hθ. fold p. change (y θ iρ) with (p iρ) in Hρ.
  destruct (Rlt_dec (p iρ) 0) as [N|_]; [exfalso; lra|].
  match goal with |- exists d', (if ?c then _ else _) = _ => destruct c as [N|_] end.
  - exfalso. unfold hydro_b, hydro_c, hydro_X in Hdisc. cbv zeta in Hdisc. fold K a_0 in N. lra.
  - eexists. reflexivity.
Qed.

(** C62: the derivatives of B_θ, B_r and ρ returned are those for which ∇·B = 0, E_φ = 0 and the vertical momentum equation hold. *)
Theorem C62_derivatives : forall d', hydro_rhs h θ (y θ) = Hy_ok d' θ ->
  d' iB_φ = d iB_φ /\
  (solenoidal F r θ <-> d iB_θ = d' iB_θ) /\ (E_φ_vanishes F r θ <-> d iB_r = d' iB_r) /\
  (d iB_r = d' iB_r -> (momentum_θ a_0 F r θ <-> d iρ = d' iρ)).
Proof.
  intros d' E. apply hydro_ok_inv in E. fold p in E. destruct E as (_ & _ & _ & E1 & E2 & _ & E3 & E4). cbv zeta in E3.
  change (y θ iB_φ_prime) with (p iB_φ_prime) in Hslot. rewrite Hslot in *.
  split; [exact E1|]. split; [|split].
  - unfold F. rewrite (solenoidal_iff 0 y d θ r Hd Hcos Hr). fold p. rewrite E2. split; intros H; rewrite H; ring.
  - rewrite E_φ_B_r. rewrite E3.
    match goal with |- _ = ?a / ?b - _ <-> _ = ?c / ?e - _ => replace e with b by ring end. reflexivity.
  - intros Hb. unfold F. rewrite (momentum_θ_iff 0 y d θ r Hd Hcos Hr). fold p. rewrite E4, <- Hb.
    change (y θ iv_θ) with (p iv_θ) in Hv_θ. rewrite Hv_θ. fold a_0. split; intros H; lra.
Qed.
End Static.
Print Assumptions C62_quadratic. Print Assumptions C62_accepts. Print Assumptions C62_derivatives.

(** C62: a magnetised case with Hall drift meets the hypotheses. *)
Definition static_h (b : bool) : hydro_args := mk_hydro_args 1 9 (state 0 0 1 (-1) 2 0 1 (-1) 1 0 1) 1 b false false.
Definition static_y (t : R) : vec := state (7 / 4 * t) (- t) 1 (-1) 2 0 1 (-1) 1 0 1.
Definition static_d : vec := state (7 / 4) (-1) 0 0 0 0 0 0 0 0 0.
Example C62_nonvacuous :
  (forall i, (i < ODE_LEN)%nat -> derivable_pt_lim (fun t => static_y t i) 0 (static_d i)) /\ static_y 0 iv_θ = 0 /\ 0 < static_y 0 iρ /\
  B_nonzero (static_y 0) /\ diffusive (static_y 0) /\ static_y 0 iB_φ_prime = static_d iB_φ /\
  E_φ_vanishes (fluid_of 0 static_y) 1 0 /\ momentum_φ 1 (fluid_of 0 static_y) 1 0 /\ momentum_r 9 1 (fluid_of 0 static_y) 1 0 /\
  solenoidal (fluid_of 0 static_y) 1 0 /\ momentum_θ 1 (fluid_of 0 static_y) 1 0 /\ hydro_b (static_y 0) = 1 / 2.
Proof.
  assert (Hd : forall i, (i < ODE_LEN)%nat -> derivable_pt_lim (fun t => static_y t i) 0 (static_d i)).
  { intros i Hi. unfold ODE_LEN in Hi. unfold static_y, static_d, state.
    destruct i as [|[|[|[|[|[|[|[|[|[|[|i]]]]]]]]]]]; try lia; try apply dpl_const.
    - eapply dpl_eq; [dlim|]. ring.
    - eapply dpl_eq; [dlim|]. ring. }
  assert (Hc : cos 0 <> 0) by (rewrite cos_0; lra). assert (H1 : 0 < 1) by lra.
  assert (HB : B_nonzero (static_y 0)) by (unfold B_nonzero, static_y, state, iB_r, iB_φ, iB_θ; simpl; lra).
  assert (HD : diffusive (static_y 0)) by (unfold diffusive, static_y, state, iB_r, iB_φ, iB_θ, iη_O, iη_A; simpl; lra).
  assert (Es : sqrt ((7 / 4 * 0) ^ 2 + (- 0) ^ 2 + 1 ^ 2) = 1).
  { replace ((7 / 4 * 0) ^ 2 + (- 0) ^ 2 + 1 ^ 2) with 1 by ring. apply sqrt_1. }
  split; [exact Hd|]. split; [reflexivity|]. split; [unfold static_y; simpl; lra|]. split; [exact HB|]. split; [exact HD|]. split; [reflexivity|].
  split; [|split; [|split; [|split; [|split]]]].
  - apply (E_φ_B_r static_y static_d 0 1); try assumption; try reflexivity.
    unfold static_y, static_d, state, iB_r, iB_φ, iB_θ, iη_O, iη_A, iη_H, iv_r. rewrite Es. field.
  - apply (momentum_φ_iff 0 static_y static_d 0 1 Hd Hc H1). rewrite tan_0.
    unfold static_y, static_d, state, iB_r, iB_φ, iB_θ, iv_r, iv_φ, iv_θ, iρ. field.
  - apply (momentum_r_iff 0 static_y static_d 0 1 Hd Hc H1). unfold static_y, static_d, state, iB_r, iB_φ, iB_θ, iv_r, iv_φ, iv_θ, iρ. field.
  - apply (solenoidal_iff 0 static_y static_d 0 1 Hd Hc H1). rewrite tan_0. unfold static_y, static_d, state, iB_r, iB_φ, iB_θ. field.
  - apply (momentum_θ_iff 0 static_y static_d 0 1 Hd Hc H1). rewrite tan_0.
    unfold static_y, static_d, state, iB_r, iB_φ, iB_θ, iv_r, iv_φ, iv_θ, iρ. field.
  - unfold hydro_b, hydro_X, b_func, X_func, static_y, state, iB_r, iB_φ, iB_θ, iη_O, iη_A, iη_H, iv_r. rewrite Es. field.
Qed.
Print Assumptions C62_nonvacuous.

(** C62: the starting point satisfies the quadratic. *)
Theorem C62_initial : forall inp c, hydrostatic_define_conditions inp = Some c -> in_η_O inp + in_η_A inp <> 0 ->
  let p := c_init_con c in p iv_θ = 0 /\ c_γ c = 0 /\
  p iv_φ ^ 2 + hydro_b p * p iv_φ + hydro_c (c_norm_kepler_sq c) (c_a_0 c) 0 p = 0 /\
  0 <= 2 * p iv_φ + hydro_b p.
Proof.
  intros inp c. unfold hydrostatic_define_conditions, v_φ_boundary_func.
  set (v_r := - in_v_rin_on_c_s inp). set (η_P := in_η_O inp + in_η_A inp). set (K := 1 / in_c_s_on_v_k inp ^ 2). set (a_0 := in_v_a_on_c_s inp ^ 2).
  destruct (Rlt_dec _ 0) as [|Hn]; [discriminate|]. apply Rnot_lt_le in Hn. intros E Hη. injection E as <-.
  cbv zeta. cbn [c_init_con c_γ c_norm_kepler_sq c_a_0].
  set (w := v_φ_radicand v_r (in_η_H inp) η_P K a_0 0) in *.
  set (s := sqrt w). assert (Hs : s * s = w) by (apply sqrt_sqrt; exact Hn). assert (Hs0 : 0 <= s) by apply sqrt_pos.
  assert (S1 : sqrt (0 ^ 2 + 0 ^ 2 + 1 ^ 2) = 1) by (replace (0 ^ 2 + 0 ^ 2 + 1 ^ 2) with 1 by ring; apply sqrt_1).
  split; [destruct (in_use_E_r inp); reflexivity|]. split; [reflexivity|].
  set (q := if in_use_E_r inp then _ else _).
  assert (Q : q iB_r = 0 /\ q iB_φ = 0 /\ q iB_θ = 1 /\ q iv_r = v_r /\ q iv_φ = v_r * in_η_H inp / (4 * η_P) + s /\ q iρ = 1 /\
    q iη_O = in_η_O inp /\ q iη_A = in_η_A inp /\ q iη_H = in_η_H inp) by (unfold q; destruct (in_use_E_r inp); repeat split; reflexivity).
  clearbody q. destruct Q as (q1 & q2 & q3 & q4 & q5 & q6 & q7 & q8 & q9).
  unfold hydro_b, hydro_c, hydro_X, b_func, c_func, X_func. rewrite q1, q2, q3, q4, q5, q6, q7, q8, q9, S1, tan_0.
  unfold η_P in *. split.
  - unfold w, v_φ_radicand in Hs.
    match goal with |- ?l = 0 => replace l with (s * s - (K - 5 / 2 + 2 * 0 + v_r * (a_0 / (in_η_O inp + in_η_A inp) + v_r / 2 *
      (in_η_H inp ^ 2 / (8 * (in_η_O inp + in_η_A inp) ^ 2) - 1)))) by (field; intuition lra) end.
    lra.
  - match goal with |- 0 <= ?l => replace l with (2 * s) by (field; intuition lra) end. lra.
Qed.
Print Assumptions C62_initial.

(** ** C86: the velocities' derivatives *)
Lemma div_cancel : forall n d, d <> 0 -> n / d * d = n.
Proof. intros n d H. field. exact H. Qed.

(** The root of the quadratic, as a function of v_r alone. *)
Section Root.
Variables (θ K a_0 X B_φ B_θ B_r ρ η_A η_O η_H b_φ b_r b_θ v_r : R).
Let b := fun v => b_func X v.
Let c := fun v => c_func θ K a_0 X v B_φ B_θ B_r ρ η_A η_O η_H b_φ b_r b_θ.
Let root := fun v => (- b v + sqrt (b v ^ 2 - 4 * c v)) / 2.
Hypotheses (Hdisc : 0 < b v_r ^ 2 - 4 * c v_r) (HD : η_O + η_A * (1 - b_φ ^ 2) <> 0) (Hρ : ρ <> 0).
Let D := η_O + η_A * (1 - b_φ ^ 2).
(** C86: Z_3 is to be the derivative of that root; how far it is from it. *)
Theorem C86_Z_3_exact : derivable_pt_lim root v_r
  (Z_3_func X v_r a_0 B_θ ρ η_O η_A b_φ (b v_r) (c v_r) + (v_r * X ^ 2 / 16 - a_0 * B_θ ^ 2 / (ρ * D)) / sqrt (b v_r ^ 2 - 4 * c v_r)).
Proof.
  assert (Db : derivable_pt_lim b v_r (- X / 2)) by (unfold b, b_func; eapply dpl_eq; [dlim; try discrR|]; unfold Rsqr; field).
  assert (Dc : derivable_pt_lim c v_r (v_r - a_0 / ρ * (B_θ ^ 2 / D))).
  { unfold c, c_func. eapply dpl_eq; [dlim; try assumption; try discrR|]. nrm. unfold D, Rsqr. field. split; assumption. }
  unfold root. eapply dpl_eq.
  - dlim; try assumption; try discrR.
  - unfold Z_3_func. set (s := sqrt (b v_r ^ 2 - 4 * c v_r)).
    assert (Hs : s <> 0) by (apply Rgt_not_eq, sqrt_lt_R0; exact Hdisc).
    nrm. unfold D, Rsqr. change (b v_r) with (- X * v_r / 2). field. repeat split; assumption.
Qed.
End Root.
Print Assumptions C86_Z_3_exact.

(** C86: where v_φ' = Z_2 + Z_3 v_r', the derivative of the azimuthal momentum equation v_r v_φ/2 = a_0 Z_4/ρ gives the code's v_r'. *)
Theorem C86_v_r : forall (a_0 : R) (B_r B_φ B_θ v_r v_φ ρ B_φ_prime : R -> R) (θ B_r' B_φ' B_θ' v_r' v_φ' ρ' B_φ'' Z_2 Z_3 : R),
  derivable_pt_lim B_r θ B_r' -> derivable_pt_lim B_φ θ B_φ' -> derivable_pt_lim B_θ θ B_θ' -> derivable_pt_lim v_r θ v_r' ->
  derivable_pt_lim v_φ θ v_φ' -> derivable_pt_lim ρ θ ρ' -> derivable_pt_lim B_φ_prime θ B_φ'' -> B_φ_prime θ = B_φ' ->
  (forall t, v_r t * v_φ t / 2 = a_0 * Z_4_func (B_θ t) (B_r t) (B_φ t) (B_φ_prime t) t / ρ t) ->
  v_φ' = Z_2 + Z_3 * v_r' -> ρ θ <> 0 -> v_φ θ <> 0 -> cos θ <> 0 ->
  let Z_4 := Z_4_func (B_θ θ) (B_r θ) (B_φ θ) B_φ' θ in
  v_φ θ ^ 2 * ρ θ + 2 * a_0 * Z_3 * Z_4 <> 0 ->
  v_r' = deriv_v_r_func (Z_1_func θ a_0 (B_φ θ) (B_θ θ) (B_r θ) (ρ θ) B_r' B_φ' B_θ' (v_φ θ) ρ') Z_2 Z_3 Z_4 (v_φ θ) (ρ θ) a_0 B_φ'' (B_θ θ).
Proof.
  intros a_0 B_r B_φ B_θ v_r v_φ ρ B_φ_prime θ B_r' B_φ' B_θ' v_r' v_φ' ρ' B_φ'' Z_2 Z_3 D1 D2 D3 D4 D5 D6 D7 E0 Hall E1 Hρ Hv Hc Z_4 Hne.
  assert (L : derivable_pt_lim (fun t => v_r t * v_φ t / 2) θ ((v_r' * v_φ θ + v_r θ * v_φ') / 2)).
  { eapply dpl_eq; [dlim; try discrR|]. unfold Rsqr. field. }
  assert (Rr : derivable_pt_lim (fun t => a_0 * Z_4_func (B_θ t) (B_r t) (B_φ t) (B_φ_prime t) t / ρ t) θ
    (a_0 / ρ θ * (B_θ' * B_φ' + B_θ θ * B_φ'' - (B_r' * B_φ θ + B_r θ * B_φ') / 4 - B_θ' * B_φ θ * tan θ - B_θ θ * B_φ' * tan θ
       - B_θ θ * B_φ θ * (1 + tan θ ^ 2) - ρ' / ρ θ * Z_4))).
  { unfold Z_4_func. eapply dpl_eq; [dlim; try assumption; try discrR|]. rewrite E0. unfold Z_4, Z_4_func, Rsqr. field. assumption. }
  pose proof (dpl_ext _ _ _ _ Hall L) as L'.
  pose proof (uniqueness_limite _ _ _ _ L' Rr) as U. clear L L' Rr.
  assert (Esec : sec θ ^ 2 = 1 + tan θ ^ 2).
  { unfold sec, tan. pose proof (sin2_cos2 θ) as S. unfold Rsqr in S.
    transitivity ((sin θ * sin θ + cos θ * cos θ) / cos θ ^ 2); [rewrite S; field; assumption | field; assumption]. }
  assert (V : v_r θ = 2 * a_0 * Z_4 / (ρ θ * v_φ θ)).
  { pose proof (Hall θ) as H0. rewrite E0 in H0. fold Z_4 in H0. apply Rmult_eq_reg_r with (v_φ θ / 2).
    - replace (v_r θ * (v_φ θ / 2)) with (v_r θ * v_φ θ / 2) by field. rewrite H0. field. split; assumption.
    - intro Hz. apply Hv. lra. }
  rewrite E1, V in U. unfold deriv_v_r_func, Z_1_func. rewrite Esec.
  apply Rmult_eq_reg_r with (v_φ θ ^ 2 * ρ θ + 2 * a_0 * Z_3 * Z_4); [|exact Hne].
  rewrite div_cancel by exact Hne.
  assert (U2 : v_r' * (v_φ θ ^ 2 * ρ θ + 2 * a_0 * Z_3 * Z_4) = 2 * ρ θ * v_φ θ * ((v_r' * v_φ θ + 2 * a_0 * Z_4 / (ρ θ * v_φ θ) * (Z_2 + Z_3 * v_r')) / 2)
     - 2 * a_0 * Z_4 * Z_2) by (field; split; assumption).
  rewrite U2, U. unfold Z_4, Z_4_func. field. split; assumption.
Qed.
Print Assumptions C86_v_r.

(** C86 is false: at the first point of every run with Ohmic diffusion, inflow and a thin enough disc, the right-hand side returns nonzero derivatives for
    B_φ', v_r and v_φ, all of which are even across the midplane in a solution symmetric about it. *)
Theorem C86_midplane_refuted : forall inp c h, hydrostatic_define_conditions inp = Some c -> in_use_E_r inp = false ->
  ha_norm_kepler_sq h = c_norm_kepler_sq c -> ha_a_0 h = c_a_0 c -> ha_init_con h = c_init_con c -> ha_θ_scale h = 1 -> ha_no_v_deriv h = false ->
  in_η_A inp = 0 -> in_η_H inp = 0 -> 0 < in_η_O inp -> in_v_a_on_c_s inp <> 0 -> 0 < in_v_rin_on_c_s inp ->
  5 + 2 * in_v_rin_on_c_s inp ^ 2 + 4 * in_v_a_on_c_s inp ^ 2 * in_v_rin_on_c_s inp / in_η_O inp < 2 * c_norm_kepler_sq c ->
  exists d, hydro_rhs h 0 (c_init_con c) = Hy_ok d 0 /\
  (forall i, i = iB_φ_prime \/ i = iv_r \/ i = iv_φ -> d i <> 0 /\
    forall y : R -> vec, (forall t, y (- t) i = y t i) -> ~ derivable_pt_lim (fun t => y t i) 0 (d i)).
Proof.
  intros inp c h Hdc HE hK ha hi hs hn hA hH hO hva hvr Hthin.
  assert (Hsym : forall (f : R -> R) l, (forall t, f (- t) = f t) -> derivable_pt_lim f 0 l -> l = 0).
  { intros f l Hf Hl. assert (Hm : derivable_pt_lim (fun t => f (- t)) 0 (- l)).
    { pose proof (derivable_pt_lim_comp (fun t => - t) f 0 (-1) l) as Hc. 
      replace (- l) with (l * -1) by ring. apply Hc; [|rewrite Ropp_0; exact Hl].
      eapply dpl_eq; [dlim|]. ring. }
    assert (Hm' : derivable_pt_lim f 0 (- l)) by (apply (dpl_ext _ _ _ _ (fun t => Hf t) Hm)).
    pose proof (uniqueness_limite _ _ _ _ Hl Hm'). lra. }
  cut (exists d, hydro_rhs h 0 (c_init_con c) = Hy_ok d 0 /\ d iB_φ_prime <> 0 /\ d iv_r <> 0 /\ d iv_φ <> 0).
  { intros (d & Hd & N1 & N2 & N3). exists d. split; [exact Hd|]. intros i Hi.
    assert (N : d i <> 0) by (destruct Hi as [Hi | [Hi | Hi]]; rewrite Hi; assumption).
    split; [exact N|]. intros y Hy Hder. apply N. exact (Hsym _ _ Hy Hder). }
  clear Hsym. revert Hdc. unfold hydrostatic_define_conditions, v_φ_boundary_func. rewrite HE, hA, hH.
  set (v := in_v_rin_on_c_s inp) in *. set (K := 1 / in_c_s_on_v_k inp ^ 2). set (a := in_v_a_on_c_s inp ^ 2) in *. set (e := in_η_O inp) in *.
  assert (Ha : 0 < a) by (pose proof (Rsqr_pos_lt _ hva) as Hsq; unfold Rsqr in Hsq; unfold a; simpl; lra).
  destruct (Rlt_dec _ 0) as [|Hn]; [discriminate|]. apply Rnot_lt_le in Hn. intros E. injection E as <-.
  cbn [c_norm_kepler_sq c_a_0 c_init_con] in *.
  set (w := v_φ_radicand (- v) 0 (e + 0) K a 0) in *.
  assert (Hw : w = K - 5 / 2 - a * v / e - v ^ 2 / 2) by (unfold w, v_φ_radicand; field; lra).
  set (s := sqrt w). assert (Hs : s * s = w) by (apply sqrt_sqrt; exact Hn).
  assert (Hvv : 0 < v ^ 2) by (apply pow_lt; exact hvr).
  assert (Have : 0 < a * v / e) by (apply Rdiv_lt_0_compat; [apply Rmult_lt_0_compat; assumption | exact hO]).
  assert (Hthin' : v ^ 2 + 2 * (a * v / e) < 2 * w).
  { rewrite Hw. replace (4 * a * v / e) with (4 * (a * v / e)) in Hthin by (field; lra). lra. }
  assert (Hs0 : 0 < s) by (apply sqrt_lt_R0; lra).
  assert (Evφ : - v * 0 / (4 * (e + 0)) + s = s) by (field; lra). rewrite Evφ.
  assert (Es1 : sqrt (0 ^ 2 + 0 ^ 2 + 1 ^ 2) = 1) by (replace (0 ^ 2 + 0 ^ 2 + 1 ^ 2) with 1 by ring; apply sqrt_1).
  set (q := B_φ_prime_boundary_func (- v) s a).
  unfold hydro_rhs. cbv zeta. rewrite hK, ha, hi, hs, hn.
  unfold upd, zeros. cbn [Nat.eqb iB_r iB_φ iB_θ iv_r iv_φ iv_θ iρ iB_φ_prime iη_O iη_A iη_H]. unfold scaled_to_rad_num.
  destruct (Rlt_dec 1 0) as [N|_]; [exfalso; lra|].
  rewrite Es1. replace (0 * 1) with 0 by ring. rewrite tan_0.
  assert (HX : X_func e 0 0 (1 / 1) (0 / 1) (0 / 1) = 0) by (unfold X_func; field; lra). rewrite HX.
  assert (Hb : b_func 0 (- v) = 0) by (unfold b_func; field). rewrite Hb.
  set (c := c_func 0 K a 0 (- v) 0 1 0 1 0 e 0 (0 / 1) (0 / 1) (1 / 1)).
  assert (Hc : c = - w) by (unfold c, c_func; rewrite Hw, tan_0; field; lra). 
  destruct (Rlt_dec (0 ^ 2 - 4 * c) 0) as [N|_]; [exfalso; rewrite Hc in N; lra|].
  assert (Hsq : sqrt (0 ^ 2 - 4 * c) = 2 * s).
  { replace (0 ^ 2 - 4 * c) with ((2 * s) ^ 2); [apply sqrt_pow2; lra|]. rewrite Hc, <- Hs. ring. }
  replace (0 / 1) with 0 by field. replace (1 / 1) with 1 by field.
  set (k := (0 * (0 * 0 * (0 * 0 - 1 / 4) + 0 * (0 / 4 + 1 * 0)) - q * (0 * 1 + 0 * 0 * 0) - - v * 1) / (e + 0 * (1 - 0) * (1 + 0)) - 1 / 4).
  replace (1 * 0 - 3 / 4 * 0) with 0 by field.
  replace (- (1) * s ^ 2 * 0 - a * (1 * 0 / 4 + 0 * k + 0 * q - 0 ^ 2 * 0)) with 0 by field.
  assert (Hskw : deriv_η_skw_func 1 0 0 1 0 k q 0 = 0) by (unfold deriv_η_skw_func; field). rewrite Hskw.
  assert (Hif : forall x, (if ha_η_derivs h then 0 * x else 0) = 0) by (intros x; destruct (ha_η_derivs h); ring). rewrite !Hif.
  assert (Hun : B_unit_derivs 0 0 1 k q 0 0 0 1 = (k, q, 0)).
  { unfold B_unit_derivs, B_unit_deriv_1. rewrite Es1. f_equal; [f_equal|]; field. }
  rewrite Hun. cbv iota.
  assert (HA : A_func e 0 0 1 0 0 0 0 0 0 k q = 0) by (unfold A_func; field; lra).
  assert (HC : C_func e 0 0 1 0 0 = 0) by (unfold C_func; field; lra).
  assert (HXd : X_dash_func e 0 0 1 0 0 0 0 0 0 k q = 0) by (unfold X_dash_func; field; lra).
  assert (HZ1 : Z_1_func 0 a 0 1 0 1 k q 0 s 0 = 0) by (unfold Z_1_func; rewrite tan_0; field; lra).
  assert (HZ2 : Z_2_func 0 a 0 (- v) 0 1 0 1 0 e 0 0 0 1 0 k q 0 0 0 c 0 q k 0 0 0 = 0).
  { unfold Z_2_func. rewrite Hsq, tan_0. field. lra. }
  set (z := Z_3_func 0 (- v) a 1 1 e 0 0 0 c).
  assert (Hz : z = (v + 2 * a / e) / (2 * s)) by (unfold z, Z_3_func; rewrite Hsq; field; lra).
  assert (HZ4 : Z_4_func 1 0 0 q 0 = q) by (unfold Z_4_func; field).
  assert (HZ5 : Z_5_func e 0 0 0 1 0 0 = e) by (unfold Z_5_func; ring).
  rewrite HA, HC, HXd, HZ1, HZ2, HZ4, HZ5. fold z.
  assert (Hq : q = - (s * v / (2 * a))) by (unfold q, B_φ_prime_boundary_func; field; lra).
  assert (Hae : 0 < 2 * a / e) by (apply Rdiv_lt_0_compat; lra).
  assert (Hz0 : 0 < z) by (rewrite Hz; apply Rdiv_lt_0_compat; lra).
  assert (Hq0 : q < 0) by (rewrite Hq; assert (0 < s * v / (2 * a)) by (apply Rdiv_lt_0_compat; [apply Rmult_lt_0_compat; assumption | lra]); lra).
  assert (Hden : s ^ 2 * 1 + 2 * a * z * q = s * s - (v ^ 2 + 2 * (a * v / e)) / 2) by (rewrite Hz, Hq; field; repeat split; lra).
  assert (Hden0 : 0 < s ^ 2 * 1 + 2 * a * z * q) by (rewrite Hden, Hs; lra).
  pose proof (Rgt_not_eq _ _ Hden0) as Hne.
  set (Z6 := Z_6_func 0 z q e a 1 s 1).
  assert (HZ6 : 0 < Z6).
  { unfold Z6, Z_6_func. assert (0 < 2 * a * 1 ^ 2 * s * (0 + z) / (s ^ 2 * 1 + 2 * a * z * q)); [|lra].
    apply Rdiv_lt_0_compat; [|exact Hden0]. replace (2 * a * 1 ^ 2 * s * (0 + z)) with (2 * a * s * z) by ring. apply Rmult_lt_0_compat; [apply Rmult_lt_0_compat; lra | lra]. }
  assert (HZ7 : Z_7_func 0 0 0 z q a s 1 = 0) by (unfold Z_7_func; field; sidec Hne). rewrite HZ7.
  match goal with |- context [dderiv_B_φ_func ?a1 ?a2 ?a3 ?a4 ?a5 ?a6 ?a7 ?a8 ?a9 ?a10 ?a11 ?a12 ?a13 ?a14 ?a15 ?a16 ?a17 ?a18 ?a19 ?a20 ?a21 ?a22 ?a23 ?a24] =>
    set (B2 := dderiv_B_φ_func a1 a2 a3 a4 a5 a6 a7 a8 a9 a10 a11 a12 a13 a14 a15 a16 a17 a18 a19 a20 a21 a22 a23 a24) end.
  assert (HB2 : B2 = - q * e / Z6) by (unfold B2, dderiv_B_φ_func; rewrite tan_0; field; lra).
  assert (HB20 : 0 < B2) by (rewrite HB2; apply Rdiv_lt_0_compat; [apply Rmult_lt_0_compat; lra | exact HZ6]).
  assert (Hdv : deriv_v_r_func 0 0 z q s 1 a B2 1 = 2 * a * s * B2 / (s ^ 2 * 1 + 2 * a * z * q)) by (unfold deriv_v_r_func; field; sidec Hne).
  assert (Hdv0 : 0 < deriv_v_r_func 0 0 z q s 1 a B2 1).
  { rewrite Hdv. apply Rdiv_lt_0_compat; [|exact Hden0]. apply Rmult_lt_0_compat; [apply Rmult_lt_0_compat; lra | lra]. }
  eexists. split; [reflexivity|].
  cbn [Nat.eqb iB_r iB_φ iB_θ iv_r iv_φ iv_θ iρ iB_φ_prime iη_O iη_A iη_H].
  unfold deriv_v_φ_func. split; [lra|]. split; [lra|].
  assert (0 < deriv_v_r_func 0 0 z q s 1 a B2 1 * z) by (apply Rmult_lt_0_compat; assumption). lra.
Qed.
Print Assumptions C86_midplane_refuted.

(** C86: a disc with v_rin = v_a = c_s = v_k / 10 and unit Ohmic diffusivity is such a run. *)
Definition ohmic_inp : cond_input := mk_cond_input 1 1 (1 / 10) 0 1 0 0 false 0 5 10.
Example C86_midplane_nonvacuous : exists c, hydrostatic_define_conditions ohmic_inp = Some c /\
  5 + 2 * in_v_rin_on_c_s ohmic_inp ^ 2 + 4 * in_v_a_on_c_s ohmic_inp ^ 2 * in_v_rin_on_c_s ohmic_inp / in_η_O ohmic_inp < 2 * c_norm_kepler_sq c.
Proof.
  unfold hydrostatic_define_conditions, v_φ_boundary_func, v_φ_radicand, ohmic_inp. cbn [in_v_rin_on_c_s in_v_a_on_c_s in_c_s_on_v_k in_η_O in_η_A in_η_H in_use_E_r].
  destruct (Rlt_dec _ 0) as [N|N].
  - exfalso. revert N. apply Rle_not_lt.
    match goal with |- 0 <= ?l => replace l with (96) by field end. lra.
  - eexists. split; [reflexivity|]. cbn [c_norm_kepler_sq].
    match goal with |- ?l < ?r => replace l with 11 by field; replace r with 200 by field end. lra.
Qed.
Print Assumptions C86_midplane_nonvacuous.

(** C86: Z_3 is not the derivative of the root there. *)
Theorem C86_Z_3_refuted : let b := fun v => b_func 0 v in let c := fun v => c_func 0 10 1 0 v 0 1 0 1 0 1 0 0 0 1 in
  0 < b (-1) ^ 2 - 4 * c (-1) /\
  ~ derivable_pt_lim (fun v => (- b v + sqrt (b v ^ 2 - 4 * c v)) / 2) (-1) (Z_3_func 0 (-1) 1 1 1 1 0 0 (b (-1)) (c (-1))).
Proof.
  intros b c. assert (Hd : b (-1) ^ 2 - 4 * c (-1) = 24) by (unfold b, c, b_func, c_func; rewrite tan_0; field).
  split; [rewrite Hd; lra|]. intros H.
  pose proof (C86_Z_3_exact 0 10 1 0 0 1 0 1 0 1 0 0 0 1 (-1)) as E. fold b c in E.
  assert (H0 : 0 < b (-1) ^ 2 - 4 * c (-1)) by (rewrite Hd; lra).
  assert (H1 : 1 + 0 * (1 - 0 ^ 2) <> 0) by (intro Z; lra). assert (H2 : 1 <> 0) by lra.
  specialize (E H0 H1 H2).
  pose proof (uniqueness_limite _ _ _ _ H E) as U. rewrite Hd in U.
  assert (Hs : 0 < sqrt 24) by (apply sqrt_lt_R0; lra).
  assert (Hi : (-1 * 0 ^ 2 / 16 - 1 * 1 ^ 2 / (1 * (1 + 0 * (1 - 0 ^ 2)))) / sqrt 24 = - / sqrt 24) by (field; lra).
  assert (0 < / sqrt 24) by (apply Rinv_0_lt_compat; exact Hs). lra.
Qed.
Print Assumptions C86_Z_3_refuted.
