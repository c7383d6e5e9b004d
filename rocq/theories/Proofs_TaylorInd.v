(** The azimuthal component of Ohm's law at second order at the midplane. *)
From Coq Require Import Reals List Lra Lia.
From Verif Require Import Model_Index Model_Deriv Model_Midplane Model_Ode Lib_Deriv Spec_Fields
  Spec_MHD Spec_Ode Spec_Midplane Proofs_Ode Proofs_MHD Proofs_Midplane Proofs_Taylor Proofs_SelfSimilar.
Open Scope R_scope.

(** Ohm's law multiplied by |B|². *)
Lemma ohm_φ_cleared : forall v_r v_φ v_θ B_r B_φ B_θ J_r J_φ J_θ η_O η_A η_H, 0 < B_r ^ 2 + B_φ ^ 2 + B_θ ^ 2 ->
  let m := sqrt (B_r * B_r + B_φ * B_φ + B_θ * B_θ) in
  ohm_E_φ v_r v_φ v_θ B_r B_φ B_θ J_r J_φ J_θ η_O η_A η_H = 0 ->
  (η_O + η_A) * J_φ * (m * m) + η_H * m * (J_θ * B_r - J_r * B_θ) - η_A * B_φ * (J_r * B_r + J_φ * B_φ + J_θ * B_θ)
  - m * m * (v_θ * B_r - v_r * B_θ) = 0.
Proof.
  intros v_r v_φ v_θ B_r B_φ B_θ J_r J_φ J_θ η_O η_A η_H HB m H.
  assert (M : norm3 B_r B_φ B_θ = m) by (unfold norm3, m; f_equal; ring).
  assert (Pm : 0 < m) by (apply sqrt_lt_R0; lra).
  assert (Q : m * m = B_r * B_r + B_φ * B_φ + B_θ * B_θ) by (apply sqrt_def; lra).
  unfold ohm_E_φ, ohm_E in H. rewrite M in H. clearbody m. unfold cross_r, cross_φ, cross_θ in H.
  match type of H with ?l = 0 => assert (K : m * m * l = 0) by (rewrite H; ring) end.
  rewrite <- K. clear K H.
  match goal with |- ?a = ?b => assert (K : a - b = η_A * J_φ * (m * m - (B_r * B_r + B_φ * B_φ + B_θ * B_θ))) by (field; lra) end.
  assert (Q0 : m * m - (B_r * B_r + B_φ * B_φ + B_θ * B_θ) = 0) by lra. rewrite Q0 in K. lra.
Qed.

Section Induction.
Variables (inp : cond_input) (c : conditions).
Hypothesis Hc : define_conditions inp = Some c.
Variables (y y' : R -> vec) (y'' : vec) (ε : R).
Hypothesis Hy : twice_differentiable y y' y'' ε.
Hypothesis Hs : starts_regularly c y y'.
Variables (r2 b2 : R -> R) (r3 b3 : R).
Hypothesis Hr2 : forall θ, Rabs θ < ε -> derivable_pt_lim (fun t => y' t iB_r) θ (r2 θ).
Hypothesis Hr3 : derivable_pt_lim r2 0 r3.
Hypothesis Hb2 : forall θ, Rabs θ < ε -> derivable_pt_lim (fun t => y' t iB_φ) θ (b2 θ).
Hypothesis Hb3 : derivable_pt_lim b2 0 b3.
Hypothesis HP : in_η_O inp + in_η_A inp <> 0.
Let f1 := get_taylor_first_order (c_init_con c) (c_γ c) (c_a_0 c).

Lemma ind_second : (forall θ, Rabs θ < ε -> E_φ_vanishes (fluid_of (c_γ c) y) 1 θ) ->
  let κ := 1 / 4 - c_γ c in
  (in_η_O inp + in_η_A inp) * (r3 + κ * y'' iB_θ) + (y'' iη_O + y'' iη_A) * (f1 iB_r + κ)
  + in_η_H inp * b3 + y'' iη_H * f1 iB_φ + y'' iv_r + c_init_con c iv_r * y'' iB_θ =
  2 * f1 iv_θ * f1 iB_r + in_η_H inp * f1 iB_φ * (2 * (1 + κ * f1 iB_r) + f1 iB_r ^ 2 + f1 iB_φ ^ 2).
Proof.
  intros Hm κ. pose proof Hy as (He & Hd1 & Hd2). destruct Hs as (Y0 & Y1).
  destruct (cond_fields _ _ Hc) as (v & Hv & F1 & F2 & F3 & G0 & G1 & G2 & G3 & G4 & G5 & G6 & G8 & G9 & G10 & G7).
  assert (Z : Rabs 0 < ε) by (rewrite Rabs_R0; exact He).
  (* the vertical field stays away from 0 *)
  assert (C : exists δ, 0 < δ /\ forall θ, Rabs θ < δ -> 0 < y θ iB_θ).
  { assert (Ct : continuity_pt (fun t => y t iB_θ) 0) by (apply derivable_continuous_pt; exists (y' 0 iB_θ); apply Hd1; [exact Z|lt11]).
    destruct (Ct 1 ltac:(lra)) as (δ & Pδ & H). exists δ. split; [exact Pδ|]. intros θ Hθ.
    destruct (Req_dec θ 0) as [-> |N]; [rewrite Y0, G2 by lt11; lra|].
    assert (Q : Rabs (y θ iB_θ - y 0 iB_θ) < 1).
    { apply H. split; [split; [exact I|apply not_eq_sym, N]|]. simpl. unfold R_dist. rewrite Rminus_0_r. exact Hθ. }
    rewrite (Y0 iB_θ), G2 in Q by lt11. apply Rabs_def2 in Q. lra. }
  destruct C as (δ1 & Pδ1 & HB).
  set (δ := Rmin δ1 (Rmin ε 1)). assert (Hδ : 0 < δ) by (repeat apply Rmin_pos; lra).
  assert (Dε : forall θ, Rabs θ < δ -> Rabs θ < ε) by (intros θ H; eapply Rlt_le_trans; [exact H|eapply Rle_trans; [apply Rmin_r|apply Rmin_l]]).
  assert (DB : forall θ, Rabs θ < δ -> 0 < y θ iB_θ) by (intros θ H; apply HB; eapply Rlt_le_trans; [exact H|apply Rmin_l]).
  assert (Dc : forall θ, Rabs θ < δ -> cos θ <> 0).
  { intros θ Ht. assert (H : Rabs θ < 1) by (eapply Rlt_le_trans; [exact Ht|eapply Rle_trans; [apply Rmin_r|apply Rmin_r]]).
    apply Rabs_def2 in H. apply Rgt_not_eq, cos_gt_0; pose proof PI_RGT_0; pose proof PI2_1; lra. }
  assert (DQ : forall θ, Rabs θ < δ -> 0 < y θ iB_r * y θ iB_r + y θ iB_φ * y θ iB_φ + y θ iB_θ * y θ iB_θ).
  { intros θ H. pose proof (Rmult_lt_0_compat _ _ (DB θ H) (DB θ H)). pose proof (Rle_0_sqr (y θ iB_r)). pose proof (Rle_0_sqr (y θ iB_φ)).
    unfold Rsqr in *. lra. }
  set (m := fun θ => sqrt (y θ iB_r * y θ iB_r + y θ iB_φ * y θ iB_φ + y θ iB_θ * y θ iB_θ)).
  set (m' := fun θ => (y θ iB_r * y' θ iB_r + y θ iB_φ * y' θ iB_φ + y θ iB_θ * y' θ iB_θ) / m θ).
  assert (Pm : forall θ, Rabs θ < δ -> 0 < m θ) by (intros θ H; apply sqrt_lt_R0, DQ, H).
  assert (Dm : forall θ, Rabs θ < δ -> derivable_pt_lim m θ (m' θ)).
  { intros θ H. pose proof (Dε θ H) as H'. pose proof (Pm θ H) as Q.
    pose proof (Hd1 θ iB_r H' ltac:(lt11)). pose proof (Hd1 θ iB_φ H' ltac:(lt11)). pose proof (Hd1 θ iB_θ H' ltac:(lt11)).
    unfold m. dlim_to; [apply DQ, H|]. fold (m θ). unfold m'. field. apply Rgt_not_eq. exact Q. }
  set (J := fun θ => y' θ iB_r + κ * y θ iB_θ).
  set (J' := fun θ => r2 θ + κ * y' θ iB_θ).
  set (A := fun θ => y θ iB_φ * tan θ - y' θ iB_φ).
  set (A' := fun θ => y' θ iB_φ * tan θ + y θ iB_φ * (1 + tan θ ^ 2) - b2 θ).
  set (X := fun θ => - κ * y θ iB_φ * y θ iB_r - A θ * y θ iB_θ).
  set (X' := fun θ => - κ * (y' θ iB_φ * y θ iB_r + y θ iB_φ * y' θ iB_r) - (A' θ * y θ iB_θ + A θ * y' θ iB_θ)).
  set (S := fun θ => A θ * y θ iB_r + J θ * y θ iB_φ - κ * y θ iB_φ * y θ iB_θ).
  set (S' := fun θ => A' θ * y θ iB_r + A θ * y' θ iB_r + (J' θ * y θ iB_φ + J θ * y' θ iB_φ) - κ * (y' θ iB_φ * y θ iB_θ + y θ iB_φ * y' θ iB_θ)).
  set (V := fun θ => y θ iv_θ * y θ iB_r - y θ iv_r * y θ iB_θ).
  set (V' := fun θ => y' θ iv_θ * y θ iB_r + y θ iv_θ * y' θ iB_r - (y' θ iv_r * y θ iB_θ + y θ iv_r * y' θ iB_θ)).
  set (G := fun θ => (y θ iη_O + y θ iη_A) * J θ * (m θ * m θ) + y θ iη_H * m θ * X θ - y θ iη_A * y θ iB_φ * S θ - m θ * m θ * V θ).
  assert (G_0 : forall θ, Rabs θ < δ -> G θ = 0).
  { intros θ H. pose proof (DQ θ H) as Q. unfold G.
    pose proof (proj1 (E_φ_iff (c_γ c) y (y' θ) θ 1 (fun i Hi => Hd1 θ i (Dε θ H) Hi) (Dc θ H) Rlt_0_1 ltac:(unfold B_nonzero; lra)) (Hm θ (Dε θ H))) as E.
    apply ohm_φ_cleared in E; [|lra]. fold (m θ) in E. rewrite <- E. unfold X, S, V, J, A, κ. ring. }
  set (G' := fun θ =>
    (y' θ iη_O + y' θ iη_A) * J θ * (m θ * m θ) + (y θ iη_O + y θ iη_A) * J' θ * (m θ * m θ) + (y θ iη_O + y θ iη_A) * J θ * (2 * (m θ * m' θ))
    + y' θ iη_H * m θ * X θ + y θ iη_H * m' θ * X θ + y θ iη_H * m θ * X' θ
    - (y' θ iη_A * y θ iB_φ * S θ + y θ iη_A * y' θ iB_φ * S θ + y θ iη_A * y θ iB_φ * S' θ)
    - 2 * (m θ * m' θ) * V θ - m θ * m θ * V' θ).
  assert (D1 : forall θ, Rabs θ < δ -> derivable_pt_lim J θ (J' θ) /\ derivable_pt_lim A θ (A' θ)).
  { intros θ H. pose proof (Dε θ H) as H'. pose proof (Dc θ H) as H''. pose proof (Hr2 θ H'). pose proof (Hb2 θ H').
    pose proof (Hd1 θ iB_φ H' ltac:(lt11)). pose proof (Hd1 θ iB_θ H' ltac:(lt11)).
    split; [unfold J, J'; dlim_to; ring|unfold A, A'; dlim_to; [exact H''|ring]]. }
  assert (D2 : forall θ, Rabs θ < δ -> derivable_pt_lim X θ (X' θ) /\ derivable_pt_lim S θ (S' θ) /\ derivable_pt_lim V θ (V' θ)).
  { intros θ H. pose proof (Dε θ H) as H'. destruct (D1 θ H) as (K1 & K2).
    pose proof (Hd1 θ iv_θ H' ltac:(lt11)). pose proof (Hd1 θ iv_r H' ltac:(lt11)). pose proof (Hd1 θ iB_r H' ltac:(lt11)).
    pose proof (Hd1 θ iB_φ H' ltac:(lt11)). pose proof (Hd1 θ iB_θ H' ltac:(lt11)).
    split; [|split]; [unfold X, X'|unfold S, S'|unfold V, V']; dlim_to; ring. }
  assert (DG : forall θ, Rabs θ < δ -> derivable_pt_lim G θ (G' θ)).
  { intros θ H. pose proof (Dε θ H) as H'. destruct (D1 θ H) as (K1 & K2). destruct (D2 θ H) as (K3 & K4 & K5). pose proof (Dm θ H).
    pose proof (Hd1 θ iη_O H' ltac:(lt11)). pose proof (Hd1 θ iη_A H' ltac:(lt11)). pose proof (Hd1 θ iη_H H' ltac:(lt11)).
    pose proof (Hd1 θ iB_φ H' ltac:(lt11)). unfold G, G'. dlim_to. ring. }
  assert (G'_0 : forall θ, Rabs θ < δ -> G' θ = 0).
  { intros θ H. eapply uniqueness_limite; [apply DG; exact H|].
    apply dpl_ext_loc with (f := fun _ => 0) (e := δ - Rabs θ); [lra| |apply dpl_const].
    intros t Ht. symmetry. apply G_0. replace t with ((t - θ) + θ) by ring. eapply Rle_lt_trans; [apply Rabs_triang|]. lra. }
  assert (D0 : derivable_pt_lim G' 0 0).
  { apply dpl_ext_loc with (f := fun _ => 0) (e := δ); [lra| |apply dpl_const].
    intros t Ht. symmetry. apply G'_0. rewrite Rminus_0_r in Ht. exact Ht. }
  assert (Z' : Rabs 0 < δ) by (rewrite Rabs_R0; exact Hδ).
  assert (R0 : r2 0 = y'' iB_r) by (eapply uniqueness_limite; [apply Hr2; exact Z | apply Hd2; lt11]).
  assert (B0 : b2 0 = y'' iB_φ) by (eapply uniqueness_limite; [apply Hb2; exact Z | apply Hd2; lt11]).
  assert (E : forall L, derivable_pt_lim G' 0 L -> L = 0) by (intros L HL; exact (uniqueness_limite _ _ _ _ HL D0)).
  pose proof (G_0 0 Z') as E0.
  (* values at the midplane *)
  assert (V1 : f1 iρ = 0) by reflexivity. assert (V2 : f1 iv_φ = 0) by reflexivity. assert (V3 : f1 iv_r = 0) by reflexivity.
  assert (V4 : f1 iB_θ = 0) by reflexivity. assert (V5 : f1 iη_O = 0) by reflexivity. assert (V6 : f1 iη_A = 0) by reflexivity.
  assert (V7 : f1 iη_H = 0) by reflexivity.
  assert (M0 : m 0 = 1) by (unfold m; rewrite !Y0, G0, G1, G2 by lt11; replace (0 * 0 + 0 * 0 + 1 * 1) with 1 by ring; apply sqrt_1).
  assert (M1 : m' 0 = 0) by (unfold m'; rewrite !Y0, !Y1, G0, G1, G2, M0 by lt11; fold f1; rewrite V4; field).
  assert (J0 : J 0 = f1 iB_r + κ) by (unfold J; rewrite Y0, Y1, G2 by lt11; fold f1; ring).
  assert (J1 : J' 0 = y'' iB_r) by (unfold J'; rewrite Y1, R0 by lt11; fold f1; rewrite V4; ring).
  assert (A0 : A 0 = - f1 iB_φ) by (unfold A; rewrite Y0, Y1, tan_0 by lt11; fold f1; ring).
  assert (A1 : A' 0 = - y'' iB_φ) by (unfold A'; rewrite Y0, Y1, tan_0, G1, B0 by lt11; fold f1; ring).
  assert (X0 : X 0 = f1 iB_φ) by (unfold X; rewrite !Y0, G0, G1, G2, A0 by lt11; ring).
  assert (X1 : X' 0 = y'' iB_φ) by (unfold X'; rewrite !Y0, !Y1, G0, G1, G2, A0, A1 by lt11; fold f1; rewrite V4; ring).
  assert (S0 : S 0 = 0) by (unfold S; rewrite !Y0, G0, G1 by lt11; ring).
  assert (S1 : S' 0 = 0) by (unfold S'; rewrite !Y0, !Y1, G0, G1, G2, A0, J0 by lt11; fold f1; ring).
  assert (U0 : V 0 = - c_init_con c iv_r) by (unfold V; rewrite !Y0, G0, G2 by lt11; ring).
  assert (U1 : V' 0 = 0) by (unfold V'; rewrite !Y0, !Y1, G0, G2, G5 by lt11; fold f1; rewrite V3, V4; ring).
  destruct (D1 0 Z') as (K1 & K2). destruct (D2 0 Z') as (K3 & K4 & K5). pose proof (Dm 0 Z') as K6.
  rewrite J1 in K1. rewrite A1 in K2. rewrite X1 in K3. rewrite S1 in K4. rewrite U1 in K5. rewrite M1 in K6.
  assert (H0 : cos 0 <> 0) by (rewrite cos_0; lra).
  assert (DD : forall i, (i < ODE_LEN)%nat -> derivable_pt_lim (fun t => y t i) 0 (f1 i)) by (intros i Hi; unfold f1; rewrite <- Y1 by exact Hi; apply Hd1; assumption).
  pose proof (DD iB_r ltac:(lt11)) as T1. pose proof (DD iB_φ ltac:(lt11)) as T2. pose proof (DD iB_θ ltac:(lt11)) as T3. pose proof (DD iv_r ltac:(lt11)) as T4.
  pose proof (DD iv_θ ltac:(lt11)) as T5. pose proof (DD iη_O ltac:(lt11)) as T6. pose proof (DD iη_A ltac:(lt11)) as T7. pose proof (DD iη_H ltac:(lt11)) as T8.
  pose proof (Hd2 iB_r ltac:(lt11)) as W1. pose proof (Hd2 iB_φ ltac:(lt11)) as W2. pose proof (Hd2 iB_θ ltac:(lt11)) as W3. pose proof (Hd2 iv_r ltac:(lt11)) as W4.
  pose proof (Hd2 iv_θ ltac:(lt11)) as W5. pose proof (Hd2 iη_O ltac:(lt11)) as W6. pose proof (Hd2 iη_A ltac:(lt11)) as W7. pose proof (Hd2 iη_H ltac:(lt11)) as W8.
  assert (M2 : derivable_pt_lim m' 0 (f1 iB_r ^ 2 + f1 iB_φ ^ 2 + y'' iB_θ)).
  { unfold m'. dlim_to; [rewrite M0; lra|]. rewrite M0, !Y0, !Y1, G0, G1, G2 by lt11. fold f1. rewrite V4. unfold Rsqr. field. }
  assert (J2 : derivable_pt_lim J' 0 (r3 + κ * y'' iB_θ)) by (unfold J'; dlim_to; ring).
  assert (A2 : derivable_pt_lim A' 0 (2 * f1 iB_φ - b3)).
  { unfold A'. dlim_to; try exact H0. rewrite tan_0, !Y0, !Y1, G1 by lt11. fold f1. cbn [pow INR pred]. ring. }
  assert (X2 : derivable_pt_lim X' 0 (- 2 * κ * f1 iB_φ * f1 iB_r + b3 - 2 * f1 iB_φ + f1 iB_φ * y'' iB_θ)).
  { unfold X'. dlim_to. rewrite !Y0, !Y1, G0, G1, G2, A0, A1 by lt11. fold f1. rewrite V4. ring. }
  assert (S2 : exists s, derivable_pt_lim S' 0 s) by (unfold S'; eexists; dlim). destruct S2 as (s & S2).
  assert (U2 : derivable_pt_lim V' 0 (2 * f1 iv_θ * f1 iB_r - y'' iv_r - c_init_con c iv_r * y'' iB_θ)).
  { unfold V'. dlim_to. rewrite !Y0, !Y1, G0, G2, G5 by lt11. fold f1. rewrite V3, V4. ring. }
  unfold G in E0. rewrite M0, J0, X0, S0, U0, !Y0, G8, G9, G10, G1 in E0 by lt11.
  clear D0 G'_0 DG G_0 D1 D2 DD DQ Dc DB Dε HB Hm.
  evar (L : R). assert (DL : derivable_pt_lim G' 0 L) by (unfold G', L; dlim).
  apply E in DL. unfold L in DL. clear E L. cbv beta in DL.
  rewrite M0, M1, J0, J1, X0, X1, S0, S1, U0, U1, !Y0, !Y1, G1, G8, G9, G10 in DL by lt11. fold f1 in DL. rewrite V5, V6, V7 in DL.
  clearbody f1 κ. clear - DL E0.
  match type of DL with ?l = 0 => match type of E0 with ?l0 = 0 => match goal with |- ?a = ?b =>
    assert (K : a - b = l - 2 * (f1 iB_r ^ 2 + f1 iB_φ ^ 2 + y'' iB_θ) * l0) by ring end end end.
  rewrite DL, E0 in K. lra.
Qed.
End Induction.
