(** The azimuthal momentum equation at second order at the midplane, and a curve that satisfies it. *)
From Coq Require Import Reals List Lra Lia.
From Verif Require Import Model_Index Model_Deriv Model_Midplane Model_Ode Lib_Deriv Spec_Fields
  Spec_MHD Spec_Ode Spec_Midplane Proofs_Ode Proofs_MHD Proofs_Midplane Proofs_Taylor.
Open Scope R_scope.

Section Elim.
Variables (γ a_0 : R) (y : R -> vec) (d : vec) (θ : R).
Hypothesis Hd : forall i, (i < ODE_LEN)%nat -> derivable_pt_lim (fun t => y t i) θ (d i).
Hypothesis Hcos : cos θ <> 0.
Let p := y θ.
Let P1 : forall k, Rpower 1 k = 1.
Proof. intros k. unfold Rpower. rewrite ln_1, Rmult_0_r. apply exp_0. Qed.
Let H1 : 0 < 1 := Rlt_0_1.

Ltac uniq H K := let E := fresh "E" in pose proof (uniqueness_limite _ _ _ _ H K) as E; rewrite ?P1 in E; clear H.

Lemma momentum_φ_elim : momentum_φ a_0 (fluid_of γ y) 1 θ ->
  p iρ * (p iv_θ * d iv_φ - p iv_φ * p iv_θ * tan θ + p iv_φ * p iv_r / 2) =
  a_0 * (p iB_θ * (d iB_φ - p iB_φ * tan θ) - (1 / 4 - γ) * p iB_r * p iB_φ).
Proof.
  intros (ar & ap & at_ & jr & jp & jt & Ha & Hj & E).
  destruct Ha as (rr & rt & pr & pt & tr & tt & _ & _ & Hpr & Hpt & _ & _ & _ & Eap & _).
  destruct Hj as (ja & jb & jc & jd & Hja & Hjb & Hjc & Hjd & Ejr & Ejp & Ejt).
  unfold fluid_of, self_similar_fluid in *. simpl in *.
  uniq Hpr (ss_pd_r (- 1 / 2) 1 θ (fun t => y t iv_φ) H1).
  uniq Hpt (ss_pd_θ (- 1 / 2) 1 θ (fun t => y t iv_φ) _ (Hd iv_φ ltac:(lt11))).
  uniq Hja (ss_pd_θ_cos (γ - 5 / 4) 1 θ (fun t => y t iB_φ) _ (Hd iB_φ ltac:(lt11))).
  uniq Hjb (ss_pd_θ (γ - 5 / 4) 1 θ (fun t => y t iB_r) _ (Hd iB_r ltac:(lt11))).
  uniq Hjc (ss_pd_r_r (γ - 5 / 4) 1 θ (fun t => y t iB_θ) H1).
  uniq Hjd (ss_pd_r_r (γ - 5 / 4) 1 θ (fun t => y t iB_φ) H1).
  subst. unfold self_similar, cross_φ in E. rewrite !P1 in E. simpl in E. fold p in E. fold p. rewrite sin_tan in E by assumption.
  match type of E with ?l = ?r => match goal with |- ?l' = ?r' =>
    assert (E1 : l' = l) by field; assert (E2 : r = r') by (field; assumption) end end.
  rewrite E1, E. exact E2.
Qed.
Lemma momentum_φ_intro :
  p iρ * (p iv_θ * d iv_φ - p iv_φ * p iv_θ * tan θ + p iv_φ * p iv_r / 2) =
  a_0 * (p iB_θ * (d iB_φ - p iB_φ * tan θ) - (1 / 4 - γ) * p iB_r * p iB_φ) ->
  momentum_φ a_0 (fluid_of γ y) 1 θ.
Proof.
  intros E. unfold momentum_φ. do 6 eexists. split; [|split].
  - unfold advection_is. do 6 eexists. unfold fluid_of, self_similar_fluid. simpl.
    split; [apply (ss_pd_r _ 1 θ (fun t => y t iv_r) H1)|].
    split; [apply (ss_pd_θ _ 1 θ (fun t => y t iv_r) _ (Hd iv_r ltac:(lt11)))|].
    split; [apply (ss_pd_r _ 1 θ (fun t => y t iv_φ) H1)|].
    split; [apply (ss_pd_θ _ 1 θ (fun t => y t iv_φ) _ (Hd iv_φ ltac:(lt11)))|].
    split; [apply (ss_pd_r _ 1 θ (fun t => y t iv_θ) H1)|].
    split; [apply (ss_pd_θ _ 1 θ (fun t => y t iv_θ) _ (Hd iv_θ ltac:(lt11)))|].
    repeat split; reflexivity.
  - unfold curl_is. do 4 eexists. unfold fluid_of, self_similar_fluid. simpl.
    split; [apply (ss_pd_θ_cos _ 1 θ (fun t => y t iB_φ) _ (Hd iB_φ ltac:(lt11)))|].
    split; [apply (ss_pd_θ _ 1 θ (fun t => y t iB_r) _ (Hd iB_r ltac:(lt11)))|].
    split; [apply (ss_pd_r_r _ 1 θ (fun t => y t iB_θ) H1)|].
    split; [apply (ss_pd_r_r _ 1 θ (fun t => y t iB_φ) H1)|].
    repeat split; reflexivity.
  - unfold fluid_of, self_similar_fluid, self_similar, cross_φ. simpl. rewrite !P1. fold p. rewrite sin_tan by assumption.
    match type of E with ?l = ?r => match goal with |- ?l' = ?r' =>
      assert (E1 : l' = l) by field; assert (E2 : r = r') by (field; assumption) end end.
    rewrite E1, E. exact E2.
Qed.
Lemma momentum_r_elim : forall K, momentum_r K a_0 (fluid_of γ y) 1 θ ->
  p iρ * (p iv_θ * d iv_r - p iv_r ^ 2 / 2 - p iv_θ ^ 2 - p iv_φ ^ 2) =
  p iρ * (5 / 2 - 2 * γ - K) + a_0 * (p iB_θ * d iB_r + (1 / 4 - γ) * (p iB_θ ^ 2 + p iB_φ ^ 2)).
Proof.
  intros K (ar & ap & at_ & gr & gt & jr & jp & jt & Ha & Hg & Hj & E).
  destruct Ha as (rr & rt & pr & pt & tr & tt & Hrr & Hrt & _ & _ & _ & _ & Ear & _ & _).
  destruct Hg as (u & w & Hu & _ & Egr & _).
  destruct Hj as (ja & jb & jc & jd & Hja & Hjb & Hjc & Hjd & Ejr & Ejp & Ejt).
  unfold fluid_of, self_similar_fluid in *. simpl in *.
  uniq Hrr (ss_pd_r (- 1 / 2) 1 θ (fun t => y t iv_r) H1).
  uniq Hrt (ss_pd_θ (- 1 / 2) 1 θ (fun t => y t iv_r) _ (Hd iv_r ltac:(lt11))).
  uniq Hjb (ss_pd_θ (γ - 5 / 4) 1 θ (fun t => y t iB_r) _ (Hd iB_r ltac:(lt11))).
  uniq Hjc (ss_pd_r_r (γ - 5 / 4) 1 θ (fun t => y t iB_θ) H1).
  uniq Hjd (ss_pd_r_r (γ - 5 / 4) 1 θ (fun t => y t iB_φ) H1).
  assert (Ku : pd_r (pressure (fluid_of γ y)) 1 θ ((2 * γ - 5 / 2) * p iρ)).
  { unfold pressure, fluid_of, self_similar_fluid, self_similar, pd_r. simpl.
    dlim_to; [lra | lra|]. rewrite !P1. unfold Rsqr. fold p. field. }
  uniq Hu Ku. subst. unfold self_similar, cross_r in E. rewrite !P1 in E. simpl in E. fold p in E. fold p.
  match type of E with ?l = ?r => match goal with |- ?l' = ?r' =>
    assert (E1 : l' - r' = l - r) by field end end.
  lra.
Qed.
End Elim.

Section Curve.
Variables (inp : cond_input) (c : conditions).
Hypothesis Hc : define_conditions inp = Some c.
Variables (y y' : R -> vec) (y'' : vec) (ε : R).
Hypothesis Hy : twice_differentiable y y' y'' ε.
Hypothesis Hs : starts_regularly c y y'.
Variables (w2 b2 : R -> R) (w3 b3 : R).
Hypothesis Hw2 : forall θ, Rabs θ < ε -> derivable_pt_lim (fun t => y' t iv_φ) θ (w2 θ).
Hypothesis Hw3 : derivable_pt_lim w2 0 w3.
Hypothesis Hb2 : forall θ, Rabs θ < ε -> derivable_pt_lim (fun t => y' t iB_φ) θ (b2 θ).
Hypothesis Hb3 : derivable_pt_lim b2 0 b3.
Let f1 := get_taylor_first_order (c_init_con c) (c_γ c) (c_a_0 c).

(** The residual of azimuthal momentum vanishes near the midplane; so does its second derivative there. *)
Lemma φ_second : (forall θ, Rabs θ < ε -> momentum_φ (c_a_0 c) (fluid_of (c_γ c) y) 1 θ) ->
  y'' iρ * (c_init_con c iv_φ * c_init_con c iv_r / 2) + 2 * f1 iv_θ * y'' iv_φ - 2 * c_init_con c iv_φ * f1 iv_θ
  + (y'' iv_φ * c_init_con c iv_r + c_init_con c iv_φ * y'' iv_r) / 2 =
  c_a_0 c * (y'' iB_θ * f1 iB_φ + b3 - 2 * f1 iB_φ - 2 * (1 / 4 - c_γ c) * f1 iB_r * f1 iB_φ).
Proof.
  intros Hm. pose proof Hy as (He & Hd1 & Hd2). destruct Hs as (Y0 & Y1).
  destruct (cond_fields _ _ Hc) as (v & Hv & F1 & F2 & F3 & G0 & G1 & G2 & G3 & G4 & G5 & G6 & G8 & G9 & G10 & G7).
  set (δ := Rmin ε 1). assert (Hδ : 0 < δ) by (apply Rmin_pos; lra).
  assert (Dε : forall θ, Rabs θ < δ -> Rabs θ < ε) by (intros θ H; eapply Rlt_le_trans; [exact H | apply Rmin_l]).
  assert (Dc : forall θ, Rabs θ < δ -> cos θ <> 0).
  { intros θ Ht. assert (H : Rabs θ < 1) by (eapply Rlt_le_trans; [exact Ht | apply Rmin_r]).
    apply Rabs_def2 in H. apply Rgt_not_eq, cos_gt_0; pose proof PI_RGT_0; pose proof PI2_1; lra. }
  set (γ := c_γ c) in *. set (a_0 := c_a_0 c) in *.
  set (G := fun θ => y θ iρ * (y θ iv_θ * y' θ iv_φ - y θ iv_φ * y θ iv_θ * tan θ + y θ iv_φ * y θ iv_r / 2)
    - a_0 * (y θ iB_θ * (y' θ iB_φ - y θ iB_φ * tan θ) - (1 / 4 - γ) * y θ iB_r * y θ iB_φ)).
  assert (G_0 : forall θ, Rabs θ < δ -> G θ = 0).
  { intros θ H. unfold G. rewrite (momentum_φ_elim γ a_0 y (y' θ) θ); [ring | intros; apply Hd1; auto | auto | apply Hm; auto]. }
  set (G' := fun θ =>
    y' θ iρ * (y θ iv_θ * y' θ iv_φ - y θ iv_φ * y θ iv_θ * tan θ + y θ iv_φ * y θ iv_r / 2)
    + y θ iρ * (y' θ iv_θ * y' θ iv_φ + y θ iv_θ * w2 θ
        - (y' θ iv_φ * y θ iv_θ * tan θ + y θ iv_φ * y' θ iv_θ * tan θ + y θ iv_φ * y θ iv_θ * (1 + tan θ ^ 2))
        + (y' θ iv_φ * y θ iv_r + y θ iv_φ * y' θ iv_r) / 2)
    - a_0 * (y' θ iB_θ * (y' θ iB_φ - y θ iB_φ * tan θ) + y θ iB_θ * (b2 θ - (y' θ iB_φ * tan θ + y θ iB_φ * (1 + tan θ ^ 2)))
        - (1 / 4 - γ) * (y' θ iB_r * y θ iB_φ + y θ iB_r * y' θ iB_φ))).
  assert (DG : forall θ, Rabs θ < δ -> derivable_pt_lim G θ (G' θ)).
  { intros θ H. pose proof (Dε θ H) as H'.
    pose proof (Hd1 θ iρ H' ltac:(lt11)). pose proof (Hd1 θ iv_θ H' ltac:(lt11)). pose proof (Hd1 θ iv_r H' ltac:(lt11)).
    pose proof (Hd1 θ iv_φ H' ltac:(lt11)). pose proof (Hd1 θ iB_r H' ltac:(lt11)). pose proof (Hd1 θ iB_φ H' ltac:(lt11)).
    pose proof (Hd1 θ iB_θ H' ltac:(lt11)). pose proof (Hw2 θ H'). pose proof (Hb2 θ H').
    unfold G. dlim_to; try (apply Dc; exact H); try lra. unfold G', Rsqr. field. }
  assert (G'_0 : forall θ, Rabs θ < δ -> G' θ = 0).
  { intros θ H. eapply uniqueness_limite; [apply DG; exact H|].
    apply dpl_ext_loc with (f := fun _ => 0) (e := δ - Rabs θ); [lra| |apply dpl_const].
    intros t Ht. symmetry. apply G_0. replace t with ((t - θ) + θ) by ring. eapply Rle_lt_trans; [apply Rabs_triang|]. lra. }
  assert (D0 : derivable_pt_lim G' 0 0).
  { apply dpl_ext_loc with (f := fun _ => 0) (e := δ); [lra| |apply dpl_const].
    intros t Ht. symmetry. apply G'_0. rewrite Rminus_0_r in Ht. exact Ht. }
  assert (Z : Rabs 0 < ε) by (rewrite Rabs_R0; exact He).
  assert (W0 : w2 0 = y'' iv_φ) by (eapply uniqueness_limite; [apply Hw2; exact Z | apply Hd2; lt11]).
  assert (B0 : b2 0 = y'' iB_φ) by (eapply uniqueness_limite; [apply Hb2; exact Z | apply Hd2; lt11]).
  assert (E : forall L, derivable_pt_lim G' 0 L -> L = 0) by (intros L HL; exact (uniqueness_limite _ _ _ _ HL D0)).
  clear D0 G'_0 DG G_0.
  evar (L : R). assert (DL : derivable_pt_lim G' 0 L).
  { pose proof (Hd1 0 iρ Z ltac:(lt11)). pose proof (Hd1 0 iv_θ Z ltac:(lt11)). pose proof (Hd1 0 iv_r Z ltac:(lt11)).
    pose proof (Hd1 0 iv_φ Z ltac:(lt11)). pose proof (Hd1 0 iB_r Z ltac:(lt11)). pose proof (Hd1 0 iB_φ Z ltac:(lt11)).
    pose proof (Hd1 0 iB_θ Z ltac:(lt11)).
    pose proof (Hd2 iρ ltac:(lt11)). pose proof (Hd2 iv_θ ltac:(lt11)). pose proof (Hd2 iv_r ltac:(lt11)).
    pose proof (Hd2 iv_φ ltac:(lt11)). pose proof (Hd2 iB_r ltac:(lt11)). pose proof (Hd2 iB_φ ltac:(lt11)).
    pose proof (Hd2 iB_θ ltac:(lt11)).
    unfold G', L. dlim; try (rewrite cos_0; lra); try lra. }
  apply E in DL. unfold L in DL. clear E L. cbv beta in DL.
  rewrite W0, B0, !tan_0, !Y0, !Y1 in DL by lt11. fold γ a_0 in DL. fold f1 in DL.
  rewrite G0, G1, G2, G5, G6 in DL.
  assert (Z1 : f1 iρ = 0) by reflexivity. assert (Z2 : f1 iv_φ = 0) by reflexivity. assert (Z3 : f1 iv_r = 0) by reflexivity.
  assert (Z4 : f1 iB_θ = 0) by reflexivity.
  rewrite Z1, Z2, Z3, Z4 in DL. unfold Rsqr in DL. simpl in DL.
  match type of DL with ?l = 0 => match goal with |- ?a = ?b => assert (K : a - b = l) by field end end. lra.
Qed.
End Curve.

Section Radial.
Variables (inp : cond_input) (c : conditions).
Hypothesis Hc : define_conditions inp = Some c.
Variables (y y' : R -> vec) (y'' : vec) (ε : R).
Hypothesis Hy : twice_differentiable y y' y'' ε.
Hypothesis Hs : starts_regularly c y y'.
Variables (w2 b2 : R -> R) (w3 b3 : R).
Hypothesis Hw2 : forall θ, Rabs θ < ε -> derivable_pt_lim (fun t => y' t iv_r) θ (w2 θ).
Hypothesis Hw3 : derivable_pt_lim w2 0 w3.
Hypothesis Hb2 : forall θ, Rabs θ < ε -> derivable_pt_lim (fun t => y' t iB_r) θ (b2 θ).
Hypothesis Hb3 : derivable_pt_lim b2 0 b3.
Let f1 := get_taylor_first_order (c_init_con c) (c_γ c) (c_a_0 c).

(** The same for radial momentum (whose value at the midplane is 0 by itself). *)
Lemma r_second : (forall θ, Rabs θ < ε -> momentum_r (c_norm_kepler_sq c) (c_a_0 c) (fluid_of (c_γ c) y) 1 θ) ->
  2 * f1 iv_θ * y'' iv_r - c_init_con c iv_r * y'' iv_r - 2 * f1 iv_θ ^ 2 - 2 * c_init_con c iv_φ * y'' iv_φ =
  c_a_0 c * (b3 + y'' iB_θ * f1 iB_r + (1 / 4 - c_γ c) * (2 * y'' iB_θ + 2 * f1 iB_φ ^ 2)
             - y'' iρ * (f1 iB_r + (1 / 4 - c_γ c))).
Proof.
  intros Hm. pose proof Hy as (He & Hd1 & Hd2). destruct Hs as (Y0 & Y1).
  destruct (cond_fields _ _ Hc) as (v & Hv & F1 & F2 & F3 & G0 & G1 & G2 & G3 & G4 & G5 & G6 & G8 & G9 & G10 & G7).
  set (δ := Rmin ε 1). assert (Hδ : 0 < δ) by (apply Rmin_pos; lra).
  assert (Dε : forall θ, Rabs θ < δ -> Rabs θ < ε) by (intros θ H; eapply Rlt_le_trans; [exact H | apply Rmin_l]).
  assert (Dc : forall θ, Rabs θ < δ -> cos θ <> 0).
  { intros θ Ht. assert (H : Rabs θ < 1) by (eapply Rlt_le_trans; [exact Ht | apply Rmin_r]).
    apply Rabs_def2 in H. apply Rgt_not_eq, cos_gt_0; pose proof PI_RGT_0; pose proof PI2_1; lra. }
  set (γ := c_γ c) in *. set (a_0 := c_a_0 c) in *. set (K := c_norm_kepler_sq c) in *.
  set (G := fun θ => y θ iρ * (y θ iv_θ * y' θ iv_r - y θ iv_r * y θ iv_r / 2 - y θ iv_θ * y θ iv_θ - y θ iv_φ * y θ iv_φ)
    - y θ iρ * (5 / 2 - 2 * γ - K) - a_0 * (y θ iB_θ * y' θ iB_r + (1 / 4 - γ) * (y θ iB_θ * y θ iB_θ + y θ iB_φ * y θ iB_φ))).
  assert (G_0 : forall θ, Rabs θ < δ -> G θ = 0).
  { intros θ H. unfold G. pose proof (momentum_r_elim γ a_0 y (y' θ) θ (fun i Hi => Hd1 θ i (Dε θ H) Hi) K (Hm θ (Dε θ H))) as E. lra. }
  set (G' := fun θ =>
    y' θ iρ * (y θ iv_θ * y' θ iv_r - y θ iv_r * y θ iv_r / 2 - y θ iv_θ * y θ iv_θ - y θ iv_φ * y θ iv_φ)
    + y θ iρ * (y' θ iv_θ * y' θ iv_r + y θ iv_θ * w2 θ - y θ iv_r * y' θ iv_r - 2 * (y θ iv_θ * y' θ iv_θ) - 2 * (y θ iv_φ * y' θ iv_φ))
    - y' θ iρ * (5 / 2 - 2 * γ - K)
    - a_0 * (y' θ iB_θ * y' θ iB_r + y θ iB_θ * b2 θ + (1 / 4 - γ) * (2 * (y θ iB_θ * y' θ iB_θ) + 2 * (y θ iB_φ * y' θ iB_φ)))).
  assert (DG : forall θ, Rabs θ < δ -> derivable_pt_lim G θ (G' θ)).
  { intros θ H. pose proof (Dε θ H) as H'.
    pose proof (Hd1 θ iρ H' ltac:(lt11)). pose proof (Hd1 θ iv_θ H' ltac:(lt11)). pose proof (Hd1 θ iv_r H' ltac:(lt11)).
    pose proof (Hd1 θ iv_φ H' ltac:(lt11)). pose proof (Hd1 θ iB_r H' ltac:(lt11)). pose proof (Hd1 θ iB_φ H' ltac:(lt11)).
    pose proof (Hd1 θ iB_θ H' ltac:(lt11)). pose proof (Hw2 θ H'). pose proof (Hb2 θ H').
    unfold G. dlim_to; try lra. unfold G', Rsqr. field. }
  assert (G'_0 : forall θ, Rabs θ < δ -> G' θ = 0).
  { intros θ H. eapply uniqueness_limite; [apply DG; exact H|].
    apply dpl_ext_loc with (f := fun _ => 0) (e := δ - Rabs θ); [lra| |apply dpl_const].
    intros t Ht. symmetry. apply G_0. replace t with ((t - θ) + θ) by ring. eapply Rle_lt_trans; [apply Rabs_triang|]. lra. }
  assert (D0 : derivable_pt_lim G' 0 0).
  { apply dpl_ext_loc with (f := fun _ => 0) (e := δ); [lra| |apply dpl_const].
    intros t Ht. symmetry. apply G'_0. rewrite Rminus_0_r in Ht. exact Ht. }
  assert (Z : Rabs 0 < ε) by (rewrite Rabs_R0; exact He).
  assert (W0 : w2 0 = y'' iv_r) by (eapply uniqueness_limite; [apply Hw2; exact Z | apply Hd2; lt11]).
  assert (B0 : b2 0 = y'' iB_r) by (eapply uniqueness_limite; [apply Hb2; exact Z | apply Hd2; lt11]).
  assert (E : forall L, derivable_pt_lim G' 0 L -> L = 0) by (intros L HL; exact (uniqueness_limite _ _ _ _ HL D0)).
  assert (E0 : G 0 = 0) by (apply G_0; rewrite Rabs_R0; exact Hδ).
  clear D0 G'_0 DG G_0.
  evar (L : R). assert (DL : derivable_pt_lim G' 0 L).
  { pose proof (Hd1 0 iρ Z ltac:(lt11)). pose proof (Hd1 0 iv_θ Z ltac:(lt11)). pose proof (Hd1 0 iv_r Z ltac:(lt11)).
    pose proof (Hd1 0 iv_φ Z ltac:(lt11)). pose proof (Hd1 0 iB_r Z ltac:(lt11)). pose proof (Hd1 0 iB_φ Z ltac:(lt11)).
    pose proof (Hd1 0 iB_θ Z ltac:(lt11)).
    pose proof (Hd2 iρ ltac:(lt11)). pose proof (Hd2 iv_θ ltac:(lt11)). pose proof (Hd2 iv_r ltac:(lt11)).
    pose proof (Hd2 iv_φ ltac:(lt11)). pose proof (Hd2 iB_r ltac:(lt11)). pose proof (Hd2 iB_φ ltac:(lt11)).
    pose proof (Hd2 iB_θ ltac:(lt11)).
    unfold G', L. dlim; try lra. }
  apply E in DL. unfold L in DL. clear E L. cbv beta in DL. unfold G in E0.
  rewrite W0, B0, !Y0, !Y1 in DL by lt11. rewrite !Y0, !Y1 in E0 by lt11. fold γ a_0 in DL, E0. fold f1 in DL, E0.
  rewrite G1, G2, G5, G6 in DL. rewrite G1, G2, G5, G6 in E0.
  assert (Z1 : f1 iρ = 0) by reflexivity. assert (Z2 : f1 iv_φ = 0) by reflexivity. assert (Z3 : f1 iv_r = 0) by reflexivity.
  assert (Z4 : f1 iB_θ = 0) by reflexivity.
  rewrite Z1, Z2, Z3, Z4 in DL. rewrite Z3 in E0. unfold Rsqr in DL. simpl in DL.
  match type of DL with ?l = 0 => match type of E0 with ?m = 0 => match goal with |- ?a = ?b =>
    assert (K2 : a - b = l - y'' iρ * m) by field end end end. rewrite DL, E0 in K2. lra.
Qed.
End Radial.
