(** The second-order coefficients of solutions at the midplane, derived from the differential equations. *)
From Coq Require Import Reals List Lra Lia.
From Verif Require Import Model_Index Model_Deriv Model_Midplane Model_Ode Lib_Deriv Spec_Fields
  Spec_MHD Spec_Ode Spec_Midplane Proofs_Ode Proofs_MHD Proofs_Midplane.
Open Scope R_scope.

Ltac lt11 := unfold iB_r, iB_φ, iB_θ, iv_r, iv_φ, iv_θ, iρ, iη_O, iη_A, iη_H, iE_r, iB_φ_prime, ODE_LEN; lia.

(** ** Reading the ordinary differential equations off the partial ones, at radius 1 *)
Section Elim.
Variables (γ a_0 : R) (y : R -> vec) (d : vec) (θ : R).
Hypothesis Hd : forall i, (i < ODE_LEN)%nat -> derivable_pt_lim (fun t => y t i) θ (d i).
Hypothesis Hcos : cos θ <> 0.
Let p := y θ.
Let P1 : forall k, Rpower 1 k = 1.
Proof. intros k. unfold Rpower. rewrite ln_1, Rmult_0_r. apply exp_0. Qed.
Let H1 : 0 < 1 := Rlt_0_1.

Ltac uniq H K := let E := fresh "E" in pose proof (uniqueness_limite _ _ _ _ H K) as E; rewrite ?P1 in E; clear H.

Lemma solenoidal_elim : solenoidal (fluid_of γ y) 1 θ ->
  d iB_θ = p iB_θ * tan θ - (γ + 3 / 4) * p iB_r.
Proof.
  intros (a & b & Ha & Hb & E). unfold fluid_of, self_similar_fluid in Ha, Hb. simpl in Ha, Hb.
  uniq Ha (ss_pd_r_r2 (γ - 5 / 4) 1 θ (fun t => y t iB_r) H1).
  uniq Hb (ss_pd_θ_cos (γ - 5 / 4) 1 θ (fun t => y t iB_θ) _ (Hd iB_θ ltac:(lt11))).
  subst a b. fold p in E. rewrite sin_tan in E by assumption.
  assert (E' : 0 = (2 + (γ - 5 / 4)) * p iB_r + (d iB_θ - tan θ * p iB_θ)).
  { rewrite E. field. assumption. }
  lra.
Qed.
Lemma mass_elim : mass_conserved (fluid_of γ y) 1 θ ->
  p iρ * d iv_θ = - p iρ * (2 * γ * p iv_r) - d iρ * p iv_θ + p iρ * p iv_θ * tan θ.
Proof.
  intros (a & b & Ha & Hb & E). unfold fluid_of, self_similar_fluid, self_similar in Ha, Hb. simpl in Ha, Hb.
  assert (Ka : pd_r (fun r θ => r ^ 2 * (Rpower r (2 * γ - 3 / 2) * y θ iρ * (Rpower r (- 1 / 2) * y θ iv_r))) 1 θ
    (2 * γ * p iρ * p iv_r)).
  { unfold pd_r. dlim_to; try exact H1. rewrite !P1. fold p. simpl. field. }
  assert (Kb : pd_θ (fun r θ => cos θ * (Rpower r (2 * γ - 3 / 2) * y θ iρ * (Rpower r (- 1 / 2) * y θ iv_θ))) 1 θ
    (cos θ * (p iρ * d iv_θ + d iρ * p iv_θ) - sin θ * p iρ * p iv_θ)).
  { pose proof (Hd iρ ltac:(lt11)). pose proof (Hd iv_θ ltac:(lt11)).
    unfold pd_θ. dlim_to. rewrite !P1. fold p. ring. }
  uniq Ha Ka. uniq Hb Kb. subst a b. rewrite sin_tan in E by assumption.
  assert (E' : 0 = 2 * γ * p iρ * p iv_r + (p iρ * d iv_θ + d iρ * p iv_θ) - tan θ * p iρ * p iv_θ).
  { rewrite E. field. assumption. }
  lra.
Qed.
Lemma momentum_θ_elim : momentum_θ a_0 (fluid_of γ y) 1 θ ->
  d iρ = - p iρ * (p iv_θ * (p iv_r / 2 + d iv_θ) + p iv_φ ^ 2 * tan θ)
    - a_0 * (p iB_r * (d iB_r + p iB_θ * (1 / 4 - γ)) + p iB_φ * (d iB_φ - p iB_φ * tan θ)).
Proof.
  intros (ar & ap & at_ & gr & gt & jr & jp & jt & Ha & Hg & Hj & E).
  destruct Ha as (rr & rt & pr & pt & tr & tt & _ & _ & _ & _ & Htr & Htt & _ & _ & Eat).
  destruct Hg as (u & w & _ & Hw & _ & Egt).
  destruct Hj as (ja & jb & jc & jd & Hja & Hjb & Hjc & Hjd & Ejr & Ejp & Ejt).
  unfold fluid_of, self_similar_fluid in *. simpl in *.
  uniq Htr (ss_pd_r (- 1 / 2) 1 θ (fun t => y t iv_θ) H1).
  uniq Htt (ss_pd_θ (- 1 / 2) 1 θ (fun t => y t iv_θ) _ (Hd iv_θ ltac:(lt11))).
  uniq Hja (ss_pd_θ_cos (γ - 5 / 4) 1 θ (fun t => y t iB_φ) _ (Hd iB_φ ltac:(lt11))).
  uniq Hjb (ss_pd_θ (γ - 5 / 4) 1 θ (fun t => y t iB_r) _ (Hd iB_r ltac:(lt11))).
  uniq Hjc (ss_pd_r_r (γ - 5 / 4) 1 θ (fun t => y t iB_θ) H1).
  assert (Kw : pd_θ (pressure (fluid_of γ y)) 1 θ (d iρ)).
  { pose proof (Hd iρ ltac:(lt11)). unfold pressure, fluid_of, self_similar_fluid, self_similar, pd_θ. simpl.
    dlim_to; [lra|]. rewrite P1. unfold Rsqr. field. }
  uniq Hw Kw. subst. unfold self_similar, cross_θ in E. rewrite !P1 in E. simpl in E.
  fold p in E. fold p. rewrite sin_tan in E by assumption.
  match type of E with ?l = ?r => assert (E' : d iρ = d iρ + r - l) by (rewrite E; ring) end.
  rewrite E'. field. assumption.
Qed.

Lemma solenoidal_intro : d iB_θ = p iB_θ * tan θ - (γ + 3 / 4) * p iB_r -> solenoidal (fluid_of γ y) 1 θ.
Proof.
  intros E. unfold solenoidal, divergence_is, fluid_of, self_similar_fluid. simpl.
  do 2 eexists. split; [apply (ss_pd_r_r2 (γ - 5 / 4) 1 θ (fun t => y t iB_r) H1)|].
  split; [apply (ss_pd_θ_cos (γ - 5 / 4) 1 θ (fun t => y t iB_θ) _ (Hd iB_θ ltac:(lt11)))|].
  rewrite !P1. fold p. rewrite E, sin_tan by assumption. field. assumption.
Qed.
Lemma momentum_θ_intro :
  d iρ = - p iρ * (p iv_θ * (p iv_r / 2 + d iv_θ) + p iv_φ ^ 2 * tan θ)
    - a_0 * (p iB_r * (d iB_r + p iB_θ * (1 / 4 - γ)) + p iB_φ * (d iB_φ - p iB_φ * tan θ)) ->
  momentum_θ a_0 (fluid_of γ y) 1 θ.
Proof.
  intros E. unfold momentum_θ. do 8 eexists. split; [|split; [|split]].
  - unfold advection_is. do 6 eexists. unfold fluid_of, self_similar_fluid. simpl.
    split; [apply (ss_pd_r _ 1 θ (fun t => y t iv_r) H1)|].
    split; [apply (ss_pd_θ _ 1 θ (fun t => y t iv_r) _ (Hd iv_r ltac:(lt11)))|].
    split; [apply (ss_pd_r _ 1 θ (fun t => y t iv_φ) H1)|].
    split; [apply (ss_pd_θ _ 1 θ (fun t => y t iv_φ) _ (Hd iv_φ ltac:(lt11)))|].
    split; [apply (ss_pd_r _ 1 θ (fun t => y t iv_θ) H1)|].
    split; [apply (ss_pd_θ _ 1 θ (fun t => y t iv_θ) _ (Hd iv_θ ltac:(lt11)))|].
    repeat split; reflexivity.
  - unfold gradient_is. pose proof (Hd iρ ltac:(lt11)). do 2 eexists.
    unfold pressure, fluid_of, self_similar_fluid, self_similar. simpl.
    split; [unfold pd_r; dlim; lra|]. split; [unfold pd_θ; dlim; lra|]. split; reflexivity.
  - unfold curl_is. do 4 eexists. unfold fluid_of, self_similar_fluid. simpl.
    split; [apply (ss_pd_θ_cos _ 1 θ (fun t => y t iB_φ) _ (Hd iB_φ ltac:(lt11)))|].
    split; [apply (ss_pd_θ _ 1 θ (fun t => y t iB_r) _ (Hd iB_r ltac:(lt11)))|].
    split; [apply (ss_pd_r_r _ 1 θ (fun t => y t iB_θ) H1)|].
    split; [apply (ss_pd_r_r _ 1 θ (fun t => y t iB_φ) H1)|].
    repeat split; reflexivity.
  - unfold fluid_of, self_similar_fluid, self_similar, cross_θ, Rsqr. simpl. rewrite !P1. fold p.
    rewrite E, sin_tan by assumption. field. assumption.
Qed.
End Elim.

Section Curve.
Variables (inp : cond_input) (c : conditions).
Hypothesis Hc : define_conditions inp = Some c.
Variables (y y' : R -> vec) (y'' : vec) (ε : R).
Hypothesis Hy : twice_differentiable y y' y'' ε.
Hypothesis Hs : starts_regularly c y y'.

Let Hcos : exists δ, 0 < δ <= ε /\ forall θ, Rabs θ < δ -> cos θ <> 0.
Proof.
  destruct Hy as (He & _). exists (Rmin ε 1). split.
  - split; [apply Rmin_pos; lra | apply Rmin_l].
  - intros θ Ht. assert (Rabs θ < 1) by (eapply Rlt_le_trans; [exact Ht | apply Rmin_r]).
    apply Rabs_def2 in H. apply Rgt_not_eq, cos_gt_0; pose proof PI_RGT_0; pose proof PI2_1; lra.
Qed.

Let Y0 : forall i, (i < ODE_LEN)%nat -> y 0 i = c_init_con c i.
Proof. apply Hs. Qed.

(** Differentiating an equation y'_i = F at the midplane. *)
Lemma second_of : forall i F l, (i < ODE_LEN)%nat ->
  (forall θ, Rabs θ < ε -> cos θ <> 0 -> y' θ i = F θ) -> derivable_pt_lim F 0 l -> y'' i = l.
Proof.
  intros i F l Hi HF HdF. destruct Hy as (He & Hd1 & Hd2). destruct Hcos as (δ & Hδ & Hc').
  eapply uniqueness_limite; [apply Hd2; exact Hi|].
  apply dpl_ext_loc with (f := F) (e := δ); [lra| |assumption].
  intros t Ht. rewrite Rminus_0_r in Ht. symmetry. apply HF; [lra | apply Hc'; assumption].
Qed.
Let dy : forall i, (i < ODE_LEN)%nat -> derivable_pt_lim (fun t => y t i) 0 (y' 0 i).
Proof. intros i Hi. destruct Hy as (He & Hd1 & _). apply Hd1; [rewrite Rabs_R0; assumption | assumption]. Qed.
Let ddy : forall i, (i < ODE_LEN)%nat -> derivable_pt_lim (fun t => y' t i) 0 (y'' i).
Proof. apply Hy. Qed.
Let near : forall θ, Rabs θ < ε -> forall i, (i < ODE_LEN)%nat -> derivable_pt_lim (fun t => y t i) θ (y' θ i).
Proof. intros θ Ht i Hi. apply Hy; assumption. Qed.
Let cos0 : cos 0 <> 0.
Proof. rewrite cos_0. lra. Qed.
Let f1 := get_taylor_first_order (c_init_con c) (c_γ c) (c_a_0 c).
Let Y1 : forall i, (i < ODE_LEN)%nat -> y' 0 i = f1 i.
Proof. apply Hs. Qed.

Lemma B_θ_second : (forall θ, Rabs θ < ε -> solenoidal (fluid_of (c_γ c) y) 1 θ) ->
  forall ηd uE, y'' iB_θ = get_taylor_second_order (c_init_con c) (c_γ c) (c_a_0 c) ηd uE iB_θ.
Proof.
  intros Heq ηd uE.
  destruct (cond_fields _ _ Hc) as (v & Hv & F1 & F2 & F3 & G0 & G1 & G2 & G3 & G4 & G5 & G6 & G8 & G9 & G10 & G7).
  apply second_of with (F := fun θ => y θ iB_θ * tan θ - (c_γ c + 3 / 4) * y θ iB_r); [lt11| |].
  - intros θ Ht Hc'. apply solenoidal_elim; auto.
  - pose proof (dy iB_θ ltac:(lt11)). pose proof (dy iB_r ltac:(lt11)).
    dlim_to; [exact cos0|]. rewrite (Y1 iB_θ), (Y1 iB_r), !Y0, tan_0, G0, G2 by lt11.
    transitivity (1 - (c_γ c + 3 / 4) * f1 iB_r); [ring|].
    unfold f1. destruct uE; reflexivity.
Qed.

Definition true_dderiv_ρ : R :=
  - (c_init_con c iv_φ ^ 2 + c_a_0 c * (f1 iB_r * (1 / 4 - c_γ c + f1 iB_r) + f1 iB_φ ^ 2)
     - c_γ c * (1 - 4 * c_γ c) * c_init_con c iv_r ^ 2).

Lemma ρ_second : (forall θ, Rabs θ < ε -> momentum_θ (c_a_0 c) (fluid_of (c_γ c) y) 1 θ) ->
  y'' iρ = true_dderiv_ρ.
Proof.
  intros Heq.
  destruct (cond_fields _ _ Hc) as (v & Hv & F1 & F2 & F3 & G0 & G1 & G2 & G3 & G4 & G5 & G6 & G8 & G9 & G10 & G7).
  apply second_of with (F := fun θ => - y θ iρ * (y θ iv_θ * (y θ iv_r / 2 + y' θ iv_θ) + y θ iv_φ ^ 2 * tan θ)
    - c_a_0 c * (y θ iB_r * (y' θ iB_r + y θ iB_θ * (1 / 4 - c_γ c))
         + y θ iB_φ * (y' θ iB_φ - y θ iB_φ * tan θ))); [lt11| |].
  - intros θ Ht Hc'. apply momentum_θ_elim; auto.
  - pose proof (dy iB_θ ltac:(lt11)). pose proof (dy iB_r ltac:(lt11)). pose proof (dy iB_φ ltac:(lt11)).
    pose proof (dy iv_θ ltac:(lt11)). pose proof (dy iv_r ltac:(lt11)). pose proof (dy iv_φ ltac:(lt11)).
    pose proof (dy iρ ltac:(lt11)).
    pose proof (ddy iB_r ltac:(lt11)). pose proof (ddy iB_φ ltac:(lt11)). pose proof (ddy iv_θ ltac:(lt11)).
    dlim_to; [lra | exact cos0 | exact cos0 |].
    rewrite !Y0, tan_0, G0, G1, G2, G5, G6 by lt11. rewrite (Y1 iB_r), (Y1 iB_φ), (Y1 iv_θ) by lt11.
    assert (Ev : f1 iv_θ = - 2 * c_γ c * c_init_con c iv_r) by reflexivity.
    rewrite Ev. unfold true_dderiv_ρ. unfold Rsqr. simpl. field.
Qed.
Lemma code_dderiv_ρ : forall ηd uE,
  get_taylor_second_order (c_init_con c) (c_γ c) (c_a_0 c) ηd uE iρ =
  true_dderiv_ρ - c_γ c * (1 - 4 * c_γ c) * c_init_con c iv_r ^ 2 / 2.
Proof.
  intros ηd uE. unfold true_dderiv_ρ, f1.
  transitivity (- Y_1_func (c_init_con c iv_r) (c_init_con c iv_φ)
    (get_taylor_first_order (c_init_con c) (c_γ c) (c_a_0 c) iB_r)
    (get_taylor_first_order (c_init_con c) (c_γ c) (c_a_0 c) iB_φ) (c_γ c) (c_a_0 c)).
  - destruct uE; reflexivity.
  - unfold Y_1_func. field.
Qed.

Lemma E_r_second : in_η_O inp + in_η_A inp <> 0 ->
  (forall θ, Rabs θ < ε -> faraday_E_r (c_γ c) θ (y θ) (y' θ)) ->
  forall ηd, y'' iE_r = get_taylor_second_order (c_init_con c) (c_γ c) (c_a_0 c) ηd true iE_r.
Proof.
  intros HP Heq ηd.
  destruct (cond_fields _ _ Hc) as (v & Hv & F1 & F2 & F3 & G0 & G1 & G2 & G3 & G4 & G5 & G6 & G8 & G9 & G10 & G7).
  pose proof (sqrt_1' _ G0 G1 G2) as Hm.
  apply second_of with (F := fun θ => (c_γ c - 3 / 4) *
    ohm_E_θ (y θ iv_r) (y θ iv_φ) (y θ iv_θ) (y θ iB_r) (y θ iB_φ) (y θ iB_θ)
      (y θ iB_φ * tan θ - y' θ iB_φ) (y' θ iB_r + y θ iB_θ * (1 / 4 - c_γ c)) (- y θ iB_φ * (1 / 4 - c_γ c))
      (y θ iη_O) (y θ iη_A) (y θ iη_H)); [lt11| |].
  - intros θ Ht Hc'. apply Heq, Ht.
  - pose proof (dy iB_θ ltac:(lt11)). pose proof (dy iB_r ltac:(lt11)). pose proof (dy iB_φ ltac:(lt11)).
    pose proof (dy iv_θ ltac:(lt11)). pose proof (dy iv_r ltac:(lt11)). pose proof (dy iv_φ ltac:(lt11)).
    pose proof (dy iη_O ltac:(lt11)). pose proof (dy iη_A ltac:(lt11)). pose proof (dy iη_H ltac:(lt11)).
    pose proof (ddy iB_r ltac:(lt11)). pose proof (ddy iB_φ ltac:(lt11)).
    unfold ohm_E_θ, ohm_E, norm3, cross_r, cross_φ, cross_θ.
    assert (Hm' : sqrt (y 0 iB_r ^ 2 + y 0 iB_φ ^ 2 + y 0 iB_θ ^ 2) = 1) by (rewrite !Y0 by lt11; exact Hm).
    eapply dpl_eq; [dlim; try exact cos0; try (rewrite Hm'; lra); try (rewrite !Y0, G0, G1, G2 by lt11; lra)|].
    rewrite Hm', !Y0, tan_0, G0, G1, G2, G3, G4, G8, G9, G10 by lt11.
    rewrite (Y1 iB_r), (Y1 iB_φ), (Y1 iB_θ) by lt11.
    assert (Eθ : f1 iB_θ = 0) by reflexivity. rewrite Eθ.
    transitivity (dderiv_E_r_midplane (c_init_con c iv_r) (c_init_con c iv_φ) (f1 iB_r) (f1 iB_φ) (c_γ c)
       (c_init_con c iη_H) (c_init_con c iη_O + c_init_con c iη_A)); [|reflexivity].
    rewrite G3, G4, G8, G9, G10. unfold dderiv_E_r_midplane. unfold Rsqr. simpl. field.
Qed.

(** ** The diffusivities *)
Lemma η_second : forall X, In X DIFFUSIVE_INDEXES ->
  (forall θ, Rabs θ < ε -> solenoidal (fluid_of (c_γ c) y) 1 θ) ->
  (forall θ, Rabs θ < ε -> y θ iρ <> 0) ->
  (forall θ, Rabs θ < ε -> y θ X = c_init_con c X * B_sq_over_ρ (y θ)) ->
  forall uE, let C := get_taylor_second_order (c_init_con c) (c_γ c) (c_a_0 c) true uE in
  C X = y'' X + c_init_con c X * (y'' iρ - C iρ).
Proof.
  intros X HX Hsol Hρ Hrel uE C.
  destruct (cond_fields _ _ Hc) as (v & Hv & F1 & F2 & F3 & G0 & G1 & G2 & G3 & G4 & G5 & G6 & G8 & G9 & G10 & G7).
  assert (Hlt : (X < ODE_LEN)%nat) by (simpl in HX; destruct HX as [<- | [<- | [<- | []]]]; lt11).
  pose proof (B_θ_second Hsol true uE) as EB. fold C in EB.
  assert (E : y'' X = c_init_con c X * (2 * (f1 iB_r ^ 2 + f1 iB_φ ^ 2 + y'' iB_θ) - y'' iρ)).
  { apply second_of with (F := fun θ => c_init_con c X *
      ((2 * y θ iB_r * y' θ iB_r + 2 * y θ iB_φ * y' θ iB_φ + 2 * y θ iB_θ * y' θ iB_θ) / y θ iρ
       - (y θ iB_r ^ 2 + y θ iB_φ ^ 2 + y θ iB_θ ^ 2) * y' θ iρ / (y θ iρ * y θ iρ))); [exact Hlt| |].
    - intros θ Ht _. eapply uniqueness_limite; [apply (near θ Ht X Hlt)|].
      apply dpl_ext_loc with (f := fun t => c_init_con c X * B_sq_over_ρ (y t)) (e := ε - Rabs θ); [lra| |].
      + intros t Htt. symmetry. apply Hrel.
        replace t with ((t - θ) + θ) by ring. eapply Rle_lt_trans; [apply Rabs_triang|]. lra.
      + pose proof (near θ Ht iB_r ltac:(lt11)). pose proof (near θ Ht iB_φ ltac:(lt11)).
        pose proof (near θ Ht iB_θ ltac:(lt11)). pose proof (near θ Ht iρ ltac:(lt11)). pose proof (Hρ θ Ht) as Hr.
        unfold B_sq_over_ρ. dlim_to; [exact Hr|]. unfold Rsqr. simpl. field. exact Hr.
    - pose proof (dy iB_θ ltac:(lt11)). pose proof (dy iB_r ltac:(lt11)). pose proof (dy iB_φ ltac:(lt11)). pose proof (dy iρ ltac:(lt11)).
      pose proof (ddy iB_r ltac:(lt11)). pose proof (ddy iB_φ ltac:(lt11)). pose proof (ddy iB_θ ltac:(lt11)). pose proof (ddy iρ ltac:(lt11)).
      assert (Hρ0 : y 0 iρ <> 0) by (rewrite Y0, G6 by lt11; lra).
      dlim_to; try exact Hρ0; try (apply Rmult_integral_contrapositive_currified; exact Hρ0).
      rewrite !Y0, G0, G1, G2, G6, (Y1 iB_r), (Y1 iB_φ), (Y1 iB_θ), (Y1 iρ) by lt11.
      assert (E1 : f1 iB_θ = 0) by reflexivity. assert (E2 : f1 iρ = 0) by reflexivity. rewrite E1, E2. unfold Rsqr. simpl. field. }
  rewrite E, EB.
  assert (EC : C X = dderiv_η_skw_midplane (C iρ) (f1 iB_r) (f1 iB_φ) (C iB_θ) * c_init_con c X).
  { unfold C, f1. simpl in HX. destruct HX as [<- | [<- | [<- | []]]]; destruct uE; reflexivity. }
  rewrite EC. unfold dderiv_η_skw_midplane. ring.
Qed.

(** ** The third derivative of v_θ *)
Lemma v_θ_third : forall y2 y3,
  (forall θ, Rabs θ < ε -> derivable_pt_lim (fun t => y' t iv_θ) θ (y2 θ)) -> derivable_pt_lim y2 0 y3 ->
  forall r2 dr2, (forall θ, Rabs θ < ε -> derivable_pt_lim (fun t => y' t iρ) θ (r2 θ)) ->
  derivable_pt_lim r2 0 dr2 ->
  forall w2 dw2, (forall θ, Rabs θ < ε -> derivable_pt_lim (fun t => y' t iv_r) θ (w2 θ)) ->
  derivable_pt_lim w2 0 dw2 ->
  (forall θ, Rabs θ < ε -> y θ iρ <> 0) ->
  (forall θ, Rabs θ < ε -> mass_conserved (fluid_of (c_γ c) y) 1 θ) ->
  y3 = 4 * c_γ c * c_init_con c iv_r * (y'' iρ - 1) - 2 * c_γ c * y'' iv_r.
Proof.
  intros y2 y3 Hv2 Hv3 r2 dr2 Hr2 Hdr2 w2 dw2 Hw2 Hdw2 Hρ Hmass.
  destruct (cond_fields _ _ Hc) as (v & Hv & F1 & F2 & F3 & G0 & G1 & G2 & G3 & G4 & G5 & G6 & G8 & G9 & G10 & G7).
  pose proof Hy as (He & Hd1 & Hd2). destruct Hcos as (δ & Hδ & Hc').
  set (F := fun θ => - (2 * c_γ c * y θ iv_r) - y' θ iρ / y θ iρ * y θ iv_θ + y θ iv_θ * tan θ).
  assert (HF : forall θ, Rabs θ < δ -> y' θ iv_θ = F θ).
  { intros θ Ht. assert (Ht' : Rabs θ < ε) by lra.
    pose proof (mass_elim _ y (y' θ) θ (near θ Ht') (Hc' θ Ht) (Hmass θ Ht')) as E.
    unfold F. apply Rmult_eq_reg_l with (y θ iρ); [|apply Hρ; assumption]. rewrite E. field. apply Hρ; assumption. }
  set (G := fun θ => - (2 * c_γ c * y' θ iv_r)
     - ((r2 θ * y θ iρ - y' θ iρ * y' θ iρ) / Rsqr (y θ iρ) * y θ iv_θ + y' θ iρ / y θ iρ * y' θ iv_θ)
     + (y' θ iv_θ * tan θ + y θ iv_θ * (1 + tan θ ^ 2))).
  assert (HG : forall θ, Rabs θ < δ -> y2 θ = G θ).
  { intros θ Ht. assert (Ht' : Rabs θ < ε) by lra.
    eapply uniqueness_limite; [apply Hv2; exact Ht'|].
    apply dpl_ext_loc with (f := F) (e := δ - Rabs θ); [lra| |].
    - intros t Htt. symmetry. apply HF.
      replace t with ((t - θ) + θ) by ring. eapply Rle_lt_trans; [apply Rabs_triang|]. lra.
    - pose proof (near θ Ht' iv_r ltac:(lt11)). pose proof (near θ Ht' iv_θ ltac:(lt11)).
      pose proof (near θ Ht' iρ ltac:(lt11)). pose proof (Hr2 θ Ht').
      unfold F. dlim_to; [apply Hρ; assumption | apply Hc'; assumption |].
      unfold G. ring. }
  assert (D : derivable_pt_lim G 0 y3).
  { apply dpl_ext_loc with (f := y2) (e := δ); [lra| |assumption].
    intros t Ht. apply HG. rewrite Rminus_0_r in Ht. exact Ht. }
  eapply uniqueness_limite; [exact D|]. clear D HG. unfold G.
  pose proof (dy iv_r ltac:(lt11)). pose proof (dy iv_θ ltac:(lt11)). pose proof (dy iρ ltac:(lt11)).
  pose proof (ddy iv_r ltac:(lt11)). pose proof (ddy iv_θ ltac:(lt11)). pose proof (ddy iρ ltac:(lt11)).
  assert (Er2 : r2 0 = y'' iρ) by (eapply uniqueness_limite; [apply Hr2; rewrite Rabs_R0; lra | assumption]).
  assert (Hρ0 : y 0 iρ <> 0) by (rewrite Y0, G6 by lt11; lra).
  unfold Rsqr. dlim_to; try exact cos0; try exact Hρ0; try (apply Rmult_integral_contrapositive_currified; exact Hρ0).
    rewrite Er2, !Y0, tan_0, G5, G6, (Y1 iρ), (Y1 iv_θ) by lt11.
  assert (Ev : f1 iv_θ = - 2 * c_γ c * c_init_con c iv_r) by reflexivity.
  assert (Eρ : f1 iρ = 0) by reflexivity. rewrite Ev, Eρ. unfold Rsqr. simpl. field.
Qed.
End Curve.
