(** Property C78: in the electric-field formulation the stored radial field obeys steady Faraday's law. *)
From Coq Require Import Reals Lra Lia.
From Verif Require Import Model_Index Model_Deriv Model_Ode Lib_Deriv Spec_MHD Spec_Ode Spec_Faraday Proofs_Ode Proofs_MHD Witness_Ode.
Open Scope R_scope.

Lemma curl_unique : forall A B C r θ a b c a' b' c', curl_is A B C r θ a b c -> curl_is A B C r θ a' b' c' -> a = a' /\ b = b' /\ c = c'.
Proof.
  intros A B C r θ a b c a' b' c' (x1 & x2 & x3 & x4 & P1 & P2 & P3 & P4 & -> & -> & ->) (y1 & y2 & y3 & y4 & Q1 & Q2 & Q3 & Q4 & -> & -> & ->).
  rewrite (uniqueness_limite _ _ _ _ P1 Q1), (uniqueness_limite _ _ _ _ P2 Q2), (uniqueness_limite _ _ _ _ P3 Q3), (uniqueness_limite _ _ _ _ P4 Q4).
  auto.
Qed.
Lemma ohm_scale_θ : forall a b c r v_r v_φ v_θ B_r B_φ B_θ J_r J_φ J_θ η_O η_A η_H, 0 < a -> 0 < r -> c * / r = b ->
  0 < B_r ^ 2 + B_φ ^ 2 + B_θ ^ 2 ->
  ohm_E_θ (b * v_r) (b * v_φ) (b * v_θ) (a * B_r) (a * B_φ) (a * B_θ) (a / r * J_r) (a / r * J_φ) (a / r * J_θ) (c * η_O) (c * η_A) (c * η_H) =
  a * b * ohm_E_θ v_r v_φ v_θ B_r B_φ B_θ J_r J_φ J_θ η_O η_A η_H.
Proof.
  intros a b c r v_r v_φ v_θ B_r B_φ B_θ J_r J_φ J_θ η_O η_A η_H Ha Hr <- HB. unfold ohm_E_θ, ohm_E.
  assert (Hn : norm3 (a * B_r) (a * B_φ) (a * B_θ) = a * norm3 B_r B_φ B_θ).
  { unfold norm3. replace ((a * B_r) ^ 2 + (a * B_φ) ^ 2 + (a * B_θ) ^ 2) with (a ^ 2 * (B_r ^ 2 + B_φ ^ 2 + B_θ ^ 2)) by ring.
    rewrite sqrt_mult by nra. rewrite sqrt_pow2 by lra. reflexivity. }
  assert (Hm0 : norm3 B_r B_φ B_θ <> 0) by (apply Rgt_not_eq, sqrt_lt_R0; exact HB).
  rewrite Hn. set (m := norm3 B_r B_φ B_θ) in *. clearbody m. clear Hn.
  unfold cross_r, cross_φ, cross_θ. field. repeat split; try assumption; lra.
Qed.

(** C78. In the electric-field formulation, the radial electric field carried in the state (radial power γ - 7/4, that
    of v B) and the polar field of Ohm's law satisfy the azimuthal component of curl E = 0, at every radius, along
    every solution, in every mode. *)
Theorem C78_faraday : forall o y θ, oa_θ_scale o = 1 -> solves_at o y θ -> oa_use_E_r o = true -> cos θ <> 0 -> B_nonzero (y θ) ->
  forall E_θ, ohmic_E_θ (fluid_of (oa_γ o) y) E_θ θ -> forall r, 0 < r ->
  faraday_φ (self_similar (oa_γ o - 7 / 4) (fun t => y t iE_r)) E_θ r θ.
Proof.
  intros o y θ Hs Hsol HE Hc HB E_θ HO r Hr.
  set (γ := oa_γ o). set (p := y θ). set (d := fst (rhs_derivs o θ p)).
  set (E0 := ohm_E_θ (p iv_r) (p iv_φ) (p iv_θ) (p iB_r) (p iB_φ) (p iB_θ) (J_r_func θ (p iB_φ) (d iB_φ)) (J_φ_func γ (p iB_θ) (d iB_r)) (J_θ_func γ (p iB_φ))
               (p iη_O) (p iη_A) (p iη_H)).
  assert (Q : forall s, 0 < s -> E_θ s θ = self_similar (γ - 7 / 4) (fun _ => E0) s θ).
  { intros s Hs0. destruct (HO s Hs0) as (jr & jp & jt & Hj & ->).
    destruct (curl_B o y θ Hs Hsol s Hs0 Hc) as (kr & kp & kt & Hk & Ekr & Ekp & Ekt).
    destruct (curl_unique _ _ _ _ _ _ _ _ _ _ _ Hj Hk) as (-> & -> & ->). subst kr kp kt.
    unfold fluid_of, self_similar_fluid, self_similar. cbn [f_B_r f_B_φ f_B_θ f_v_r f_v_φ f_v_θ f_η_O f_η_A f_η_H]. fold p γ d.
    rewrite (ohm_scale_θ _ _ _ s); [| apply Rpower_pos | exact Hs0 | | exact HB].
    - fold E0. rewrite <- Rpower_plus. f_equal. f_equal. field.
    - pose proof (Rpower_half_sq' s Hs0) as Hh. pose proof (Rpower_half_sq s Hs0) as Hq. rewrite <- Hq. simpl. rewrite Rmult_1_r, <- Rmult_assoc, Hh. ring. }
  exists (Rpower r (γ - 7 / 4) * d iE_r), ((1 + (γ - 7 / 4)) * Rpower r (γ - 7 / 4) * E0). split; [|split].
  - apply ss_pd_θ with (f := fun t => y t iE_r). apply (sol_d o y θ Hs Hsol iE_r). unfold ODE_LEN, iE_r. lia.
  - unfold pd_r. apply (dpl_ext_loc (fun s => s * self_similar (γ - 7 / 4) (fun _ => E0) s θ) _ r _ r Hr).
    + intros t Ht. apply Rabs_def2 in Ht. rewrite Q by lra. reflexivity.
    + apply (ss_pd_r_r (γ - 7 / 4) r θ (fun _ => E0)). exact Hr.
  - assert (W : d iE_r = (γ - 3 / 4) * E0).
    { unfold d. rewrite rhs_E_r by exact HE. fold d. unfold deriv_E_r_func. fold γ. f_equal. unfold E0. rewrite ohm_θ_func by exact HB. reflexivity. }
    rewrite W. field. lra.
Qed.
(** Every accepted state lies on such a curve, and the polar field exists. *)
Example C78_nonvacuous : exists y E_θ, solves_at (o_ex true) y 0 /\ y 0 = p_ex /\ B_nonzero (y 0) /\ cos 0 <> 0 /\ ohmic_E_θ (fluid_of (oa_γ (o_ex true)) y) E_θ 0.
Proof.
  destruct (p_ex_ok true 0) as (e & He). destruct (tangent_solves _ _ _ _ _ He) as [H1 H2].
  set (y := fun t i => p_ex i + (t - 0) * fst (rhs_derivs (o_ex true) 0 p_ex) i) in *.
  change (y 0 = p_ex) in H1. set (F := fluid_of (oa_γ (o_ex true)) y). assert (C0 : cos 0 <> 0) by (rewrite cos_0; lra).
  exists y, (fun r θ => let P := Rpower r (oa_γ (o_ex true) - 5 / 4) / r in let d := fst (rhs_derivs (o_ex true) θ (y θ)) in
    ohm_E_θ (f_v_r F r θ) (f_v_φ F r θ) (f_v_θ F r θ) (f_B_r F r θ) (f_B_φ F r θ) (f_B_θ F r θ)
      (P * J_r_func θ (y θ iB_φ) (d iB_φ)) (P * J_φ_func (oa_γ (o_ex true)) (y θ iB_θ) (d iB_r)) (P * J_θ_func (oa_γ (o_ex true)) (y θ iB_φ))
      (f_η_O F r θ) (f_η_A F r θ) (f_η_H F r θ)).
  split; [exact H2|]. split; [exact H1|]. split; [rewrite H1; exact p_ex_B|]. split; [exact C0|].
  intros r Hr. destruct (curl_B (o_ex true) y 0 eq_refl H2 r Hr C0) as (jr & jp & jt & Hj & E1 & E2 & E3).
  exists jr, jp, jt. split; [exact Hj|]. subst jr jp jt. reflexivity.
Qed.
Print Assumptions C78_faraday.
