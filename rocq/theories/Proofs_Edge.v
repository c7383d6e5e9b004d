(** Proof of C131: the state after the Taylor jump depends continuously on γ. *)
From Coq Require Import Reals Lra Lia FunctionalExtensionality.
From Verif Require Import Model_Index Model_Deriv Model_Midplane Model_Ode Lib_Deriv Spec_Ode Spec_Midplane Spec_Unique Spec_Error Spec_Param Spec_Exist Spec_Edge
  Proofs_Unique Proofs_Error Proofs_Exist.
Open Scope R_scope.

Section Continuous.
Variables (inp : cond_input) (ηd : bool) (stop g0 : R).
Hypothesis PP : 0 < in_η_O inp + in_η_A inp.
Hypothesis Ha : in_v_a_on_c_s inp <> 0.
Hypothesis Rg : regular_midplane inp g0.
Let v_r := - in_v_rin_on_c_s inp.
Let a_0 := in_v_a_on_c_s inp ^ 2.
Let η_P := in_η_O inp + in_η_A inp.
Let η_H := in_η_H inp.
Let rad (g : R) := v_φ_radicand v_r η_H η_P (1 / in_c_s_on_v_k inp ^ 2) a_0 g.
Let v_φ (g : R) := v_r * η_H / (4 * η_P) + sqrt (rad g).
Let uE := in_use_E_r inp.
(** The midplane state as a function of γ. *)
Let ic (g : R) : vec :=
  let i := upd iη_H η_H (upd iη_A (in_η_A inp) (upd iη_O (in_η_O inp) (upd iρ 1 (upd iv_θ 0
        (upd iv_φ (v_φ g) (upd iv_r v_r (upd iB_θ 1 (upd iB_φ 0 (upd iB_r 0 zeros))))))))) in
  if uE then upd iE_r (E_r_boundary_func v_r (v_φ g) η_P η_H (η_P ^ 2 + η_H ^ 2) a_0) i
  else upd iB_φ_prime (B_φ_prime_boundary_func v_r (v_φ g) a_0) i.

Lemma conds : forall g, 0 <= rad g -> exists ang, conditions_for inp g = mk_conditions (1 / in_c_s_on_v_k inp ^ 2) a_0 (ic g) ang g.
Proof.
  intros g H. unfold conditions_for, define_conditions, v_φ_boundary_func, with_γ.
  cbn [in_v_rin_on_c_s in_v_a_on_c_s in_c_s_on_v_k in_γ in_η_O in_η_A in_η_H in_use_E_r in_start in_stop in_num_angles].
  fold v_r a_0 η_P η_H. change (v_φ_radicand v_r η_H η_P (1 / in_c_s_on_v_k inp ^ 2) a_0 g) with (rad g).
  destruct (Rlt_dec (rad g) 0); [lra|]. eexists. reflexivity.
Qed.

Lemma rad_pos : 0 < rad g0.
Proof. destruct Rg as (H & _). exact H. Qed.
Lemma rad_cont : continuity_pt rad g0.
Proof.
  unfold rad, v_φ_radicand. repeat cc. apply derivable_continuous_pt, derivable_pt_id.
Qed.
Lemma rad_near : exists η, 0 < η /\ forall g, Rabs (g - g0) < η -> 0 < rad g.
Proof.
  destruct (rad_cont (rad g0) rad_pos) as (k & Pk & Hk). exists k. split; [exact Pk|]. intros g Hg.
  destruct (Req_dec g g0) as [->|N]; [exact rad_pos|]. specialize (Hk g). unfold D_x, no_cond in Hk. cbn [dist R_met Base] in Hk. unfold R_dist in Hk.
  assert (Q : Rabs (rad g - rad g0) < rad g0) by (apply Hk; split; [split; [exact I|intros E; apply N; symmetry; exact E]|exact Hg]).
  apply Rabs_def2 in Q. lra.
Qed.
Lemma v_φ_cont : continuity_pt v_φ g0.
Proof.
  unfold v_φ. apply (continuity_pt_plus (fun _ => v_r * η_H / (4 * η_P)) (fun g => sqrt (rad g))); [apply cp_const|].
  apply (continuity_pt_comp rad sqrt); [exact rad_cont|]. apply continuity_pt_sqrt. left. exact rad_pos.
Qed.

(** *** Every coefficient *)
Let dB_φ g := B_φ_prime_boundary_func v_r (v_φ g) a_0.
Let dB_r g := deriv_B_r_midplane_func g (dB_φ g) η_H η_P v_r.
Let ddB_θ g := 1 - (g + 3 / 4) * dB_r g.
Let ddE_r g := dderiv_E_r_midplane v_r (v_φ g) (dB_r g) (dB_φ g) g η_H η_P.
Let Y1 g := Y_1_func v_r (v_φ g) (dB_r g) (dB_φ g) g a_0.
Let sc g := if ηd then dderiv_η_skw_midplane (- Y1 g) (dB_r g) (dB_φ g) (ddB_θ g) else 0.
Let ddO g := sc g * in_η_O inp.
Let ddA g := sc g * in_η_A inp.
Let ddH g := sc g * η_H.
Let ddP g := ddO g + ddA g.
Let ddb_θ g := dderiv_b_θ_midplane (dB_r g) (dB_φ g).
Let C := midplane_C_func η_H η_P.
Let dA g := midplane_deriv_A_func (ddH g) (ddb_θ g) C (in_η_A inp) (dB_φ g) (dB_r g) η_P η_H (ddP g).
Let Z5 := midplane_Z_5_func (η_P ^ 2 + η_H ^ 2) η_P.
Let ddZ5 g := dderiv_Z_5_midplane (ddP g) (in_η_A inp) (dB_φ g) (dA g) η_H C (ddH g) (ddb_θ g) (dB_r g).
Let Y2 g := Y_2_func (dB_r g) (- 2 * g * v_r) v_r (ddB_θ g) (dB_φ g) (ddH g) η_H (dB_r g) g (ddb_θ g) (ddP g) (in_η_A inp) η_P.
Let Y3 g := Y_3_func (dA g) v_r C (- 2 * g * v_r) (dB_r g) (ddB_θ g) (ddE_r g) (v_φ g) (dB_φ g) η_P g η_H (dB_φ g) (in_η_A inp) (dB_r g) (ddZ5 g) Z5.
Let Y4 g := Y_4_func a_0 v_r (v_φ g) (dB_r g) (dB_φ g) g (Y2 g) (Y1 g).
Let Y5 g := Y_5_func a_0 v_r g Z5.
Let Y6 g := Y_6_func (v_φ g) (Y5 g) a_0 C Z5 g v_r η_P η_H.
Let ddv_r g := dderiv_v_r_midplane a_0 (Y3 g) (Y2 g) (Y1 g) (Y6 g) (Y5 g) (Y4 g) η_H η_P Z5 (v_φ g) v_r g (ddB_θ g) (dB_r g) (dB_φ g).
Let ddv_φ g := dderiv_v_φ_midplane a_0 (v_φ g) (ddv_r g) C Z5 (Y5 g) (Y4 g).
Let ddB_φ' g := ddderiv_B_φ_midplane (ddv_r g) (ddv_φ g) (Y2 g) C Z5.
Let dddB_r g := ddderiv_B_r_midplane (Y3 g) η_H η_P (ddv_r g) (ddB_φ' g).

Let cid : continuity_pt (fun g => g) g0 := derivable_continuous_pt _ _ (derivable_pt_id g0).
Lemma a0_nz : 2 * a_0 <> 0.
Proof. assert (a_0 <> 0) by (apply pow_nonzero, Ha). lra. Qed.
Lemma P_nz : η_P <> 0.
Proof. unfold η_P. lra. Qed.
Lemma Z5_nz : Z5 <> 0.
Proof.
  unfold Z5, midplane_Z_5_func. assert (0 < η_P) by exact PP. apply Rgt_not_eq, Rdiv_lt_0_compat; [|assumption].
  assert (0 < η_P ^ 2) by (apply pow_lt; assumption). pose proof (pow2_ge_0 η_H). lra.
Qed.
Lemma Y5_nz : Y5 g0 <> 0.
Proof. destruct Rg as (_ & H & _). exact H. Qed.
Lemma Y6_nz : Y6 g0 <> 0.
Proof.
  destruct Rg as (_ & _ & H). destruct (conds g0 (Rlt_le _ _ rad_pos)) as (ang & E). rewrite E in H. cbn [c_init_con] in H.
  replace (ic g0 iv_φ) with (v_φ g0) in H; [exact H|]. unfold ic. destruct uE; reflexivity.
Qed.
Ltac dz := first [exact a0_nz | exact P_nz | exact Z5_nz | exact Y5_nz | exact Y6_nz | apply Rmult_integral_contrapositive_currified; dz | lra].
Lemma c_dB_φ : continuity_pt dB_φ g0.
Proof. pose proof v_φ_cont. pose proof cid. unfold dB_φ, B_φ_prime_boundary_func. repeat cc; dz. Qed.
Lemma c_dB_r : continuity_pt dB_r g0.
Proof. pose proof c_dB_φ. pose proof cid. unfold dB_r, deriv_B_r_midplane_func. repeat cc; dz. Qed.
Lemma c_ddB_θ : continuity_pt ddB_θ g0.
Proof. pose proof c_dB_r. pose proof cid. unfold ddB_θ. repeat cc; dz. Qed.
Lemma c_ddE_r : continuity_pt ddE_r g0.
Proof. pose proof v_φ_cont. pose proof c_dB_r. pose proof c_dB_φ. pose proof cid. unfold ddE_r, dderiv_E_r_midplane. repeat cc; dz. Qed.
Lemma c_Y1 : continuity_pt Y1 g0.
Proof. pose proof v_φ_cont. pose proof c_dB_r. pose proof c_dB_φ. pose proof cid. unfold Y1, Y_1_func. repeat cc; try dz; lra. Qed.
Lemma c_sc : continuity_pt sc g0.
Proof.
  pose proof c_Y1. pose proof c_dB_r. pose proof c_dB_φ. pose proof c_ddB_θ. unfold sc. destruct ηd; [|apply cp_const].
  unfold dderiv_η_skw_midplane. repeat cc.
Qed.
Lemma c_ddO : continuity_pt ddO g0. Proof. pose proof c_sc. unfold ddO. repeat cc. Qed.
Lemma c_ddA : continuity_pt ddA g0. Proof. pose proof c_sc. unfold ddA. repeat cc. Qed.
Lemma c_ddH : continuity_pt ddH g0. Proof. pose proof c_sc. unfold ddH. repeat cc. Qed.
Lemma c_ddP : continuity_pt ddP g0. Proof. pose proof c_ddO. pose proof c_ddA. unfold ddP. repeat cc. Qed.
Lemma c_ddb_θ : continuity_pt ddb_θ g0. Proof. pose proof c_dB_r. pose proof c_dB_φ. unfold ddb_θ, dderiv_b_θ_midplane. repeat cc. Qed.
Lemma c_dA : continuity_pt dA g0.
Proof. pose proof c_ddH. pose proof c_ddb_θ. pose proof c_dB_φ. pose proof c_dB_r. pose proof c_ddP. unfold dA, midplane_deriv_A_func. repeat cc; dz. Qed.
Lemma c_ddZ5 : continuity_pt ddZ5 g0.
Proof. pose proof c_ddH. pose proof c_ddb_θ. pose proof c_dB_φ. pose proof c_dB_r. pose proof c_ddP. pose proof c_dA. unfold ddZ5, dderiv_Z_5_midplane. repeat cc; dz. Qed.
Lemma c_Y2 : continuity_pt Y2 g0.
Proof. pose proof cid. pose proof c_ddH. pose proof c_ddb_θ. pose proof c_dB_φ. pose proof c_dB_r. pose proof c_ddP. pose proof c_ddB_θ. unfold Y2, Y_2_func. repeat cc; dz. Qed.
Lemma c_Y3 : continuity_pt Y3 g0.
Proof.
  pose proof cid. pose proof c_dA. pose proof c_dB_φ. pose proof c_dB_r. pose proof c_ddB_θ. pose proof c_ddE_r. pose proof v_φ_cont. pose proof c_ddZ5.
  unfold Y3, Y_3_func. repeat cc; dz.
Qed.
Lemma c_Y4 : continuity_pt Y4 g0.
Proof. pose proof cid. pose proof c_dB_φ. pose proof c_dB_r. pose proof v_φ_cont. pose proof c_Y1. pose proof c_Y2. unfold Y4, Y_4_func. repeat cc; dz. Qed.
Lemma c_Y5 : continuity_pt Y5 g0. Proof. pose proof cid. unfold Y5, Y_5_func. repeat cc; dz. Qed.
Lemma c_Y6 : continuity_pt Y6 g0.
Proof. pose proof cid. pose proof v_φ_cont. pose proof c_Y5. unfold Y6, Y_6_func. repeat cc; try dz; lra. Qed.
Lemma c_ddv_r : continuity_pt ddv_r g0.
Proof.
  pose proof cid. pose proof v_φ_cont. pose proof c_dB_φ. pose proof c_dB_r. pose proof c_ddB_θ. pose proof c_Y1. pose proof c_Y2. pose proof c_Y3. pose proof c_Y4.
  pose proof c_Y5. pose proof c_Y6. unfold ddv_r, dderiv_v_r_midplane. repeat cc; try dz; lra.
Qed.
Lemma c_ddv_φ : continuity_pt ddv_φ g0.
Proof. pose proof v_φ_cont. pose proof c_ddv_r. pose proof c_Y5. pose proof c_Y4. unfold ddv_φ, dderiv_v_φ_midplane. repeat cc; dz. Qed.
Lemma c_ddB_φ' : continuity_pt ddB_φ' g0.
Proof. pose proof c_ddv_r. pose proof c_ddv_φ. pose proof c_Y2. unfold ddB_φ', ddderiv_B_φ_midplane. repeat cc; dz. Qed.
Lemma c_dddB_r : continuity_pt dddB_r g0.
Proof. pose proof c_ddv_r. pose proof c_Y3. pose proof c_ddB_φ'. unfold dddB_r, ddderiv_B_r_midplane. repeat cc; dz. Qed.

(** *** The state after the jump *)
Let t := stop / 1.
Let st (g : R) : vec := fun i => ic g i + t * (get_taylor_first_order (ic g) g a_0 i
  + t / 2 * (get_taylor_second_order (ic g) g a_0 ηd uE i + t / 3 * get_taylor_third_order (ic g) g a_0 ηd uE i)).
Lemma c_st : forall i, (i < ODE_LEN)%nat -> continuity_pt (fun g => st g i) g0.
Proof.
  intros i Hl.
  assert (eq : forall G : R -> R, (forall g, st g i = G g) -> continuity_pt G g0 -> continuity_pt (fun g => st g i) g0).
  { intros G E H. replace (fun g => st g i) with G; [exact H|]. apply functional_extensionality. intros g. symmetry. apply E. }
  pose proof cid. pose proof v_φ_cont. pose proof c_dB_φ. pose proof c_dB_r. pose proof c_ddB_θ. pose proof c_ddE_r. pose proof c_Y1. pose proof c_ddO. pose proof c_ddA.
  pose proof c_ddH. pose proof c_ddv_r. pose proof c_ddv_φ. pose proof c_ddB_φ'. pose proof c_dddB_r.
  unfold ODE_LEN in Hl.
  destruct i as [|i]. { apply (eq (fun g => 0 + t * (dB_r g + t / 2 * (0 + t / 3 * dddB_r g)))); [intros g; unfold st, ic; destruct uE; reflexivity|]. repeat cc. }
  destruct i as [|i]. { apply (eq (fun g => 0 + t * (dB_φ g + t / 2 * (0 + t / 3 * ddB_φ' g)))); [intros g; unfold st, ic; destruct uE; reflexivity|]. repeat cc. }
  destruct i as [|i]. { apply (eq (fun g => 1 + t * (0 + t / 2 * (ddB_θ g + t / 3 * 0)))); [intros g; unfold st, ic; destruct uE; reflexivity|]. repeat cc. }
  destruct i as [|i]. { apply (eq (fun g => v_r + t * (0 + t / 2 * (ddv_r g + t / 3 * 0)))); [intros g; unfold st, ic; destruct uE; reflexivity|]. repeat cc. }
  destruct i as [|i]. { apply (eq (fun g => v_φ g + t * (0 + t / 2 * (ddv_φ g + t / 3 * 0)))); [intros g; unfold st, ic; destruct uE; reflexivity|]. repeat cc. }
  destruct i as [|i]. { apply (eq (fun g => 0 + t * (- 2 * g * v_r + t / 2 * (0 + t / 3 * ddv_φ g)))); [intros g; unfold st, ic; destruct uE; reflexivity|]. repeat cc. }
  destruct i as [|i]. { apply (eq (fun g => 1 + t * (0 + t / 2 * (- Y1 g + t / 3 * 0)))); [intros g; unfold st, ic; destruct uE; reflexivity|]. repeat cc. }
  destruct i as [|i].
  { assert (U : uE = true \/ uE = false) by (destruct uE; auto). destruct U as [U|U].
    - apply (eq (fun g => E_r_boundary_func v_r (v_φ g) η_P η_H (η_P ^ 2 + η_H ^ 2) a_0 + t * (0 + t / 2 * (ddE_r g + t / 3 * 0)))); [intros g; unfold st, ic; rewrite U; reflexivity|].
      unfold E_r_boundary_func. repeat cc. exact a0_nz.
    - apply (eq (fun g => B_φ_prime_boundary_func v_r (v_φ g) a_0 + t * (0 + t / 2 * (ddB_φ' g + t / 3 * 0)))); [intros g; unfold st, ic; rewrite U; reflexivity|].
      unfold B_φ_prime_boundary_func. repeat cc. }
  destruct i as [|i]. { apply (eq (fun g => in_η_O inp + t * (0 + t / 2 * (ddO g + t / 3 * 0)))); [intros g; unfold st, ic; destruct uE; reflexivity|]. repeat cc. }
  destruct i as [|i]. { apply (eq (fun g => in_η_A inp + t * (0 + t / 2 * (ddA g + t / 3 * 0)))); [intros g; unfold st, ic; destruct uE; reflexivity|]. repeat cc. }
  destruct i as [|i]. { apply (eq (fun g => η_H + t * (0 + t / 2 * (ddH g + t / 3 * 0)))); [intros g; unfold st, ic; destruct uE; reflexivity|]. repeat cc. }
  lia.
Qed.

Lemma start_st : forall g, 0 <= rad g -> start_for inp ηd stop g = st g.
Proof. intros g H. unfold start_for. destruct (conds g H) as (ang & ->). reflexivity. Qed.

Lemma near_start : forall δ, 0 < δ -> exists η, 0 < η /\
  forall g, Rabs (g - g0) < η -> 0 <= start_for inp ηd stop g iη_A -> nearby (system_for inp ηd g0) (start_for inp ηd stop g0) δ (system_for inp ηd g) (start_for inp ηd stop g).
Proof.
  intros δ Pδ. destruct rad_near as (η0 & P0 & H0).
  assert (All : forall n, (n <= ODE_LEN)%nat -> exists η, 0 < η /\ forall g, Rabs (g - g0) < η -> forall i, (i < n)%nat -> Rabs (st g i - st g0 i) < δ).
  { induction n as [|n IH]; intros Hn; [exists 1; split; [lra|]; intros; lia|].
    destruct (IH ltac:(lia)) as (η & Pη & H). destruct (c_st n ltac:(lia) δ Pδ) as (k & Pk & Hk). exists (Rmin η k). split; [apply Rmin_pos; [exact Pη|exact Pk]|].
    intros g Hg i Hi. assert (Rmin η k <= η) by apply Rmin_l. assert (Rmin η k <= k) by apply Rmin_r.
    destruct (PeanoNat.Nat.eq_dec i n) as [->|Ni]; [|apply H; [lra|lia]].
    destruct (Req_dec g g0) as [->|N]; [rewrite Rminus_diag_eq, Rabs_R0 by reflexivity; exact Pδ|].
    specialize (Hk g). unfold D_x, no_cond in Hk. cbn [dist R_met Base] in Hk. unfold R_dist in Hk. apply Hk.
    split; [split; [exact I|intros E; apply N; symmetry; exact E]|lra]. }
  destruct (All ODE_LEN ltac:(lia)) as (η1 & P1 & H1). exists (Rmin η0 (Rmin η1 δ)).
  split; [repeat apply Rmin_pos; assumption|]. intros g Hg HA.
  assert (E0 : Rmin η0 (Rmin η1 δ) <= η0) by apply Rmin_l. assert (E1 : Rmin η0 (Rmin η1 δ) <= η1) by (eapply Rle_trans; [apply Rmin_r|apply Rmin_l]).
  assert (E2 : Rmin η0 (Rmin η1 δ) <= δ) by (eapply Rle_trans; [apply Rmin_r|apply Rmin_r]).
  assert (Rd : 0 <= rad g) by (left; apply H0; lra). assert (Rd0 : 0 <= rad g0) by (left; exact rad_pos).
  unfold nearby. rewrite (start_st g Rd), (start_st g0 Rd0).
  assert (A : 0 <= st g iη_A) by (rewrite <- (start_st g Rd); exact HA).
  unfold system_for. destruct (conds g Rd) as (a1 & ->). destruct (conds g0 Rd0) as (a2 & ->).
  unfold system_of, same_system, parameter_gap. cbn [c_γ c_a_0 c_norm_kepler_sq c_init_con oa_γ oa_a_0 oa_norm_kepler_sq oa_init_con oa_θ_scale oa_with_taylor oa_η_derivs oa_use_E_r oa_store_internal].
  assert (I : forall i, i = iη_O \/ i = iη_A \/ i = iη_H -> ic g i = ic g0 i) by (intros i [-> | [-> | ->]]; unfold ic; destruct uE; reflexivity).
  split; [|split; [|split; [|split; [exact A|]]]].
  - repeat split; reflexivity.
  - rewrite !(I _ (or_introl eq_refl)), !(I _ (or_intror (or_introl eq_refl))), !(I _ (or_intror (or_intror eq_refl))).
    assert (Z : forall x, Rabs (x - x) = 0) by (intros x; rewrite Rminus_diag_eq by reflexivity; apply Rabs_R0). rewrite !Z. rewrite Rabs_minus_sym. lra.
  - intros Z. rewrite (I _ (or_intror (or_introl eq_refl))). exact Z.
  - intros i Hi. apply H1; [lra|exact Hi].
Qed.
End Continuous.
