(** The self-similar fluid described by a solution of the ODE system satisfies the MHD equations. *)
From Coq Require Import Reals Lra Lia.
From Verif Require Import Model_Index Model_Deriv Model_Midplane Model_Ode Model_Validate
  Lib_Deriv Spec_MHD Spec_Ode Proofs_Ode.
Open Scope R_scope.

(** ** Powers of r *)
Lemma Rpower_pos : forall r k, 0 < Rpower r k.
Proof. intros; apply exp_pos. Qed.
Lemma Rpower_ne : forall r k, Rpower r k <> 0.
Proof. intros; apply Rgt_not_eq, Rpower_pos. Qed.
Lemma Rpower_sq : forall r k, Rpower r k ^ 2 = Rpower r (2 * k).
Proof. intros. simpl. rewrite Rmult_1_r, <- Rpower_plus. f_equal. ring. Qed.
Lemma Rpower_half_sq : forall r, 0 < r -> Rpower r (- 1 / 2) ^ 2 = / r.
Proof.
  intros r Hr. rewrite Rpower_sq. replace (2 * (- 1 / 2)) with (- (1)) by field.
  rewrite Rpower_Ropp, Rpower_1 by assumption. reflexivity.
Qed.
Lemma Rpower_half_sq' : forall r, 0 < r -> Rpower r (1 / 2) * Rpower r (- 1 / 2) = 1.
Proof.
  intros r Hr. rewrite <- Rpower_plus. replace (1 / 2 + - 1 / 2) with 0 by field. apply Rpower_O; assumption.
Qed.
Lemma Rpower_B_sq : forall r γ, 0 < r ->
  Rpower r (γ - 5 / 4) ^ 2 = Rpower r (2 * γ - 3 / 2) / r.
Proof.
  intros r γ Hr. rewrite Rpower_sq.
  replace (2 * (γ - 5 / 4)) with ((2 * γ - 3 / 2) + - (1)) by field.
  rewrite Rpower_plus, Rpower_Ropp, Rpower_1 by assumption. reflexivity.
Qed.

(** ** Partial derivatives of self-similar fields *)
Section SS.
Variables (k r θ : R) (f : R -> R) (f' : R).
Hypothesis Hr : 0 < r.
Hypothesis Hf : derivable_pt_lim f θ f'.
Lemma ss_pd_r : pd_r (self_similar k f) r θ (k * (Rpower r k / r) * f θ).
Proof. unfold pd_r, self_similar. eapply dpl_eq; [dlim; assumption|]. ring. Qed.
Lemma ss_pd_θ : pd_θ (self_similar k f) r θ (Rpower r k * f').
Proof. unfold pd_θ, self_similar. eapply dpl_eq; [dlim|]. ring. Qed.
Lemma ss_pd_r_r : pd_r (fun r θ => r * self_similar k f r θ) r θ ((1 + k) * Rpower r k * f θ).
Proof. unfold pd_r, self_similar. eapply dpl_eq; [dlim; assumption|]. field. lra. Qed.
Lemma ss_pd_r_r2 : pd_r (fun r θ => r ^ 2 * self_similar k f r θ) r θ (r * (2 + k) * Rpower r k * f θ).
Proof. unfold pd_r, self_similar. eapply dpl_eq; [dlim; assumption|]. simpl. field. lra. Qed.
Lemma ss_pd_θ_cos : pd_θ (fun r θ => cos θ * self_similar k f r θ) r θ
  (Rpower r k * (cos θ * f' - sin θ * f θ)).
Proof. unfold pd_θ, self_similar. eapply dpl_eq; [dlim|]. ring. Qed.
End SS.

Lemma sin_tan : forall θ, cos θ <> 0 -> sin θ = tan θ * cos θ.
Proof. intros θ H. unfold tan. field. assumption. Qed.

Section Solution.
Variables (o : ode_args) (y : R -> vec) (θ : R).
Hypothesis Hscale : oa_θ_scale o = 1.
Hypothesis Hsol : solves_at o y θ.
Let p := y θ.
Let d := fst (rhs_derivs o θ p).
Let γ := oa_γ o.

Lemma sol_d : forall i, (i < ODE_LEN)%nat -> derivable_pt_lim (fun t => y t i) θ (d i).
Proof.
  intros i Hi. destruct Hsol as (d' & e & Hok & Hd).
  pose proof (rhs_ok_derivs _ _ _ _ _ Hok) as Hd'. rewrite Hscale, Rmult_1_r in Hd'.
  unfold d, p. rewrite <- Hd'. apply Hd, Hi.
Qed.

Ltac solve_lt := unfold ODE_LEN, iB_r, iB_φ, iB_θ, iv_r, iv_φ, iv_θ, iρ, iη_O, iη_A, iη_H, iE_r, iB_φ_prime; lia.

Variable r : R.
Hypothesis Hr : 0 < r.
Hypothesis Hcos : cos θ <> 0.

Lemma mass : oa_with_taylor o = false -> y θ iv_θ <> 0 -> mass_conserved (fluid_of γ y) r θ.
Proof.
  intros Ht Hv. unfold mass_conserved, divergence_is, fluid_of, self_similar_fluid. simpl.
  pose proof (sol_d iρ ltac:(solve_lt)) as Dρ. pose proof (sol_d iv_θ ltac:(solve_lt)) as Dv.
  eexists. eexists. split; [|split].
  - unfold pd_r, self_similar. dlim; assumption.
  - unfold pd_θ, self_similar. dlim.
  - simpl. fold p. unfold d. rewrite rhs_ρ by assumption. fold d. unfold deriv_ρ_normal_expr. fold p in Hv.
    rewrite sin_tan by assumption. fold γ. field. repeat split; try assumption; lra.
Qed.

Lemma sole : solenoidal (fluid_of γ y) r θ.
Proof.
  unfold solenoidal, divergence_is, fluid_of, self_similar_fluid. simpl.
  pose proof (sol_d iB_θ ltac:(solve_lt)) as D.
  eexists. eexists. split; [|split].
  - apply ss_pd_r_r2 with (f := fun t => y t iB_r); assumption.
  - apply ss_pd_θ_cos with (f := fun t => y t iB_θ); eassumption.
  - simpl. fold p. unfold d. rewrite rhs_B_θ. rewrite sin_tan by assumption. fold γ.
    field. repeat split; try assumption; lra.
Qed.

Lemma curl_B : exists j_r j_φ j_θ,
  curl_is (f_B_r (fluid_of γ y)) (f_B_φ (fluid_of γ y)) (f_B_θ (fluid_of γ y)) r θ j_r j_φ j_θ /\
  j_r = Rpower r (γ - 5 / 4) / r * J_r_func θ (p iB_φ) (d iB_φ) /\
  j_φ = Rpower r (γ - 5 / 4) / r * J_φ_func γ (p iB_θ) (d iB_r) /\
  j_θ = Rpower r (γ - 5 / 4) / r * J_θ_func γ (p iB_φ).
Proof.
  pose proof (sol_d iB_φ ltac:(solve_lt)) as D1. pose proof (sol_d iB_r ltac:(solve_lt)) as D2.
  eexists. eexists. eexists. split; [|split; [|split]].
  - unfold curl_is. do 4 eexists. unfold fluid_of, self_similar_fluid. simpl.
    split; [apply ss_pd_θ_cos with (f := fun t => y t iB_φ); eassumption|].
    split; [apply ss_pd_θ with (f := fun t => y t iB_r); eassumption|].
    split; [apply ss_pd_r_r with (f := fun t => y t iB_θ); eassumption|].
    split; [apply ss_pd_r_r with (f := fun t => y t iB_φ); eassumption|].
    repeat split; reflexivity.
  - unfold J_r_func. fold p. rewrite sin_tan by assumption. field. repeat split; try assumption; lra.
  - unfold J_φ_func. fold p. field. lra.
  - unfold J_θ_func. fold p. field. lra.
Qed.

Lemma adv : exists a_r a_φ a_θ,
  advection_is (f_v_r (fluid_of γ y)) (f_v_φ (fluid_of γ y)) (f_v_θ (fluid_of γ y)) r θ a_r a_φ a_θ /\
  a_r = / r / r * (- (p iv_r) ^ 2 / 2 + p iv_θ * d iv_r - (p iv_θ ^ 2 + p iv_φ ^ 2)) /\
  a_φ = / r / r * (p iv_r * p iv_φ / 2 + p iv_θ * d iv_φ - p iv_θ * p iv_φ * tan θ) /\
  a_θ = / r / r * (p iv_r * p iv_θ / 2 + p iv_θ * d iv_θ + p iv_φ ^ 2 * tan θ).
Proof.
  pose proof (sol_d iv_r ltac:(solve_lt)) as D1. pose proof (sol_d iv_φ ltac:(solve_lt)) as D2.
  pose proof (sol_d iv_θ ltac:(solve_lt)) as D3.
  pose proof (Rpower_half_sq r Hr) as Hh.
  eexists. eexists. eexists. split; [|split; [|split]].
  - unfold advection_is. do 6 eexists. unfold fluid_of, self_similar_fluid. simpl.
    split; [apply ss_pd_r with (f := fun t => y t iv_r); eassumption|].
    split; [apply ss_pd_θ with (f := fun t => y t iv_r); eassumption|].
    split; [apply ss_pd_r with (f := fun t => y t iv_φ); eassumption|].
    split; [apply ss_pd_θ with (f := fun t => y t iv_φ); eassumption|].
    split; [apply ss_pd_r with (f := fun t => y t iv_θ); eassumption|].
    split; [apply ss_pd_θ with (f := fun t => y t iv_θ); eassumption|].
    repeat split; reflexivity.
  - unfold self_similar. fold p. rewrite <- Hh. field. lra.
  - unfold self_similar. fold p. rewrite <- Hh. field. lra.
  - unfold self_similar. fold p. rewrite <- Hh. field. lra.
Qed.

Lemma grad_p : exists g_r g_θ,
  gradient_is (pressure (fluid_of γ y)) r θ g_r g_θ /\
  g_r = (2 * γ - 5 / 2) * Rpower r (2 * γ - 3 / 2) / r ^ 2 * p iρ /\
  g_θ = Rpower r (2 * γ - 3 / 2) / r ^ 2 * d iρ.
Proof.
  pose proof (sol_d iρ ltac:(solve_lt)) as D1.
  eexists. eexists. split; [|split].
  - unfold gradient_is. do 2 eexists. unfold pressure, fluid_of, self_similar_fluid, self_similar. simpl.
    split; [unfold pd_r; dlim; lra|].
    split; [unfold pd_θ; dlim; lra|].
    repeat split; reflexivity.
  - fold p. unfold Rsqr. field. lra.
  - fold p. unfold Rsqr. field. lra.
Qed.

Ltac fields := unfold fluid_of, self_similar_fluid, self_similar; simpl; fold p.

Lemma mom_r : oa_with_taylor o = false -> y θ iv_θ <> 0 -> y θ iρ <> 0 -> 0 <= oa_norm_kepler_sq o ->
  momentum_r (oa_norm_kepler_sq o) (oa_a_0 o) (fluid_of γ y) r θ.
Proof.
  intros Ht Hv Hρ HK. fold p in Hv, Hρ.
  destruct adv as (ar & ap & at_ & Ha & Ear & Eap & Eat).
  destruct grad_p as (gr & gt & Hg & Egr & Egt).
  destruct curl_B as (jr & jp & jt & Hj & Ejr & Ejp & Ejt).
  unfold momentum_r. exists ar, ap, at_, gr, gt, jr, jp, jt.
  repeat (split; [assumption|]). subst ar gr jr jp jt. clear Eap Eat Egt. fields.
  unfold d at 1. rewrite rhs_v_r by assumption. fold d. unfold cross_r, deriv_v_r_normal_expr, J_φ_func, J_θ_func.
  pose proof (Rpower_B_sq r γ Hr) as HB.
  pose proof (sqrt_sqrt _ HK) as Hs. set (s := sqrt (oa_norm_kepler_sq o)) in *. rewrite <- Hs.
  fold γ. set (PB := Rpower r (γ - 5 / 4)) in *. set (Pρ := Rpower r (2 * γ - 3 / 2)) in *.
  set (D := d iB_r).
  assert (HP : Pρ = PB ^ 2 * r) by (rewrite HB; field; lra). rewrite HP. field. repeat split; lra.
Qed.

Lemma mom_φ : oa_with_taylor o = false -> y θ iv_θ <> 0 -> y θ iρ <> 0 ->
  momentum_φ (oa_a_0 o) (fluid_of γ y) r θ.
Proof.
  intros Ht Hv Hρ. fold p in Hv, Hρ.
  destruct adv as (ar & ap & at_ & Ha & Ear & Eap & Eat).
  destruct curl_B as (jr & jp & jt & Hj & Ejr & Ejp & Ejt).
  unfold momentum_φ. exists ar, ap, at_, jr, jp, jt.
  repeat (split; [assumption|]). subst ap jr jp jt. clear Ear Eat. fields.
  unfold d at 1. rewrite rhs_v_φ by assumption. fold d.
  unfold cross_φ, deriv_v_φ_normal_expr, J_r_func, J_θ_func.
  pose proof (Rpower_B_sq r γ Hr) as HB.
  fold γ. set (PB := Rpower r (γ - 5 / 4)) in *. set (Pρ := Rpower r (2 * γ - 3 / 2)) in *.
  set (D := d iB_φ).
  assert (HP : Pρ = PB ^ 2 * r) by (rewrite HB; field; lra). rewrite HP. field. repeat split; lra.
Qed.

Lemma mom_θ : oa_with_taylor o = false -> oa_deriv_v_θ_func o = None ->
  y θ iv_θ <> 0 -> y θ iρ <> 0 -> y θ iv_θ ^ 2 <> 1 ->
  momentum_θ (oa_a_0 o) (fluid_of γ y) r θ.
Proof.
  intros Ht Hn Hv Hρ H1. fold p in Hv, Hρ, H1.
  destruct adv as (ar & ap & at_ & Ha & Ear & Eap & Eat).
  destruct grad_p as (gr & gt & Hg & Egr & Egt).
  destruct curl_B as (jr & jp & jt & Hj & Ejr & Ejp & Ejt).
  unfold momentum_θ. exists ar, ap, at_, gr, gt, jr, jp, jt.
  repeat (split; [assumption|]). subst at_ gt jr jp jt. clear Ear Eap Egr. fields.
  unfold d at 2. rewrite rhs_ρ by assumption. fold d.
  unfold d at 1 2. rewrite rhs_v_θ by assumption. fold d.
  unfold cross_θ, deriv_ρ_normal_expr, deriv_v_θ_expr, J_r_func, J_φ_func.
  pose proof (Rpower_B_sq r γ Hr) as HB.
  fold γ. set (PB := Rpower r (γ - 5 / 4)) in *. set (Pρ := Rpower r (2 * γ - 3 / 2)) in *.
  set (D := d iB_φ). set (D2 := d iB_r).
  assert (HP : Pρ = PB ^ 2 * r) by (rewrite HB; field; lra). rewrite HP.
  assert (1 - p iv_θ <> 0) by (intros Hc; apply H1; replace (p iv_θ) with 1 by lra; ring).
  assert (1 + p iv_θ <> 0) by (intros Hc; apply H1; replace (p iv_θ) with (-1) by lra; ring).
  field. repeat split; lra.
Qed.

(** The model's E functions are the generalised Ohm's law for a nonzero field. *)
Lemma ohm_φ_func : forall v_r v_φ v_θ B_r B_φ B_θ J_r J_φ J_θ η_O η_A η_H,
  0 < B_r ^ 2 + B_φ ^ 2 + B_θ ^ 2 ->
  ohm_E_φ v_r v_φ v_θ B_r B_φ B_θ J_r J_φ J_θ η_O η_A η_H =
  let m := sqrt (B_r ^ 2 + B_φ ^ 2 + B_θ ^ 2) in
  E_φ_func v_r v_θ B_r B_θ J_r J_θ J_φ η_O η_A η_H (B_r / m) (B_θ / m) (B_φ / m).
Proof.
  intros v_r v_φ v_θ B_r B_φ B_θ J_r J_φ J_θ η_O η_A η_H H. cbv zeta.
  set (m := sqrt (B_r ^ 2 + B_φ ^ 2 + B_θ ^ 2)).
  unfold ohm_E_φ, ohm_E, norm3. fold m. unfold cross_r, cross_φ, cross_θ, E_φ_func.
  assert (Hm : m ^ 2 = B_r ^ 2 + B_φ ^ 2 + B_θ ^ 2) by (unfold m; rewrite pow2_sqrt by lra; reflexivity).
  assert (Hm0 : m <> 0) by (apply Rgt_not_eq, sqrt_lt_R0; exact H).
  clearbody m.
  assert (Hu : (B_r / m) ^ 2 + (B_θ / m) ^ 2 = 1 - (B_φ / m) ^ 2).
  { apply Rmult_eq_reg_r with (m ^ 2); [|apply pow_nonzero; assumption]. field_simplify; [lra | assumption..]. }
  set (b_r := B_r / m) in *. set (b_φ := B_φ / m) in *. set (b_θ := B_θ / m) in *. clearbody b_r b_φ b_θ.
  rewrite <- Hu. ring.
Qed.
Lemma ohm_r_func : forall v_r v_φ v_θ B_r B_φ B_θ J_r J_φ J_θ η_O η_A η_H,
  0 < B_r ^ 2 + B_φ ^ 2 + B_θ ^ 2 ->
  ohm_E_r v_r v_φ v_θ B_r B_φ B_θ J_r J_φ J_θ η_O η_A η_H =
  let m := sqrt (B_r ^ 2 + B_φ ^ 2 + B_θ ^ 2) in
  E_r_func v_θ v_φ B_θ B_φ J_r J_θ J_φ η_O η_A η_H (B_r / m) (B_θ / m) (B_φ / m).
Proof.
  intros v_r v_φ v_θ B_r B_φ B_θ J_r J_φ J_θ η_O η_A η_H H. cbv zeta.
  set (m := sqrt (B_r ^ 2 + B_φ ^ 2 + B_θ ^ 2)).
  unfold ohm_E_r, ohm_E, norm3. fold m. unfold cross_r, cross_φ, cross_θ, E_r_func.
  assert (Hm : m ^ 2 = B_r ^ 2 + B_φ ^ 2 + B_θ ^ 2) by (unfold m; rewrite pow2_sqrt by lra; reflexivity).
  assert (Hm0 : m <> 0) by (apply Rgt_not_eq, sqrt_lt_R0; exact H).
  clearbody m.
  assert (Hu : (B_φ / m) ^ 2 + (B_θ / m) ^ 2 = 1 - (B_r / m) ^ 2).
  { apply Rmult_eq_reg_r with (m ^ 2); [|apply pow_nonzero; assumption]. field_simplify; [lra | assumption..]. }
  set (b_r := B_r / m) in *. set (b_φ := B_φ / m) in *. set (b_θ := B_θ / m) in *. clearbody b_r b_φ b_θ.
  rewrite <- Hu. ring.
Qed.
Lemma ohm_θ_func : forall v_r v_φ v_θ B_r B_φ B_θ J_r J_φ J_θ η_O η_A η_H,
  0 < B_r ^ 2 + B_φ ^ 2 + B_θ ^ 2 ->
  ohm_E_θ v_r v_φ v_θ B_r B_φ B_θ J_r J_φ J_θ η_O η_A η_H =
  let m := sqrt (B_r ^ 2 + B_φ ^ 2 + B_θ ^ 2) in
  E_θ_func v_r v_φ B_r B_φ J_r J_θ J_φ η_O η_A η_H (B_r / m) (B_θ / m) (B_φ / m).
Proof.
  intros v_r v_φ v_θ B_r B_φ B_θ J_r J_φ J_θ η_O η_A η_H H. cbv zeta.
  set (m := sqrt (B_r ^ 2 + B_φ ^ 2 + B_θ ^ 2)).
  unfold ohm_E_θ, ohm_E, norm3. fold m. unfold cross_r, cross_φ, cross_θ, E_θ_func.
  assert (Hm : m ^ 2 = B_r ^ 2 + B_φ ^ 2 + B_θ ^ 2) by (unfold m; rewrite pow2_sqrt by lra; reflexivity).
  assert (Hm0 : m <> 0) by (apply Rgt_not_eq, sqrt_lt_R0; exact H).
  clearbody m.
  assert (Hu : (B_φ / m) ^ 2 + (B_r / m) ^ 2 = 1 - (B_θ / m) ^ 2).
  { apply Rmult_eq_reg_r with (m ^ 2); [|apply pow_nonzero; assumption]. field_simplify; [lra | assumption..]. }
  set (b_r := B_r / m) in *. set (b_φ := B_φ / m) in *. set (b_θ := B_θ / m) in *. clearbody b_r b_φ b_θ.
  rewrite <- Hu. ring.
Qed.

(** Ohm's law scales: multiplying B and J, v, η by common factors scales E. *)
Lemma ohm_scale_φ : forall a b c v_r v_φ v_θ B_r B_φ B_θ J_r J_φ J_θ η_O η_A η_H,
  0 < a -> 0 < B_r ^ 2 + B_φ ^ 2 + B_θ ^ 2 ->
  ohm_E_φ (b * v_r) (b * v_φ) (b * v_θ) (a * B_r) (a * B_φ) (a * B_θ)
    (a * J_r) (a * J_φ) (a * J_θ) (c * η_O) (c * η_A) (c * η_H) =
  a * (- b * cross_φ v_r v_φ v_θ B_r B_φ B_θ
       + c * (ohm_E_φ 0 0 0 B_r B_φ B_θ J_r J_φ J_θ η_O η_A η_H)).
Proof.
  intros a b c v_r v_φ v_θ B_r B_φ B_θ J_r J_φ J_θ η_O η_A η_H Ha HB.
  unfold ohm_E_φ, ohm_E.
  assert (Hn : norm3 (a * B_r) (a * B_φ) (a * B_θ) = a * norm3 B_r B_φ B_θ).
  { unfold norm3. replace ((a * B_r) ^ 2 + (a * B_φ) ^ 2 + (a * B_θ) ^ 2)
      with (a ^ 2 * (B_r ^ 2 + B_φ ^ 2 + B_θ ^ 2)) by ring.
    rewrite sqrt_mult by nra. rewrite sqrt_pow2 by lra. reflexivity. }
  assert (Hm0 : norm3 B_r B_φ B_θ <> 0) by (apply Rgt_not_eq, sqrt_lt_R0; exact HB).
  rewrite Hn. set (m := norm3 B_r B_φ B_θ) in *. clearbody m. clear Hn.
  unfold cross_r, cross_φ, cross_θ. field. repeat split; try assumption; lra.
Qed.

Lemma E_φ_zero : B_nonzero (y θ) -> diffusive (y θ) -> E_φ_vanishes (fluid_of γ y) r θ.
Proof.
  intros HB HD.
  destruct curl_B as (jr & jp & jt & Hj & Ejr & Ejp & Ejt).
  exists jr, jp, jt. split; [assumption|]. subst jr jp jt. unfold fluid_of, self_similar_fluid, self_similar. simpl.
  fold p.
  set (PB := Rpower r (γ - 5 / 4)).
  assert (HPB : 0 < PB) by apply Rpower_pos.
  set (Jr := J_r_func θ (p iB_φ) (d iB_φ)). set (Jp := J_φ_func γ (p iB_θ) (d iB_r)).
  set (Jt := J_θ_func γ (p iB_φ)).
  assert (H0 : ohm_E_φ (p iv_r) (p iv_φ) (p iv_θ) (p iB_r) (p iB_φ) (p iB_θ) Jr Jp Jt
                 (p iη_O) (p iη_A) (p iη_H) = 0).
  { rewrite ohm_φ_func by exact HB.
    destruct Hsol as (d' & e & Hok & Hd).
    pose proof (E_φ_validate _ _ _ _ _ Hok HB HD) as Hv.
    unfold validate_E_φ, get_values, J_func, E_func in Hv. simpl in Hv.
    rewrite (rhs_ok_derivs _ _ _ _ _ Hok) in Hv. rewrite Hscale, Rmult_1_r in Hv.
    exact Hv. }
  replace (PB / r * Jr) with (PB * (Jr / r)) by (field; lra).
  replace (PB / r * Jp) with (PB * (Jp / r)) by (field; lra).
  replace (PB / r * Jt) with (PB * (Jt / r)) by (field; lra).
  rewrite ohm_scale_φ by assumption.
  pose proof (Rpower_half_sq' r Hr) as Hh. pose proof (Rpower_half_sq r Hr) as Hq.
  set (P1 := Rpower r (1 / 2)) in *. set (P2 := Rpower r (-1 / 2)) in *.
  assert (HP1 : P1 * / r = P2) by (rewrite <- Hq; simpl; rewrite Rmult_1_r, <- Rmult_assoc, Hh; ring).
  assert (Hfin : - P2 * cross_φ (p iv_r) (p iv_φ) (p iv_θ) (p iB_r) (p iB_φ) (p iB_θ)
     + P1 * ohm_E_φ 0 0 0 (p iB_r) (p iB_φ) (p iB_θ) (Jr / r) (Jp / r) (Jt / r) (p iη_O) (p iη_A) (p iη_H)
     = P2 * ohm_E_φ (p iv_r) (p iv_φ) (p iv_θ) (p iB_r) (p iB_φ) (p iB_θ) Jr Jp Jt
                 (p iη_O) (p iη_A) (p iη_H)).
  { unfold ohm_E_φ, ohm_E. set (m := norm3 (p iB_r) (p iB_φ) (p iB_θ)).
    assert (Hm0 : m <> 0) by (apply Rgt_not_eq, sqrt_lt_R0; exact HB). clearbody m.
    rewrite <- HP1. unfold cross_r, cross_φ, cross_θ. field. repeat split; try assumption; lra. }
  rewrite Hfin, H0. ring.
Qed.
End Solution.
