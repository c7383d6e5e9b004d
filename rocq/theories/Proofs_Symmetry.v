(** The right-hand side under changes of sign and of units. *)
From Coq Require Import Reals Lra Lia FunctionalExtensionality.
From Verif Require Import Model_Index Model_Deriv Model_Midplane Model_Ode Lib_Deriv Spec_Ode Spec_Symmetry Proofs_Ode.
Open Scope R_scope.

Lemma div_opp : forall n d n' d', n' = - n -> d' = d -> n' / d' = - (n / d).
Proof. intros n d n' d' -> ->. apply Ropp_div. Qed.
Lemma div_same : forall n d n' d', n' = n -> d' = d -> n' / d' = n / d.
Proof. intros n d n' d' -> ->. reflexivity. Qed.
Lemma minus_opp : forall a b a' b', a' = - a -> b' = - b -> a' - b' = - (a - b).
Proof. intros a b a' b' -> ->. ring. Qed.
Lemma sec_neg : forall x, sec (- x) = sec x.
Proof. intro x. unfold sec. rewrite cos_neg. reflexivity. Qed.

(** ** Mirror *)
Section Mirror.
Variables θ γ a_0 nk B_r B_φ B_θ v_r v_φ v_θ ρ E η_O η_A η_H b_r b_φ b_θ C Z A dB_r dB_φ dB_θ dv_r dv_φ dv_θ dρ dη_O dη_A dη_H db_r db_φ db_θ : R.
Lemma mi_C : C_func η_O η_A η_H b_θ (- b_r) (- b_φ) = C_func η_O η_A η_H b_θ b_r b_φ.
Proof. unfold C_func. apply div_same; ring. Qed.
Lemma mi_Z : Z_5_func η_O η_A η_H (- b_r) b_θ (- b_φ) C = Z_5_func η_O η_A η_H b_r b_θ b_φ C.
Proof. unfold Z_5_func. ring. Qed.
Lemma mi_dB_φ : deriv_B_φ_func (- θ) γ (- B_r) B_θ (- B_φ) v_r v_φ (- v_θ) η_O η_A η_H E (- b_r) (- b_φ) b_θ C Z =
  deriv_B_φ_func θ γ B_r B_θ B_φ v_r v_φ v_θ η_O η_A η_H E b_r b_φ b_θ C Z.
Proof. unfold deriv_B_φ_func. rewrite tan_neg. apply div_same; ring. Qed.
Lemma mi_dB_r : deriv_B_r_func (- θ) γ (- B_r) B_θ (- B_φ) v_r (- v_θ) dB_φ η_O η_A η_H (- b_r) (- b_φ) b_θ =
  deriv_B_r_func θ γ B_r B_θ B_φ v_r v_θ dB_φ η_O η_A η_H b_r b_φ b_θ.
Proof. unfold deriv_B_r_func. rewrite tan_neg. f_equal. apply div_same; ring. Qed.
Lemma mi_dv_r : deriv_v_r_normal_expr γ a_0 nk v_r (- v_θ) v_φ ρ B_θ (- B_φ) dB_r = - deriv_v_r_normal_expr γ a_0 nk v_r v_θ v_φ ρ B_θ B_φ dB_r.
Proof. unfold deriv_v_r_normal_expr, Rdiv. rewrite Rinv_opp. ring. Qed.
Lemma mi_dv_φ : deriv_v_φ_normal_expr (- θ) γ a_0 v_r (- v_θ) v_φ ρ (- B_r) B_θ (- B_φ) dB_φ = - deriv_v_φ_normal_expr θ γ a_0 v_r v_θ v_φ ρ B_r B_θ B_φ dB_φ.
Proof. unfold deriv_v_φ_normal_expr, Rdiv. rewrite tan_neg, Rinv_opp. ring. Qed.
Lemma mi_dv_θ : deriv_v_θ_expr (- θ) γ a_0 v_r (- v_θ) v_φ ρ (- B_r) B_θ (- B_φ) dB_r dB_φ = deriv_v_θ_expr θ γ a_0 v_r v_θ v_φ ρ B_r B_θ B_φ dB_r dB_φ.
Proof. unfold deriv_v_θ_expr. rewrite tan_neg. apply div_same; ring. Qed.
Lemma mi_dρ : deriv_ρ_normal_expr (- θ) γ v_r (- v_θ) ρ dv_θ = - deriv_ρ_normal_expr θ γ v_r v_θ ρ dv_θ.
Proof. unfold deriv_ρ_normal_expr, Rdiv. rewrite tan_neg, Rinv_opp. ring. Qed.
Lemma mi_scale : deriv_η_skw_func ρ (- B_r) (- B_φ) B_θ (- dρ) dB_r dB_φ (- dB_θ) = - deriv_η_skw_func ρ B_r B_φ B_θ dρ dB_r dB_φ dB_θ.
Proof. unfold deriv_η_skw_func, Rdiv. ring. Qed.
Lemma mi_units : B_unit_derivs (- B_r) (- B_φ) B_θ dB_r dB_φ (- dB_θ) (- b_r) (- b_φ) b_θ =
  let '(u_r, u_φ, u_θ) := B_unit_derivs B_r B_φ B_θ dB_r dB_φ dB_θ b_r b_φ b_θ in (u_r, u_φ, - u_θ).
Proof.
  unfold B_unit_derivs, B_unit_deriv_1. replace ((- B_r) ^ 2 + (- B_φ) ^ 2 + B_θ ^ 2) with (B_r ^ 2 + B_φ ^ 2 + B_θ ^ 2) by ring.
  unfold Rdiv. apply f_equal2; [apply f_equal2|]; ring.
Qed.
Lemma mi_A : A_func η_O η_A η_H b_θ (- b_r) (- b_φ) (- dη_O) (- dη_A) (- dη_H) (- db_θ) db_r db_φ =
  - A_func η_O η_A η_H b_θ b_r b_φ dη_O dη_A dη_H db_θ db_r db_φ.
Proof. unfold A_func. apply minus_opp; apply div_opp; ring. Qed.
Lemma mi_E : forall J_r J_θ J_φ, deriv_E_r_func γ v_r v_φ (- B_r) (- B_φ) η_O η_A η_H (- b_r) b_θ (- b_φ) J_r (- J_θ) J_φ =
  - deriv_E_r_func γ v_r v_φ B_r B_φ η_O η_A η_H b_r b_θ b_φ J_r J_θ J_φ.
Proof. intros. unfold deriv_E_r_func, E_θ_func. ring. Qed.
Lemma mi_J_r : J_r_func (- θ) (- B_φ) dB_φ = J_r_func θ B_φ dB_φ.
Proof. unfold J_r_func. rewrite tan_neg. ring. Qed.
Lemma mi_J_θ : J_θ_func γ (- B_φ) = - J_θ_func γ B_φ.
Proof. unfold J_θ_func. ring. Qed.
Lemma mi_ddB_φ : dderiv_B_φ_soln (- B_r) (- B_φ) B_θ η_O η_H η_A (- θ) v_r (- v_θ) v_φ (- dv_r) dv_θ (- dv_φ) dB_r (- dB_θ) dB_φ γ (- dη_O) (- dη_A) (- dη_H)
  (- b_r) (- b_φ) b_θ db_r db_φ (- db_θ) C (- A) =
  - dderiv_B_φ_soln B_r B_φ B_θ η_O η_H η_A θ v_r v_θ v_φ dv_r dv_θ dv_φ dB_r dB_θ dB_φ γ dη_O dη_A dη_H b_r b_φ b_θ db_r db_φ db_θ C A.
Proof. unfold dderiv_B_φ_soln. rewrite tan_neg, sec_neg. apply div_opp; ring. Qed.
End Mirror.

(** ** Field reversal *)
Section Reversal.
Variables θ γ a_0 nk B_r B_φ B_θ v_r v_φ v_θ ρ E η_O η_A η_H b_r b_φ b_θ C Z A dB_r dB_φ dB_θ dv_r dv_φ dv_θ dρ dη_O dη_A dη_H db_r db_φ db_θ : R.
Lemma re_C : C_func η_O η_A (- η_H) (- b_θ) (- b_r) (- b_φ) = C_func η_O η_A η_H b_θ b_r b_φ.
Proof. unfold C_func. apply div_same; ring. Qed.
Lemma re_Z : Z_5_func η_O η_A (- η_H) (- b_r) (- b_θ) (- b_φ) C = Z_5_func η_O η_A η_H b_r b_θ b_φ C.
Proof. unfold Z_5_func. ring. Qed.
Lemma re_dB_φ : deriv_B_φ_func θ γ (- B_r) (- B_θ) (- B_φ) v_r v_φ v_θ η_O η_A (- η_H) (- E) (- b_r) (- b_φ) (- b_θ) C Z =
  - deriv_B_φ_func θ γ B_r B_θ B_φ v_r v_φ v_θ η_O η_A η_H E b_r b_φ b_θ C Z.
Proof. unfold deriv_B_φ_func. apply div_opp; ring. Qed.
Lemma re_dB_r : deriv_B_r_func θ γ (- B_r) (- B_θ) (- B_φ) v_r v_θ (- dB_φ) η_O η_A (- η_H) (- b_r) (- b_φ) (- b_θ) =
  - deriv_B_r_func θ γ B_r B_θ B_φ v_r v_θ dB_φ η_O η_A η_H b_r b_φ b_θ.
Proof. unfold deriv_B_r_func. apply minus_opp; [apply div_opp; ring | ring]. Qed.
Lemma re_dv_r : deriv_v_r_normal_expr γ a_0 nk v_r v_θ v_φ ρ (- B_θ) (- B_φ) (- dB_r) = deriv_v_r_normal_expr γ a_0 nk v_r v_θ v_φ ρ B_θ B_φ dB_r.
Proof. unfold deriv_v_r_normal_expr. apply div_same; ring. Qed.
Lemma re_dv_φ : deriv_v_φ_normal_expr θ γ a_0 v_r v_θ v_φ ρ (- B_r) (- B_θ) (- B_φ) (- dB_φ) = deriv_v_φ_normal_expr θ γ a_0 v_r v_θ v_φ ρ B_r B_θ B_φ dB_φ.
Proof. unfold deriv_v_φ_normal_expr. apply div_same; ring. Qed.
Lemma re_dv_θ : deriv_v_θ_expr θ γ a_0 v_r v_θ v_φ ρ (- B_r) (- B_θ) (- B_φ) (- dB_r) (- dB_φ) = deriv_v_θ_expr θ γ a_0 v_r v_θ v_φ ρ B_r B_θ B_φ dB_r dB_φ.
Proof. unfold deriv_v_θ_expr. apply div_same; ring. Qed.
Lemma re_scale : deriv_η_skw_func ρ (- B_r) (- B_φ) (- B_θ) dρ (- dB_r) (- dB_φ) (- dB_θ) = deriv_η_skw_func ρ B_r B_φ B_θ dρ dB_r dB_φ dB_θ.
Proof. unfold deriv_η_skw_func, Rdiv. ring. Qed.
Lemma re_units : B_unit_derivs (- B_r) (- B_φ) (- B_θ) (- dB_r) (- dB_φ) (- dB_θ) (- b_r) (- b_φ) (- b_θ) =
  let '(u_r, u_φ, u_θ) := B_unit_derivs B_r B_φ B_θ dB_r dB_φ dB_θ b_r b_φ b_θ in (- u_r, - u_φ, - u_θ).
Proof.
  unfold B_unit_derivs, B_unit_deriv_1. replace ((- B_r) ^ 2 + (- B_φ) ^ 2 + (- B_θ) ^ 2) with (B_r ^ 2 + B_φ ^ 2 + B_θ ^ 2) by ring.
  unfold Rdiv. apply f_equal2; [apply f_equal2|]; ring.
Qed.
Lemma re_A : A_func η_O η_A (- η_H) (- b_θ) (- b_r) (- b_φ) dη_O dη_A (- dη_H) (- db_θ) (- db_r) (- db_φ) =
  A_func η_O η_A η_H b_θ b_r b_φ dη_O dη_A dη_H db_θ db_r db_φ.
Proof. unfold A_func. f_equal; apply div_same; ring. Qed.
Lemma re_E : forall J_r J_θ J_φ, deriv_E_r_func γ v_r v_φ (- B_r) (- B_φ) η_O η_A (- η_H) (- b_r) (- b_θ) (- b_φ) (- J_r) (- J_θ) (- J_φ) =
  - deriv_E_r_func γ v_r v_φ B_r B_φ η_O η_A η_H b_r b_θ b_φ J_r J_θ J_φ.
Proof. intros. unfold deriv_E_r_func, E_θ_func. ring. Qed.
Lemma re_J_r : J_r_func θ (- B_φ) (- dB_φ) = - J_r_func θ B_φ dB_φ.
Proof. unfold J_r_func. ring. Qed.
Lemma re_J_φ : J_φ_func γ (- B_θ) (- dB_r) = - J_φ_func γ B_θ dB_r.
Proof. unfold J_φ_func. ring. Qed.
Lemma re_ddB_φ : dderiv_B_φ_soln (- B_r) (- B_φ) (- B_θ) η_O (- η_H) η_A θ v_r v_θ v_φ dv_r dv_θ dv_φ (- dB_r) (- dB_θ) (- dB_φ) γ dη_O dη_A (- dη_H)
  (- b_r) (- b_φ) (- b_θ) (- db_r) (- db_φ) (- db_θ) C A =
  - dderiv_B_φ_soln B_r B_φ B_θ η_O η_H η_A θ v_r v_θ v_φ dv_r dv_θ dv_φ dB_r dB_θ dB_φ γ dη_O dη_A dη_H b_r b_φ b_θ db_r db_φ db_θ C A.
Proof. unfold dderiv_B_φ_soln. apply div_opp; ring. Qed.
End Reversal.

(** ** Reversal of the rotation *)
Section Rotation.
Variables θ γ a_0 nk B_r B_φ B_θ v_r v_φ v_θ ρ E η_O η_A η_H b_r b_φ b_θ C Z A dB_r dB_φ dB_θ dv_r dv_φ dv_θ dρ dη_O dη_A dη_H db_r db_φ db_θ : R.
Lemma ro_C : C_func η_O η_A (- η_H) b_θ b_r (- b_φ) = - C_func η_O η_A η_H b_θ b_r b_φ.
Proof. unfold C_func. apply div_opp; ring. Qed.
Lemma ro_Z : Z_5_func η_O η_A (- η_H) b_r b_θ (- b_φ) (- C) = Z_5_func η_O η_A η_H b_r b_θ b_φ C.
Proof. unfold Z_5_func. ring. Qed.
Lemma ro_dB_φ : deriv_B_φ_func θ γ B_r B_θ (- B_φ) v_r (- v_φ) v_θ η_O η_A (- η_H) (- E) b_r (- b_φ) b_θ (- C) Z =
  - deriv_B_φ_func θ γ B_r B_θ B_φ v_r v_φ v_θ η_O η_A η_H E b_r b_φ b_θ C Z.
Proof. unfold deriv_B_φ_func. apply div_opp; ring. Qed.
Lemma ro_dB_r : deriv_B_r_func θ γ B_r B_θ (- B_φ) v_r v_θ (- dB_φ) η_O η_A (- η_H) b_r (- b_φ) b_θ =
  deriv_B_r_func θ γ B_r B_θ B_φ v_r v_θ dB_φ η_O η_A η_H b_r b_φ b_θ.
Proof. unfold deriv_B_r_func. f_equal. apply div_same; ring. Qed.
Lemma ro_dv_r : deriv_v_r_normal_expr γ a_0 nk v_r v_θ (- v_φ) ρ B_θ (- B_φ) dB_r = deriv_v_r_normal_expr γ a_0 nk v_r v_θ v_φ ρ B_θ B_φ dB_r.
Proof. unfold deriv_v_r_normal_expr. apply div_same; ring. Qed.
Lemma ro_dv_φ : deriv_v_φ_normal_expr θ γ a_0 v_r v_θ (- v_φ) ρ B_r B_θ (- B_φ) (- dB_φ) = - deriv_v_φ_normal_expr θ γ a_0 v_r v_θ v_φ ρ B_r B_θ B_φ dB_φ.
Proof. unfold deriv_v_φ_normal_expr. apply div_opp; unfold Rdiv; ring. Qed.
Lemma ro_dv_θ : deriv_v_θ_expr θ γ a_0 v_r v_θ (- v_φ) ρ B_r B_θ (- B_φ) dB_r (- dB_φ) = deriv_v_θ_expr θ γ a_0 v_r v_θ v_φ ρ B_r B_θ B_φ dB_r dB_φ.
Proof. unfold deriv_v_θ_expr. apply div_same; ring. Qed.
Lemma ro_scale : deriv_η_skw_func ρ B_r (- B_φ) B_θ dρ dB_r (- dB_φ) dB_θ = deriv_η_skw_func ρ B_r B_φ B_θ dρ dB_r dB_φ dB_θ.
Proof. unfold deriv_η_skw_func, Rdiv. ring. Qed.
Lemma ro_units : B_unit_derivs B_r (- B_φ) B_θ dB_r (- dB_φ) dB_θ b_r (- b_φ) b_θ =
  let '(u_r, u_φ, u_θ) := B_unit_derivs B_r B_φ B_θ dB_r dB_φ dB_θ b_r b_φ b_θ in (u_r, - u_φ, u_θ).
Proof.
  unfold B_unit_derivs, B_unit_deriv_1. replace (B_r ^ 2 + (- B_φ) ^ 2 + B_θ ^ 2) with (B_r ^ 2 + B_φ ^ 2 + B_θ ^ 2) by ring.
  unfold Rdiv. apply f_equal2; [apply f_equal2|]; ring.
Qed.
Lemma ro_A : A_func η_O η_A (- η_H) b_θ b_r (- b_φ) dη_O dη_A (- dη_H) db_θ db_r (- db_φ) =
  - A_func η_O η_A η_H b_θ b_r b_φ dη_O dη_A dη_H db_θ db_r db_φ.
Proof. unfold A_func. apply minus_opp; apply div_opp; ring. Qed.
Lemma ro_E : forall J_r J_θ J_φ, deriv_E_r_func γ v_r (- v_φ) B_r (- B_φ) η_O η_A (- η_H) b_r b_θ (- b_φ) (- J_r) (- J_θ) J_φ =
  - deriv_E_r_func γ v_r v_φ B_r B_φ η_O η_A η_H b_r b_θ b_φ J_r J_θ J_φ.
Proof. intros. unfold deriv_E_r_func, E_θ_func. ring. Qed.
Lemma ro_ddB_φ : dderiv_B_φ_soln B_r (- B_φ) B_θ η_O (- η_H) η_A θ v_r v_θ (- v_φ) dv_r dv_θ (- dv_φ) dB_r dB_θ (- dB_φ) γ dη_O dη_A (- dη_H)
  b_r (- b_φ) b_θ db_r (- db_φ) db_θ (- C) (- A) =
  - dderiv_B_φ_soln B_r B_φ B_θ η_O η_H η_A θ v_r v_θ v_φ dv_r dv_θ dv_φ dB_r dB_θ dB_φ γ dη_O dη_A dη_H b_r b_φ b_θ db_r db_φ db_θ C A.
Proof. unfold dderiv_B_φ_soln. apply div_opp; ring. Qed.
End Rotation.

(** ** Units *)
Section Units.
Variables λ μ : R.
Hypothesis Hλ : 0 < λ.
Hypothesis Hμ : 0 < μ.
Variables θ γ a_0 nk B_r B_φ B_θ v_r v_φ v_θ ρ E η_O η_A η_H b_r b_φ b_θ C Z A dB_r dB_φ dB_θ dv_r dv_φ dv_θ dρ dη_O dη_A dη_H db_r db_φ db_θ : R.
Lemma div_scale : forall k n d n' d', n' = k * n -> d' = d -> n' / d' = k * (n / d).
Proof. intros k n d n' d' -> ->. unfold Rdiv. ring. Qed.
Lemma minus_scale : forall k a b a' b', a' = k * a -> b' = k * b -> a' - b' = k * (a - b).
Proof. intros k a b a' b' -> ->. ring. Qed.
Lemma λ0 : λ <> 0. Proof. lra. Qed.
Lemma μ0 : μ <> 0. Proof. lra. Qed.
Lemma un_alfven : μ / λ ^ 2 * a_0 / (μ * ρ) = / λ ^ 2 * (a_0 / ρ).
Proof. unfold Rdiv. rewrite Rinv_mult. pose proof μ0. replace (μ * / λ ^ 2 * a_0 * (/ μ * / ρ)) with (/ λ ^ 2 * (a_0 * / ρ) * (μ * / μ)) by ring. rewrite Rinv_r by assumption. ring. Qed.
Lemma un_m : sqrt ((λ * B_r) ^ 2 + (λ * B_φ) ^ 2 + (λ * B_θ) ^ 2) = λ * sqrt (B_r ^ 2 + B_φ ^ 2 + B_θ ^ 2).
Proof.
  replace ((λ * B_r) ^ 2 + (λ * B_φ) ^ 2 + (λ * B_θ) ^ 2) with (λ ^ 2 * (B_r ^ 2 + B_φ ^ 2 + B_θ ^ 2)) by ring.
  rewrite sqrt_mult_alt by (apply pow2_ge_0). rewrite sqrt_pow2 by lra. reflexivity.
Qed.
Lemma un_b : forall x m, λ * x / (λ * m) = x / m.
Proof. intros x m. unfold Rdiv. rewrite Rinv_mult. pose proof λ0. replace (λ * x * (/ λ * / m)) with (x * / m * (λ * / λ)) by ring. rewrite Rinv_r by assumption. ring. Qed.
Lemma un_dB_φ : deriv_B_φ_func θ γ (λ * B_r) (λ * B_θ) (λ * B_φ) v_r v_φ v_θ η_O η_A η_H (λ * E) b_r b_φ b_θ C Z =
  λ * deriv_B_φ_func θ γ B_r B_θ B_φ v_r v_φ v_θ η_O η_A η_H E b_r b_φ b_θ C Z.
Proof. unfold deriv_B_φ_func. apply div_scale; ring. Qed.
Lemma un_dB_r : deriv_B_r_func θ γ (λ * B_r) (λ * B_θ) (λ * B_φ) v_r v_θ (λ * dB_φ) η_O η_A η_H b_r b_φ b_θ =
  λ * deriv_B_r_func θ γ B_r B_θ B_φ v_r v_θ dB_φ η_O η_A η_H b_r b_φ b_θ.
Proof. unfold deriv_B_r_func. apply minus_scale; [apply div_scale; ring | ring]. Qed.
Lemma un_dv_r : deriv_v_r_normal_expr γ (μ / λ ^ 2 * a_0) nk v_r v_θ v_φ (μ * ρ) (λ * B_θ) (λ * B_φ) (λ * dB_r) = deriv_v_r_normal_expr γ a_0 nk v_r v_θ v_φ ρ B_θ B_φ dB_r.
Proof. unfold deriv_v_r_normal_expr. rewrite un_alfven. generalize (a_0 / ρ). intro k. apply div_same; [|reflexivity]. field. exact λ0. Qed.
Lemma un_dv_φ : deriv_v_φ_normal_expr θ γ (μ / λ ^ 2 * a_0) v_r v_θ v_φ (μ * ρ) (λ * B_r) (λ * B_θ) (λ * B_φ) (λ * dB_φ) = deriv_v_φ_normal_expr θ γ a_0 v_r v_θ v_φ ρ B_r B_θ B_φ dB_φ.
Proof. unfold deriv_v_φ_normal_expr. rewrite un_alfven. generalize (a_0 / ρ). intro k. generalize (tan θ). intro t. apply div_same; [|reflexivity]. field. exact λ0. Qed.
Lemma un_dv_θ : deriv_v_θ_expr θ γ (μ / λ ^ 2 * a_0) v_r v_θ v_φ (μ * ρ) (λ * B_r) (λ * B_θ) (λ * B_φ) (λ * dB_r) (λ * dB_φ) = deriv_v_θ_expr θ γ a_0 v_r v_θ v_φ ρ B_r B_θ B_φ dB_r dB_φ.
Proof. unfold deriv_v_θ_expr. rewrite un_alfven. generalize (a_0 / ρ). intro k. generalize (tan θ). intro t. apply div_same; [|reflexivity]. field. exact λ0. Qed.
Lemma un_dρ : deriv_ρ_normal_expr θ γ v_r v_θ (μ * ρ) dv_θ = μ * deriv_ρ_normal_expr θ γ v_r v_θ ρ dv_θ.
Proof. unfold deriv_ρ_normal_expr. ring. Qed.
Lemma un_scale : forall η, deriv_η_skw_func (μ * ρ) (λ * B_r) (λ * B_φ) (λ * B_θ) (μ * dρ) (λ * dB_r) (λ * dB_φ) (λ * dB_θ) * (μ / λ ^ 2 * η) =
  deriv_η_skw_func ρ B_r B_φ B_θ dρ dB_r dB_φ dB_θ * η.
Proof.
  intro η. unfold deriv_η_skw_func. cbv zeta. unfold Rdiv. rewrite Rinv_mult. generalize (/ ρ). intro i. field. split; [exact λ0 | exact μ0].
Qed.
Lemma un_units : B_unit_derivs (λ * B_r) (λ * B_φ) (λ * B_θ) (λ * dB_r) (λ * dB_φ) (λ * dB_θ) b_r b_φ b_θ = B_unit_derivs B_r B_φ B_θ dB_r dB_φ dB_θ b_r b_φ b_θ.
Proof.
  unfold B_unit_derivs, B_unit_deriv_1. cbv zeta. rewrite un_m. unfold Rdiv. rewrite Rinv_mult. generalize (/ sqrt (B_r ^ 2 + B_φ ^ 2 + B_θ ^ 2)). intro i.
  apply f_equal2; [apply f_equal2|]; field; exact λ0.
Qed.
Lemma un_E : forall J_r J_θ J_φ, deriv_E_r_func γ v_r v_φ (λ * B_r) (λ * B_φ) η_O η_A η_H b_r b_θ b_φ (λ * J_r) (λ * J_θ) (λ * J_φ) =
  λ * deriv_E_r_func γ v_r v_φ B_r B_φ η_O η_A η_H b_r b_θ b_φ J_r J_θ J_φ.
Proof. intros. unfold deriv_E_r_func, E_θ_func. ring. Qed.
Lemma un_ddB_φ : dderiv_B_φ_soln (λ * B_r) (λ * B_φ) (λ * B_θ) η_O η_H η_A θ v_r v_θ v_φ dv_r dv_θ dv_φ (λ * dB_r) (λ * dB_θ) (λ * dB_φ) γ dη_O dη_A dη_H
  b_r b_φ b_θ db_r db_φ db_θ C A =
  λ * dderiv_B_φ_soln B_r B_φ B_θ η_O η_H η_A θ v_r v_θ v_φ dv_r dv_θ dv_φ dB_r dB_θ dB_φ γ dη_O dη_A dη_H b_r b_φ b_θ db_r db_φ db_θ C A.
Proof. unfold dderiv_B_φ_soln. apply div_scale; ring. Qed.
End Units.

(** The velocities and the density with the Taylor forms as well. *)
Lemma rhs_v_r_any : forall o θ p, fst (rhs_derivs o θ p) iv_r =
  if oa_with_taylor o then θ * taylor_series (oa_γ o) (oa_a_0 o) (oa_init_con o) (oa_η_derivs o) (oa_use_E_r o) iv_r
  else deriv_v_r_normal_expr (oa_γ o) (oa_a_0 o) (sqrt (oa_norm_kepler_sq o)) (p iv_r) (p iv_θ) (p iv_φ) (p iρ)
    (p iB_θ) (p iB_φ) (fst (rhs_derivs o θ p) iB_r).
Proof. intros. unfold rhs_derivs. destruct (oa_with_taylor o), (oa_use_E_r o); reflexivity. Qed.
Lemma rhs_v_φ_any : forall o θ p, fst (rhs_derivs o θ p) iv_φ =
  if oa_with_taylor o then θ * taylor_series (oa_γ o) (oa_a_0 o) (oa_init_con o) (oa_η_derivs o) (oa_use_E_r o) iv_φ
  else deriv_v_φ_normal_expr θ (oa_γ o) (oa_a_0 o) (p iv_r) (p iv_θ) (p iv_φ) (p iρ) (p iB_r) (p iB_θ) (p iB_φ)
    (fst (rhs_derivs o θ p) iB_φ).
Proof. intros. unfold rhs_derivs. destruct (oa_with_taylor o), (oa_use_E_r o); reflexivity. Qed.
Lemma rhs_ρ_any : forall o θ p, fst (rhs_derivs o θ p) iρ =
  if oa_with_taylor o then θ * taylor_series (oa_γ o) (oa_a_0 o) (oa_init_con o) (oa_η_derivs o) (oa_use_E_r o) iρ
  else deriv_ρ_normal_expr θ (oa_γ o) (p iv_r) (p iv_θ) (p iρ) (fst (rhs_derivs o θ p) iv_θ).
Proof. intros. unfold rhs_derivs. destruct (oa_with_taylor o), (oa_use_E_r o); reflexivity. Qed.
Lemma rhs_v_θ_any : forall o θ p, fst (rhs_derivs o θ p) iv_θ =
  match oa_deriv_v_θ_func o with
  | Some f => f θ
  | None => deriv_v_θ_expr θ (oa_γ o) (oa_a_0 o) (p iv_r) (p iv_θ) (p iv_φ) (p iρ) (p iB_r) (p iB_θ) (p iB_φ)
      (fst (rhs_derivs o θ p) iB_r) (fst (rhs_derivs o θ p) iB_φ)
  end.
Proof. intros. unfold rhs_derivs. destruct (oa_deriv_v_θ_func o), (oa_use_E_r o); reflexivity. Qed.

Ltac slots := cbn [mirror reversed counter_rotating in_units unchecked for_disc args_in_units oa_γ oa_a_0 oa_norm_kepler_sq oa_init_con oa_θ_scale
  oa_with_taylor oa_η_derivs oa_store_internal oa_use_E_r oa_deriv_v_θ_func oa_derivs_post_solution
  iB_r iB_φ iB_θ iv_r iv_φ iv_θ iρ iB_φ_prime iE_r iη_O iη_A iη_H] in *.

(** The Taylor coefficients only read the velocities along the disc and the diffusivities. *)
Lemma taylor_mirror : forall γ a_0 s η E, taylor_series γ a_0 (mirror s) η E = taylor_series γ a_0 s η E.
Proof. reflexivity. Qed.
Section MirrorRhs.
Variables (o : ode_args) (θ : R) (p : vec).
Hypothesis F : forall f, oa_deriv_v_θ_func o = Some f -> forall t, f (- t) = f t.
Let d := fst (rhs_derivs o θ p).
Let d' := fst (rhs_derivs (unchecked (for_disc mirror o)) (- θ) (mirror p)).
Let m := sqrt (p iB_r ^ 2 + p iB_φ ^ 2 + p iB_θ ^ 2).
Lemma mir_m : sqrt (mirror p iB_r ^ 2 + mirror p iB_φ ^ 2 + mirror p iB_θ ^ 2) = m.
Proof. unfold m. f_equal. slots. ring. Qed.
Lemma mir_B_φ : d' iB_φ = d iB_φ.
Proof.
  unfold d, d'. rewrite !rhs_B_φ, mir_m. fold m. cbv zeta. change (oa_use_E_r (unchecked (for_disc mirror o))) with (oa_use_E_r o). destruct (oa_use_E_r o); [|reflexivity].
  change (mirror p iB_r) with (- p iB_r). change (mirror p iB_φ) with (- p iB_φ). change (mirror p iv_θ) with (- p iv_θ).
  rewrite !Ropp_div. change (mirror p iB_θ) with (p iB_θ). change (mirror p iη_O) with (p iη_O). change (mirror p iη_A) with (p iη_A). change (mirror p iη_H) with (p iη_H).
  rewrite mi_C, mi_Z. apply mi_dB_φ.
Qed.
Lemma mir_B_r : d' iB_r = d iB_r.
Proof.
  unfold d, d'. rewrite !rhs_B_r, mir_m. fold m. fold d d'. rewrite mir_B_φ.
  change (mirror p iB_r) with (- p iB_r). change (mirror p iB_φ) with (- p iB_φ). change (mirror p iv_θ) with (- p iv_θ). rewrite !Ropp_div. apply mi_dB_r.
Qed.
Lemma mir_B_θ : d' iB_θ = - d iB_θ.
Proof. unfold d, d'. rewrite !rhs_B_θ, tan_neg. change (mirror p iB_r) with (- p iB_r). change (mirror p iB_θ) with (p iB_θ). change (oa_γ (unchecked (for_disc mirror o))) with (oa_γ o). ring. Qed.
Lemma mir_v_θ : d' iv_θ = d iv_θ.
Proof.
  unfold d, d'. rewrite !rhs_v_θ_any. change (oa_deriv_v_θ_func (unchecked (for_disc mirror o))) with (oa_deriv_v_θ_func o). destruct (oa_deriv_v_θ_func o) as [f|]; [apply F; reflexivity|].
  fold d d'. rewrite mir_B_r, mir_B_φ. apply mi_dv_θ.
Qed.
Lemma mir_v_r : d' iv_r = - d iv_r.
Proof.
  unfold d, d'. rewrite !rhs_v_r_any. fold d d'. rewrite mir_B_r. slots. rewrite taylor_mirror. destruct (oa_with_taylor o); [ring | apply mi_dv_r].
Qed.
Lemma mir_v_φ : d' iv_φ = - d iv_φ.
Proof.
  unfold d, d'. rewrite !rhs_v_φ_any. fold d d'. rewrite mir_B_φ. slots. rewrite taylor_mirror. destruct (oa_with_taylor o); [ring | apply mi_dv_φ].
Qed.
Lemma mir_ρ : d' iρ = - d iρ.
Proof.
  unfold d, d'. rewrite !rhs_ρ_any. fold d d'. rewrite mir_v_θ. slots. rewrite taylor_mirror. destruct (oa_with_taylor o); [ring | apply mi_dρ].
Qed.
Lemma mir_η : d' iη_O = - d iη_O /\ d' iη_A = - d iη_A /\ d' iη_H = - d iη_H.
Proof.
  destruct (rhs_η o θ p) as (A1 & A2 & A3). destruct (rhs_η (unchecked (for_disc mirror o)) (- θ) (mirror p)) as (B1 & B2 & B3). fold d in A1, A2, A3. fold d' in B1, B2, B3.
  rewrite mir_ρ, mir_B_r, mir_B_φ, mir_B_θ in B1, B2, B3. change (mirror p iB_r) with (- p iB_r) in *. change (mirror p iB_φ) with (- p iB_φ) in *.
  change (mirror p iB_θ) with (p iB_θ) in *. change (mirror p iρ) with (p iρ) in *. rewrite mi_scale in B1, B2, B3.
  change (oa_η_derivs (unchecked (for_disc mirror o))) with (oa_η_derivs o) in *. cbn [unchecked for_disc oa_init_con] in B1, B2, B3. change (mirror (oa_init_con o) iη_O) with (oa_init_con o iη_O) in *. change (mirror (oa_init_con o) iη_A) with (oa_init_con o iη_A) in *. change (mirror (oa_init_con o) iη_H) with (oa_init_con o iη_H) in *.
  rewrite A1, A2, A3, B1, B2, B3. destruct (oa_η_derivs o); repeat split; ring.
Qed.
Lemma mir_7 : d' iB_φ_prime = - d iB_φ_prime.
Proof.
  destruct (oa_use_E_r o) eqn:U.
  - change iB_φ_prime with iE_r. unfold d, d'. rewrite (rhs_E_r o) by exact U. rewrite (rhs_E_r (unchecked (for_disc mirror o))) by exact U. rewrite mir_m. fold m. fold d d'.
    rewrite mir_B_φ, mir_B_r. change (mirror p iB_r) with (- p iB_r). change (mirror p iB_φ) with (- p iB_φ). rewrite !Ropp_div, mi_J_r, mi_J_θ. apply mi_E.
  - unfold d, d'. rewrite (rhs_B_φ_prime o) by exact U. rewrite (rhs_B_φ_prime (unchecked (for_disc mirror o))) by exact U. rewrite mir_m. fold m. fold d d'.
    destruct mir_η as (-> & -> & ->). rewrite mir_B_φ, mir_B_r, mir_B_θ, mir_v_r, mir_v_φ, mir_v_θ.
    change (mirror p iB_r) with (- p iB_r). change (mirror p iB_φ) with (- p iB_φ). change (mirror p iB_θ) with (p iB_θ). change (mirror p iv_θ) with (- p iv_θ).
    rewrite !Ropp_div, mi_units. destruct (B_unit_derivs _ _ _ _ _ _ _ _ _) as ((u_r, u_φ), u_θ).
    change (mirror p iη_O) with (p iη_O). change (mirror p iη_A) with (p iη_A). change (mirror p iη_H) with (p iη_H). rewrite mi_C, mi_A. apply mi_ddB_φ.
Qed.
Lemma mirror_rhs : forall i, (i < ODE_LEN)%nat -> d' i = - mirror d i.
Proof.
  intros i I. unfold ODE_LEN in I. pose proof mir_B_r. pose proof mir_B_φ. pose proof mir_B_θ. pose proof mir_v_r. pose proof mir_v_φ. pose proof mir_v_θ. pose proof mir_ρ.
  pose proof mir_7. destruct mir_η as (H7 & H8 & H9).
  clearbody d d'. unfold mirror, iB_r, iB_φ, iB_θ, iv_r, iv_φ, iv_θ, iρ, iB_φ_prime, iη_O, iη_A, iη_H in *.
  do 11 (destruct i as [|i]; [lra|]). lia.
Qed.
End MirrorRhs.

Section ReversedRhs.
Variables (o : ode_args) (θ : R) (p : vec).
Hypothesis T : oa_with_taylor o = false.
Let o' := for_disc reversed o.
Let d := fst (rhs_derivs o θ p).
Let d' := fst (rhs_derivs o' θ (reversed p)).
Let m := sqrt (p iB_r ^ 2 + p iB_φ ^ 2 + p iB_θ ^ 2).
Lemma rev_m : sqrt (reversed p iB_r ^ 2 + reversed p iB_φ ^ 2 + reversed p iB_θ ^ 2) = m.
Proof. unfold m. f_equal. slots. ring. Qed.
Lemma rev_B_φ : d' iB_φ = - d iB_φ.
Proof.
  unfold d, d'. rewrite !rhs_B_φ, rev_m. fold m. cbv zeta. change (oa_use_E_r o') with (oa_use_E_r o). destruct (oa_use_E_r o); [|reflexivity].
  change (reversed p iB_r) with (- p iB_r). change (reversed p iB_φ) with (- p iB_φ). change (reversed p iB_θ) with (- p iB_θ). change (reversed p iv_r) with (p iv_r). change (reversed p iv_φ) with (p iv_φ). change (reversed p iv_θ) with (p iv_θ). change (reversed p iρ) with (p iρ). change (reversed p iη_O) with (p iη_O). change (reversed p iη_A) with (p iη_A). change (reversed p iη_H) with (- p iη_H). change (reversed p iE_r) with (- p iE_r). rewrite ?Ropp_div, re_C, re_Z. apply re_dB_φ.
Qed.
Lemma rev_B_r : d' iB_r = - d iB_r.
Proof.
  unfold d, d'. rewrite !rhs_B_r, rev_m. fold m. fold d d'. rewrite rev_B_φ. change (reversed p iB_r) with (- p iB_r). change (reversed p iB_φ) with (- p iB_φ). change (reversed p iB_θ) with (- p iB_θ). change (reversed p iv_r) with (p iv_r). change (reversed p iv_φ) with (p iv_φ). change (reversed p iv_θ) with (p iv_θ). change (reversed p iρ) with (p iρ). change (reversed p iη_O) with (p iη_O). change (reversed p iη_A) with (p iη_A). change (reversed p iη_H) with (- p iη_H). rewrite ?Ropp_div. apply re_dB_r.
Qed.
Lemma rev_B_θ : d' iB_θ = - d iB_θ.
Proof. unfold d, d'. rewrite !rhs_B_θ. change (reversed p iB_r) with (- p iB_r). change (reversed p iB_θ) with (- p iB_θ). change (oa_γ o') with (oa_γ o). ring. Qed.
Lemma rev_v_θ : d' iv_θ = d iv_θ.
Proof.
  unfold d, d'. rewrite !rhs_v_θ_any. change (oa_deriv_v_θ_func o') with (oa_deriv_v_θ_func o). destruct (oa_deriv_v_θ_func o) as [f|]; [reflexivity|].
  fold d d'. rewrite rev_B_r, rev_B_φ. apply re_dv_θ.
Qed.
Lemma rev_v_r : d' iv_r = d iv_r.
Proof.
  unfold d, d'. rewrite !rhs_v_r_any. fold d d'. rewrite rev_B_r. change (oa_with_taylor o') with (oa_with_taylor o). rewrite T. apply re_dv_r.
Qed.
Lemma rev_v_φ : d' iv_φ = d iv_φ.
Proof.
  unfold d, d'. rewrite !rhs_v_φ_any. fold d d'. rewrite rev_B_φ. change (oa_with_taylor o') with (oa_with_taylor o). rewrite T. apply re_dv_φ.
Qed.
Lemma rev_ρ : d' iρ = d iρ.
Proof.
  unfold d, d'. rewrite !rhs_ρ_any. fold d d'. rewrite rev_v_θ. change (oa_with_taylor o') with (oa_with_taylor o). rewrite T. reflexivity.
Qed.
Lemma rev_η : d' iη_O = d iη_O /\ d' iη_A = d iη_A /\ d' iη_H = - d iη_H.
Proof.
  destruct (rhs_η o θ p) as (A1 & A2 & A3). destruct (rhs_η o' θ (reversed p)) as (B1 & B2 & B3). fold d in A1, A2, A3. fold d' in B1, B2, B3.
  rewrite rev_ρ, rev_B_r, rev_B_φ, rev_B_θ in B1, B2, B3.
  change (reversed p iB_r) with (- p iB_r) in *. change (reversed p iB_φ) with (- p iB_φ) in *. change (reversed p iB_θ) with (- p iB_θ) in *. change (reversed p iρ) with (p iρ) in *.
  rewrite re_scale in B1, B2, B3. cbn [o' for_disc oa_init_con oa_η_derivs] in B1, B2, B3. change (reversed (oa_init_con o) iη_O) with (oa_init_con o iη_O) in *. change (reversed (oa_init_con o) iη_A) with (oa_init_con o iη_A) in *. change (reversed (oa_init_con o) iη_H) with (- oa_init_con o iη_H) in *.
  rewrite A1, A2, A3, B1, B2, B3. destruct (oa_η_derivs o); repeat split; ring.
Qed.
Lemma rev_7 : d' iB_φ_prime = - d iB_φ_prime.
Proof.
  destruct (oa_use_E_r o) eqn:U.
  - change iB_φ_prime with iE_r. unfold d, d'. rewrite (rhs_E_r o) by exact U. rewrite (rhs_E_r o') by exact U. rewrite rev_m. fold m. fold d d'.
    rewrite rev_B_φ, rev_B_r. change (reversed p iB_r) with (- p iB_r). change (reversed p iB_φ) with (- p iB_φ). change (reversed p iB_θ) with (- p iB_θ). change (reversed p iv_r) with (p iv_r). change (reversed p iv_φ) with (p iv_φ). change (reversed p iv_θ) with (p iv_θ). change (reversed p iρ) with (p iρ). change (reversed p iη_O) with (p iη_O). change (reversed p iη_A) with (p iη_A). change (reversed p iη_H) with (- p iη_H). rewrite ?Ropp_div, ?re_J_r, ?mi_J_θ, ?re_J_φ. apply re_E.
  - unfold d, d'. rewrite (rhs_B_φ_prime o) by exact U. rewrite (rhs_B_φ_prime o') by exact U. rewrite rev_m. fold m. fold d d'.
    destruct rev_η as (-> & -> & ->). rewrite rev_B_φ, rev_B_r, rev_B_θ, rev_v_r, rev_v_φ, rev_v_θ.
    change (reversed p iB_r) with (- p iB_r). change (reversed p iB_φ) with (- p iB_φ). change (reversed p iB_θ) with (- p iB_θ). change (reversed p iv_r) with (p iv_r). change (reversed p iv_φ) with (p iv_φ). change (reversed p iv_θ) with (p iv_θ). change (reversed p iρ) with (p iρ). change (reversed p iη_O) with (p iη_O). change (reversed p iη_A) with (p iη_A). change (reversed p iη_H) with (- p iη_H).
    rewrite ?Ropp_div, re_units. destruct (B_unit_derivs _ _ _ _ _ _ _ _ _) as ((u_r, u_φ), u_θ).
    rewrite re_C, re_A. apply re_ddB_φ.
Qed.
Lemma rev_rhs : forall i, (i < ODE_LEN)%nat -> d' i = reversed d i.
Proof.
  intros i I. unfold ODE_LEN in I. pose proof rev_B_r. pose proof rev_B_φ. pose proof rev_B_θ. pose proof rev_v_r. pose proof rev_v_φ. pose proof rev_v_θ. pose proof rev_ρ.
  pose proof rev_7. destruct rev_η as (H7 & H8 & H9).
  clearbody d d'. unfold reversed, iB_r, iB_φ, iB_θ, iv_r, iv_φ, iv_θ, iρ, iB_φ_prime, iη_O, iη_A, iη_H in *.
  do 11 (destruct i as [|i]; [lra|]). lia.
Qed.
End ReversedRhs.

Section RotatedRhs.
Variables (o : ode_args) (θ : R) (p : vec).
Hypothesis T : oa_with_taylor o = false.
Let o' := for_disc counter_rotating o.
Let d := fst (rhs_derivs o θ p).
Let d' := fst (rhs_derivs o' θ (counter_rotating p)).
Let m := sqrt (p iB_r ^ 2 + p iB_φ ^ 2 + p iB_θ ^ 2).
Lemma rot_m : sqrt (counter_rotating p iB_r ^ 2 + counter_rotating p iB_φ ^ 2 + counter_rotating p iB_θ ^ 2) = m.
Proof. unfold m. f_equal. slots. ring. Qed.
Lemma rot_B_φ : d' iB_φ = - d iB_φ.
Proof.
  unfold d, d'. rewrite !rhs_B_φ, rot_m. fold m. cbv zeta. change (oa_use_E_r o') with (oa_use_E_r o). destruct (oa_use_E_r o); [|reflexivity].
  change (counter_rotating p iB_r) with (p iB_r). change (counter_rotating p iB_φ) with (- p iB_φ). change (counter_rotating p iB_θ) with (p iB_θ). change (counter_rotating p iv_r) with (p iv_r). change (counter_rotating p iv_φ) with (- p iv_φ). change (counter_rotating p iv_θ) with (p iv_θ). change (counter_rotating p iρ) with (p iρ). change (counter_rotating p iη_O) with (p iη_O). change (counter_rotating p iη_A) with (p iη_A). change (counter_rotating p iη_H) with (- p iη_H). change (counter_rotating p iE_r) with (- p iE_r). rewrite ?Ropp_div, ro_C, ro_Z. apply ro_dB_φ.
Qed.
Lemma rot_B_r : d' iB_r = d iB_r.
Proof.
  unfold d, d'. rewrite !rhs_B_r, rot_m. fold m. fold d d'. rewrite rot_B_φ. change (counter_rotating p iB_r) with (p iB_r). change (counter_rotating p iB_φ) with (- p iB_φ). change (counter_rotating p iB_θ) with (p iB_θ). change (counter_rotating p iv_r) with (p iv_r). change (counter_rotating p iv_φ) with (- p iv_φ). change (counter_rotating p iv_θ) with (p iv_θ). change (counter_rotating p iρ) with (p iρ). change (counter_rotating p iη_O) with (p iη_O). change (counter_rotating p iη_A) with (p iη_A). change (counter_rotating p iη_H) with (- p iη_H). rewrite ?Ropp_div. apply ro_dB_r.
Qed.
Lemma rot_B_θ : d' iB_θ = d iB_θ.
Proof. unfold d, d'. rewrite !rhs_B_θ. change (counter_rotating p iB_r) with (p iB_r). change (counter_rotating p iB_θ) with (p iB_θ). change (oa_γ o') with (oa_γ o). ring. Qed.
Lemma rot_v_θ : d' iv_θ = d iv_θ.
Proof.
  unfold d, d'. rewrite !rhs_v_θ_any. change (oa_deriv_v_θ_func o') with (oa_deriv_v_θ_func o). destruct (oa_deriv_v_θ_func o) as [f|]; [reflexivity|].
  fold d d'. rewrite rot_B_r, rot_B_φ. apply ro_dv_θ.
Qed.
Lemma rot_v_r : d' iv_r = d iv_r.
Proof.
  unfold d, d'. rewrite !rhs_v_r_any. fold d d'. rewrite rot_B_r. change (oa_with_taylor o') with (oa_with_taylor o). rewrite T. apply ro_dv_r.
Qed.
Lemma rot_v_φ : d' iv_φ = - d iv_φ.
Proof.
  unfold d, d'. rewrite !rhs_v_φ_any. fold d d'. rewrite rot_B_φ. change (oa_with_taylor o') with (oa_with_taylor o). rewrite T. apply ro_dv_φ.
Qed.
Lemma rot_ρ : d' iρ = d iρ.
Proof.
  unfold d, d'. rewrite !rhs_ρ_any. fold d d'. rewrite rot_v_θ. change (oa_with_taylor o') with (oa_with_taylor o). rewrite T. reflexivity.
Qed.
Lemma rot_η : d' iη_O = d iη_O /\ d' iη_A = d iη_A /\ d' iη_H = - d iη_H.
Proof.
  destruct (rhs_η o θ p) as (A1 & A2 & A3). destruct (rhs_η o' θ (counter_rotating p)) as (B1 & B2 & B3). fold d in A1, A2, A3. fold d' in B1, B2, B3.
  rewrite rot_ρ, rot_B_r, rot_B_φ, rot_B_θ in B1, B2, B3.
  change (counter_rotating p iB_r) with (p iB_r) in *. change (counter_rotating p iB_φ) with (- p iB_φ) in *. change (counter_rotating p iB_θ) with (p iB_θ) in *. change (counter_rotating p iρ) with (p iρ) in *.
  rewrite ro_scale in B1, B2, B3. cbn [o' for_disc oa_init_con oa_η_derivs] in B1, B2, B3. change (counter_rotating (oa_init_con o) iη_O) with (oa_init_con o iη_O) in *. change (counter_rotating (oa_init_con o) iη_A) with (oa_init_con o iη_A) in *. change (counter_rotating (oa_init_con o) iη_H) with (- oa_init_con o iη_H) in *.
  rewrite A1, A2, A3, B1, B2, B3. destruct (oa_η_derivs o); repeat split; ring.
Qed.
Lemma rot_7 : d' iB_φ_prime = - d iB_φ_prime.
Proof.
  destruct (oa_use_E_r o) eqn:U.
  - change iB_φ_prime with iE_r. unfold d, d'. rewrite (rhs_E_r o) by exact U. rewrite (rhs_E_r o') by exact U. rewrite rot_m. fold m. fold d d'.
    rewrite rot_B_φ, rot_B_r. change (counter_rotating p iB_r) with (p iB_r). change (counter_rotating p iB_φ) with (- p iB_φ). change (counter_rotating p iB_θ) with (p iB_θ). change (counter_rotating p iv_r) with (p iv_r). change (counter_rotating p iv_φ) with (- p iv_φ). change (counter_rotating p iv_θ) with (p iv_θ). change (counter_rotating p iρ) with (p iρ). change (counter_rotating p iη_O) with (p iη_O). change (counter_rotating p iη_A) with (p iη_A). change (counter_rotating p iη_H) with (- p iη_H). rewrite ?Ropp_div, ?re_J_r, ?mi_J_θ. apply ro_E.
  - unfold d, d'. rewrite (rhs_B_φ_prime o) by exact U. rewrite (rhs_B_φ_prime o') by exact U. rewrite rot_m. fold m. fold d d'.
    destruct rot_η as (-> & -> & ->). rewrite rot_B_φ, rot_B_r, rot_B_θ, rot_v_r, rot_v_φ, rot_v_θ.
    change (counter_rotating p iB_r) with (p iB_r). change (counter_rotating p iB_φ) with (- p iB_φ). change (counter_rotating p iB_θ) with (p iB_θ). change (counter_rotating p iv_r) with (p iv_r). change (counter_rotating p iv_φ) with (- p iv_φ). change (counter_rotating p iv_θ) with (p iv_θ). change (counter_rotating p iρ) with (p iρ). change (counter_rotating p iη_O) with (p iη_O). change (counter_rotating p iη_A) with (p iη_A). change (counter_rotating p iη_H) with (- p iη_H).
    rewrite ?Ropp_div, ro_units. destruct (B_unit_derivs _ _ _ _ _ _ _ _ _) as ((u_r, u_φ), u_θ).
    rewrite ro_C, ro_A. apply ro_ddB_φ.
Qed.
Lemma rot_rhs : forall i, (i < ODE_LEN)%nat -> d' i = counter_rotating d i.
Proof.
  intros i I. unfold ODE_LEN in I. pose proof rot_B_r. pose proof rot_B_φ. pose proof rot_B_θ. pose proof rot_v_r. pose proof rot_v_φ. pose proof rot_v_θ. pose proof rot_ρ.
  pose proof rot_7. destruct rot_η as (H7 & H8 & H9).
  clearbody d d'. unfold counter_rotating, iB_r, iB_φ, iB_θ, iv_r, iv_φ, iv_θ, iρ, iB_φ_prime, iη_O, iη_A, iη_H in *.
  do 11 (destruct i as [|i]; [lra|]). lia.
Qed.
End RotatedRhs.

Section UnitsRhs.
Variables (o : ode_args) (θ : R) (p : vec) (λ μ : R).
Hypothesis T : oa_with_taylor o = false.
Hypothesis Hλ : 0 < λ.
Hypothesis Hμ : 0 < μ.
Let o' := args_in_units λ μ o.
Let p' := in_units λ μ p.
Let d := fst (rhs_derivs o θ p).
Let d' := fst (rhs_derivs o' θ p').
Let m := sqrt (p iB_r ^ 2 + p iB_φ ^ 2 + p iB_θ ^ 2).
Lemma uni_m : sqrt (p' iB_r ^ 2 + p' iB_φ ^ 2 + p' iB_θ ^ 2) = λ * m.
Proof. unfold m, p'. slots. apply un_m. exact Hλ. Qed.
Ltac shape := change (p' iB_r) with (λ * p iB_r) in *; change (p' iB_φ) with (λ * p iB_φ) in *; change (p' iB_θ) with (λ * p iB_θ) in *;
  change (p' iv_r) with (p iv_r) in *; change (p' iv_φ) with (p iv_φ) in *; change (p' iv_θ) with (p iv_θ) in *; change (p' iρ) with (μ * p iρ) in *;
  change (p' iE_r) with (λ * p iE_r) in *; change (p' iη_O) with (p iη_O) in *; change (p' iη_A) with (p iη_A) in *; change (p' iη_H) with (p iη_H) in *.
Lemma uni_B_φ : d' iB_φ = λ * d iB_φ.
Proof.
  unfold d, d'. rewrite !rhs_B_φ, uni_m. fold m. cbv zeta. change (oa_use_E_r o') with (oa_use_E_r o). destruct (oa_use_E_r o); [|reflexivity].
  shape. rewrite !(un_b λ Hλ). apply un_dB_φ.
Qed.
Lemma uni_B_r : d' iB_r = λ * d iB_r.
Proof. unfold d, d'. rewrite !rhs_B_r, uni_m. fold m. fold d d'. rewrite uni_B_φ. shape. rewrite !(un_b λ Hλ). apply un_dB_r. Qed.
Lemma uni_B_θ : d' iB_θ = λ * d iB_θ.
Proof. unfold d, d'. rewrite !rhs_B_θ. shape. change (oa_γ o') with (oa_γ o). ring. Qed.
Lemma uni_v_θ : d' iv_θ = d iv_θ.
Proof.
  unfold d, d'. rewrite !rhs_v_θ_any. change (oa_deriv_v_θ_func o') with (oa_deriv_v_θ_func o). destruct (oa_deriv_v_θ_func o) as [f|]; [reflexivity|].
  fold d d'. rewrite uni_B_r, uni_B_φ. shape. apply un_dv_θ; assumption.
Qed.
Lemma uni_v_r : d' iv_r = d iv_r.
Proof. unfold d, d'. rewrite !rhs_v_r_any. fold d d'. rewrite uni_B_r. change (oa_with_taylor o') with (oa_with_taylor o). rewrite T. shape. apply un_dv_r; assumption. Qed.
Lemma uni_v_φ : d' iv_φ = d iv_φ.
Proof. unfold d, d'. rewrite !rhs_v_φ_any. fold d d'. rewrite uni_B_φ. change (oa_with_taylor o') with (oa_with_taylor o). rewrite T. shape. apply un_dv_φ; assumption. Qed.
Lemma uni_ρ : d' iρ = μ * d iρ.
Proof. unfold d, d'. rewrite !rhs_ρ_any. fold d d'. rewrite uni_v_θ. change (oa_with_taylor o') with (oa_with_taylor o). rewrite T. shape. apply un_dρ. Qed.
Lemma uni_η : d' iη_O = d iη_O /\ d' iη_A = d iη_A /\ d' iη_H = d iη_H.
Proof.
  destruct (rhs_η o θ p) as (A1 & A2 & A3). destruct (rhs_η o' θ p') as (B1 & B2 & B3). fold d in A1, A2, A3. fold d' in B1, B2, B3.
  rewrite uni_ρ, uni_B_r, uni_B_φ, uni_B_θ in B1, B2, B3. shape.
  change (oa_init_con o' iη_O) with (μ / λ ^ 2 * oa_init_con o iη_O) in *. change (oa_init_con o' iη_A) with (μ / λ ^ 2 * oa_init_con o iη_A) in *.
  change (oa_init_con o' iη_H) with (μ / λ ^ 2 * oa_init_con o iη_H) in *. rewrite un_scale in B1, B2, B3 by assumption.
  change (oa_η_derivs o') with (oa_η_derivs o) in *. rewrite A1, A2, A3, B1, B2, B3. destruct (oa_η_derivs o); repeat split; reflexivity.
Qed.
Lemma uni_7 : d' iB_φ_prime = λ * d iB_φ_prime.
Proof.
  destruct (oa_use_E_r o) eqn:U.
  - change iB_φ_prime with iE_r. unfold d, d'. rewrite (rhs_E_r o) by exact U. rewrite (rhs_E_r o') by exact U. rewrite uni_m. fold m. fold d d'.
    rewrite uni_B_φ, uni_B_r. shape. rewrite !(un_b λ Hλ).
    replace (J_r_func θ (λ * p iB_φ) (λ * d iB_φ)) with (λ * J_r_func θ (p iB_φ) (d iB_φ)) by (unfold J_r_func; ring).
    replace (J_θ_func (oa_γ o') (λ * p iB_φ)) with (λ * J_θ_func (oa_γ o) (p iB_φ)) by (unfold J_θ_func; cbn; ring).
    replace (J_φ_func (oa_γ o') (λ * p iB_θ) (λ * d iB_r)) with (λ * J_φ_func (oa_γ o) (p iB_θ) (d iB_r)) by (unfold J_φ_func; cbn; ring).
    apply un_E.
  - unfold d, d'. rewrite (rhs_B_φ_prime o) by exact U. rewrite (rhs_B_φ_prime o') by exact U. rewrite uni_m. fold m. fold d d'.
    destruct uni_η as (-> & -> & ->). rewrite uni_B_φ, uni_B_r, uni_B_θ, uni_v_r, uni_v_φ, uni_v_θ. shape.
    rewrite !(un_b λ Hλ), (un_units λ Hλ). destruct (B_unit_derivs _ _ _ _ _ _ _ _ _) as ((u_r, u_φ), u_θ). apply un_ddB_φ.
Qed.
Lemma uni_rhs : forall i, (i < ODE_LEN)%nat -> d' i = in_units λ μ d i.
Proof.
  intros i I. unfold ODE_LEN in I. pose proof uni_B_r. pose proof uni_B_φ. pose proof uni_B_θ. pose proof uni_v_r. pose proof uni_v_φ. pose proof uni_v_θ. pose proof uni_ρ.
  pose proof uni_7. destruct uni_η as (H7 & H8 & H9).
  clearbody d d'. unfold in_units, iB_r, iB_φ, iB_θ, iv_r, iv_φ, iv_θ, iρ, iB_φ_prime, iη_O, iη_A, iη_H in *.
  do 11 (destruct i as [|i]; [assumption|]). lia.
Qed.
End UnitsRhs.
