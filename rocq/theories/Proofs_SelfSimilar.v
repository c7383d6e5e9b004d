(** The partial differential equations of a radially self-similar fluid, at any radius, as equations between the values
    and the derivatives of its profiles: each is equivalent to one ordinary equation. *)
From Coq Require Import Reals Lra Lia.
From Verif Require Import Model_Index Model_Deriv Lib_Deriv Spec_MHD Spec_Ode Proofs_MHD.
Open Scope R_scope.

Ltac uniq H K := let X := fresh "X" in pose proof (uniqueness_limite _ _ _ _ H K) as X.

Lemma divergence_unique : forall F G r θ l m, divergence_is F G r θ l -> divergence_is F G r θ m -> l = m.
Proof.
  intros F G r θ l m (a & b & Ha & Hb & E) (a' & b' & Ha' & Hb' & E').
  uniq Ha Ha'. uniq Hb Hb'. subst. reflexivity.
Qed.
Lemma curl_unique : forall F G H r θ a b c a' b' c', curl_is F G H r θ a b c -> curl_is F G H r θ a' b' c' ->
  a = a' /\ b = b' /\ c = c'.
Proof.
  intros F G H r θ a b c a' b' c' (u & v & w & x & H1 & H2 & H3 & H4 & E1 & E2 & E3)
    (u' & v' & w' & x' & K1 & K2 & K3 & K4 & F1 & F2 & F3).
  uniq H1 K1. uniq H2 K2. uniq H3 K3. uniq H4 K4. subst. auto.
Qed.
Lemma advection_unique : forall F G H r θ a b c a' b' c', advection_is F G H r θ a b c -> advection_is F G H r θ a' b' c' ->
  a = a' /\ b = b' /\ c = c'.
Proof.
  intros F G H r θ a b c a' b' c' (u & v & w & x & y & z & H1 & H2 & H3 & H4 & H5 & H6 & E1 & E2 & E3)
    (u' & v' & w' & x' & y' & z' & K1 & K2 & K3 & K4 & K5 & K6 & F1 & F2 & F3).
  uniq H1 K1. uniq H2 K2. uniq H3 K3. uniq H4 K4. uniq H5 K5. uniq H6 K6. subst. auto.
Qed.
Lemma gradient_unique : forall F r θ a b a' b', gradient_is F r θ a b -> gradient_is F r θ a' b' -> a = a' /\ b = b'.
Proof.
  intros F r θ a b a' b' (u & v & H1 & H2 & E1 & E2) (u' & v' & K1 & K2 & F1 & F2).
  uniq H1 K1. uniq H2 K2. subst. auto.
Qed.

Section Curve.
Variables (γ : R) (y : R -> vec) (d : vec) (θ r : R).
Hypothesis Hd : forall i, (i < ODE_LEN)%nat -> derivable_pt_lim (fun t => y t i) θ (d i).
Hypothesis Hcos : cos θ <> 0.
Hypothesis Hr : 0 < r.
Let p := y θ.
Let F := fluid_of γ y.
Let J_r := - (d iB_φ - p iB_φ * tan θ).
Let J_φ := d iB_r + (1 / 4 - γ) * p iB_θ.
Let J_θ := - (1 / 4 - γ) * p iB_φ.

Ltac solve_lt := unfold ODE_LEN, iB_r, iB_φ, iB_θ, iv_r, iv_φ, iv_θ, iρ, iη_O, iη_A, iη_H, iE_r, iB_φ_prime; lia.
Ltac get i := constr:(Hd i ltac:(solve_lt)).

Lemma curve_curl : curl_is (f_B_r F) (f_B_φ F) (f_B_θ F) r θ
  (Rpower r (γ - 5 / 4) / r * J_r) (Rpower r (γ - 5 / 4) / r * J_φ) (Rpower r (γ - 5 / 4) / r * J_θ).
Proof.
  pose proof (Hd iB_φ ltac:(solve_lt)) as D1. pose proof (Hd iB_r ltac:(solve_lt)) as D2.
  unfold curl_is, F. do 4 eexists. unfold fluid_of, self_similar_fluid. simpl.
  split; [apply ss_pd_θ_cos with (f := fun t => y t iB_φ); eassumption|].
  split; [apply ss_pd_θ with (f := fun t => y t iB_r); eassumption|].
  split; [apply ss_pd_r_r with (f := fun t => y t iB_θ); eassumption|].
  split; [apply ss_pd_r_r with (f := fun t => y t iB_φ); eassumption|].
  fold p. unfold J_r, J_φ, J_θ. split; [|split].
  - rewrite sin_tan by assumption. field. repeat split; try assumption; lra.
  - field. lra.
  - field. lra.
Qed.
Lemma curve_adv : advection_is (f_v_r F) (f_v_φ F) (f_v_θ F) r θ
  (/ r / r * (- (p iv_r) ^ 2 / 2 + p iv_θ * d iv_r - (p iv_θ ^ 2 + p iv_φ ^ 2)))
  (/ r / r * (p iv_r * p iv_φ / 2 + p iv_θ * d iv_φ - p iv_θ * p iv_φ * tan θ))
  (/ r / r * (p iv_r * p iv_θ / 2 + p iv_θ * d iv_θ + p iv_φ ^ 2 * tan θ)).
Proof.
  pose proof (Hd iv_r ltac:(solve_lt)) as D1. pose proof (Hd iv_φ ltac:(solve_lt)) as D2.
  pose proof (Hd iv_θ ltac:(solve_lt)) as D3. pose proof (Rpower_half_sq r Hr) as Hh.
  unfold advection_is, F. do 6 eexists. unfold fluid_of, self_similar_fluid. simpl.
  split; [apply ss_pd_r with (f := fun t => y t iv_r); eassumption|].
  split; [apply ss_pd_θ with (f := fun t => y t iv_r); eassumption|].
  split; [apply ss_pd_r with (f := fun t => y t iv_φ); eassumption|].
  split; [apply ss_pd_θ with (f := fun t => y t iv_φ); eassumption|].
  split; [apply ss_pd_r with (f := fun t => y t iv_θ); eassumption|].
  split; [apply ss_pd_θ with (f := fun t => y t iv_θ); eassumption|].
  unfold self_similar. fold p. rewrite <- Hh. split; [|split]; field; lra.
Qed.
Lemma curve_grad : gradient_is (pressure F) r θ
  ((2 * γ - 5 / 2) * Rpower r (2 * γ - 3 / 2) / r ^ 2 * p iρ) (Rpower r (2 * γ - 3 / 2) / r ^ 2 * d iρ).
Proof.
  pose proof (Hd iρ ltac:(solve_lt)) as D1. unfold F.
  unfold gradient_is. do 2 eexists. unfold pressure, fluid_of, self_similar_fluid, self_similar. simpl.
  split; [unfold pd_r; dlim; lra|]. split; [unfold pd_θ; dlim; lra|].
  fold p. unfold Rsqr. split; field; lra.
Qed.

Lemma Pρ_eq : Rpower r (2 * γ - 3 / 2) = Rpower r (γ - 5 / 4) ^ 2 * r.
Proof. rewrite (Rpower_B_sq r γ Hr). field. lra. Qed.

Ltac fields := unfold F, fluid_of, self_similar_fluid, self_similar; simpl; fold p.
(** From an equation E between two sides, both multiples of the goal's by the nonzero k. *)
Ltac scaled k := apply Rmult_eq_reg_l with k; [|].

Lemma solenoidal_iff : solenoidal F r θ <-> d iB_θ = p iB_θ * tan θ - (γ + 3 / 4) * p iB_r.
Proof.
  pose proof (Hd iB_θ ltac:(solve_lt)) as D. pose proof (Rpower_ne r (γ - 5 / 4)) as HP.
  assert (K : divergence_is (f_B_r F) (f_B_θ F) r θ
    (Rpower r (γ - 5 / 4) / r * (d iB_θ - (p iB_θ * tan θ - (γ + 3 / 4) * p iB_r)))).
  { unfold divergence_is, F, fluid_of, self_similar_fluid. simpl. do 2 eexists.
    split; [apply ss_pd_r_r2 with (f := fun t => y t iB_r); assumption|].
    split; [apply ss_pd_θ_cos with (f := fun t => y t iB_θ); eassumption|].
    fold p. rewrite sin_tan by assumption. field. repeat split; try assumption; lra. }
  split.
  - intros H. pose proof (divergence_unique _ _ _ _ _ _ H K) as E.
    symmetry in E. apply Rmult_integral in E. destruct E as [E | E]; [|lra].
    exfalso. apply HP. replace (Rpower r (γ - 5 / 4)) with (Rpower r (γ - 5 / 4) / r * r) by (field; lra). rewrite E. ring.
  - intros E. unfold solenoidal. rewrite E in K. replace 0 with
      (Rpower r (γ - 5 / 4) / r * (p iB_θ * tan θ - (γ + 3 / 4) * p iB_r - (p iB_θ * tan θ - (γ + 3 / 4) * p iB_r))) by ring.
    exact K.
Qed.

Lemma scale_iff : forall k a b a' b', k <> 0 -> a - b = k * (a' - b') -> (a = b <-> a' = b').
Proof.
  intros k a b a' b' Hk E. split; intros H.
  - assert (X : k * (a' - b') = 0) by lra. apply Rmult_integral in X. destruct X; [contradiction | lra].
  - rewrite H in E. lra.
Qed.
Lemma curve_scale : Rpower r (2 * γ - 3 / 2) / r ^ 2 <> 0.
Proof.
  pose proof (Rpower_ne r (2 * γ - 3 / 2)). apply Rmult_integral_contrapositive. split; [assumption|].
  apply Rinv_neq_0_compat, pow_nonzero. lra.
Qed.

Lemma momentum_r_iff : forall K a_0, momentum_r K a_0 F r θ <->
  p iρ * (- p iv_r ^ 2 / 2 + p iv_θ * d iv_r - (p iv_θ ^ 2 + p iv_φ ^ 2)) =
  - (2 * γ - 5 / 2) * p iρ - p iρ * K + a_0 * (J_φ * p iB_θ - J_θ * p iB_φ).
Proof.
  intros K a_0.
  set (l := p iρ * (- p iv_r ^ 2 / 2 + p iv_θ * d iv_r - (p iv_θ ^ 2 + p iv_φ ^ 2))).
  set (m := - (2 * γ - 5 / 2) * p iρ - p iρ * K + a_0 * (J_φ * p iB_θ - J_θ * p iB_φ)).
  assert (X : let k := Rpower r (2 * γ - 3 / 2) / r / r in
    let q := Rpower r (γ - 5 / 4) in
    f_ρ F r θ * (/ r / r * (- (p iv_r) ^ 2 / 2 + p iv_θ * d iv_r - (p iv_θ ^ 2 + p iv_φ ^ 2))) -
    (- ((2 * γ - 5 / 2) * Rpower r (2 * γ - 3 / 2) / r ^ 2 * p iρ) - f_ρ F r θ * K / r ^ 2
      + a_0 * cross_r (q / r * J_r) (q / r * J_φ) (q / r * J_θ) (f_B_r F r θ) (f_B_φ F r θ) (f_B_θ F r θ)) = k * (l - m)).
  { unfold l, m. fields. unfold cross_r. rewrite Pρ_eq. field. lra. }
  cbv zeta in X. pose proof curve_scale as Hs. replace (Rpower r (2 * γ - 3 / 2) / r ^ 2) with
    (Rpower r (2 * γ - 3 / 2) / r / r) in Hs by (field; lra).
  rewrite <- (scale_iff _ _ _ _ _ Hs X). unfold momentum_r. split.
  - intros (ar & ap & at_ & gr & gt & jr & jp & jt & Ha & Hg & Hj & E).
    destruct (advection_unique _ _ _ _ _ _ _ _ _ _ _ Ha curve_adv) as (E1 & _ & _).
    destruct (gradient_unique _ _ _ _ _ _ _ Hg curve_grad) as (E2 & _).
    destruct (curl_unique _ _ _ _ _ _ _ _ _ _ _ Hj curve_curl) as (E3 & E4 & E5). subst. exact E.
  - intros E. do 8 eexists. split; [exact curve_adv|]. split; [exact curve_grad|]. split; [exact curve_curl|]. exact E.
Qed.
Lemma momentum_φ_iff : forall a_0, momentum_φ a_0 F r θ <->
  p iρ * (p iv_r * p iv_φ / 2 + p iv_θ * d iv_φ - p iv_θ * p iv_φ * tan θ) = a_0 * (J_θ * p iB_r - J_r * p iB_θ).
Proof.
  intros a_0.
  set (l := p iρ * (p iv_r * p iv_φ / 2 + p iv_θ * d iv_φ - p iv_θ * p iv_φ * tan θ)).
  set (m := a_0 * (J_θ * p iB_r - J_r * p iB_θ)).
  assert (X : let k := Rpower r (2 * γ - 3 / 2) / r / r in
    let q := Rpower r (γ - 5 / 4) in
    f_ρ F r θ * (/ r / r * (p iv_r * p iv_φ / 2 + p iv_θ * d iv_φ - p iv_θ * p iv_φ * tan θ)) -
    (a_0 * cross_φ (q / r * J_r) (q / r * J_φ) (q / r * J_θ) (f_B_r F r θ) (f_B_φ F r θ) (f_B_θ F r θ)) = k * (l - m)).
  { unfold l, m. fields. unfold cross_φ. rewrite Pρ_eq. field. lra. }
  cbv zeta in X. pose proof curve_scale as Hs. replace (Rpower r (2 * γ - 3 / 2) / r ^ 2) with
    (Rpower r (2 * γ - 3 / 2) / r / r) in Hs by (field; lra).
  rewrite <- (scale_iff _ _ _ _ _ Hs X). unfold momentum_φ. split.
  - intros (ar & ap & at_ & jr & jp & jt & Ha & Hj & E).
    destruct (advection_unique _ _ _ _ _ _ _ _ _ _ _ Ha curve_adv) as (_ & E1 & _).
    destruct (curl_unique _ _ _ _ _ _ _ _ _ _ _ Hj curve_curl) as (E3 & E4 & E5). subst. exact E.
  - intros E. do 6 eexists. split; [exact curve_adv|]. split; [exact curve_curl|]. exact E.
Qed.
Lemma momentum_θ_iff : forall a_0, momentum_θ a_0 F r θ <->
  p iρ * (p iv_r * p iv_θ / 2 + p iv_θ * d iv_θ + p iv_φ ^ 2 * tan θ) = - d iρ + a_0 * (J_r * p iB_φ - J_φ * p iB_r).
Proof.
  intros a_0.
  set (l := p iρ * (p iv_r * p iv_θ / 2 + p iv_θ * d iv_θ + p iv_φ ^ 2 * tan θ)).
  set (m := - d iρ + a_0 * (J_r * p iB_φ - J_φ * p iB_r)).
  assert (X : let k := Rpower r (2 * γ - 3 / 2) / r / r in
    let q := Rpower r (γ - 5 / 4) in
    f_ρ F r θ * (/ r / r * (p iv_r * p iv_θ / 2 + p iv_θ * d iv_θ + p iv_φ ^ 2 * tan θ)) -
    (- (Rpower r (2 * γ - 3 / 2) / r ^ 2 * d iρ)
      + a_0 * cross_θ (q / r * J_r) (q / r * J_φ) (q / r * J_θ) (f_B_r F r θ) (f_B_φ F r θ) (f_B_θ F r θ)) = k * (l - m)).
  { unfold l, m. fields. unfold cross_θ. rewrite Pρ_eq. field. lra. }
  cbv zeta in X. pose proof curve_scale as Hs. replace (Rpower r (2 * γ - 3 / 2) / r ^ 2) with
    (Rpower r (2 * γ - 3 / 2) / r / r) in Hs by (field; lra).
  rewrite <- (scale_iff _ _ _ _ _ Hs X). unfold momentum_θ. split.
  - intros (ar & ap & at_ & gr & gt & jr & jp & jt & Ha & Hg & Hj & E).
    destruct (advection_unique _ _ _ _ _ _ _ _ _ _ _ Ha curve_adv) as (_ & _ & E1).
    destruct (gradient_unique _ _ _ _ _ _ _ Hg curve_grad) as (_ & E2).
    destruct (curl_unique _ _ _ _ _ _ _ _ _ _ _ Hj curve_curl) as (E3 & E4 & E5). subst. exact E.
  - intros E. do 8 eexists. split; [exact curve_adv|]. split; [exact curve_grad|]. split; [exact curve_curl|]. exact E.
Qed.
Lemma E_φ_iff : B_nonzero p -> (E_φ_vanishes F r θ <->
  ohm_E_φ (p iv_r) (p iv_φ) (p iv_θ) (p iB_r) (p iB_φ) (p iB_θ) J_r J_φ J_θ (p iη_O) (p iη_A) (p iη_H) = 0).
Proof.
  intros HB.
  set (e := ohm_E_φ (p iv_r) (p iv_φ) (p iv_θ) (p iB_r) (p iB_φ) (p iB_θ) J_r J_φ J_θ (p iη_O) (p iη_A) (p iη_H)).
  set (PB := Rpower r (γ - 5 / 4)).
  assert (HPB : 0 < PB) by apply Rpower_pos.
  pose proof (Rpower_half_sq' r Hr) as Hh. pose proof (Rpower_half_sq r Hr) as Hq.
  assert (HP2 : 0 < Rpower r (-1 / 2)) by apply Rpower_pos.
  set (P1 := Rpower r (1 / 2)) in *. set (P2 := Rpower r (-1 / 2)) in *.
  assert (X : ohm_E_φ (f_v_r F r θ) (f_v_φ F r θ) (f_v_θ F r θ) (f_B_r F r θ) (f_B_φ F r θ) (f_B_θ F r θ)
      (PB / r * J_r) (PB / r * J_φ) (PB / r * J_θ) (f_η_O F r θ) (f_η_A F r θ) (f_η_H F r θ) = PB * P2 * e).
  { fields. fold PB P1 P2.
    replace (PB / r * J_r) with (PB * (J_r / r)) by (field; lra).
    replace (PB / r * J_φ) with (PB * (J_φ / r)) by (field; lra).
    replace (PB / r * J_θ) with (PB * (J_θ / r)) by (field; lra).
    rewrite ohm_scale_φ by assumption.
    assert (HP1 : P1 * / r = P2) by (rewrite <- Hq; simpl; rewrite Rmult_1_r, <- Rmult_assoc, Hh; ring).
    unfold e, ohm_E_φ, ohm_E. set (m := norm3 (p iB_r) (p iB_φ) (p iB_θ)).
    assert (Hm0 : m <> 0) by (apply Rgt_not_eq, sqrt_lt_R0; exact HB). clearbody m.
    rewrite <- HP1. unfold cross_r, cross_φ, cross_θ. field. repeat split; try assumption; lra. }
  assert (HP : PB * P2 <> 0) by (apply Rgt_not_eq, Rmult_lt_0_compat; assumption).
  unfold E_φ_vanishes. split.
  - intros (jr & jp & jt & Hj & E). destruct (curl_unique _ _ _ _ _ _ _ _ _ _ _ Hj curve_curl) as (E3 & E4 & E5).
    subst. fold PB in E. rewrite X in E. apply Rmult_integral in E. destruct E; [contradiction | assumption].
  - intros E. do 3 eexists. split; [exact curve_curl|]. fold PB. rewrite X, E. ring.
Qed.
End Curve.
