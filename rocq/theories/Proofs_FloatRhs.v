(** Rounding in the denominators of the right-hand side. *)
From Coq Require Import ZArith Reals Lra Lia Psatz.
From Flocq Require Import Core.
From Verif Require Import Model_Float Spec_FloatRhs.
Local Open Scope R_scope.

Section Round.
Variables emin p : Z.
Hypothesis Fm : sensible_format emin p.
Let fexp := FLT_exp emin p.
Notation RN := (rounded emin p).
Notation pow := (bpow radix2).
Notation F := (generic_format radix2 fexp).
Instance prec_pos : Prec_gt_0 p. Proof. unfold Prec_gt_0. destruct Fm. lia. Qed.

Lemma rn_le : forall x y, x <= y -> RN x <= RN y.
Proof. intros x y H. apply round_le; [apply FLT_exp_valid, prec_pos | apply valid_rnd_N | exact H]. Qed.
Lemma rn_format : forall x, F (RN x).
Proof. intro x. apply generic_format_round; [apply FLT_exp_valid, prec_pos | apply valid_rnd_N]. Qed.
Lemma rn_exact : forall x, F x -> RN x = x.
Proof. intros x H. apply round_generic; [apply valid_rnd_N | exact H]. Qed.
Lemma rn_ge : forall x y, F x -> x <= y -> x <= RN y.
Proof. intros x y Hx H. rewrite <- (rn_exact x Hx). apply rn_le, H. Qed.
Lemma rn_le_F : forall x y, F y -> x <= y -> RN x <= y.
Proof. intros x y Hy H. rewrite <- (rn_exact y Hy). apply rn_le, H. Qed.
Lemma f_zero : F 0. Proof. apply generic_format_0. Qed.
Lemma f_pow : forall k, (emin <= k)%Z -> F (pow k).
Proof. intros k H. apply generic_format_bpow. unfold fexp, FLT_exp. destruct Fm. lia. Qed.
Lemma f_one : F 1. Proof. change 1 with (pow 0). apply f_pow. destruct Fm. lia. Qed.
Lemma f_opp : forall x, F x -> F (- x). Proof. intros x H. apply generic_format_opp, H. Qed.
Lemma f_abs : forall x, F x -> F (Rabs x). Proof. intros x H. apply generic_format_abs, H. Qed.

Lemma q_small : 0 < pow (- p) <= / 16.
Proof.
  split; [apply bpow_gt_0|]. replace (/ 16) with (pow (-4)) by reflexivity || (cbn; lra). apply bpow_le. destruct Fm. lia.
Qed.

(** The error of one rounding, for a number below a power of two. *)
Lemma rn_error : forall x k, x <> 0 -> Rabs x < pow k -> (emin + p <= k)%Z -> Rabs (RN x - x) <= / 2 * pow (k - p).
Proof.
  intros x k N H L. eapply Rle_trans; [apply error_le_half_ulp; apply FLT_exp_valid, prec_pos|].
  apply Rmult_le_compat_l; [lra|]. rewrite ulp_neq_0 by exact N. apply bpow_le. unfold cexp, FLT_exp.
  assert (mag radix2 x <= k)%Z by (apply mag_le_bpow; assumption). lia.
Qed.

(** The square root of the rounded square is not below the number. *)
Lemma sqrt_sq_pos : forall x δ, F x -> 0 < x -> square_normal emin p x -> Rabs δ <= pow (- p - 4) -> x <= RN (sqrt (RN (x ^ 2 * (1 + δ)))).
Proof.
  intros x δ Fx Px (k & Hk & Lk) Hδ. rewrite (Rabs_pos_eq x) in Lk by lra.
  pose proof Fm as (Fm1 & Fm2). pose proof q_small as (Pq & Lq). set (q := pow (- p)) in *.
  assert (Eδ : pow (- p - 4) = q / 16) by (unfold q, Z.sub; rewrite bpow_plus; cbn; lra). rewrite Eδ in Hδ. apply Rabs_le_inv in Hδ.
  assert (HE : exists E : Z, pow (E - 1) <= x < pow E /\ (mag radix2 x : Z) = E).
  { exists (mag radix2 x : Z). split; [|reflexivity]. pose proof (bpow_mag_le radix2 x ltac:(lra)) as H1. pose proof (bpow_mag_gt radix2 x) as H2. rewrite (Rabs_pos_eq x) in H1, H2 by lra. split; assumption. }
  destruct HE as (E & (HE1 & HE2) & MagE).
  assert (KE : (k < E)%Z) by (apply (lt_bpow radix2); lra).
  set (w := pow (E - 1)) in *. assert (Pw : 0 < w) by apply bpow_gt_0.
  assert (E1 : pow E = 2 * w) by (unfold w; replace E with (1 + (E - 1))%Z at 1 by lia; rewrite bpow_plus; reflexivity).
  assert (EU : pow (E - p) = 2 * w * q) by (unfold q; replace (E - p)%Z with (E + - p)%Z by lia; rewrite bpow_plus, E1; reflexivity).
  assert (E2 : pow (2 * E) = 4 * w ^ 2) by (replace (2 * E)%Z with (E + E)%Z by lia; rewrite bpow_plus, E1; ring).
  assert (E3 : pow (2 * E - 1) = 2 * w ^ 2) by (replace (2 * E - 1)%Z with (E + (E - 1))%Z by lia; rewrite bpow_plus, E1; fold w; ring).
  assert (E4 : pow (2 * E - 2) = w ^ 2) by (replace (2 * E - 2)%Z with ((E - 1) + (E - 1))%Z by lia; rewrite bpow_plus; fold w; ring).
  assert (EU2 : pow (2 * E - p) = 4 * w ^ 2 * q) by (unfold q; replace (2 * E - p)%Z with (2 * E + - p)%Z by lia; rewrite bpow_plus, E2; reflexivity).
  assert (EU3 : pow (2 * E - 1 - p) = 2 * w ^ 2 * q) by (unfold q; replace (2 * E - 1 - p)%Z with ((2 * E - 1) + - p)%Z by lia; rewrite bpow_plus, E3; reflexivity).
  assert (EU4 : pow (2 * E - 2 - p) = w ^ 2 * q) by (unfold q; replace (2 * E - 2 - p)%Z with ((2 * E - 2) + - p)%Z by lia; rewrite bpow_plus, E4; reflexivity).
  set (ξ := x / w). assert (Ex : x = w * ξ) by (unfold ξ; field; lra). clearbody ξ.
  assert (X1 : 1 <= ξ) by nra. assert (X2 : ξ < 2) by nra.
  set (t := x ^ 2 * (1 + δ)) in *. assert (Et : t = w ^ 2 * (ξ ^ 2 * (1 + δ))) by (unfold t; rewrite Ex; ring).
  assert (Pww : 0 < w ^ 2) by nra. assert (Pt : 0 < t) by (unfold t; assert (0 < x ^ 2) by nra; nra).
  destruct (Req_dec x w) as [Ew|Nw].
  - (* a power of two *)
    assert (Hs : x ^ 2 <= RN t).
    { rewrite Ew, <- E4. apply round_N_ge_midp; [apply FLT_exp_valid, prec_pos|apply f_pow; lia|]. rewrite pred_bpow.
      replace (FLT_exp emin p (2 * E - 2)) with (2 * E - 2 - p)%Z by (unfold FLT_exp; lia). rewrite EU4, E4. unfold t. rewrite Ew. nra. }
    apply rn_ge; [exact Fx|]. rewrite <- (sqrt_pow2 x) by lra. apply sqrt_le_1_alt. exact Hs.
  - assert (Hp : pred radix2 fexp x = x - 2 * w * q).
    { rewrite pred_eq_pos by lra. unfold pred_pos. rewrite MagE. rewrite Req_bool_false by (fold w; exact Nw).
      rewrite ulp_neq_0 by lra. unfold cexp. rewrite MagE. replace (fexp E) with (E - p)%Z by (unfold fexp, FLT_exp; lia). rewrite EU. reflexivity. }
    assert (Goal : (x - w * q) ^ 2 < RN t -> x <= RN (sqrt (RN t))).
    { intros G. apply round_N_ge_midp; [apply FLT_exp_valid, prec_pos|exact Fx|]. fold fexp. rewrite Hp.
      replace ((x + (x - 2 * w * q)) / 2) with (x - w * q) by field. rewrite <- (sqrt_pow2 (x - w * q)) by nra. apply sqrt_lt_1_alt. split; [apply pow2_ge_0|exact G]. }
    destruct (Rlt_dec t (2 * w ^ 2)) as [LA|LA]; [|destruct (Rlt_dec t (4 * w ^ 2)) as [LB|LB]].
    + apply Goal. pose proof (rn_error t (2 * E - 1) ltac:(lra) ltac:(rewrite E3, Rabs_pos_eq; lra) ltac:(lia)) as Er. rewrite EU3 in Er. apply Rabs_le_inv in Er.
      assert (S2 : ξ ^ 2 * (1 + δ) < 2) by (apply (Rmult_lt_reg_l (w ^ 2)); [exact Pww|lra]).
      assert (X3 : ξ ^ 2 < 21 / 10) by nra.
      assert (G : (ξ - q) ^ 2 < ξ ^ 2 * (1 + δ) - q) by nra.
      replace ((x - w * q) ^ 2) with (w ^ 2 * (ξ - q) ^ 2) by (rewrite Ex; ring). apply (Rmult_lt_compat_l (w ^ 2)) in G; [|exact Pww]. lra.
    + apply Goal. pose proof (rn_error t (2 * E) ltac:(lra) ltac:(rewrite E2, Rabs_pos_eq; lra) ltac:(lia)) as Er. rewrite EU2 in Er. apply Rabs_le_inv in Er.
      assert (S2 : 2 <= ξ ^ 2 * (1 + δ)) by (apply (Rmult_le_reg_l (w ^ 2)); [exact Pww|lra]).
      assert (X3 : 198 / 100 < ξ ^ 2) by nra. assert (X4 : 14 / 10 < ξ) by nra.
      assert (X5 : ξ ^ 2 < 4) by nra.
      assert (G : (ξ - q) ^ 2 < ξ ^ 2 * (1 + δ) - 2 * q) by nra.
      replace ((x - w * q) ^ 2) with (w ^ 2 * (ξ - q) ^ 2) by (rewrite Ex; ring). apply (Rmult_lt_compat_l (w ^ 2)) in G; [|exact Pww]. lra.
    + apply Goal. apply Rlt_le_trans with (4 * w ^ 2); [rewrite Ex; nra|]. rewrite <- E2. apply rn_ge; [apply f_pow; lia|lra].
Qed.
End Round.
