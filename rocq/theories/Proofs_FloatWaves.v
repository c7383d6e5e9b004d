(** Rounding in the wave speeds. *)
From Coq Require Import ZArith Reals Lra Lia Psatz.
From Flocq Require Import Core Relative Mult_error.
From Verif Require Import Model_Float Model_FloatRhs Model_FloatWaves Spec_FloatRhs Spec_FloatWaves Proofs_FloatRhs.
Local Open Scope R_scope.

Section Waves.
Variables emin p : Z.
Hypothesis Fm : sensible_format emin p.
Let fexp := FLT_exp emin p.
Notation RN := (rounded emin p).
Notation pow := (bpow radix2).
Notation F := (generic_format radix2 fexp).
Let q := pow (- p).
Local Instance waves_prec : Prec_gt_0 p. Proof. exact (prec_pos emin p Fm). Qed.

Lemma rel_pos : forall x, 0 < x -> pow (emin + p - 1) <= x -> x * (1 - q) <= RN x <= x * (1 + q).
Proof.
  intros x Px H.
  assert (E : Rabs (RN x - x) <= q * x).
  { replace q with (/ 2 * pow (- p + 1)) by (rewrite bpow_plus; unfold q; replace (pow 1) with 2 by reflexivity; field).
    rewrite <- (Rabs_pos_eq x) at 3 by lra. apply relative_error_N_FLT; [exact waves_prec|]. rewrite Rabs_pos_eq by lra. exact H. }
  apply Rabs_le_inv in E. lra.
Qed.
Lemma normal_one : pow (emin + p - 1) <= / 2.
Proof. change (/ 2) with (pow (-1)). apply bpow_le. destruct Fm. lia. Qed.

(** The distance to the number below is at least the unit roundoff times the number. *)
Lemma pred_far : forall y, F y -> 0 < y -> pow (emin + p - 1) < y -> pred radix2 fexp y <= y - q * y.
Proof.
  intros y Fy Py Ny.
  assert (HE : pow (mag radix2 y - 1) <= y < pow (mag radix2 y)).
  { pose proof (bpow_mag_le radix2 y ltac:(lra)) as H1. pose proof (bpow_mag_gt radix2 y) as H2. rewrite (Rabs_pos_eq y) in H1, H2 by lra. split; assumption. }
  assert (KE : (emin + p <= mag radix2 y)%Z).
  { assert (emin + p - 1 < mag radix2 y)%Z by (apply (lt_bpow radix2); lra). lia. }
  destruct (Req_dec y (pow (mag radix2 y - 1))) as [E|N].
  - rewrite E at 1. rewrite pred_bpow. rewrite <- E.
    assert (K2 : (emin + p <= mag radix2 y - 1)%Z).
    { assert (emin + p - 1 < mag radix2 y - 1)%Z; [|lia]. apply (lt_bpow radix2). rewrite <- E. exact Ny. }
    replace (fexp (mag radix2 y - 1)) with (- p + (mag radix2 y - 1))%Z by (unfold fexp, FLT_exp; lia).
    rewrite bpow_plus, <- E. fold q. lra.
  - rewrite pred_eq_pos by lra. unfold pred_pos. rewrite Req_bool_false by exact N. rewrite ulp_neq_0 by lra. unfold cexp.
    replace (fexp (mag radix2 y)) with (- p + mag radix2 y)%Z by (unfold fexp, FLT_exp; lia). rewrite bpow_plus. fold q.
    assert (0 < q) by apply bpow_gt_0. nra.
Qed.
(** Subtracting less than half of that changes nothing. *)
Lemma absorbs : forall y d, F y -> 0 < y -> pow (emin + p - 1) < y -> 0 <= d < q * y / 2 -> RN (y - d) = y.
Proof.
  intros y d Fy Py Ny Hd. apply Rle_antisym.
  - apply (rn_le_F emin p Fm); [exact Fy | lra].
  - apply round_N_ge_midp; [apply FLT_exp_valid, waves_prec | exact Fy|]. pose proof (pred_far y Fy Py Ny). fold fexp. lra.
Qed.

(** The square root of the rounded square is not above the number. *)
Lemma sqrt_sq_le : forall x δ, F x -> 0 < x -> square_normal emin p x -> Rabs δ <= pow (- p - 4) -> RN (sqrt (RN (x ^ 2 * (1 + δ)))) <= x.
Proof.
  intros x δ Fx Px (k & Hk & Lk) Hδ. rewrite (Rabs_pos_eq x) in Lk by lra.
  pose proof Fm as (Fm1 & Fm2). pose proof (q_small emin p Fm) as (Pq & Lq). fold q in Pq, Lq.
  assert (Eδ : pow (- p - 4) = q / 16) by (unfold q, Z.sub; rewrite bpow_plus; cbn; lra). rewrite Eδ in Hδ. apply Rabs_le_inv in Hδ.
  assert (HE : exists E : Z, pow (E - 1) <= x < pow E /\ (mag radix2 x : Z) = E).
  { exists (mag radix2 x : Z). split; [|reflexivity]. pose proof (bpow_mag_le radix2 x ltac:(lra)) as H1. pose proof (bpow_mag_gt radix2 x) as H2. rewrite (Rabs_pos_eq x) in H1, H2 by lra. split; assumption. }
  destruct HE as (E & (HE1 & HE2) & MagE).
  assert (KE : (k < E)%Z) by (apply (lt_bpow radix2); lra).
  set (w := pow (E - 1)) in *. assert (Pw : 0 < w) by apply bpow_gt_0.
  assert (E1 : pow E = 2 * w) by (unfold w; replace E with (1 + (E - 1))%Z at 1 by lia; rewrite bpow_plus; reflexivity).
  assert (EU : pow (E - p) = 2 * w * q) by (unfold q; replace (E - p)%Z with (E + - p)%Z by lia; rewrite bpow_plus, E1; reflexivity).
  assert (E2 : pow (2 * E) = 4 * w ^ 2) by (replace (2 * E)%Z with (E + E)%Z by lia; rewrite bpow_plus, E1; ring).
  assert (E3 : pow (2 * E - 1) = 2 * w ^ 2) by (replace (2 * E - 1)%Z with (E + (E - 1))%Z by lia; rewrite bpow_plus, E1; fold w; ring).
  assert (EU2 : pow (2 * E - p) = 4 * w ^ 2 * q) by (unfold q; replace (2 * E - p)%Z with (2 * E + - p)%Z by lia; rewrite bpow_plus, E2; reflexivity).
  assert (EU3 : pow (2 * E - 1 - p) = 2 * w ^ 2 * q) by (unfold q; replace (2 * E - 1 - p)%Z with ((2 * E - 1) + - p)%Z by lia; rewrite bpow_plus, E3; reflexivity).
  assert (Top : x <= 2 * w - 2 * w * q).
  { assert (L : x <= pred radix2 fexp (pow E)) by (apply pred_ge_gt; [apply FLT_exp_valid, waves_prec|exact Fx|apply (f_pow emin p Fm); lia|exact HE2]).
    rewrite pred_bpow in L. replace (fexp E) with (E - p)%Z in L by (unfold fexp, FLT_exp; lia). rewrite EU, E1 in L. exact L. }
  set (ξ := x / w). assert (Ex : x = w * ξ) by (unfold ξ; field; lra). clearbody ξ.
  assert (X1 : 1 <= ξ) by nra. assert (X2 : ξ <= 2 - 2 * q) by nra.
  set (t := x ^ 2 * (1 + δ)) in *. assert (Et : t = w ^ 2 * (ξ ^ 2 * (1 + δ))) by (unfold t; rewrite Ex; ring).
  assert (Pww : 0 < w ^ 2) by nra. assert (Pt : 0 < t) by (unfold t; assert (0 < x ^ 2) by nra; nra).
  assert (LB : t < 4 * w ^ 2).
  { rewrite Et. assert (Y : ξ ^ 2 <= (2 - 2 * q) ^ 2) by nra. assert (Z0 : ξ ^ 2 * (1 + δ) < 4) by nra. nra. }
  assert (Hs : succ radix2 fexp x = x + 2 * w * q).
  { rewrite succ_eq_pos by lra. rewrite ulp_neq_0 by lra. unfold cexp. rewrite MagE. replace (fexp E) with (E - p)%Z by (unfold fexp, FLT_exp; lia). rewrite EU. reflexivity. }
  assert (Goal : 0 <= RN t -> RN t < (x + w * q) ^ 2 -> RN (sqrt (RN t)) <= x).
  { intros G0 G. apply round_N_le_midp; [apply FLT_exp_valid, waves_prec|exact Fx|]. fold fexp. rewrite Hs.
    replace ((x + (x + 2 * w * q)) / 2) with (x + w * q) by field. rewrite <- (sqrt_pow2 (x + w * q)) by nra. apply sqrt_lt_1_alt. split; assumption. }
  assert (P0 : 0 <= RN t) by (apply (rn_ge emin p Fm); [apply f_zero|lra]).
  apply Goal; [exact P0|]. replace ((x + w * q) ^ 2) with (w ^ 2 * (ξ + q) ^ 2) by (rewrite Ex; ring).
  destruct (Rlt_dec t (2 * w ^ 2)) as [LA|LA].
  - pose proof (rn_error emin p Fm t (2 * E - 1) ltac:(lra) ltac:(rewrite E3, Rabs_pos_eq; lra) ltac:(lia)) as Er. rewrite EU3 in Er. apply Rabs_le_inv in Er.
    assert (G : ξ ^ 2 * (1 + δ) + q < (ξ + q) ^ 2) by nra. apply (Rmult_lt_compat_l (w ^ 2)) in G; [|exact Pww]. lra.
  - pose proof (rn_error emin p Fm t (2 * E) ltac:(lra) ltac:(rewrite E2, Rabs_pos_eq; lra) ltac:(lia)) as Er. rewrite EU2 in Er. apply Rabs_le_inv in Er.
    assert (S2 : 2 <= ξ ^ 2 * (1 + δ)) by (apply (Rmult_le_reg_l (w ^ 2)); [exact Pww|lra]).
    assert (X3 : 198 / 100 < ξ ^ 2) by nra. assert (X4 : 14 / 10 < ξ) by nra.
    assert (G : ξ ^ 2 * (1 + δ) + 2 * q < (ξ + q) ^ 2) by nra. apply (Rmult_lt_compat_l (w ^ 2)) in G; [|exact Pww]. lra.
Qed.
End Waves.
