(** C139: in floating-point arithmetic a shock conserves mass and momentum to a few roundings, and slows the flow below the speed of sound. *)
From Coq Require Import ZArith Reals Lra Lia Psatz.
From Flocq Require Import Core Relative.
From Verif Require Import Model_Float Model_FloatRhs Model_FloatShock Spec_Float Spec_FloatRhs Spec_FloatShock Proofs_FloatRhs Props_Float.
Local Open Scope R_scope.

Section Shock.
Variables emin p : Z.
Hypothesis Fm : sensible_format emin p.
Notation RN := (rounded emin p).
Notation pow := (bpow radix2).
Notation F := (generic_format radix2 (FLT_exp emin p)).
Let q := pow (- p).
Local Instance shock_prec : Prec_gt_0 p. Proof. exact (prec_pos emin p Fm). Qed.

Lemma shock_rel : forall x, 0 < x -> pow (emin + p - 1) <= x -> exists e, Rabs e <= q /\ RN x = x * (1 + e).
Proof.
  intros x Px H. exists ((RN x - x) / x).
  assert (E : Rabs (RN x - x) <= q * x).
  { replace q with (/ 2 * pow (- p + 1)) by (rewrite bpow_plus; unfold q; replace (pow 1) with 2 by reflexivity; field).
    rewrite <- (Rabs_pos_eq x) at 3 by lra. apply relative_error_N_FLT; [exact shock_prec|]. rewrite Rabs_pos_eq by lra. exact H. }
  split; [|field; lra]. unfold Rdiv. rewrite Rabs_mult, Rabs_inv, (Rabs_pos_eq x) by lra.
  apply (Rmult_le_reg_r x); [exact Px|]. rewrite Rmult_assoc, Rinv_l, Rmult_1_r by lra. exact E.
Qed.
Lemma below_normal : forall k, (-9 <= k)%Z -> pow (emin + p - 1) <= pow k.
Proof. intros k H. apply bpow_le. destruct Fm. lia. Qed.

Variable sq : R -> R.
Hypothesis Sq : squares emin p sq.
Variables v ρ : R.
Hypothesis Fv : F v.
Hypothesis Fρ : F ρ.
Hypothesis Hv : 1 < v < 10.
Hypothesis Hρ : pow (emin + p - 1) <= ρ.

Lemma above_one : 1 + 2 * q <= v.
Proof.
  assert (S : succ radix2 (FLT_exp emin p) 1 <= v) by (apply succ_le_lt; [apply FLT_exp_valid, shock_prec|apply (f_one emin p Fm)|exact Fv|lra]).
  rewrite succ_eq_pos in S by lra. replace (ulp radix2 (FLT_exp emin p) 1) with (2 * q) in S; [exact S|].
  change 1 with (pow 0). rewrite ulp_bpow. unfold FLT_exp. rewrite Z.max_l by (destruct Fm; lia). replace (0 + 1 - p)%Z with (- p + 1)%Z by lia.
  rewrite bpow_plus. unfold q. replace (pow 1) with 2 by reflexivity. ring.
Qed.
Lemma post_v : exists e, Rabs e <= q /\ f_v_θ_post emin p v = / v * (1 + e).
Proof.
  unfold f_v_θ_post, f_div. replace (1 / v) with (/ v) by (field; lra).
  assert (P : 0 < / v) by (apply Rinv_0_lt_compat; lra). apply shock_rel; [exact P|].
  apply Rle_trans with (pow (-4)); [apply below_normal; lia|]. replace (pow (-4)) with (/ 16) by reflexivity. apply Rinv_le; lra.
Qed.
Lemma post_sq : exists e, Rabs e <= 107 / 100 * q /\ sq v = v ^ 2 * (1 + e) /\ 1 <= sq v.
Proof.
  destruct (Sq v) as (δ & Hδ & E). pose proof (q_small emin p Fm) as (Pq & Lq). fold q in Pq, Lq.
  assert (B : Rabs δ <= q / 16).
  { eapply Rle_trans; [exact Hδ|]. replace (- p - 4)%Z with (- p + -4)%Z by lia. rewrite bpow_plus. replace (pow (-4)) with (/ 16) by reflexivity. unfold q. lra. }
  apply Rabs_le_inv in B. assert (V : 1 < v ^ 2) by nra.
  assert (W : 1 <= v ^ 2 * (1 + δ)).
  { pose proof above_one as Sv.
    nra. }
  destruct (shock_rel (v ^ 2 * (1 + δ)) ltac:(lra)) as (e & He & Ee).
  { apply Rle_trans with 1; [|exact W]. change 1 with (pow 0). apply below_normal. lia. }
  exists ((1 + δ) * (1 + e) - 1). apply Rabs_le_inv in He. split; [apply Rabs_le; split; nra|]. rewrite E. split; [rewrite Ee; ring|].
  apply rn_ge; [exact Fm|apply (f_one emin p Fm)|exact W].
Qed.
Lemma post_ρ : exists e f, Rabs e <= 107 / 100 * q /\ Rabs f <= q /\ f_ρ_post emin p sq v ρ = ρ * v ^ 2 * ((1 + e) * (1 + f)) /\ ρ <= f_ρ_post emin p sq v ρ.
Proof.
  destruct post_sq as (e & He & Ee & Ge). unfold f_ρ_post, f_mul. assert (Pρ : 0 < ρ) by (pose proof (bpow_gt_0 radix2 (emin + p - 1)); lra).
  assert (G : ρ <= ρ * sq v) by nra.
  destruct (shock_rel (ρ * sq v) ltac:(lra) ltac:(lra)) as (f & Hf & Ef). exists e, f. split; [exact He|]. split; [exact Hf|]. split; [rewrite Ef, Ee; ring|].
  apply rn_ge; [exact Fm|exact Fρ|exact G].
Qed.
Lemma post_subsonic : 0 < f_v_θ_post emin p v < 1.
Proof.
  destruct post_v as (e & He & E). pose proof (q_small emin p Fm) as (Pq & Lq). fold q in Pq, Lq. apply Rabs_le_inv in He.
  assert (P : 0 < / v) by (apply Rinv_0_lt_compat; lra). split; [rewrite E; apply Rmult_lt_0_compat; lra|].
  pose proof above_one as Sv.
  rewrite E. apply (Rmult_lt_reg_l v); [lra|]. rewrite <- Rmult_assoc, Rinv_r, Rmult_1_l by lra. lra.
Qed.
End Shock.

(** The flow after the shock is slower than sound and not thinner than before; the fluxes of mass and of momentum, computed exactly from the
    rounded values, are those before the shock to four and five unit roundoffs. *)
Theorem C139_shock : forall emin prec sq v ρ, sensible_format emin prec -> squares emin prec sq ->
  representable emin prec v -> representable emin prec ρ -> 1 < v < 10 -> bpow radix2 (emin + prec - 1) <= ρ ->
  0 < f_v_θ_post emin prec v < 1 /\ ρ <= f_ρ_post emin prec sq v ρ /\
  within (4 * bpow radix2 (- prec)) (mass_flux (f_ρ_post emin prec sq v ρ) (f_v_θ_post emin prec v)) (mass_flux ρ v) /\
  within (5 * bpow radix2 (- prec)) (momentum_flux (f_ρ_post emin prec sq v ρ) (f_v_θ_post emin prec v)) (momentum_flux ρ v).
Proof.
  intros emin p sq v ρ Fm Sq Rv Rρ Hv Hρ.
  assert (Fv : generic_format radix2 (FLT_exp emin p) v) by (apply representable_format, Rv).
  assert (Fρ : generic_format radix2 (FLT_exp emin p) ρ) by (apply representable_format, Rρ).
  split; [apply post_subsonic; assumption|].
  destruct (post_ρ emin p Fm sq Sq v ρ Fv Fρ Hv Hρ) as (e & f & He & Hf & Eρ & Gρ). split; [exact Gρ|].
  destruct (post_v emin p Fm v Hv) as (g & Hg & Ev). pose proof (q_small emin p Fm) as (Pq & Lq). set (q := bpow radix2 (- p)) in *.
  apply Rabs_le_inv in He. apply Rabs_le_inv in Hf. apply Rabs_le_inv in Hg.
  assert (Pρ : 0 < ρ) by (pose proof (bpow_gt_0 radix2 (emin + p - 1)); lra).
  set (t := (1 + e) * (1 + f)) in *. assert (Ht : 1 - 207 / 100 * q <= t <= 1 + 214 / 100 * q) by (unfold t; split; nra).
  assert (H1 : 1 - 4 * q <= t * (1 + g) <= 1 + 4 * q) by (split; nra).
  assert (H2 : 1 - 5 * q <= t * (1 + g) ^ 2 <= 1 + 5 * q) by (cbn [pow]; rewrite Rmult_1_r, <- Rmult_assoc; set (u := t * (1 + g)) in *; assert (1 - 309 / 100 * q <= u <= 1 + 330 / 100 * q) by (unfold u; split; nra); split; nra).
  unfold within, mass_flux, momentum_flux. rewrite Eρ, Ev. split.
  - replace (ρ * v ^ 2 * t * (/ v * (1 + g)) - ρ * v) with (ρ * v * (t * (1 + g) - 1)) by (field; lra).
    rewrite Rabs_mult, (Rmult_comm (4 * q)). apply Rmult_le_compat_l; [apply Rabs_pos|]. apply Rabs_le. lra.
  - replace (ρ * v ^ 2 * t * (1 + (/ v * (1 + g)) ^ 2) - ρ * (1 + v ^ 2)) with (ρ * (v ^ 2 * (t - 1) + (t * (1 + g) ^ 2 - 1))) by (field; lra).
    assert (0 < v ^ 2) by nra. rewrite (Rabs_pos_eq (ρ * (1 + v ^ 2))) by nra. rewrite Rabs_mult, (Rabs_pos_eq ρ) by lra.
    apply Rle_trans with (ρ * (5 * q * (1 + v ^ 2))); [|right; ring]. apply Rmult_le_compat_l; [lra|]. apply Rabs_le. split; nra.
Qed.
Print Assumptions C139_shock.

(** Not empty: in double precision, with a power function that rounds the exact square, a flow of 3/2 times the speed of sound. *)
Example C139_nonvacuous : exists sq, sensible_format (-1074) 53 /\ squares (-1074) 53 sq /\ representable (-1074) 53 (3 / 2) /\
  representable (-1074) 53 1 /\ 1 < 3 / 2 < 10 /\ bpow radix2 (-1074 + 53 - 1) <= 1.
Proof.
  exists (fun x => rounded (-1074) 53 (x ^ 2)). split; [unfold sensible_format; lia|]. split.
  { intro x. exists 0. rewrite Rabs_R0. split; [apply bpow_ge_0|]. f_equal. ring. }
  split; [exists 3%Z, (-1)%Z; split; [replace (bpow radix2 (-1)) with (/ 2) by reflexivity; lra|cbn; lia]|].
  split; [exists 1%Z, 0%Z; split; [cbn; ring|cbn; lia]|]. split; [lra|]. change 1 with (bpow radix2 0). apply bpow_le. lia.
Qed.
