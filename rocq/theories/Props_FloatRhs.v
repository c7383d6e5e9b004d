(** C137: in floating-point arithmetic the field direction has no component above one, and the diffusive and the sonic denominators
    are zero only where they should be. *)
From Coq Require Import ZArith Reals Lra Lia Psatz.
From Flocq Require Import Core.
From Verif Require Import Model_Float Model_FloatRhs Spec_Float Spec_FloatRhs Proofs_FloatRhs Props_Float.
Local Open Scope R_scope.
Notation pow2 := (bpow radix2).

Section Rhs.
Variables emin p : Z.
Variable sq : R -> R.
Hypothesis Fm : sensible_format emin p.
Hypothesis Sq : squares emin p sq.
Let F := generic_format radix2 (FLT_exp emin p).

Lemma sq_format : forall x, F (sq x).
Proof. intros x. destruct (Sq x) as (δ & _ & ->). apply (rn_format emin p Fm). Qed.
Lemma sq_pos : forall x, 0 <= sq x.
Proof.
  intros x. destruct (Sq x) as (δ & Hδ & ->). apply (rn_ge emin p Fm); [apply f_zero|]. pose proof (q_small emin p Fm) as (Pq & Lq).
  assert (pow2 (- p - 4) <= 1) by (change 1 with (pow2 0); apply bpow_le; destruct Fm; lia). apply Rabs_le_inv in Hδ. assert (0 <= x ^ 2) by apply pow2_ge_0. nra.
Qed.
Lemma sq_small : forall x, Rabs x <= 1 -> sq x <= 1.
Proof.
  intros x Hx. destruct (Sq x) as (δ & Hδ & ->). pose proof (prec_pos emin p Fm) as PP. pose proof Fm as (F1 & F2).
  apply round_N_le_midp; [apply FLT_exp_valid, PP|apply (f_one emin p Fm)|]. rewrite succ_eq_pos by lra.
  replace (ulp radix2 (FLT_exp emin p) 1) with (pow2 (- p + 1)) by (change 1 with (pow2 0); rewrite ulp_bpow; f_equal; unfold FLT_exp; lia).
  rewrite bpow_plus. replace (- p - 4)%Z with (- p + - 4)%Z in Hδ by lia. rewrite bpow_plus in Hδ. pose proof (q_small emin p Fm) as (Pq & Lq). set (q := pow2 (- p)) in *.
  replace (pow2 (- 4)) with (/ 16) in Hδ by reflexivity. replace (pow2 1) with 2 by reflexivity. apply Rabs_le_inv in Hδ.
  assert (x ^ 2 <= 1) by (rewrite <- pow2_abs; pose proof (Rabs_pos x); nra). assert (0 <= x ^ 2) by apply pow2_ge_0. nra.
Qed.

Section Field.
Variables B_r B_φ B_θ : R.
Hypothesis Fr : F B_r.
Hypothesis Ff : F B_φ.
Hypothesis Ft : F B_θ.
Let m := f_B_mag emin p sq B_r B_φ B_θ.
Lemma mag_covers : forall B, B = B_r \/ B = B_φ \/ B = B_θ -> square_normal emin p B -> Rabs B <= m.
Proof.
  intros B HB (k & Hk & Lk). assert (FB : F B) by (destruct HB as [-> |[-> | ->]]; assumption).
  assert (S : sq B <= f_add emin p (f_add emin p (sq B_r) (sq B_φ)) (sq B_θ)).
  { unfold f_add. pose proof (sq_pos B_r). pose proof (sq_pos B_φ). pose proof (sq_pos B_θ).
    assert (S1 : sq B_r <= rounded emin p (sq B_r + sq B_φ)) by (apply (rn_ge emin p Fm); [apply sq_format|lra]).
    assert (S2 : sq B_φ <= rounded emin p (sq B_r + sq B_φ)) by (apply (rn_ge emin p Fm); [apply sq_format|lra]).
    apply (rn_ge emin p Fm); [apply sq_format|]. destruct HB as [-> |[-> | ->]]; lra. }
  unfold m, f_B_mag, f_sqrt. apply Rle_trans with (rounded emin p (sqrt (sq B))); [|apply (rn_le emin p Fm), sqrt_le_1_alt, S].
  destruct (Sq B) as (δ & Hδ & ->). replace (B ^ 2) with (Rabs B ^ 2) by apply pow2_abs.
  apply (sqrt_sq_pos emin p Fm); [apply (f_abs emin p), FB| | |exact Hδ].
  - pose proof (bpow_gt_0 radix2 k). lra.
  - exists k. split; [exact Hk|]. rewrite Rabs_Rabsolu. exact Lk.
Qed.
Hypothesis Nz : square_normal emin p B_r \/ square_normal emin p B_φ \/ square_normal emin p B_θ.
Lemma mag_pos : 0 < m.
Proof.
  assert (H : forall B, B = B_r \/ B = B_φ \/ B = B_θ -> square_normal emin p B -> 0 < m).
  { intros B HB HN. pose proof (mag_covers B HB HN) as C. destruct HN as (k & _ & Lk). pose proof (bpow_gt_0 radix2 k). lra. }
  destruct Nz as [N|[N|N]]; [apply (H B_r)|apply (H B_φ)|apply (H B_θ)]; tauto.
Qed.
Lemma mag_all : forall B, B = B_r \/ B = B_φ \/ B = B_θ -> Rabs B <= m.
Proof.
  intros B HB.
  assert (H : forall B', B' = B_r \/ B' = B_φ \/ B' = B_θ -> square_normal emin p B' -> Rabs B <= m).
  { intros B' HB' HN. pose proof (mag_covers B' HB' HN) as C. destruct HN as (k & Hk & Lk). destruct (Rle_dec (pow2 k) (Rabs B)) as [L|L]; [|lra].
    apply mag_covers; [exact HB|]. exists k. split; assumption. }
  destruct Nz as [N|[N|N]]; [apply (H B_r)|apply (H B_φ)|apply (H B_θ)]; tauto.
Qed.
Lemma unit_small : forall B, B = B_r \/ B = B_φ \/ B = B_θ -> Rabs (f_unit emin p sq B_r B_φ B_θ B) <= 1.
Proof.
  intros B HB. unfold f_unit, f_div. fold m. pose proof mag_pos as Pm. pose proof (mag_all B HB) as L. apply Rabs_le_inv in L.
  assert (I : - 1 <= B / m <= 1) by (split; apply (Rmult_le_reg_r m); try exact Pm; unfold Rdiv; rewrite Rmult_assoc, Rinv_l, Rmult_1_r by lra; lra).
  apply Rabs_le. split.
  - apply (rn_ge emin p Fm); [apply (f_opp emin p), (f_one emin p Fm)|apply I].
  - apply (rn_le_F emin p Fm); [apply (f_one emin p Fm)|apply I].
Qed.
End Field.

Lemma rn_pos : forall x, 0 <= x -> 0 <= rounded emin p x.
Proof. intros x H. apply (rn_ge emin p Fm); [apply f_zero|exact H]. Qed.
Lemma rn_neg : forall x, x <= 0 -> rounded emin p x <= 0.
Proof. intros x H. apply (rn_le_F emin p Fm); [apply f_zero|exact H]. Qed.
Lemma add_above : forall x y, F x -> 0 <= y -> x <= f_add emin p x y.
Proof. intros x y Fx Hy. apply (rn_ge emin p Fm); [exact Fx|lra]. Qed.
Lemma den_above : forall η_O η_A b, F η_O -> 0 <= η_A -> Rabs b <= 1 -> η_O <= f_denominator emin p sq η_O η_A b.
Proof.
  intros η_O η_A b FO HA Hb. apply add_above; [exact FO|]. apply rn_pos, Rmult_le_pos; [exact HA|]. apply rn_pos. pose proof (sq_small b Hb). lra.
Qed.
Lemma den_B_r_above : forall η_O η_A b, F η_O -> 0 <= η_A -> Rabs b <= 1 -> η_O <= f_denominator_B_r emin p η_O η_A b.
Proof.
  intros η_O η_A b FO HA Hb. apply Rabs_le_inv in Hb. apply add_above; [exact FO|].
  apply rn_pos, Rmult_le_pos; [apply rn_pos, Rmult_le_pos; [exact HA|apply rn_pos; lra]|apply rn_pos; lra].
Qed.
Lemma Z_5_above : forall η_O η_A η_H b_r b_θ b_φ, F η_O -> 0 < η_O -> 0 <= η_A -> Rabs b_r <= 1 -> Rabs b_φ <= 1 ->
  η_O <= f_Z_5 emin p sq η_O η_A η_H b_r b_θ b_φ (f_C emin p sq η_O η_A η_H b_θ b_r b_φ).
Proof.
  intros η_O η_A η_H b_r b_θ b_φ FO PO HA Hr Hf. pose proof (den_above η_O η_A b_φ FO HA Hf) as D. unfold f_Z_5, f_C.
  set (n := f_sub emin p (f_mul emin p η_H b_θ) (f_mul emin p (f_mul emin p η_A b_r) b_φ)). set (d := f_denominator emin p sq η_O η_A b_φ) in *.
  pose proof (den_above η_O η_A b_r FO HA Hr) as D'. unfold f_denominator in D'.
  eapply Rle_trans; [exact D'|]. apply add_above; [apply (rn_format emin p Fm)|]. unfold f_mul at 1, f_div. apply rn_pos.
  assert (Pi : 0 < / d) by (apply Rinv_0_lt_compat; lra).
  destruct (Rle_dec 0 n) as [L|L].
  - apply Rmult_le_pos; [|exact L]. apply rn_pos. unfold Rdiv. apply Rmult_le_pos; lra.
  - assert (N : rounded emin p (n / d) <= 0) by (apply rn_neg; unfold Rdiv; nra). nra.
Qed.

Lemma gap_one : forall v, F v -> v < 1 -> v <= 1 - pow2 (- p).
Proof.
  intros v Fv Hv. pose proof (prec_pos emin p Fm) as PP. pose proof Fm as (F1 & F2).
  replace (1 - pow2 (- p)) with (pred radix2 (FLT_exp emin p) 1).
  - apply pred_ge_gt; [apply FLT_exp_valid, PP|exact Fv|apply (f_one emin p Fm)|exact Hv].
  - change 1 with (pow2 0). rewrite pred_bpow. replace (FLT_exp emin p 0) with (- p)%Z by (unfold FLT_exp; lia). reflexivity.
Qed.
Lemma gap_one_up : forall v, F v -> 1 < v -> 1 + pow2 (- p) <= v.
Proof.
  intros v Fv Hv. pose proof (prec_pos emin p Fm) as PP. pose proof Fm as (F1 & F2).
  apply Rle_trans with (succ radix2 (FLT_exp emin p) 1); [|apply succ_le_lt; [apply FLT_exp_valid, PP|apply (f_one emin p Fm)|exact Fv|exact Hv]].
  rewrite succ_eq_pos by lra. apply Rplus_le_compat_l. change 1 with (pow2 0). rewrite ulp_bpow. apply bpow_le. unfold FLT_exp. lia.
Qed.
Lemma pow_le_rn : forall k x, (emin <= k)%Z -> pow2 k <= x -> pow2 k <= rounded emin p x.
Proof. intros k x Hk H. apply (rn_ge emin p Fm); [apply (f_pow emin p Fm), Hk|exact H]. Qed.
Lemma rn_le_pow : forall k x, (emin <= k)%Z -> x <= - pow2 k -> rounded emin p x <= - pow2 k.
Proof. intros k x Hk H. apply (rn_le_F emin p Fm); [apply (f_opp emin p), (f_pow emin p Fm), Hk|exact H]. Qed.
Lemma sonic_signs : forall v, F v -> (-1 < v < 1 -> 0 < f_sonic emin p v) /\ (v < -1 \/ 1 < v -> f_sonic emin p v < 0) /\ (v = 1 \/ v = -1 -> f_sonic emin p v = 0).
Proof.
  intros v Fv. pose proof Fm as (F1 & F2). assert (Ep : (emin <= - p)%Z) by lia. assert (E2 : (emin <= - p + - p)%Z) by lia.
  pose proof (bpow_gt_0 radix2 (- p)) as Pq. set (q := pow2 (- p)) in *.
  assert (Pqq : 0 < pow2 (- p + - p)) by apply bpow_gt_0. assert (Eqq : pow2 (- p + - p) = q * q) by (rewrite bpow_plus; reflexivity).
  unfold f_sonic, f_mul, f_sub, f_add. split; [|split].
  - intros (H1 & H2). pose proof (gap_one v Fv H2) as G1. pose proof (gap_one (- v) (f_opp _ _ _ Fv) ltac:(lra)) as G2.
    apply Rlt_le_trans with (pow2 (- p + - p)); [exact Pqq|]. apply pow_le_rn; [exact E2|]. rewrite Eqq.
    apply Rmult_le_compat; [lra|lra|apply (pow_le_rn (- p)); [exact Ep|fold q; fold q in G1, G2; lra]|apply (pow_le_rn (- p)); [exact Ep|fold q; fold q in G1, G2; lra]].
  - intros [H|H].
    + pose proof (gap_one_up (- v) (f_opp _ _ _ Fv) ltac:(lra)) as G. fold q in G.
      assert (A : q <= rounded emin p (1 - v)) by (apply pow_le_rn; [exact Ep|fold q; lra]).
      assert (B : rounded emin p (1 + v) <= - q) by (apply rn_le_pow; [exact Ep|fold q; lra]).
      apply Rle_lt_trans with (- pow2 (- p + - p)); [|lra]. apply rn_le_pow; [exact E2|]. rewrite Eqq. nra.
    + pose proof (gap_one_up v Fv H) as G. fold q in G.
      assert (A : rounded emin p (1 - v) <= - q) by (apply rn_le_pow; [exact Ep|fold q; lra]).
      assert (B : q <= rounded emin p (1 + v)) by (apply pow_le_rn; [exact Ep|fold q; lra]).
      apply Rle_lt_trans with (- pow2 (- p + - p)); [|lra]. apply rn_le_pow; [exact E2|]. rewrite Eqq. nra.
  - assert (Z : rounded emin p 0 = 0) by (apply (rn_exact emin p), f_zero).
    intros [-> | ->]; [replace (1 - 1) with 0 by ring; rewrite Z, Rmult_0_l; exact Z|replace (1 + -1) with 0 by ring; rewrite Z, Rmult_0_r; exact Z].
Qed.
End Rhs.

(** The direction of the field: the magnitude is positive, and no component exceeds it, so none of the direction exceeds one. *)
Theorem C137_direction : forall emin prec sq B_r B_φ B_θ, sensible_format emin prec -> squares emin prec sq ->
  representable emin prec B_r -> representable emin prec B_φ -> representable emin prec B_θ ->
  square_normal emin prec B_r \/ square_normal emin prec B_φ \/ square_normal emin prec B_θ ->
  0 < f_B_mag emin prec sq B_r B_φ B_θ /\ Rabs (f_unit emin prec sq B_r B_φ B_θ B_r) <= 1 /\
  Rabs (f_unit emin prec sq B_r B_φ B_θ B_φ) <= 1 /\ Rabs (f_unit emin prec sq B_r B_φ B_θ B_θ) <= 1.
Proof.
  intros emin p sq B_r B_φ B_θ Fm Sq Rr Rf Rt Nz. apply representable_format in Rr. apply representable_format in Rf. apply representable_format in Rt.
  split; [apply mag_pos; assumption|]. repeat split; apply unit_small; tauto.
Qed.
Print Assumptions C137_direction.

(** With Ohmic diffusion the three diffusive denominators are at least the Ohmic diffusivity, whatever the rounding. *)
Theorem C137_denominators : forall emin prec sq B_r B_φ B_θ η_O η_A η_H, sensible_format emin prec -> squares emin prec sq ->
  representable emin prec B_r -> representable emin prec B_φ -> representable emin prec B_θ ->
  square_normal emin prec B_r \/ square_normal emin prec B_φ \/ square_normal emin prec B_θ ->
  representable emin prec η_O -> 0 < η_O -> 0 <= η_A ->
  let b_r := f_unit emin prec sq B_r B_φ B_θ B_r in let b_φ := f_unit emin prec sq B_r B_φ B_θ B_φ in let b_θ := f_unit emin prec sq B_r B_φ B_θ B_θ in
  η_O <= f_denominator emin prec sq η_O η_A b_φ /\ η_O <= f_denominator_B_r emin prec η_O η_A b_φ /\
  η_O <= f_Z_5 emin prec sq η_O η_A η_H b_r b_θ b_φ (f_C emin prec sq η_O η_A η_H b_θ b_r b_φ).
Proof.
  intros emin p sq B_r B_φ B_θ η_O η_A η_H Fm Sq Rr Rf Rt Nz RO PO HA b_r b_φ b_θ. destruct (C137_direction emin p sq B_r B_φ B_θ Fm Sq Rr Rf Rt Nz) as (_ & Ur & Uf & _).
  fold b_r in Ur. fold b_φ in Uf. apply representable_format in RO.
  split; [apply den_above; assumption|]. split; [apply den_B_r_above; assumption|apply Z_5_above; assumption].
Qed.
Print Assumptions C137_denominators.

(** What the polar momentum balance is divided by has the sign it should have, and is zero only at the speed of sound itself. *)
Theorem C137_sonic : forall emin prec v_θ, sensible_format emin prec -> representable emin prec v_θ ->
  (f_sonic emin prec v_θ = 0 <-> v_θ = 1 \/ v_θ = -1) /\ (0 < f_sonic emin prec v_θ <-> -1 < v_θ < 1).
Proof.
  intros emin p v Fm Rv. apply representable_format in Rv. destruct (sonic_signs emin p Fm v Rv) as (A & B & C).
  assert (T : -1 < v < 1 \/ (v < -1 \/ 1 < v) \/ (v = 1 \/ v = -1)) by lra.
  split; split; intros H; destruct T as [T|[T|T]]; try tauto; try (specialize (A T)); try (specialize (B T)); try (specialize (C T)); lra.
Qed.
Print Assumptions C137_sonic.

(** Not empty: double precision, a power function that rounds correctly, and the field (3, 4, 12). *)
Lemma correctly_rounded : forall emin prec, squares emin prec (fun x => rounded emin prec (x ^ 2)).
Proof. intros emin p x. exists 0. rewrite Rabs_R0. split; [apply bpow_ge_0|]. f_equal. ring. Qed.
Lemma small_integer : forall n, (Z.abs n < 2 ^ 53)%Z -> representable (-1074) 53 (IZR n).
Proof. intros n H. exists n, 0%Z. cbn [bpow]. split; [ring|]. split; [exact H|lia]. Qed.
Example C137_nonvacuous : sensible_format (-1074) 53 /\ squares (-1074) 53 (fun x => rounded (-1074) 53 (x ^ 2)) /\
  representable (-1074) 53 3 /\ representable (-1074) 53 4 /\ representable (-1074) 53 12 /\ square_normal (-1074) 53 3 /\
  f_B_mag (-1074) 53 (fun x => rounded (-1074) 53 (x ^ 2)) 3 4 12 = 13.
Proof.
  split; [split; lia|]. split; [apply correctly_rounded|]. repeat (split; [apply small_integer; lia|]).
  split; [exists 0%Z; split; [lia|]; cbn; rewrite Rabs_right; lra|].
  assert (E : forall n, (Z.abs n < 2 ^ 53)%Z -> rounded (-1074) 53 (IZR n) = IZR n).
  { intros n H. apply rn_exact. apply representable_format, small_integer, H. }
  unfold f_B_mag, f_sqrt, f_add. replace (3 ^ 2) with 9 by ring. replace (4 ^ 2) with 16 by ring. replace (12 ^ 2) with 144 by ring.
  rewrite !E by lia. replace (9 + 16) with 25 by ring. rewrite E by lia. replace (25 + 144) with 169 by ring. rewrite E by lia.
  replace 169 with (13 * 13) by ring. rewrite sqrt_square by lra. apply E. lia.
Qed.
