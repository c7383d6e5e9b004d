(** C143: the wave speeds in floating-point arithmetic. *)
From Coq Require Import ZArith Reals Lra Lia Psatz.
From Flocq Require Import Core Relative Mult_error.
From Verif Require Import Model_Float Model_FloatRhs Model_FloatWaves Spec_Float Spec_FloatRhs Spec_FloatWaves Proofs_Float Proofs_FloatRhs Proofs_FloatWaves Props_Float Props_FloatRhs.
Local Open Scope R_scope.

Section Waves.
Variables emin p : Z.
Hypothesis Fm : sensible_format emin p.
Notation RN := (rounded emin p).
Notation pow := (bpow radix2).
Notation F := (generic_format radix2 (FLT_exp emin p)).
Let q := pow (- p).
Local Instance waves_prec' : Prec_gt_0 p. Proof. exact (prec_pos emin p Fm). Qed.
Variable sq : R -> R.
Hypothesis Sq : squares emin p sq.

Section Given.
Variables va c : R.
Hypothesis Fva : F va.
Hypothesis Pva : 0 <= va.
Hypothesis Hc : 0 <= c <= 1.
Let S := RN (va + 1).
Let P := RN (4 * va * c).
Lemma product_exact : f_mul emin p (f_mul emin p (f_mul emin p 4 va) 1) c = P.
Proof.
  assert (G : F (4 * va)) by (replace (4 * va) with (va * pow 2) by (replace (pow 2) with 4 by reflexivity; ring); apply mult_bpow_pos_exact_FLT; [exact Fva | lia]).
  unfold f_mul. rewrite (rn_exact emin p (4 * va) G), Rmult_1_r, (rn_exact emin p (4 * va) G). reflexivity.
Qed.
Lemma S_facts : F S /\ 1 <= S /\ va <= S /\ (va + 1) * (1 - q) <= S.
Proof.
  pose proof (normal_one emin p Fm). split; [apply (rn_format emin p Fm)|]. split; [apply (rn_ge emin p Fm); [apply (f_one emin p Fm) | lra]|].
  split; [apply (rn_ge emin p Fm); [exact Fva | lra]|]. apply (rel_pos emin p Fm); lra.
Qed.
Lemma S_normal : square_normal emin p S.
Proof. exists 0%Z. destruct S_facts as (_ & H & _). rewrite Rabs_pos_eq by lra. split; [destruct Fm; lia | exact H]. Qed.
Lemma S2_facts : exists δ, Rabs δ <= q / 16 /\ sq S = RN (S ^ 2 * (1 + δ)) /\ F (sq S) /\ S ^ 2 * (1 + δ) * (1 - q) <= sq S /\ 15 / 16 <= S ^ 2 * (1 + δ).
Proof.
  destruct (Sq S) as (δ & Hδ & E). pose proof (q_small emin p Fm) as (Pq & Lq). fold q in Pq, Lq.
  replace (pow (- p - 4)) with (q / 16) in Hδ by (replace (- p - 4)%Z with (- p + -4)%Z by lia; rewrite bpow_plus; replace (pow (-4)) with (/ 16) by reflexivity; unfold q; field).
  exists δ. split; [exact Hδ|]. split; [exact E|]. split; [rewrite E; apply (rn_format emin p Fm)|]. apply Rabs_le_inv in Hδ.
  destruct S_facts as (_ & H1 & _). assert (Q : 15 / 16 <= S ^ 2 * (1 + δ)) by nra. split; [|exact Q].
  rewrite E. pose proof (normal_one emin p Fm). apply (rel_pos emin p Fm); lra.
Qed.
Lemma S2_large : (va + 1) ^ 2 * (1 - 4 * q) <= sq S.
Proof.
  destruct S2_facts as (δ & Hδ & _ & _ & H & _). destruct S_facts as (_ & _ & _ & HS). pose proof (q_small emin p Fm) as (Pq & Lq). fold q in Pq, Lq. apply Rabs_le_inv in Hδ.
  eapply Rle_trans; [|exact H]. assert (A : (va + 1) ^ 2 * (1 - q) ^ 2 <= S ^ 2).
  { replace ((va + 1) ^ 2 * (1 - q) ^ 2) with (((va + 1) * (1 - q)) ^ 2) by ring. apply pow_incr. split; [nra | exact HS]. }
  assert (B : (1 - 4 * q) <= (1 - q) ^ 2 * ((1 - q / 16) * (1 - q))) by nra.
  apply Rle_trans with ((va + 1) ^ 2 * ((1 - q) ^ 2 * ((1 - q / 16) * (1 - q)))); [apply Rmult_le_compat_l; [nra | exact B]|].
  rewrite <- Rmult_assoc. rewrite (Rmult_assoc (S ^ 2)). apply Rmult_le_compat; [nra | nra | exact A|]. apply Rmult_le_compat_r; lra.
Qed.
Lemma radicand_eq : f_radicand emin p sq va c = RN (sq S - P).
Proof. unfold f_radicand. rewrite product_exact. reflexivity. Qed.
Lemma P_bounds : 0 <= P <= 4 * va.
Proof.
  assert (G : F (4 * va)) by (replace (4 * va) with (va * pow 2) by (replace (pow 2) with 4 by reflexivity; ring); apply mult_bpow_pos_exact_FLT; [exact Fva | lia]).
  split; [apply (rn_ge emin p Fm); [apply f_zero | nra] | apply (rn_le_F emin p Fm); [exact G | nra]].
Qed.
Lemma radicand_pos : far_from_sound p va \/ c <= 1 - 4 * q -> 0 <= f_radicand emin p sq va c.
Proof.
  intros H. rewrite radicand_eq. apply (rn_ge emin p Fm); [apply f_zero|]. cut (P <= sq S); [lra|].
  destruct S2_facts as (_ & _ & _ & FS & _). apply (rn_le_F emin p Fm); [exact FS|]. eapply Rle_trans; [|exact S2_large].
  pose proof (q_small emin p Fm) as (Pq & Lq). fold q in Pq, Lq. destruct H as [H|H]; [unfold far_from_sound in H; fold q in H; nra|].
  apply Rle_trans with ((va + 1) ^ 2 * c); [apply Rmult_le_compat_r; [apply Hc | pose proof (pow2_ge_0 (va - 1)); lra] | apply Rmult_le_compat_l; [apply pow2_ge_0 | exact H]].
Qed.
Lemma root_bounds : 0 <= f_radicand emin p sq va c -> 0 <= f_sqrt emin p (f_radicand emin p sq va c) <= S.
Proof.
  intros H. split; [apply (rn_ge emin p Fm); [apply f_zero | apply sqrt_pos]|].
  destruct S2_facts as (δ & Hδ & E & FS & _ & _). destruct S_facts as (GS & HS & _). pose proof P_bounds as PB.
  apply Rle_trans with (RN (sqrt (sq S))).
  - apply (rn_le emin p Fm), sqrt_le_1_alt. rewrite radicand_eq. apply (rn_le_F emin p Fm); [exact FS | lra].
  - rewrite E. apply (sqrt_sq_le emin p Fm); [exact GS | lra | exact S_normal|].
    replace (pow (- p - 4)) with (q / 16) by (replace (- p - 4)%Z with (- p + -4)%Z by lia; rewrite bpow_plus; replace (pow (-4)) with (/ 16) by reflexivity; unfold q; field).
    exact Hδ.
Qed.
Lemma speeds_real : 0 <= f_radicand emin p sq va c -> exists slow fast, f_speeds emin p sq va c = (Some slow, RN (va * c), Some fast) /\ 0 <= slow <= fast /\ / 2 <= fast.
Proof.
  intros H. unfold f_speeds, f_np_sqrt. destruct (Rlt_dec _ _) as [L|_]; [lra|]. destruct (root_bounds H) as [R0 R1]. set (r := f_sqrt emin p (f_radicand emin p sq va c)) in *.
  eexists _, _. split; [reflexivity|]. unfold f_mul, f_add, f_sub. fold S.
  assert (A : 0 <= RN (S - r)) by (apply (rn_ge emin p Fm); [apply f_zero | lra]).
  assert (B : RN (S - r) <= RN (S + r)) by (apply (rn_le emin p Fm); lra).
  assert (D : 1 <= RN (S + r)) by (apply (rn_ge emin p Fm); [apply (f_one emin p Fm) | destruct S_facts; lra]).
  split; [split|].
  - apply (rn_ge emin p Fm); [apply f_zero | lra].
  - apply (rn_le emin p Fm). lra.
  - apply (rn_ge emin p Fm); [|lra]. replace (/ 2) with (pow (-1)) by reflexivity. apply (f_pow emin p Fm). destruct Fm. lia.
Qed.
(** Adding less than half of the unit roundoff changes nothing. *)
Lemma absorbs_up : forall y d, F y -> 0 < y -> pow (emin + p - 1) < y -> 0 <= d < q * y / 2 -> RN (y + d) = y.
Proof.
  intros y d Fy Py Ny Hd. apply Rle_antisym; [|apply (rn_ge emin p Fm); [exact Fy | lra]].
  apply round_N_le_midp; [apply FLT_exp_valid, waves_prec' | exact Fy|]. rewrite succ_eq_pos by lra. rewrite ulp_neq_0 by lra. unfold cexp.
  assert (HE : y < pow (mag radix2 y)) by (pose proof (bpow_mag_gt radix2 y) as H2; rewrite (Rabs_pos_eq y) in H2 by lra; exact H2).
  assert (KE : (emin + p <= mag radix2 y)%Z) by (assert (emin + p - 1 < mag radix2 y)%Z by (apply (lt_bpow radix2); lra); lia).
  replace (FLT_exp emin p (mag radix2 y)) with (- p + mag radix2 y)%Z by (unfold FLT_exp; lia). rewrite bpow_plus. fold q.
  assert (0 < q) by apply bpow_gt_0. nra.
Qed.
Lemma zero_slow : sq S - P >= 0 -> RN (sq S - P) = sq S -> RN (sqrt (sq S)) = S -> fst (fst (f_speeds emin p sq va c)) = Some 0.
Proof.
  intros H E1 E2. unfold f_speeds, f_np_sqrt. rewrite radicand_eq, E1. destruct S2_facts as (_ & _ & _ & FS & _). pose proof P_bounds.
  destruct (Rlt_dec _ _) as [L|_]; [lra|]. cbn [option_map fst]. unfold f_sqrt, f_mul, f_sub, f_add. rewrite E2. fold S.
  assert (Z0 : RN 0 = 0) by (apply (rn_exact emin p), f_zero).
  replace (S - S) with 0 by ring. rewrite Z0. replace (1 / 2 * 0) with 0 by ring. rewrite Z0. reflexivity.
Qed.
Lemma strong_zero : pow (p + 8) <= va -> fst (fst (f_speeds emin p sq va c)) = Some 0.
Proof.
  intros H. pose proof (q_small emin p Fm) as (Pq & Lq). fold q in Pq, Lq. pose proof (normal_one emin p Fm) as N1.
  assert (Q : q * pow (p + 8) = 256) by (unfold q; rewrite <- bpow_plus; replace (- p + (p + 8))%Z with 8%Z by lia; reflexivity).
  assert (Q2 : 256 <= q * va) by (rewrite <- Q; apply Rmult_le_compat_l; lra).
  assert (V : 4096 <= va) by nra.
  assert (ES : S = va) by (unfold S; apply absorbs_up; [exact Fva | lra | lra | lra]).
  destruct S2_facts as (δ & Hδ & E & FS & L & _). rewrite ES in L. pose proof P_bounds as PB. pose proof Hδ as Hδ'. apply Rabs_le_inv in Hδ'.
  assert (S2 : va ^ 2 / 2 <= sq S) by (rewrite ES; eapply Rle_trans; [|exact L]; assert (1 / 2 <= (1 + δ) * (1 - q)) by nra; rewrite Rmult_assoc; nra).
  assert (S3 : 8 * va <= sq S) by nra. assert (B : 4 * va < q * sq S / 2) by nra.
  apply zero_slow; [lra | apply (absorbs emin p Fm); [exact FS | lra | lra | fold q; lra] |].
  assert (Nm := S_normal). destruct S_facts as (GS & HS & _).
  assert (D : Rabs δ <= pow (- p - 4)).
  { replace (pow (- p - 4)) with (q / 16) by (replace (- p - 4)%Z with (- p + -4)%Z by lia; rewrite bpow_plus; replace (pow (-4)) with (/ 16) by reflexivity; unfold q; field). exact Hδ. }
  rewrite E. apply Rle_antisym; [apply (sqrt_sq_le emin p Fm) | apply (sqrt_sq_pos emin p Fm)]; try assumption; lra.
Qed.
Lemma weak_zero : va <= pow (- p - 8) -> fst (fst (f_speeds emin p sq va c)) = Some 0.
Proof.
  intros H. pose proof (q_small emin p Fm) as (Pq & Lq). fold q in Pq, Lq. pose proof (normal_one emin p Fm) as N1.
  assert (Q : pow (- p - 8) = q / 256) by (unfold Zminus; rewrite bpow_plus; replace (pow (-(8))) with (/ 256) by reflexivity; unfold q; field). rewrite Q in H.
  pose proof (f_one emin p Fm) as F1.
  assert (ES : S = 1) by (unfold S; rewrite Rplus_comm; apply absorbs_up; [exact F1 | lra | lra | lra]).
  destruct S2_facts as (δ & Hδ & E & FS & _ & _). pose proof P_bounds as PB. apply Rabs_le_inv in Hδ.
  assert (E2 : sq S = 1).
  { rewrite E, ES. replace (1 ^ 2 * (1 + δ)) with (1 + δ) by ring. destruct (Rle_dec 0 δ).
    - apply absorbs_up; [exact F1 | lra | lra | lra].
    - replace (1 + δ) with (1 - - δ) by ring. apply (absorbs emin p Fm); [exact F1 | lra | lra | fold q; lra]. }
  apply zero_slow; rewrite E2; [lra | apply (absorbs emin p Fm); [exact F1 | lra | lra | fold q; lra]|].
  rewrite sqrt_1, ES. apply (rn_exact emin p), F1.
Qed.
End Given.

Variables B_r B_φ B_θ ρ four_pi : R.
Hypothesis Bn : square_normal emin p B_θ.
Hypothesis Fρ : F ρ.
Hypothesis Pρ : 0 < ρ.
Hypothesis Hf : twelve_and_a_half four_pi.
Lemma sq_pos : forall x, 0 <= sq x.
Proof.
  intro x. destruct (Sq x) as (δ & Hδ & ->). pose proof (q_small emin p Fm) as (Pq & Lq). fold q in Pq, Lq.
  assert (B : Rabs δ <= 1). { eapply Rle_trans; [exact Hδ|]. apply Rle_trans with q; [unfold q; apply bpow_le; lia | lra]. }
  apply Rabs_le_inv in B. apply (rn_ge emin p Fm); [apply f_zero | nra].
Qed.
Lemma sq_Bθ : 0 < sq B_θ.
Proof.
  destruct Bn as (k & Hk & Lk). destruct (Sq B_θ) as (δ & Hδ & ->). pose proof (q_small emin p Fm) as (Pq & Lq). fold q in Pq, Lq.
  assert (B : Rabs δ <= / 2). { eapply Rle_trans; [exact Hδ|]. apply Rle_trans with q; [unfold q; apply bpow_le; lia | lra]. }
  apply Rabs_le_inv in B. apply Rlt_le_trans with (pow (2 * k - 1)); [apply bpow_gt_0|]. apply (rn_ge emin p Fm); [apply (f_pow emin p Fm); destruct Fm; lia|].
  unfold Zminus. rewrite bpow_plus. replace (pow (-(1))) with (/ 2) by reflexivity. replace (2 * k)%Z with (k + k)%Z by lia. rewrite bpow_plus.
  pose proof (bpow_gt_0 radix2 k). assert (A : pow k * pow k <= B_θ ^ 2) by (rewrite <- (pow2_abs B_θ); nra). nra.
Qed.
Lemma B_sq_large : sq B_θ <= f_B_sq emin p sq B_r B_φ B_θ.
Proof.
  unfold f_B_sq, f_add. apply (rn_ge emin p Fm).
  - destruct (Sq B_θ) as (δ & _ & ->). apply (rn_format emin p Fm).
  - assert (0 <= RN (sq B_r + sq B_φ)); [|lra]. apply (rn_ge emin p Fm); [apply f_zero|]. pose proof (sq_pos B_r). pose proof (sq_pos B_φ). lra.
Qed.
Lemma cos_unit : 0 <= f_cos_sq_psi emin p sq B_r B_φ B_θ <= 1.
Proof.
  pose proof sq_Bθ as A. pose proof B_sq_large as B. unfold f_cos_sq_psi, f_div. split.
  - apply (rn_ge emin p Fm); [apply f_zero|]. apply Rmult_le_pos; [lra | left; apply Rinv_0_lt_compat; lra].
  - apply (rn_le_F emin p Fm); [apply (f_one emin p Fm)|]. apply (Rmult_le_reg_r (f_B_sq emin p sq B_r B_φ B_θ)); [lra|]. unfold Rdiv. rewrite Rmult_assoc, Rinv_l by lra. lra.
Qed.
Lemma density_pos : 0 < f_mul emin p four_pi ρ.
Proof. unfold f_mul. apply Rlt_le_trans with ρ; [exact Pρ|]. apply (rn_ge emin p Fm); [exact Fρ|]. destruct Hf. nra. Qed.
Lemma v_a_facts : F (f_v_a_sq emin p sq four_pi B_r B_φ B_θ ρ) /\ 0 <= f_v_a_sq emin p sq four_pi B_r B_φ B_θ ρ.
Proof.
  split; [apply (rn_format emin p Fm)|]. unfold f_v_a_sq, f_div. apply (rn_ge emin p Fm); [apply f_zero|]. pose proof sq_Bθ. pose proof B_sq_large. pose proof density_pos.
  apply Rmult_le_pos; [lra | left; apply Rinv_0_lt_compat; lra].
Qed.
End Waves.

Lemma exact_slow_large : forall v c x, 0 < v -> 0 <= c -> exact_slow v c x -> v * c / (v + 1) <= x.
Proof.
  intros v c x Pv Pc [D _]. unfold dispersion in D. apply (Rmult_le_reg_r (v + 1)); [lra|]. unfold Rdiv. rewrite Rmult_assoc, Rinv_l by lra. nra.
Qed.

(** The speeds are numbers whenever the Alfvén speed is not within a few times the square root of the unit roundoff of the speed of sound, and
    also whenever the field is not along the direction of the wave to within four roundings ... *)
Theorem C143_real_partial : forall emin prec sq four_pi B_r B_φ B_θ ρ, sensible_format emin prec -> squares emin prec sq ->
  square_normal emin prec B_θ -> representable emin prec ρ -> 0 < ρ -> twelve_and_a_half four_pi ->
  far_from_sound prec (f_v_a_sq emin prec sq four_pi B_r B_φ B_θ ρ) \/ f_cos_sq_psi emin prec sq B_r B_φ B_θ <= 1 - 4 * bpow radix2 (- prec) ->
  exists slow alfven fast, f_mhd_wave_speeds emin prec sq four_pi B_r B_φ B_θ ρ = (Some slow, alfven, Some fast).
Proof.
  intros emin p sq fp B_r B_φ B_θ ρ Fm Sq Bn Rρ Pρ Hf H. apply representable_format in Rρ.
  destruct (v_a_facts emin p Fm sq Sq B_r B_φ B_θ ρ fp Bn Rρ Pρ Hf) as [A B]. pose proof (cos_unit emin p Fm sq Sq B_r B_φ B_θ Bn) as D.
  destruct (speeds_real emin p Fm sq Sq _ _ A B D (radicand_pos emin p Fm sq Sq _ _ A B D H)) as (s & f & E & _). exists s, (rounded emin p (f_v_a_sq emin p sq fp B_r B_φ B_θ ρ * f_cos_sq_psi emin p sq B_r B_φ B_θ)), f. exact E.
Qed.
Print Assumptions C143_real_partial.
(** ... and then they are ordered, none is negative, and the fast speed is not below half the speed of sound. *)
Theorem C143_ordered_partial : forall emin prec sq four_pi B_r B_φ B_θ ρ slow alfven fast, sensible_format emin prec -> squares emin prec sq ->
  square_normal emin prec B_θ -> representable emin prec ρ -> 0 < ρ -> twelve_and_a_half four_pi ->
  f_mhd_wave_speeds emin prec sq four_pi B_r B_φ B_θ ρ = (Some slow, alfven, Some fast) ->
  0 <= slow <= fast /\ / 2 <= fast /\ 0 <= alfven <= f_v_a_sq emin prec sq four_pi B_r B_φ B_θ ρ.
Proof.
  intros emin p sq fp B_r B_φ B_θ ρ slow alfven fast Fm Sq Bn Rρ Pρ Hf H. apply representable_format in Rρ.
  destruct (v_a_facts emin p Fm sq Sq B_r B_φ B_θ ρ fp Bn Rρ Pρ Hf) as [A B]. pose proof (cos_unit emin p Fm sq Sq B_r B_φ B_θ Bn) as D.
  unfold f_mhd_wave_speeds in H. set (va := f_v_a_sq emin p sq fp B_r B_φ B_θ ρ) in *. set (c := f_cos_sq_psi emin p sq B_r B_φ B_θ) in *.
  assert (R0 : 0 <= f_radicand emin p sq va c).
  { unfold f_speeds, f_np_sqrt in H. destruct (Rlt_dec _ _) as [L|L]; [discriminate H | lra]. }
  destruct (speeds_real emin p Fm sq Sq _ _ A B D R0) as (s & f & E & O1 & O2). rewrite E in H. injection H as <- <- <-. split; [exact O1|]. split; [exact O2|].
  split; [apply (rn_ge emin p Fm); [apply f_zero | nra] | apply (rn_le_F emin p Fm); [exact A | nra]].
Qed.
Print Assumptions C143_ordered_partial.
(** But in gas that is so thin, or so weakly magnetised, that the squares of the two speeds differ by the precision, the slow speed comes out as
    zero, whatever the direction of the field.  Exactly it is not: it is at least a fixed fraction of the Alfvén speed along the wave. *)
Theorem C143_slow_refuted : forall emin prec sq four_pi B_r B_φ B_θ ρ, sensible_format emin prec -> squares emin prec sq ->
  square_normal emin prec B_θ -> representable emin prec ρ -> 0 < ρ -> twelve_and_a_half four_pi ->
  let v_a_sq := f_v_a_sq emin prec sq four_pi B_r B_φ B_θ ρ in let cos_sq := f_cos_sq_psi emin prec sq B_r B_φ B_θ in
  bpow radix2 (prec + 8) <= v_a_sq \/ 0 < v_a_sq <= bpow radix2 (- prec - 8) ->
  fst (fst (f_mhd_wave_speeds emin prec sq four_pi B_r B_φ B_θ ρ)) = Some 0 /\
  forall x, exact_slow v_a_sq cos_sq x -> v_a_sq * cos_sq / (v_a_sq + 1) <= x.
Proof.
  intros emin p sq fp B_r B_φ B_θ ρ Fm Sq Bn Rρ Pρ Hf va c H. apply representable_format in Rρ.
  destruct (v_a_facts emin p Fm sq Sq B_r B_φ B_θ ρ fp Bn Rρ Pρ Hf) as [A B]. pose proof (cos_unit emin p Fm sq Sq B_r B_φ B_θ Bn) as D. split.
  - destruct H as [H|H]; [exact (strong_zero emin p Fm sq Sq va c A B D H) | exact (weak_zero emin p Fm sq Sq va c A B D (proj2 H))].
  - intros x X. apply exact_slow_large; [|apply D|exact X]. destruct H as [H|H]; [|apply H]. pose proof (bpow_gt_0 radix2 (p + 8)). lra.
Qed.
Print Assumptions C143_slow_refuted.

(** And close to the speed of sound the speeds are no numbers at all.  In double precision, with the correctly rounded square, the double 4 * pi, a
    vertical field of strength one and the density 0.07957747154594766, both the slow and the fast speed are NaN: the sum of the squares is rounded
    down to 2, and 4 times the square of the Alfvén speed is more than its square. *)
Definition double_sq (x : R) : R := rounded (-1074) 53 (x ^ 2).
Definition double_four_pi : R := 884279719003555 / 70368744177664.
Definition sonic_ρ : R := 2867080569611329 / 36028797018963968.
Notation D := (rounded (-1074) 53).
Lemma Fm_double : sensible_format (-1074) 53. Proof. split; lia. Qed.
Lemma D_one : D 1 = 1. Proof. apply rn_exact, (f_one (-1074) 53 Fm_double). Qed.
Lemma D_zero : D 0 = 0. Proof. apply rn_exact, f_zero. Qed.
Lemma unit_field : f_B_sq (-1074) 53 double_sq 0 0 1 = 1 /\ f_cos_sq_psi (-1074) 53 double_sq 0 0 1 = 1.
Proof.
  assert (B : f_B_sq (-1074) 53 double_sq 0 0 1 = 1).
  { unfold f_B_sq, f_add, double_sq. replace (0 ^ 2) with 0 by ring. replace (1 ^ 2) with 1 by ring. rewrite D_one, D_zero. rewrite !Rplus_0_l, D_zero, Rplus_0_l. apply D_one. }
  split; [exact B|]. unfold f_cos_sq_psi, f_div. rewrite B. unfold double_sq. replace (1 ^ 2) with 1 by ring. rewrite D_one. replace (1 / 1) with 1 by field. apply D_one.
Qed.
Lemma sonic_product : D (double_four_pi * sonic_ρ) = 1 - bpow radix2 (-53).
Proof.
  rewrite (RN_grid (-1074) 53 0 ltac:(lia) ltac:(lia)).
  - change (0 - 53)%Z with (-53)%Z. rewrite (Znearest_imp _ _ 9007199254740991).
    + change (bpow radix2 (-53)) with (/ 9007199254740992). lra.
    + change (bpow radix2 (-53)) with (/ 9007199254740992). unfold double_four_pi, sonic_ρ. apply Rabs_lt. lra.
  - change (bpow radix2 (0 - 1)) with (/ 2). change (bpow radix2 0) with 1. unfold double_four_pi, sonic_ρ. lra.
Qed.
Lemma sonic_v_a : f_v_a_sq (-1074) 53 double_sq double_four_pi 0 0 1 sonic_ρ = 1 + bpow radix2 (-52).
Proof.
  unfold f_v_a_sq, f_div, f_mul. rewrite (proj1 unit_field), sonic_product. change (bpow radix2 (-53)) with (/ 9007199254740992). change (bpow radix2 (-52)) with (/ 4503599627370496).
  replace (1 / (1 - / 9007199254740992)) with (9007199254740992 / 9007199254740991) by lra.
  rewrite (RN_grid (-1074) 53 1 ltac:(lia) ltac:(lia)).
  - change (1 - 53)%Z with (-52)%Z. change (bpow radix2 (-52)) with (/ 4503599627370496). rewrite (Znearest_imp _ _ 4503599627370497); [lra|]. apply Rabs_lt. lra.
  - change (bpow radix2 (1 - 1)) with 1. change (bpow radix2 1) with 2. lra.
Qed.
Lemma sonic_sum : D (1 + bpow radix2 (-52) + 1) = 2.
Proof.
  change (bpow radix2 (-52)) with (/ 4503599627370496). rewrite (RN_grid (-1074) 53 2 ltac:(lia) ltac:(lia)).
  - change (2 - 53)%Z with (-51)%Z. change (bpow radix2 (-51)) with (/ 2251799813685248).
    set (x := (1 + / 4503599627370496 + 1) / / 2251799813685248). assert (Hx : x = 4503599627370496 + / 2) by (unfold x; lra).
    assert (Fl : Zfloor x = 4503599627370496%Z) by (apply Zfloor_imp; change (4503599627370496 + 1)%Z with 4503599627370497%Z; lra).
    unfold Znearest. rewrite Fl, Rcompare_Eq by lra. change (negb (Z.even 4503599627370496)) with false. cbv iota. lra.
  - change (bpow radix2 (2 - 1)) with 2. change (bpow radix2 2) with 4. lra.
Qed.
Theorem C143_real_refuted : sensible_format (-1074) 53 /\ squares (-1074) 53 double_sq /\ twelve_and_a_half double_four_pi /\ representable (-1074) 53 sonic_ρ /\
  0 < sonic_ρ /\ exists alfven, f_mhd_wave_speeds (-1074) 53 double_sq double_four_pi 0 0 1 sonic_ρ = (None, alfven, None).
Proof.
  split; [exact Fm_double|]. assert (Sq : squares (-1074) 53 double_sq) by apply correctly_rounded. split; [exact Sq|]. split; [unfold twelve_and_a_half, double_four_pi; lra|].
  split; [exists 2867080569611329%Z, (-55)%Z; split; [unfold sonic_ρ; change (bpow radix2 (-55)) with (/ 36028797018963968); lra | split; lia]|].
  split; [unfold sonic_ρ; lra|]. unfold f_mhd_wave_speeds. rewrite sonic_v_a, (proj2 unit_field).
  assert (Fv : generic_format radix2 (FLT_exp (-1074) 53) (1 + bpow radix2 (-52))).
  { apply representable_format. exists 4503599627370497%Z, (-52)%Z. split; [change (bpow radix2 (-52)) with (/ 4503599627370496); lra | split; lia]. }
  assert (R : f_radicand (-1074) 53 double_sq (1 + bpow radix2 (-52)) 1 = - bpow radix2 (-50)).
  { assert (F4 : forall n k, (Z.abs n < 2 ^ 53)%Z -> (-1074 <= k)%Z -> D (IZR n * bpow radix2 k) = IZR n * bpow radix2 k).
    { intros n k Hn Hk. apply rn_exact, representable_format. exists n, k. split; [reflexivity | split; assumption]. }
    rewrite (radicand_eq (-1074) 53 double_sq _ _ Fv). rewrite sonic_sum. unfold double_sq. replace (2 ^ 2) with (IZR 1 * bpow radix2 2) by (change (bpow radix2 2) with 4; lra).
    rewrite F4 by lia. replace (4 * (1 + bpow radix2 (-52)) * 1) with (IZR 4503599627370497 * bpow radix2 (-50)) by (change (bpow radix2 (-52)) with (/ 4503599627370496); change (bpow radix2 (-50)) with (/ 1125899906842624); lra).
    rewrite F4 by lia. replace (IZR 1 * bpow radix2 2 - IZR 4503599627370497 * bpow radix2 (-50)) with (IZR (-1) * bpow radix2 (-50)) by (change (bpow radix2 2) with 4; change (bpow radix2 (-50)) with (/ 1125899906842624); lra).
    rewrite F4 by lia. ring. }
  unfold f_speeds, f_np_sqrt. rewrite R. destruct (Rlt_dec _ _) as [_|N]; [eexists; reflexivity|]. exfalso. apply N. pose proof (bpow_gt_0 radix2 (-50)). lra.
Qed.
Print Assumptions C143_real_refuted.
(** The conditions of the theorems are met: a density of 2^-80 is thin enough for the slow speed to be lost, and one of 1 leaves all speeds real. *)
Example C143_nonvacuous : square_normal (-1074) 53 1 /\ representable (-1074) 53 (bpow radix2 (-80)) /\
  bpow radix2 (53 + 8) <= f_v_a_sq (-1074) 53 double_sq double_four_pi 0 0 1 (bpow radix2 (-80)) /\ f_cos_sq_psi (-1074) 53 double_sq 0 0 1 = 1 /\
  far_from_sound 53 (f_v_a_sq (-1074) 53 double_sq double_four_pi 0 0 1 1).
Proof.
  split; [exists 0%Z; split; [lia | rewrite Rabs_R1; change (bpow radix2 0) with 1; lra]|].
  split; [exists 1%Z, (-80)%Z; split; [ring | split; lia]|]. split; [|split; [exact (proj2 unit_field)|]].
  - unfold f_v_a_sq, f_div, f_mul. rewrite (proj1 unit_field). apply (rn_ge (-1074) 53 Fm_double); [apply (f_pow (-1074) 53 Fm_double); lia|].
    assert (L : D (double_four_pi * bpow radix2 (-80)) <= bpow radix2 (-76)).
    { apply (rn_le_F (-1074) 53 Fm_double); [apply (f_pow (-1074) 53 Fm_double); lia|]. replace (bpow radix2 (-76)) with (16 * bpow radix2 (-80)).
      - unfold double_four_pi. pose proof (bpow_gt_0 radix2 (-80)). nra.
      - change 16 with (bpow radix2 4). rewrite <- bpow_plus. reflexivity. }
    assert (G : bpow radix2 (-77) <= D (double_four_pi * bpow radix2 (-80))).
    { apply (rn_ge (-1074) 53 Fm_double); [apply (f_pow (-1074) 53 Fm_double); lia|]. replace (bpow radix2 (-77)) with (8 * bpow radix2 (-80)).
      - unfold double_four_pi. pose proof (bpow_gt_0 radix2 (-80)). nra.
      - change 8 with (bpow radix2 3). rewrite <- bpow_plus. reflexivity. }
    pose proof (bpow_gt_0 radix2 (-77)). unfold Rdiv. rewrite Rmult_1_l. apply Rle_trans with (bpow radix2 76); [apply bpow_le; lia|].
    change 76%Z with (- (-76))%Z. rewrite bpow_opp. apply Rinv_le; lra.
  - assert (V : 0 <= f_v_a_sq (-1074) 53 double_sq double_four_pi 0 0 1 1 <= / 8).
    { unfold f_v_a_sq, f_div, f_mul. rewrite (proj1 unit_field), Rmult_1_r. assert (G : 8 <= D double_four_pi).
      { apply (rn_ge (-1074) 53 Fm_double); [change 8 with (bpow radix2 3); apply (f_pow (-1074) 53 Fm_double); lia | unfold double_four_pi; lra]. }
      assert (I : 0 <= 1 / D double_four_pi <= / 8) by (unfold Rdiv; rewrite Rmult_1_l; split; [left; apply Rinv_0_lt_compat; lra | apply Rinv_le; lra]).
      split; [apply (rn_ge (-1074) 53 Fm_double); [apply f_zero | apply I]|]. apply (rn_le_F (-1074) 53 Fm_double); [change (/ 8) with (bpow radix2 (-3)); apply (f_pow (-1074) 53 Fm_double); lia | apply I]. }
    unfold far_from_sound. set (v := f_v_a_sq _ _ _ _ _ _ _ _) in *. clearbody v. assert (Q : 0 < bpow radix2 (-53) <= / 64).
    { split; [apply bpow_gt_0|]. change (/ 64) with (bpow radix2 (-6)). apply bpow_le. lia. }
    change (- (53))%Z with (-53)%Z. nra.
Qed.
