(** C143, continued: rounding can put the Alfvén speed below the slow or above the fast one. *)
From Coq Require Import ZArith Reals Lra Lia Psatz.
From Flocq Require Import Core.
From Verif Require Import Model_Float Model_FloatRhs Model_FloatWaves Spec_Float Spec_FloatRhs Spec_FloatWaves Proofs_Float Proofs_FloatRhs Props_FloatWaves.
Local Open Scope R_scope.

Lemma sqrt_lower : forall a x, 0 <= a -> a * a <= x -> a <= sqrt x.
Proof. intros a x H L. rewrite <- (sqrt_square a H). apply sqrt_le_1_alt, L. Qed.
Lemma sqrt_upper : forall a x, 0 <= a -> x <= a * a -> sqrt x <= a.
Proof. intros a x H L. rewrite <- (sqrt_square a H). apply sqrt_le_1_alt, L. Qed.
(** The values below are the doubles each operation gives. *)
Lemma slow_4πρ : D ((884279719003555 / 70368744177664) * (1 / 2)) = (884279719003555 / 140737488355328).
Proof.
  rewrite (RN_grid (-1074) 53 (3) ltac:(lia) ltac:(lia)).
  - change (3 - 53)%Z with (-50)%Z. change (bpow radix2 (-50)) with (/ 1125899906842624). rewrite (Znearest_imp _ _ 7074237752028440); [lra | apply Rabs_lt; lra].
  - change (bpow radix2 (3 - 1)) with 4. change (bpow radix2 (3)) with 8. lra.
Qed.
Lemma slow_va : D (1 / (884279719003555 / 140737488355328)) = (5734161139222659 / 36028797018963968).
Proof.
  rewrite (RN_grid (-1074) 53 (-2) ltac:(lia) ltac:(lia)).
  - change (-2 - 53)%Z with (-55)%Z. change (bpow radix2 (-55)) with (/ 36028797018963968). rewrite (Znearest_imp _ _ 5734161139222659); [lra | apply Rabs_lt; lra].
  - change (bpow radix2 (-2 - 1)) with (/ 8). change (bpow radix2 (-2)) with (/ 4). lra.
Qed.
Lemma slow_S : D ((5734161139222659 / 36028797018963968) + 1) = (326273110610833 / 281474976710656).
Proof.
  rewrite (RN_grid (-1074) 53 (1) ltac:(lia) ltac:(lia)).
  - change (1 - 53)%Z with (-52)%Z. change (bpow radix2 (-52)) with (/ 4503599627370496). rewrite (Znearest_imp _ _ 5220369769773328); [lra | apply Rabs_lt; lra].
  - change (bpow radix2 (1 - 1)) with 1. change (bpow radix2 (1)) with 2. lra.
Qed.
Lemma slow_S2 : D ((326273110610833 / 281474976710656) ^ 2) = (1512804355850063 / 1125899906842624).
Proof.
  rewrite (RN_grid (-1074) 53 (1) ltac:(lia) ltac:(lia)).
  - change (1 - 53)%Z with (-52)%Z. change (bpow radix2 (-52)) with (/ 4503599627370496). rewrite (Znearest_imp _ _ 6051217423400252); [lra | apply Rabs_lt; lra].
  - change (bpow radix2 (1 - 1)) with 1. change (bpow radix2 (1)) with 2. lra.
Qed.
Lemma slow_P : D (4 * (5734161139222659 / 36028797018963968)) = (5734161139222659 / 9007199254740992).
Proof.
  rewrite (RN_grid (-1074) 53 (0) ltac:(lia) ltac:(lia)).
  - change (0 - 53)%Z with (-53)%Z. change (bpow radix2 (-53)) with (/ 9007199254740992). rewrite (Znearest_imp _ _ 5734161139222659); [lra | apply Rabs_lt; lra].
  - change (bpow radix2 (0 - 1)) with (/ 2). change (bpow radix2 (0)) with 1. lra.
Qed.
Lemma slow_P1 : D ((5734161139222659 / 9007199254740992) * 1) = (5734161139222659 / 9007199254740992).
Proof.
  rewrite (RN_grid (-1074) 53 (0) ltac:(lia) ltac:(lia)).
  - change (0 - 53)%Z with (-53)%Z. change (bpow radix2 (-53)) with (/ 9007199254740992). rewrite (Znearest_imp _ _ 5734161139222659); [lra | apply Rabs_lt; lra].
  - change (bpow radix2 (0 - 1)) with (/ 2). change (bpow radix2 (0)) with 1. lra.
Qed.
Lemma slow_rad : D ((1512804355850063 / 1125899906842624) - (5734161139222659 / 9007199254740992)) = (6368273707577845 / 9007199254740992).
Proof.
  rewrite (RN_grid (-1074) 53 (0) ltac:(lia) ltac:(lia)).
  - change (0 - 53)%Z with (-53)%Z. change (bpow radix2 (-53)) with (/ 9007199254740992). rewrite (Znearest_imp _ _ 6368273707577845); [lra | apply Rabs_lt; lra].
  - change (bpow radix2 (0 - 1)) with (/ 2). change (bpow radix2 (0)) with 1. lra.
Qed.
Lemma slow_root : D (sqrt (6368273707577845 / 9007199254740992)) = (3786829484967663 / 4503599627370496).
Proof.
  assert (L : (757365896993532551 / 900719925474099200) <= sqrt (6368273707577845 / 9007199254740992)) by (apply sqrt_lower; lra).
  assert (U : sqrt (6368273707577845 / 9007199254740992) <= (757365896993532649 / 900719925474099200)) by (apply sqrt_upper; lra).
  rewrite (RN_grid (-1074) 53 (0) ltac:(lia) ltac:(lia)).
  - change (0 - 53)%Z with (-53)%Z. change (bpow radix2 (-53)) with (/ 9007199254740992). rewrite (Znearest_imp _ _ 7573658969935326); [lra | apply Rabs_lt; lra].
  - change (bpow radix2 (0 - 1)) with (/ 2). change (bpow radix2 (0)) with 1. lra.
Qed.
Lemma slow_alfven : D ((5734161139222659 / 36028797018963968) * 1) = (5734161139222659 / 36028797018963968).
Proof.
  rewrite (RN_grid (-1074) 53 (-2) ltac:(lia) ltac:(lia)).
  - change (-2 - 53)%Z with (-55)%Z. change (bpow radix2 (-55)) with (/ 36028797018963968). rewrite (Znearest_imp _ _ 5734161139222659); [lra | apply Rabs_lt; lra].
  - change (bpow radix2 (-2 - 1)) with (/ 8). change (bpow radix2 (-2)) with (/ 4). lra.
Qed.
Lemma slow_d : D ((326273110610833 / 281474976710656) - (3786829484967663 / 4503599627370496)) = (1433540284805665 / 4503599627370496).
Proof.
  rewrite (RN_grid (-1074) 53 (-1) ltac:(lia) ltac:(lia)).
  - change (-1 - 53)%Z with (-54)%Z. change (bpow radix2 (-54)) with (/ 18014398509481984). rewrite (Znearest_imp _ _ 5734161139222660); [lra | apply Rabs_lt; lra].
  - change (bpow radix2 (-1 - 1)) with (/ 4). change (bpow radix2 (-1)) with (/ 2). lra.
Qed.
Lemma slow_h : D (1 / 2 * (1433540284805665 / 4503599627370496)) = (1433540284805665 / 9007199254740992).
Proof.
  rewrite (RN_grid (-1074) 53 (-2) ltac:(lia) ltac:(lia)).
  - change (-2 - 53)%Z with (-55)%Z. change (bpow radix2 (-55)) with (/ 36028797018963968). rewrite (Znearest_imp _ _ 5734161139222660); [lra | apply Rabs_lt; lra].
  - change (bpow radix2 (-2 - 1)) with (/ 8). change (bpow radix2 (-2)) with (/ 4). lra.
Qed.
Lemma slow_speed : exists other, f_mhd_wave_speeds (-1074) 53 double_sq double_four_pi 0 0 1 (1 / 2) = (Some (1433540284805665 / 9007199254740992), (5734161139222659 / 36028797018963968), other).
Proof.
  unfold f_mhd_wave_speeds, f_v_a_sq. destruct unit_field as [-> ->]. unfold f_div, f_mul. change double_four_pi with (884279719003555 / 70368744177664). rewrite slow_4πρ, slow_va.
  unfold f_speeds, f_np_sqrt, f_radicand, f_sqrt, f_add, f_sub, f_mul, double_sq. rewrite slow_S, slow_S2, slow_P, slow_P1, slow_P1, slow_rad, slow_root, slow_alfven.
  destruct (Rlt_dec _ _) as [L|_]; [exfalso; lra|]. cbn [option_map]. rewrite slow_d, slow_h. eexists. reflexivity.
Qed.
Lemma fast_4πρ : D ((884279719003555 / 70368744177664) * (275 / 4096)) = (7599278835186801 / 9007199254740992).
Proof.
  rewrite (RN_grid (-1074) 53 (0) ltac:(lia) ltac:(lia)).
  - change (0 - 53)%Z with (-53)%Z. change (bpow radix2 (-53)) with (/ 9007199254740992). rewrite (Znearest_imp _ _ 7599278835186801); [lra | apply Rabs_lt; lra].
  - change (bpow radix2 (0 - 1)) with (/ 2). change (bpow radix2 (0)) with 1. lra.
Qed.
Lemma fast_va : D (1 / (7599278835186801 / 9007199254740992)) = (2668991366620001 / 2251799813685248).
Proof.
  rewrite (RN_grid (-1074) 53 (1) ltac:(lia) ltac:(lia)).
  - change (1 - 53)%Z with (-52)%Z. change (bpow radix2 (-52)) with (/ 4503599627370496). rewrite (Znearest_imp _ _ 5337982733240002); [lra | apply Rabs_lt; lra].
  - change (bpow radix2 (1 - 1)) with 1. change (bpow radix2 (1)) with 2. lra.
Qed.
Lemma fast_S : D ((2668991366620001 / 2251799813685248) + 1) = (4920791180305249 / 2251799813685248).
Proof.
  rewrite (RN_grid (-1074) 53 (2) ltac:(lia) ltac:(lia)).
  - change (2 - 53)%Z with (-51)%Z. change (bpow radix2 (-51)) with (/ 2251799813685248). rewrite (Znearest_imp _ _ 4920791180305249); [lra | apply Rabs_lt; lra].
  - change (bpow radix2 (2 - 1)) with 2. change (bpow radix2 (2)) with 4. lra.
Qed.
Lemma fast_S2 : D ((4920791180305249 / 2251799813685248) ^ 2) = (2688314664230909 / 562949953421312).
Proof.
  rewrite (RN_grid (-1074) 53 (3) ltac:(lia) ltac:(lia)).
  - change (3 - 53)%Z with (-50)%Z. change (bpow radix2 (-50)) with (/ 1125899906842624). rewrite (Znearest_imp _ _ 5376629328461818); [lra | apply Rabs_lt; lra].
  - change (bpow radix2 (3 - 1)) with 4. change (bpow radix2 (3)) with 8. lra.
Qed.
Lemma fast_P : D (4 * (2668991366620001 / 2251799813685248)) = (2668991366620001 / 562949953421312).
Proof.
  rewrite (RN_grid (-1074) 53 (3) ltac:(lia) ltac:(lia)).
  - change (3 - 53)%Z with (-50)%Z. change (bpow radix2 (-50)) with (/ 1125899906842624). rewrite (Znearest_imp _ _ 5337982733240002); [lra | apply Rabs_lt; lra].
  - change (bpow radix2 (3 - 1)) with 4. change (bpow radix2 (3)) with 8. lra.
Qed.
Lemma fast_P1 : D ((2668991366620001 / 562949953421312) * 1) = (2668991366620001 / 562949953421312).
Proof.
  rewrite (RN_grid (-1074) 53 (3) ltac:(lia) ltac:(lia)).
  - change (3 - 53)%Z with (-50)%Z. change (bpow radix2 (-50)) with (/ 1125899906842624). rewrite (Znearest_imp _ _ 5337982733240002); [lra | apply Rabs_lt; lra].
  - change (bpow radix2 (3 - 1)) with 4. change (bpow radix2 (3)) with 8. lra.
Qed.
Lemma fast_rad : D ((2688314664230909 / 562949953421312) - (2668991366620001 / 562949953421312)) = (4830824402727 / 140737488355328).
Proof.
  rewrite (RN_grid (-1074) 53 (-4) ltac:(lia) ltac:(lia)).
  - change (-4 - 53)%Z with (-57)%Z. change (bpow radix2 (-57)) with (/ 144115188075855872). rewrite (Znearest_imp _ _ 4946764188392448); [lra | apply Rabs_lt; lra].
  - change (bpow radix2 (-4 - 1)) with (/ 32). change (bpow radix2 (-4)) with (/ 16). lra.
Qed.
Lemma fast_root : D (sqrt (4830824402727 / 140737488355328)) = (1668766211739003 / 9007199254740992).
Proof.
  assert (L : (667506484695601151 / 3602879701896396800) <= sqrt (4830824402727 / 140737488355328)) by (apply sqrt_lower; lra).
  assert (U : sqrt (4830824402727 / 140737488355328) <= (667506484695601249 / 3602879701896396800)) by (apply sqrt_upper; lra).
  rewrite (RN_grid (-1074) 53 (-2) ltac:(lia) ltac:(lia)).
  - change (-2 - 53)%Z with (-55)%Z. change (bpow radix2 (-55)) with (/ 36028797018963968). rewrite (Znearest_imp _ _ 6675064846956012); [lra | apply Rabs_lt; lra].
  - change (bpow radix2 (-2 - 1)) with (/ 8). change (bpow radix2 (-2)) with (/ 4). lra.
Qed.
Lemma fast_alfven : D ((2668991366620001 / 2251799813685248) * 1) = (2668991366620001 / 2251799813685248).
Proof.
  rewrite (RN_grid (-1074) 53 (1) ltac:(lia) ltac:(lia)).
  - change (1 - 53)%Z with (-52)%Z. change (bpow radix2 (-52)) with (/ 4503599627370496). rewrite (Znearest_imp _ _ 5337982733240002); [lra | apply Rabs_lt; lra].
  - change (bpow radix2 (1 - 1)) with 1. change (bpow radix2 (1)) with 2. lra.
Qed.
Lemma fast_d : D ((4920791180305249 / 2251799813685248) + (1668766211739003 / 9007199254740992)) = (83405980206875 / 35184372088832).
Proof.
  rewrite (RN_grid (-1074) 53 (2) ltac:(lia) ltac:(lia)).
  - change (2 - 53)%Z with (-51)%Z. change (bpow radix2 (-51)) with (/ 2251799813685248). rewrite (Znearest_imp _ _ 5337982733240000); [lra | apply Rabs_lt; lra].
  - change (bpow radix2 (2 - 1)) with 2. change (bpow radix2 (2)) with 4. lra.
Qed.
Lemma fast_h : D (1 / 2 * (83405980206875 / 35184372088832)) = (83405980206875 / 70368744177664).
Proof.
  rewrite (RN_grid (-1074) 53 (1) ltac:(lia) ltac:(lia)).
  - change (1 - 53)%Z with (-52)%Z. change (bpow radix2 (-52)) with (/ 4503599627370496). rewrite (Znearest_imp _ _ 5337982733240000); [lra | apply Rabs_lt; lra].
  - change (bpow radix2 (1 - 1)) with 1. change (bpow radix2 (1)) with 2. lra.
Qed.
Lemma fast_speed : exists other, f_mhd_wave_speeds (-1074) 53 double_sq double_four_pi 0 0 1 (275 / 4096) = (other, (2668991366620001 / 2251799813685248), Some (83405980206875 / 70368744177664)).
Proof.
  unfold f_mhd_wave_speeds, f_v_a_sq. destruct unit_field as [-> ->]. unfold f_div, f_mul. change double_four_pi with (884279719003555 / 70368744177664). rewrite fast_4πρ, fast_va.
  unfold f_speeds, f_np_sqrt, f_radicand, f_sqrt, f_add, f_sub, f_mul, double_sq. rewrite fast_S, fast_S2, fast_P, fast_P1, fast_P1, fast_rad, fast_root, fast_alfven.
  destruct (Rlt_dec _ _) as [L|_]; [exfalso; lra|]. cbn [option_map]. rewrite fast_d, fast_h. eexists. reflexivity.
Qed.
(** A vertical field of strength one: in a gas of density 1/2 the slow speed is above the Alfvén speed, and in one of density 275/4096 the fast
    speed is below it.  Exactly the Alfvén speed lies between the two, for every field and density (C21). *)
Theorem C143_alfven_refuted :
  (exists slow alfven other, f_mhd_wave_speeds (-1074) 53 double_sq double_four_pi 0 0 1 (1 / 2) = (Some slow, alfven, other) /\ alfven < slow) /\
  (exists other alfven fast, f_mhd_wave_speeds (-1074) 53 double_sq double_four_pi 0 0 1 (275 / 4096) = (other, alfven, Some fast) /\ fast < alfven).
Proof.
  split; [destruct slow_speed as [o E] | destruct fast_speed as [o E]]; eexists _, _, _; (split; [exact E | lra]).
Qed.
Print Assumptions C143_alfven_refuted.

(** The fast Mach number is never above the slow one, so no flow is faster than the fast wave and slower than the slow one. *)
Theorem C143_mach_partial : forall emin prec sq four_pi B_r B_φ B_θ ρ slow alfven fast v_θ, sensible_format emin prec -> squares emin prec sq ->
  square_normal emin prec B_θ -> representable emin prec ρ -> 0 < ρ -> twelve_and_a_half four_pi ->
  f_mhd_wave_speeds emin prec sq four_pi B_r B_φ B_θ ρ = (Some slow, alfven, Some fast) -> 0 < slow ->
  0 <= f_mach emin prec sq v_θ fast <= f_mach emin prec sq v_θ slow.
Proof.
  intros emin p sq fp B_r B_φ B_θ ρ slow alfven fast v Fm Sq Bn Rρ Pρ Hf H Ps.
  destruct (C143_ordered_partial _ _ _ _ _ _ _ _ _ _ _ Fm Sq Bn Rρ Pρ Hf H) as (O1 & _).
  unfold f_mach, f_sqrt, f_div. split; [apply (rn_ge emin p Fm); [apply f_zero | apply sqrt_pos]|].
  apply (rn_le emin p Fm), sqrt_le_1_alt, (rn_le emin p Fm). apply Rmult_le_compat_l; [apply (sq_pos emin p Fm sq Sq)|]. apply Rinv_le; lra.
Qed.
Print Assumptions C143_mach_partial.
(** The state of density 1/2 has a slow speed that is not zero. *)
Example C143_mach_nonvacuous : representable (-1074) 53 (1 / 2) /\
  exists slow alfven fast, f_mhd_wave_speeds (-1074) 53 double_sq double_four_pi 0 0 1 (1 / 2) = (Some slow, alfven, Some fast) /\ 0 < slow.
Proof.
  assert (Rh : representable (-1074) 53 (1 / 2)) by (exists 1%Z, (-1)%Z; split; [change (bpow radix2 (-1)) with (/ 2); lra | split; lia]).
  split; [exact Rh|]. destruct slow_speed as [o E]. destruct o as [fast|].
  - eexists _, _, fast. split; [exact E | lra].
  - exfalso. unfold f_mhd_wave_speeds, f_speeds in E. destruct (f_np_sqrt _ _ _); discriminate E.
Qed.
