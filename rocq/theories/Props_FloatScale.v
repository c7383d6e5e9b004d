(** C142: in floating-point arithmetic an angle survives the conversion to scaled units and back. *)
From Coq Require Import ZArith Reals Lra Lia Psatz.
From Flocq Require Import Core Relative Mult_error.
From Verif Require Import Model_Float Model_FloatRhs Model_FloatScale Spec_Float Spec_FloatRhs Spec_FloatShock Spec_FloatScale Proofs_Float Proofs_FloatRhs Props_Float.
Local Open Scope R_scope.

Lemma normal_rel : forall emin p x, sensible_format emin p -> bpow radix2 (emin + p - 1) <= Rabs x -> exists e, Rabs e <= bpow radix2 (- p) /\ rounded emin p x = x * (1 + e).
Proof.
  intros emin p x Fm H. pose proof (bpow_gt_0 radix2 (emin + p - 1)) as P0. assert (Nx : x <> 0) by (intros ->; rewrite Rabs_R0 in H; lra).
  exists ((rounded emin p x - x) / x). split; [|field; exact Nx].
  assert (E : Rabs (rounded emin p x - x) <= bpow radix2 (- p) * Rabs x).
  { replace (bpow radix2 (- p)) with (/ 2 * bpow radix2 (- p + 1)) by (rewrite bpow_plus; replace (bpow radix2 1) with 2 by reflexivity; field).
    apply relative_error_N_FLT; [exact (prec_pos emin p Fm)|exact H]. }
  unfold Rdiv. rewrite Rabs_mult, Rabs_inv. apply (Rmult_le_reg_r (Rabs x)); [apply Rabs_pos_lt, Nx|].
  rewrite Rmult_assoc, Rinv_l, Rmult_1_r by (apply Rabs_no_R0, Nx). exact E.
Qed.

(** Back in radians the angle is what it was, to two roundings: any scale, as long as neither the angle nor its scaled value underflows. *)
Theorem C142_round_trip : forall emin prec x s, sensible_format emin prec -> s <> 0 -> normal emin prec x -> normal emin prec (x / s) ->
  exists x', f_scaled_to_rad emin prec (f_rad_to_scaled emin prec (Some x) s) s = Some x' /\
  within (2 * bpow radix2 (- prec) + bpow radix2 (- prec) ^ 2) x' x.
Proof.
  intros emin p x s Fm Hs Nx Ns. eexists. split; [reflexivity|]. unfold f_mul, f_div, normal in *.
  assert (L : bpow radix2 (emin + p - 1) <= bpow radix2 (emin + p) / 2).
  { unfold Zminus. rewrite bpow_plus. replace (bpow radix2 (-(1))) with (/ 2) by reflexivity. lra. }
  pose proof (bpow_gt_0 radix2 (emin + p)) as P0. destruct (q_small emin p Fm) as (Pq & Lq). set (q := bpow radix2 (- p)) in *.
  destruct (normal_rel emin p (x / s) Fm ltac:(lra)) as (e & He & ->). fold q in He.
  replace (x / s * (1 + e) * s) with (x * (1 + e)) by (field; exact Hs).
  assert (B := Rabs_le_inv _ _ He).
  destruct (normal_rel emin p (x * (1 + e)) Fm) as (f & Hf & ->).
  { rewrite Rabs_mult, (Rabs_pos_eq (1 + e)) by lra. pose proof (Rabs_pos x). nra. }
  fold q in Hf. apply Rabs_le_inv in Hf. unfold within. replace (x * (1 + e) * (1 + f) - x) with ((e + f + e * f) * x) by ring.
  rewrite Rabs_mult. apply Rmult_le_compat_r; [apply Rabs_pos|]. apply Rabs_le. split; nra.
Qed.
Print Assumptions C142_round_trip.

(** With the default scale, the only one the commands use, nothing changes at all, whatever the number; nothing stays nothing. *)
Theorem C142_default : forall emin prec x, sensible_format emin prec -> representable emin prec x ->
  f_rad_to_scaled emin prec (Some x) 1 = Some x /\ f_scaled_to_rad emin prec (Some x) 1 = Some x /\
  forall s, f_rad_to_scaled emin prec None s = None /\ f_scaled_to_rad emin prec None s = None.
Proof.
  intros emin p x Fm Rx. apply representable_format in Rx. unfold f_rad_to_scaled, f_scaled_to_rad, f_div, f_mul.
  replace (x / 1) with x by field. rewrite Rmult_1_r, (rn_exact emin p x Rx). repeat split.
Qed.
Print Assumptions C142_default.
(** With a power of two as scale the angle comes back exactly. *)
Theorem C142_power_of_two : forall emin prec x k, sensible_format emin prec -> representable emin prec x -> normal emin prec (x / bpow radix2 k) ->
  f_rad_to_scaled emin prec (Some x) (bpow radix2 k) = Some (x / bpow radix2 k) /\
  f_scaled_to_rad emin prec (f_rad_to_scaled emin prec (Some x) (bpow radix2 k)) (bpow radix2 k) = Some x.
Proof.
  intros emin p x k Fm Rx N. apply representable_format in Rx. assert (P : bpow radix2 k <> 0) by (apply Rgt_not_eq, bpow_gt_0).
  unfold f_rad_to_scaled, f_scaled_to_rad, f_div, f_mul.
  assert (G : generic_format radix2 (FLT_exp emin p) (x / bpow radix2 k)).
  { unfold Rdiv. rewrite <- bpow_opp. apply mult_bpow_exact_FLT; [exact Rx|]. unfold normal in N.
    assert (Nx : x <> 0) by (intros ->; unfold Rdiv in N; rewrite Rmult_0_l, Rabs_R0 in N; pose proof (bpow_gt_0 radix2 (emin + p)); lra).
    assert (M : (emin + p < mag radix2 (x / bpow radix2 k))%Z) by (apply mag_gt_bpow; exact N).
    unfold Rdiv in M. rewrite <- bpow_opp, mag_mult_bpow in M by exact Nx. lia. }
  rewrite (rn_exact emin p _ G). replace (x / bpow radix2 k * bpow radix2 k) with x by (field; exact P). rewrite (rn_exact emin p x Rx). split; reflexivity.
Qed.
Print Assumptions C142_power_of_two.
(** Neither conversion ever swaps two angles. *)
Theorem C142_order : forall emin prec s, sensible_format emin prec -> 0 < s ->
  keeps_order (fun x => f_rad_to_scaled emin prec x s) /\ keeps_order (fun x => f_scaled_to_rad emin prec x s).
Proof.
  intros emin p s Fm Hs. split; intros x y x' y' H [= <-] [= <-]; apply rn_le; try exact Fm.
  - apply Rmult_le_compat_r; [left; apply Rinv_0_lt_compat, Hs | exact H].
  - apply Rmult_le_compat_r; [lra | exact H].
Qed.
Print Assumptions C142_order.
(** But they can make two equal, and then not both come back: double precision, in units of 3/2 radian. *)
Theorem C142_merges : exists x y, representable (-1074) 53 x /\ representable (-1074) 53 y /\ x < y /\
  f_rad_to_scaled (-1074) 53 (Some x) (3 / 2) = f_rad_to_scaled (-1074) 53 (Some y) (3 / 2).
Proof.
  assert (U : bpow radix2 (0 - 53) = / 9007199254740992) by reflexivity.
  exists (9007199254740991 / 9007199254740992), 1.
  split; [exists 9007199254740991%Z, (-53)%Z; split; [replace (bpow radix2 (-53)) with (/ 9007199254740992) by reflexivity; field | split; [reflexivity | lia]]|].
  split; [exists 1%Z, 0%Z; split; [cbn; ring | split; [reflexivity | lia]]|]. split; [lra|].
  unfold f_rad_to_scaled, f_div. f_equal.
  assert (G : forall x, / 2 <= x <= 1 -> rounded (-1074) 53 x = IZR (ZnearestE (x * 9007199254740992)) * / 9007199254740992).
  { intros x H. rewrite (RN_grid (-1074) 53 0) by (try lia; replace (bpow radix2 (0 - 1)) with (/ 2) by reflexivity; replace (bpow radix2 0) with 1 by reflexivity; exact H).
    rewrite U. f_equal. f_equal. f_equal. field. }
  rewrite !G by lra. f_equal. f_equal. transitivity 6004799503160661%Z; [|symmetry].
  - apply Znearest_imp. apply Rabs_lt. lra.
  - apply Znearest_imp. apply Rabs_lt. lra.
Qed.
Print Assumptions C142_merges.

(** Not empty: double precision, half a radian in units of 3/10. *)
Example C142_nonvacuous : sensible_format (-1074) 53 /\ 3 / 10 <> 0 /\ normal (-1074) 53 (1 / 2) /\ normal (-1074) 53 (1 / 2 / (3 / 10)) /\
  representable (-1074) 53 (1 / 2) /\ normal (-1074) 53 (1 / 2 / bpow radix2 (-2)).
Proof.
  assert (S : bpow radix2 (-1074 + 53) <= / 2) by (change (/ 2) with (bpow radix2 (-1)); apply bpow_le; lia).
  split; [unfold sensible_format; lia|]. split; [lra|]. unfold normal. split; [rewrite Rabs_pos_eq; lra|]. split; [rewrite Rabs_pos_eq; lra|].
  split; [exists 1%Z, (-1)%Z; split; [replace (bpow radix2 (-1)) with (/ 2) by reflexivity; lra | split; [reflexivity | lia]]|].
  replace (bpow radix2 (-2)) with (/ 4) by reflexivity. rewrite Rabs_pos_eq; lra.
Qed.
