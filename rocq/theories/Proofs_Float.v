(** Rounding near one power of two. *)
From Coq Require Import ZArith Reals Lra Lia Psatz.
From Flocq Require Import Core Mult_error.
From Verif Require Import Lib_Py Model_Array Model_Stepper Model_Float Proofs_Array.
Local Open Scope R_scope.

Section Rounding.
Variables emin p e : Z.
Hypothesis p_large : (3 <= p)%Z.
Hypothesis e_large : (emin + 3 * p <= e)%Z.
Let fexp := FLT_exp emin p.
Notation RN := (rounded emin p).
Notation pow := (bpow radix2).
(** The distance of neighbouring numbers between 2^(e-1) and 2^e. *)
Notation u := (pow (e - p)).
Instance p_gt_0 : Prec_gt_0 p. Proof. unfold Prec_gt_0. lia. Qed.
Lemma u_pos : 0 < u. Proof. apply bpow_gt_0. Qed.

Lemma RN_mono : forall x y, x <= y -> RN x <= RN y.
Proof. intros x y H. apply round_le; [apply FLT_exp_valid; exact p_gt_0 | apply valid_rnd_N | exact H]. Qed.
Lemma RN_format : forall x, generic_format radix2 fexp (RN x).
Proof. intro x. apply generic_format_round; [apply FLT_exp_valid; exact p_gt_0 | apply valid_rnd_N]. Qed.
Lemma RN_exact : forall x, generic_format radix2 fexp x -> RN x = x.
Proof. intros x H. apply round_generic; [apply valid_rnd_N | exact H]. Qed.
Lemma pow_format : forall k, (emin <= k)%Z -> generic_format radix2 fexp (pow k).
Proof. intros k H. apply generic_format_bpow. unfold fexp, FLT_exp. lia. Qed.
Lemma RN_pow : forall k, (emin <= k)%Z -> RN (pow k) = pow k.
Proof. intros k H. apply RN_exact, pow_format, H. Qed.
Lemma RN_half : forall x, generic_format radix2 fexp x -> pow (emin + p) <= x -> RN (x / 2) = x / 2 /\ generic_format radix2 fexp (x / 2).
Proof.
  intros x Fx Hx. assert (G : generic_format radix2 fexp (x / 2)); [|split; [apply RN_exact|]; exact G].
  replace (x / 2) with (x * pow (-1)) by (cbn; lra). apply mult_bpow_exact_FLT; [exact Fx|].
  assert (emin + p < mag radix2 x)%Z; [|lia]. apply mag_gt_bpow. rewrite Rabs_pos_eq; [exact Hx|]. assert (0 < pow (emin + p)) by apply bpow_gt_0. lra.
Qed.

(** Between 2^(e-1) and 2^e numbers are the whole multiples of u. *)
Lemma RN_grid : forall x, pow (e - 1) <= x <= pow e -> RN x = IZR (ZnearestE (x / u)) * u.
Proof.
  intros x [H1 H2]. destruct (Rle_lt_or_eq_dec _ _ H2) as [L|E].
  - unfold rounded, round, F2R, scaled_mantissa, cexp. cbn [Fnum Fexp].
    assert (M : mag radix2 x = e :> Z) by (apply mag_unique_pos; split; assumption).
    rewrite M. assert (FE : FLT_exp emin p e = (e - p)%Z) by (unfold FLT_exp; lia). rewrite FE.
    f_equal. f_equal. f_equal. rewrite bpow_opp. reflexivity.
  - rewrite E. assert (Z1 : pow e / u = IZR (2 ^ p)).
    { unfold Rdiv. rewrite <- bpow_opp, <- bpow_plus. replace (e + - (e - p))%Z with p by lia. rewrite <- (IZR_Zpower radix2 p) by lia. reflexivity. }
    rewrite Z1. rewrite (Znearest_imp _ (IZR (2 ^ p)) (2 ^ p)).
    + rewrite RN_pow by lia. rewrite <- Z1. field. apply Rgt_not_eq, u_pos.
    + rewrite Rminus_diag_eq by reflexivity. rewrite Rabs_R0. lra.
Qed.
Lemma grid_near : forall x, Rabs (x - IZR (ZnearestE x)) <= / 2.
Proof. intro x. apply Znearest_half. Qed.
Lemma grid_inside : forall n δ, Rabs δ < / 2 -> ZnearestE (IZR n + δ) = n.
Proof. intros n δ H. apply Znearest_imp. replace (IZR n + δ - IZR n) with δ by ring. exact H. Qed.

(** Adding a step to a number of at most half u moves it by at least half the step. *)
Lemma RN_add : forall b s, 0 <= b <= u / 2 -> pow (e - p + 1 - p) <= s <= u / 2 -> b + s / 2 <= RN (b + s) <= u.
Proof.
  intros b s [B1 B2] [S1 S2]. split.
  - assert (V := error_le_half_ulp radix2 fexp (fun x => negb (Z.even x)) (b + s)). fold (RN (b + s)) in V.
    assert (U := ulp_FLT_le radix2 emin p (b + s)). assert (P0 : 0 < pow (e - p + 1 - p)) by apply bpow_gt_0.
    rewrite Rabs_pos_eq in U by lra.
    assert (L : pow (emin + p - 1) <= b + s) by (apply Rle_trans with (pow (e - p + 1 - p)); [apply bpow_le; lia | lra]).
    specialize (U L).
    assert (M : (b + s) * pow (1 - p) <= s).
    { apply Rle_trans with (u * pow (1 - p)); [apply Rmult_le_compat_r; [apply bpow_ge_0 | lra]|].
      rewrite <- bpow_plus. replace (e - p + (1 - p))%Z with (e - p + 1 - p)%Z by lia. exact S1. }
    apply Rabs_le_inv in V. fold fexp in U. change (round radix2 fexp ZnearestE (b + s)) with (RN (b + s)) in V. lra.
  - rewrite <- (RN_pow (e - p)) by lia. apply RN_mono. lra.
Qed.

Variable c : R.
Notation ar := (float_arith emin p c).
(** A number and a whole multiple. *)
Lemma grid_up : forall G b, pow (e - 1) <= IZR G * u -> IZR (G + 1) * u <= pow e -> 0 <= b <= u ->
  RN (IZR G * u + b) = IZR G * u /\ b <= u / 2 \/ RN (IZR G * u + b) = IZR (G + 1) * u /\ u / 2 <= b.
Proof.
  intros G b H1 H2 [B1 B2]. assert (U := u_pos). rewrite plus_IZR in H2.
  rewrite RN_grid by nra. set (N := ZnearestE _). assert (V := grid_near ((IZR G * u + b) / u)). fold N in V.
  replace ((IZR G * u + b) / u) with (IZR G + b / u) in V by (field; lra).
  assert (Q : 0 <= b / u <= 1) by (split; [apply Rle_mult_inv_pos; lra | apply Rmult_le_reg_r with u; [exact U|]; unfold Rdiv; rewrite Rmult_assoc, Rinv_l by lra; lra]).
  apply Rabs_le_inv in V.
  assert (N1 : (G <= N)%Z) by (apply Zlt_succ_le, lt_IZR; rewrite succ_IZR; lra).
  assert (N2 : (N <= G + 1)%Z) by (apply Zlt_succ_le, lt_IZR; rewrite succ_IZR, plus_IZR; lra).
  assert (E : b = b / u * u) by (field; lra).
  destruct (Z.eq_dec N G) as [->|N3]; [left; split; [reflexivity|]; nra|].
  assert (N = (G + 1)%Z) by lia. subst N. rewrite H. right. split; [reflexivity|]. rewrite H, plus_IZR in V. nra.
Qed.
(** The loop that looks for a larger step ends at the next number. *)
Lemma bump_next : forall n fuel G s b, (n <= fuel)%nat -> pow (e - 1) <= IZR G * u -> IZR (G + 1) * u <= pow e ->
  pow (e - p + 1 - p) <= s <= u / 2 -> 0 <= b <= u / 2 -> u / 2 - b < INR n * (s / 2) ->
  bump ar fuel (IZR G * u : F ar) (s : F ar) (b : F ar) (IZR G * u : F ar) = Some (IZR (G + 1) * u : F ar).
Proof.
  induction n as [|n IH]; intros fuel G s b Hf H1 H2 Hs Hb Hn; [cbn in Hn; lra|]. destruct fuel as [|fuel]; [lia|].
  cbn [bump]. cbn [feqb float_arith]. rewrite (proj2 (Reqb_true _ _) eq_refl). cbn [add float_arith].
  destruct (RN_add b s Hb Hs) as [A1 A2]. set (b' := RN (b + s)) in *. assert (Hs0 : 0 < pow (e - p + 1 - p)) by apply bpow_gt_0.
  rewrite S_INR in Hn.
  destruct (grid_up G b' H1 H2 ltac:(lra)) as [[E L]|[E L]]; rewrite E.
  - apply IH; [lia | exact H1 | exact H2 | exact Hs | lra | lra].
  - destruct fuel; cbn [bump]; cbn [feqb float_arith]; replace (Reqb (IZR G * u) (IZR (G + 1) * u)) with false; try reflexivity;
      symmetry; apply Reqb_false; rewrite plus_IZR; assert (U := u_pos); nra.
Qed.

Context {X : Type}.
Variable fuel : nat.
Hypothesis fuel_large : (5 <= fuel)%nat.
Notation at_ G := (IZR G * u : F ar).
Notation inp G r := (mk_sinput ar (X := X) (at_ G) r).
Lemma fuel_enough : forall s, u / 4 <= s -> u / 2 - 0 < INR 5 * (s / 2).
Proof. intros s Hs. assert (U := u_pos). cbn [INR]. lra. Qed.
Lemma quarter : pow (e - p + 1 - p) <= u / 4.
Proof.
  replace (e - p)%Z with (e - p - 2 + 1 + 1)%Z at 2 by lia. rewrite !bpow_plus_1. assert (pow (e - p + 1 - p) <= pow (e - p - 2)) by (apply bpow_le; lia). cbn [radix_val radix2]. lra.
Qed.
(** A step up of at most half u goes to the next number. *)
Lemma flip_small : forall G s r, pow (e - 1) <= IZR G * u -> IZR (G + 1) * u <= pow e -> u / 4 <= s <= u / 2 ->
  snd (step_func ar fuel (inp G r) SIGN_FLIP (s : F ar)) = Ok (inp (G + 1)%Z r).
Proof.
  intros G s r H1 H2 Hs. assert (U := u_pos). assert (Hs0 : 0 < pow (e - p + 1 - p)) by apply bpow_gt_0.
  cbn [step_func s_γ s_rest]. cbn [feqb add zero float_arith].
  destruct (grid_up G s H1 H2 ltac:(lra)) as [[E L]|[E L]]; rewrite E.
  - rewrite (proj2 (Reqb_true _ _) eq_refl).
    rewrite (bump_next 5 fuel G s 0 fuel_large H1 H2 ltac:(assert (Q := quarter); lra) ltac:(lra) (fuel_enough s (proj1 Hs))). reflexivity.
  - rewrite (proj2 (Reqb_false _ _)); [reflexivity|]. rewrite plus_IZR. nra.
Qed.
Lemma near_div : forall G s, (IZR G * u + s) / u = IZR G + s / u.
Proof. intros G s. assert (U := u_pos). field. lra. Qed.
(** A larger step up is the exact one up to half u. *)
Lemma flip_large : forall G s r, pow (e - 1) <= IZR G * u -> IZR (G + 1) * u <= pow e -> u / 2 <= s -> IZR G * u + s <= pow e ->
  exists G', snd (step_func ar fuel (inp G r) SIGN_FLIP (s : F ar)) = Ok (inp G' r) /\ Rabs (IZR G' - (IZR G + s / u)) <= / 2.
Proof.
  intros G s r H1 H2 Hs H3. assert (U := u_pos).
  assert (R := RN_grid (IZR G * u + s) ltac:(lra)). set (N := ZnearestE _) in R. assert (V := grid_near ((IZR G * u + s) / u)). fold N in V. rewrite near_div in V.
  destruct (Z.eq_dec N G) as [E|NE].
  - assert (Hh : s = u / 2).
    { rewrite E in V. apply Rabs_le_inv in V. assert (s / u <= / 2) by lra. assert (s = s / u * u) by (field; lra). nra. }
    exists (G + 1)%Z. split; [apply flip_small; [exact H1 | exact H2 | lra]|].
    rewrite plus_IZR, Hh. replace (u / 2 / u) with (/ 2) by (field; lra). replace (IZR G + 1 - (IZR G + / 2)) with (/ 2) by lra. rewrite Rabs_pos_eq; lra.
  - exists N. split; [|rewrite Rabs_minus_sym; exact V]. cbn [step_func s_γ s_rest]. cbn [feqb add float_arith]. rewrite R. rewrite (proj2 (Reqb_false _ _)); [reflexivity|].
    intro E. apply NE. apply eq_IZR. nra.
Qed.
(** A step down of less than half u ends the search; a larger one is the exact one up to half u. *)
Lemma div_large : forall G s r, pow (e - 1) <= IZR G * u - s -> IZR G * u <= pow e -> u / 2 <= s ->
  (snd (step_func ar fuel (inp G r) DIVERGE (s : F ar)) = Raise Lib_Py.StepperStop /\ s = u / 2) \/
  exists G', snd (step_func ar fuel (inp G r) DIVERGE (s : F ar)) = Ok (inp G' r) /\ Rabs (IZR G' - (IZR G - s / u)) <= / 2.
Proof.
  intros G s r H1 H2 Hs. assert (U := u_pos).
  assert (R := RN_grid (IZR G * u - s) ltac:(lra)). set (N := ZnearestE _) in R. assert (V := grid_near ((IZR G * u - s) / u)). fold N in V.
  replace ((IZR G * u - s) / u) with (IZR G - s / u) in V by (field; lra).
  cbn [step_func s_γ s_rest]. cbn [feqb sub float_arith]. rewrite R. destruct (Z.eq_dec N G) as [E|NE].
  - left. rewrite E. rewrite (proj2 (Reqb_true _ _) eq_refl). split; [reflexivity|].
    rewrite E in V. apply Rabs_le_inv in V. assert (s / u <= / 2) by lra. assert (s = s / u * u) by (field; lra). nra.
  - right. exists N. split; [|rewrite Rabs_minus_sym; exact V]. rewrite (proj2 (Reqb_false _ _)); [reflexivity|].
    intro E. apply NE. apply eq_IZR. nra.
Qed.
Lemma div_small : forall G s r, pow (e - 1) <= IZR G * u - s -> IZR G * u <= pow e -> 0 < s < u / 2 ->
  snd (step_func ar fuel (inp G r) DIVERGE (s : F ar)) = Raise Lib_Py.StepperStop.
Proof.
  intros G s r H1 H2 Hs. assert (U := u_pos). cbn [step_func s_γ s_rest]. cbn [feqb sub float_arith].
  rewrite RN_grid by lra. replace ((IZR G * u - s) / u) with (IZR G + - (s / u)) by (field; lra). rewrite grid_inside.
  - rewrite (proj2 (Reqb_true _ _) eq_refl). reflexivity.
  - assert (s = s / u * u) by (field; lra). assert (0 < s / u < / 2) by (split; nra). rewrite Rabs_Ropp, Rabs_pos_eq; lra.
Qed.
End Rounding.

(** ** Steps too small to change a quarter of u *)
Lemma stuck : forall emin p e, (3 <= p)%Z -> (emin + 4 * p + 1 <= e)%Z ->
  forall b s, 0 <= b <= bpow radix2 (e - p) / 4 -> 0 <= s < bpow radix2 (e - 2 * p - 2) -> 0 <= rounded emin p (b + s) <= bpow radix2 (e - p) / 4.
Proof.
  intros emin p e Hp He b s [B1 B2] [S1 S2]. set (u := bpow radix2 (e - p)) in *.
  assert (P1 : bpow radix2 (e - p - 2) = u / 4).
  { unfold u. replace (e - p)%Z with (e - p - 2 + 1 + 1)%Z at 2 by lia. rewrite !bpow_plus_1. cbn [radix_val radix2]. lra. }
  split.
  - rewrite <- (RN_exact emin p 0) at 1 by apply generic_format_0. apply RN_mono; [lia | lra].
  - apply Rle_trans with (rounded emin p (u / 4 + s)); [apply RN_mono; [lia | lra]|]. apply Req_le.
    assert (P2 : bpow radix2 (e - 2 * p - 2) <= u / 4) by (rewrite <- P1; apply bpow_le; lia).
    assert (P3 : bpow radix2 (e - p - 1) = u / 4 * 2) by (replace (e - p - 1)%Z with (e - p - 2 + 1)%Z by lia; rewrite bpow_plus_1, P1; cbn [radix_val radix2]; lra).
    rewrite (RN_grid emin p (e - p - 1)) by (lia || (replace (e - p - 1 - 1)%Z with (e - p - 2)%Z by lia; lra)).
    set (v := bpow radix2 (e - p - 1 - p)). assert (V0 : 0 < v) by apply bpow_gt_0.
    assert (V1 : bpow radix2 (e - 2 * p - 2) = v / 2).
    { unfold v. replace (e - p - 1 - p)%Z with (e - 2 * p - 2 + 1)%Z by lia. rewrite bpow_plus_1. cbn [radix_val radix2]. lra. }
    assert (V2 : u / 4 = IZR (2 ^ (p - 1)) * v).
    { rewrite <- P1. change 2%Z with (radix_val radix2) at 2. rewrite IZR_Zpower by lia. unfold v. rewrite <- bpow_plus. f_equal. lia. }
    rewrite V2. replace ((IZR (2 ^ (p - 1)) * v + s) / v) with (IZR (2 ^ (p - 1)) + s / v) by (field; lra). rewrite grid_inside; [reflexivity|].
    rewrite Rabs_pos_eq by (apply Rle_mult_inv_pos; lra). apply (Rmult_lt_reg_r v); [exact V0|]. unfold Rdiv. rewrite Rmult_assoc, Rinv_l by lra. lra.
Qed.
Lemma bump_endless : forall emin p e c, (3 <= p)%Z -> (emin + 4 * p + 1 <= e)%Z -> forall fuel G s b,
  bpow radix2 (e - 1) <= IZR G * bpow radix2 (e - p) -> IZR (G + 1) * bpow radix2 (e - p) <= bpow radix2 e ->
  0 <= s < bpow radix2 (e - 2 * p - 2) -> 0 <= b <= bpow radix2 (e - p) / 4 ->
  let ar := float_arith emin p c in bump ar fuel (IZR G * bpow radix2 (e - p) : F ar) (s : F ar) (b : F ar) (IZR G * bpow radix2 (e - p) : F ar) = None.
Proof.
  intros emin p e c Hp He. induction fuel as [|fuel IH]; intros G s b H1 H2 Hs Hb; cbn zeta; cbn [bump]; cbn [feqb float_arith]; rewrite (proj2 (Reqb_true _ _) eq_refl); [reflexivity|]. cbn [add float_arith].
  assert (B := stuck emin p e Hp He b s Hb Hs). assert (U : 0 < bpow radix2 (e - p)) by apply bpow_gt_0.
  destruct (grid_up emin p e Hp ltac:(lia) G (rounded emin p (b + s)) H1 H2 ltac:(lra)) as [[E L]|[E L]]; [|lra]. rewrite E. apply IH; assumption.
Qed.
Lemma step_endless : forall emin p e c, (3 <= p)%Z -> (emin + 4 * p + 1 <= e)%Z -> forall {X} fuel G s (r : X),
  bpow radix2 (e - 1) <= IZR G * bpow radix2 (e - p) -> IZR (G + 1) * bpow radix2 (e - p) <= bpow radix2 e -> 0 <= s < bpow radix2 (e - 2 * p - 2) ->
  let ar := float_arith emin p c in
  snd (step_func ar fuel (mk_sinput ar (IZR G * bpow radix2 (e - p) : F ar) r) SIGN_FLIP (s : F ar)) = Raise Lib_Py.NonTermination.
Proof.
  intros emin p e c Hp He X fuel G s r H1 H2 Hs ar. assert (U : 0 < bpow radix2 (e - p)) by apply bpow_gt_0.
  assert (P2 : bpow radix2 (e - 2 * p - 2) <= bpow radix2 (e - p - 2)) by (apply bpow_le; lia).
  assert (P1 : bpow radix2 (e - p - 2) = bpow radix2 (e - p) / 4).
  { replace (e - p)%Z with (e - p - 2 + 1 + 1)%Z at 2 by lia. rewrite !bpow_plus_1. cbn [radix_val radix2]. lra. }
  cbn [step_func s_γ s_rest]. unfold ar. cbn [feqb add zero float_arith].
  destruct (grid_up emin p e Hp ltac:(lia) G s H1 H2 ltac:(lra)) as [[E L]|[E L]]; [|lra]. rewrite E, (proj2 (Reqb_true _ _) eq_refl).
  rewrite (bump_endless emin p e c Hp He fuel G s 0 H1 H2 Hs ltac:(lra)). reflexivity.
Qed.
