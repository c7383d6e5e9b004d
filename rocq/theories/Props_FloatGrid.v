(** C138: in floating-point arithmetic the grid of angles is as accurate as the format and strictly increasing. *)
From Coq Require Import ZArith Reals Lra Lia Psatz List Bool.
From Flocq Require Import Core Relative.
From Verif Require Import Model_Array Model_Midplane Model_Float Model_FloatRhs Model_FloatGrid Spec_Float Spec_FloatGrid Props_Float.
Import ListNotations.
Local Open Scope R_scope.

Section Grid.
Variables emin p : Z.
Variables (start stop : R) (num : nat).
Hypothesis Fits : grid_fits emin p start stop num.
Notation RN := (rounded emin p).
Notation pow := (bpow radix2).
Let q := pow (- p).
Let A := widest start stop.
Let η := pow (emin - 1).
Let h := (stop - start) / INR (num - 1).
Let c := PI / 180.

Instance grid_prec : Prec_gt_0 p. Proof. unfold Prec_gt_0. destruct Fits as ((H & _) & _). lia. Qed.
Lemma q_bound : 0 < q <= / 2048.
Proof. split; [apply bpow_gt_0|]. replace (/ 2048) with (pow (-11)) by reflexivity. apply bpow_le. destruct Fits as ((H & _) & _). lia. Qed.
Lemma A_pos : 0 < A.
Proof. destruct Fits as (_ & _ & _ & H & _). pose proof (bpow_gt_0 radix2 (emin + 2 * p + 8)). unfold A. lra. Qed.
Lemma η_bound : 0 < η <= q * A / 1048576.
Proof.
  split; [apply bpow_gt_0|]. destruct Fits as (_ & _ & _ & H & _). fold A in H. pose proof q_bound as (Pq & Lq).
  assert (E : η = pow (emin + 2 * p + 8) * (q * q * / 512)).
  { unfold η, q. replace (/ 512) with (pow (-9)) by reflexivity. rewrite <- !bpow_plus. f_equal. lia. }
  rewrite E. pose proof A_pos. assert (0 < q * q * / 512) by (apply Rmult_lt_0_compat; [apply Rmult_lt_0_compat|]; lra).
  apply Rle_trans with (A * (q * q * / 512)); [apply Rmult_le_compat_r; lra|].
  assert (q * (q * A) <= / 2048 * (q * A)) by (apply Rmult_le_compat_r; [apply Rmult_le_pos|]; lra). lra.
Qed.
Lemma normal_bound : pow (emin + p - 1) <= q * A.
Proof.
  destruct Fits as (_ & _ & _ & H & _). fold A in H. pose proof q_bound as (Pq & Lq).
  assert (E : pow (emin + p - 1) = pow (emin + 2 * p + 8) * (q * / 512)).
  { unfold q. replace (/ 512) with (pow (-9)) by reflexivity. rewrite <- !bpow_plus. f_equal. lia. }
  rewrite E. pose proof A_pos. assert (0 < q * / 512) by lra. apply Rle_trans with (A * (q * / 512)); [apply Rmult_le_compat_r; lra|].
  assert (0 < q * A) by (apply Rmult_lt_0_compat; assumption). lra.
Qed.
Lemma half_ulp : / 2 * pow (- p + 1) = q.
Proof. rewrite bpow_plus. unfold q. replace (pow 1) with 2 by reflexivity. field. Qed.
Lemma rn_rel : forall x, pow (emin + p - 1) <= Rabs x -> Rabs (RN x - x) <= q * Rabs x.
Proof. intros x H. rewrite <- half_ulp. apply relative_error_N_FLT; [exact grid_prec|exact H]. Qed.
Lemma rn_err : forall x, Rabs (RN x - x) <= q * Rabs x + η.
Proof.
  intros x. destruct (error_N_FLT radix2 emin p grid_prec (fun n => negb (Z.even n)) x) as (e1 & e2 & H1 & H2 & _ & E).
  unfold rounded. rewrite E. replace (x * (1 + e1) + e2 - x) with (x * e1 + e2) by ring. eapply Rle_trans; [apply Rabs_triang|]. rewrite Rabs_mult, Rmult_comm.
  rewrite half_ulp in H1. replace (/ 2 * pow emin) with η in H2 by (unfold η; replace (emin - 1)%Z with (emin + -1)%Z by lia; rewrite bpow_plus; replace (pow (-1)) with (/ 2) by reflexivity; ring).
  apply Rplus_le_compat; [apply Rmult_le_compat_r; [apply Rabs_pos|exact H1]|exact H2].
Qed.
Lemma n_pos : 1 <= INR (num - 1).
Proof. destruct Fits as (_ & H & _). change 1 with (INR 1). apply le_INR. lia. Qed.
Lemma h_bound : 32 * (q * A) <= h /\ INR (num - 1) * h = stop - start.
Proof.
  destruct Fits as (_ & _ & _ & _ & H). fold h in H. fold A in H. fold q in H. split; [lra|]. unfold h. pose proof n_pos. field. lra.
Qed.
Lemma ends_bound : Rabs start <= A /\ Rabs stop <= A.
Proof. unfold A, widest. split; [apply Rmax_l|apply Rmax_r]. Qed.
Lemma c_bound : / 64 <= c <= 1 / 45.
Proof. unfold c. pose proof PI_4. pose proof PI2_3_2. lra. Qed.

Lemma rel_mult : forall x y e f, 0 <= x -> 0 <= e <= / 100 -> 0 <= f <= / 100 -> x * (1 - e) <= y <= x * (1 + e) -> forall z, y * (1 - f) <= z <= y * (1 + f) ->
  x * ((1 - e) * (1 - f)) <= z <= x * ((1 + e) * (1 + f)).
Proof. intros x y e f Hx He Hf (H1 & H2) z (H3 & H4). split; nra. Qed.

(** The step, and a multiple of it. *)
Lemma step_bound : let step := RN (RN (stop - start) / INR (num - 1)) in h * (1 - q) ^ 2 <= step <= h * (1 + q) ^ 2.
Proof.
  pose proof q_bound as (Pq & Lq). pose proof A_pos as PA. pose proof n_pos as Pn. pose proof h_bound as (H1 & H2). pose proof normal_bound as Nb.
  assert (PQ : 0 < q * A) by (apply Rmult_lt_0_compat; assumption). assert (Ph : 0 < h) by lra.
  set (D := stop - start) in *. assert (LD : h <= D) by nra.
  pose proof (rn_rel D ltac:(rewrite Rabs_pos_eq; lra)) as E1. rewrite (Rabs_pos_eq D) in E1 by lra. apply Rabs_le_inv in E1. set (δ := RN D) in *.
  assert (B1 : D * (1 - q) <= δ <= D * (1 + q)) by lra.
  set (r := δ / INR (num - 1)). assert (Er : δ = r * INR (num - 1)) by (unfold r; field; lra).
  assert (B2 : h * (1 - q) <= r <= h * (1 + q)).
  { split; apply (Rmult_le_reg_r (INR (num - 1))); try lra; rewrite <- Er; nra. }
  assert (Pr : q * A <= r) by nra.
  pose proof (rn_rel r ltac:(rewrite Rabs_pos_eq; lra)) as E2. rewrite (Rabs_pos_eq r) in E2 by lra. apply Rabs_le_inv in E2. cbv zeta. fold r. set (s := RN r) in *. nra.
Qed.
Lemma multiple_bound : forall i, (i <= num - 1)%nat -> let step := RN (RN (stop - start) / INR (num - 1)) in
  Rabs (RN (INR i * step) - INR i * h) <= 602 / 100 * (q * A) /\ RN (INR i * step) <= INR i * h * (1 + q) ^ 3 /\ 0 <= RN (INR i * step).
Proof.
  intros i Hi step. pose proof q_bound as (Pq & Lq). pose proof A_pos as PA. pose proof h_bound as (H1 & H2). pose proof normal_bound as Nb.
  assert (PQ : 0 < q * A) by (apply Rmult_lt_0_compat; assumption). assert (Ph : 0 < h) by lra. pose proof step_bound as St. cbv zeta in St. fold step in St.
  assert (Q2 : 0 < (1 - q) ^ 2) by nra.
  destruct i as [|i].
  - cbn [INR]. rewrite !Rmult_0_l, Rminus_0_r. assert (Z : RN 0 = 0) by (apply round_0; apply valid_rnd_N). rewrite Z, Rabs_R0. lra.
  - set (k := S i) in *. assert (Pk : 1 <= INR k) by (change 1 with (INR 1); apply le_INR; unfold k; lia).
    assert (Lk : INR k <= INR (num - 1)) by (apply le_INR; exact Hi).
    set (x := INR k * h). assert (Lx : x <= stop - start) by (unfold x; rewrite <- H2; apply Rmult_le_compat_r; lra). assert (Px : h <= x) by (unfold x; nra).
    assert (D2 : stop - start <= 2 * A) by (pose proof ends_bound as (U1 & U2); apply Rabs_le_inv in U1; apply Rabs_le_inv in U2; lra).
    assert (B1 : x * (1 - q) ^ 2 <= INR k * step <= x * (1 + q) ^ 2) by (unfold x; split; nra).
    set (y := INR k * step) in *. assert (Py : q * A <= y) by nra.
    pose proof (rn_rel y ltac:(rewrite Rabs_pos_eq; lra)) as E. rewrite (Rabs_pos_eq y) in E by lra. apply Rabs_le_inv in E. set (z := RN y) in *.
    assert (B2 : x * (1 - q) ^ 3 <= z <= x * (1 + q) ^ 3) by (cbn [pow] in *; split; nra).
    split; [|split; [apply B2|assert (0 < (1 - q) ^ 3) by (apply pow_lt; lra); nra]].
    assert (Q3 : (1 + q) ^ 3 <= 1 + 301 / 100 * q) by nra. assert (Q4 : 1 - 301 / 100 * q <= (1 - q) ^ 3) by nra.
    apply Rabs_le. split; nra.
Qed.

(** The grid in degrees, and in radians. *)
Let exact (i : nat) : R := start + INR i * h.
Lemma exact_bound : forall i, (i <= num - 1)%nat -> Rabs (exact i) <= A.
Proof.
  intros i Hi. unfold exact. pose proof ends_bound as (U1 & U2). apply Rabs_le_inv in U1. apply Rabs_le_inv in U2. pose proof h_bound as (H1 & H2).
  pose proof q_bound as (Pq & _). pose proof A_pos as PA. assert (PQ : 0 < q * A) by (apply Rmult_lt_0_compat; assumption).
  assert (Lk : INR i <= INR (num - 1)) by (apply le_INR; exact Hi). pose proof (pos_INR i). apply Rabs_le. split; nra.
Qed.
Lemma degrees_error : forall i, (i <= num - 1)%nat -> Rabs (nth i (f_linspace emin p start stop num) 0 - exact i) <= 704 / 100 * (q * A).
Proof.
  intros i Hi. pose proof q_bound as (Pq & Lq). pose proof A_pos as PA. assert (PQ : 0 < q * A) by (apply Rmult_lt_0_compat; assumption).
  destruct Fits as (_ & Hn & _). unfold f_linspace. cbv zeta.
  match goal with |- context [map ?f _] => set (F := f); rewrite (nth_indep _ 0 (F 0%nat)) by (rewrite map_length, seq_length; lia); rewrite map_nth, seq_nth by lia; unfold F; clear F end.
  cbn [plus]. destruct (Nat.eqb_spec i (num - 1)) as [E|E].
  - assert (L : (1 <? num)%nat = true) by (apply Nat.ltb_lt; lia). rewrite L. cbn [andb]. unfold exact. rewrite E.
    pose proof h_bound as (_ & H2). rewrite H2. replace (stop - (start + (stop - start))) with 0 by ring. rewrite Rabs_R0. lra.
  - cbn [andb]. assert (N0 : (num - 1 =? 0)%nat = false) by (apply Nat.eqb_neq; lia). rewrite N0.
    unfold f_div, f_sub, f_mul, f_add. pose proof step_bound as St. cbv zeta in St. pose proof h_bound as (H1 & H2).
    assert (Sn : Reqb (RN (RN (stop - start) / INR (num - 1))) 0 = false).
    { unfold Reqb. destruct (Req_EM_T _ _) as [Z|Z]; [exfalso|reflexivity]. rewrite Z in St. assert (0 < (1 - q) ^ 2) by nra. nra. }
    rewrite Sn. destruct (multiple_bound i Hi) as (M & _). cbv zeta in M. set (g := RN (INR i * _)) in *.
    pose proof (exact_bound i Hi) as X. pose proof (rn_err (g + start)) as R. pose proof η_bound as (_ & Bη).
    assert (G : Rabs (g + start - exact i) <= 602 / 100 * (q * A)) by (unfold exact; replace (g + start - (start + INR i * h)) with (g - INR i * h) by ring; exact M).
    assert (G2 : Rabs (g + start) <= A + 602 / 100 * (q * A)) by (replace (g + start) with ((g + start - exact i) + exact i) by ring; eapply Rle_trans; [apply Rabs_triang|]; lra).
    assert (G3 : q * Rabs (g + start) <= 101 / 100 * (q * A)) by (pose proof (Rabs_pos (g + start)); nra).
    replace (RN (g + start) - exact i) with ((RN (g + start) - (g + start)) + (g + start - exact i)) by ring. eapply Rle_trans; [apply Rabs_triang|]. lra.
Qed.
Lemma one_normal : pow (emin + p - 1) <= / 1024.
Proof. replace (/ 1024) with (pow (-10)) by reflexivity. apply bpow_le. destruct Fits as ((H1 & H2) & _). lia. Qed.
Lemma constant_error : Rabs (RN (RN PI / 180) - c) <= 201 / 100 * (q * c).
Proof.
  pose proof q_bound as (Pq & Lq). pose proof one_normal as N1. pose proof PI_4. pose proof PI2_3_2. assert (PP : 3 <= PI <= 4) by lra.
  pose proof (rn_rel PI ltac:(rewrite Rabs_pos_eq; lra)) as E1. rewrite (Rabs_pos_eq PI) in E1 by lra. apply Rabs_le_inv in E1. set (π := RN PI) in *.
  assert (P1 : 299 / 100 <= π) by nra.
  pose proof (rn_rel (π / 180) ltac:(rewrite Rabs_pos_eq; lra)) as E2. rewrite (Rabs_pos_eq (π / 180)) in E2 by lra. apply Rabs_le_inv in E2. set (k := RN (π / 180)) in *.
  unfold c. apply Rabs_le. split; nra.
Qed.
Lemma angle_error : forall i, (i <= num - 1)%nat -> Rabs (nth i (f_angles emin p start stop num) 0 - radians (exact i)) <= 12 * q * radians A.
Proof.
  intros i Hi. pose proof q_bound as (Pq & Lq). pose proof A_pos as PA. assert (PQ : 0 < q * A) by (apply Rmult_lt_0_compat; assumption). pose proof c_bound as (C1 & C2).
  unfold f_angles. rewrite (nth_indep _ 0 (f_radians emin p 0)) by (unfold f_linspace; rewrite !map_length, seq_length; destruct Fits as (_ & Hn & _); lia).
  rewrite map_nth. pose proof (degrees_error i Hi) as D. set (y := nth i (f_linspace emin p start stop num) 0) in *. pose proof (exact_bound i Hi) as X. set (x := exact i) in *.
  unfold f_radians, f_mul, f_div. pose proof constant_error as K. set (k := RN (RN PI / 180)) in *. pose proof (rn_err (y * k)) as R. pose proof η_bound as (_ & Bη).
  assert (Ec : radians x = x * c) by (unfold radians, c; field). rewrite Ec. assert (EA : radians A = A * c) by (unfold radians, c; field). rewrite EA.
  assert (Y : Rabs y <= 101 / 100 * A) by (replace y with ((y - x) + x) by ring; eapply Rle_trans; [apply Rabs_triang|]; nra).
  assert (Kb : Rabs k <= 1001 / 1000 * c) by (replace k with ((k - c) + c) by ring; eapply Rle_trans; [apply Rabs_triang|]; rewrite (Rabs_pos_eq c) by lra; nra).
  assert (T1 : Rabs ((y - x) * k) <= 704 / 100 * (q * A) * (1001 / 1000 * c)) by (rewrite Rabs_mult; apply Rmult_le_compat; try apply Rabs_pos; assumption).
  assert (T2 : Rabs (x * (k - c)) <= A * (201 / 100 * (q * c))) by (rewrite Rabs_mult; apply Rmult_le_compat; try apply Rabs_pos; assumption).
  assert (T3 : Rabs (y * k) <= (101 / 100 * A) * (1001 / 1000 * c)) by (rewrite Rabs_mult; apply Rmult_le_compat; try apply Rabs_pos; assumption).
  assert (T4 : q * Rabs (y * k) <= q * ((101 / 100 * A) * (1001 / 1000 * c))) by (apply Rmult_le_compat_l; lra).
  assert (T5 : η <= q * A * c / 1000) by (eapply Rle_trans; [exact Bη|]; nra).
  replace (RN (y * k) - x * c) with ((RN (y * k) - y * k) + ((y - x) * k + x * (k - c))) by ring.
  eapply Rle_trans; [apply Rabs_triang|]. eapply Rle_trans; [apply Rplus_le_compat; [exact R|apply Rabs_triang]|].
  assert (0 < q * A * c) by (apply Rmult_lt_0_compat; lra). nra.
Qed.
End Grid.

(** Every angle is the evenly spaced one, to twelve halves of a unit in the last place of the largest angle. *)
Theorem C138_accuracy : forall emin prec start stop num, grid_fits emin prec start stop num ->
  length (f_angles emin prec start stop num) = num /\
  forall i, (i < num)%nat ->
  Rabs (nth i (f_angles emin prec start stop num) 0 - radians (start + INR i * ((stop - start) / INR (num - 1)))) <= 12 * bpow radix2 (- prec) * radians (widest start stop).
Proof.
  intros emin p start stop num Fi. split; [unfold f_angles, f_linspace; rewrite !map_length, seq_length; reflexivity|].
  intros i Hi. apply (angle_error emin p start stop num Fi i). lia.
Qed.
Print Assumptions C138_accuracy.

(** The angles strictly increase. *)
Theorem C138_increasing : forall emin prec start stop num, grid_fits emin prec start stop num ->
  forall i j, (i < j < num)%nat -> nth i (f_angles emin prec start stop num) 0 < nth j (f_angles emin prec start stop num) 0.
Proof.
  intros emin p start stop num Fi i j Hij. destruct (C138_accuracy emin p start stop num Fi) as (_ & H).
  pose proof (H i ltac:(lia)) as Hi. pose proof (H j ltac:(lia)) as Hj. apply Rabs_le_inv in Hi. apply Rabs_le_inv in Hj.
  destruct Fi as (_ & Hn & _ & HA & Hh). set (q := bpow radix2 (- p)) in *. set (A := widest start stop) in *. set (h := (stop - start) / INR (num - 1)) in *.
  assert (PA : 0 < A) by (pose proof (bpow_gt_0 radix2 (emin + 2 * p + 8)); lra). assert (Pq : 0 < q) by apply bpow_gt_0.
  assert (L : 1 <= INR j - INR i) by (rewrite <- minus_INR by lia; change 1 with (INR 1); apply le_INR; lia).
  assert (PQ : 0 < q * A) by (apply Rmult_lt_0_compat; assumption). assert (Ph : 0 < h) by lra.
  set (c := PI / 180). assert (Pc : 0 < c) by (unfold c; pose proof PI_RGT_0; lra).
  assert (E : forall x, radians x = x * c) by (intros x; unfold radians, c; field). rewrite !E in *.
  assert (D : h * c <= (start + INR j * h) * c - (start + INR i * h) * c) by (rewrite <- Rmult_minus_distr_r; apply Rmult_le_compat_r; [lra|]; nra).
  assert (W : 32 * q * A * c <= h * c) by (apply Rmult_le_compat_r; lra).
  assert (0 < q * A * c) by (apply Rmult_lt_0_compat; lra). nra.
Qed.
Print Assumptions C138_increasing.

(** The grid starts and ends where it was asked to. *)
Theorem C138_ends : forall emin prec start stop num, grid_fits emin prec start stop num -> representable emin prec start ->
  nth 0 (f_angles emin prec start stop num) 0 = f_radians emin prec start /\
  nth (num - 1) (f_angles emin prec start stop num) 0 = f_radians emin prec stop.
Proof.
  intros emin p start stop num Fi Rs. pose proof Fi as ((P1 & _) & Hn & _). unfold f_angles.
  assert (Len : length (f_linspace emin p start stop num) = num) by (unfold f_linspace; rewrite map_length, seq_length; reflexivity).
  split; rewrite (nth_indep _ 0 (f_radians emin p 0)) by (rewrite map_length; lia); rewrite map_nth; f_equal; unfold f_linspace; cbv zeta;
    match goal with |- context [map ?f _] => set (F := f); rewrite (nth_indep _ 0 (F 0%nat)) by (rewrite map_length, seq_length; lia); rewrite map_nth, seq_nth by lia; unfold F; clear F end; cbn [plus].
  - assert (E0 : (0 =? num - 1)%nat = false) by (apply Nat.eqb_neq; lia). rewrite E0. cbn [andb INR].
    assert (N0 : (num - 1 =? 0)%nat = false) by (apply Nat.eqb_neq; lia). rewrite N0. unfold f_add, f_mul, f_div.
    assert (Z : rounded emin p 0 = 0) by (apply round_0; apply valid_rnd_N).
    replace (0 / INR (num - 1)) with 0 by (unfold Rdiv; ring). rewrite Z, !Rmult_0_l, Z. rewrite Tauto.if_same || destruct (Reqb _ _).
    all: rewrite Rplus_0_l; apply round_generic; [apply valid_rnd_N|]; apply representable_format, Rs.
  - rewrite Nat.eqb_refl. assert (L : (1 <? num)%nat = true) by (apply Nat.ltb_lt; lia). rewrite L. reflexivity.
Qed.
Print Assumptions C138_ends.

(** Not empty: double precision, from 0 to 80 degrees in a thousand angles. *)
Example C138_nonvacuous : grid_fits (-1074) 53 0 80 1000 /\ representable (-1074) 53 0.
Proof.
  split; [|exists 0%Z, 0%Z; split; [ring|]; split; [cbn; lia|lia]].
  assert (W : widest 0 80 = 80) by (unfold widest; rewrite Rabs_R0, Rabs_right by lra; apply Rmax_right; lra).
  unfold grid_fits. rewrite W. split; [lia|]. split; [lia|]. split; [lra|]. split.
  - apply Rle_trans with (bpow radix2 0); [apply bpow_le; lia|]. cbn. lra.
  - apply Rle_trans with (32 * bpow radix2 (-20) * 80); [apply Rmult_le_compat_r; [lra|]; apply Rmult_le_compat_l; [lra|]; apply bpow_le; lia|].
    replace (bpow radix2 (-20)) with (/ 1048576) by reflexivity. change (1000 - 1)%nat with 999%nat. replace (INR 999) with 999 by (rewrite INR_IZR_INZ; reflexivity). lra.
Qed.
