(** C126: a curve that follows the system up to a small error stays close to the solution. *)
From Coq Require Import Reals Lra Lia.
From Verif Require Import Model_Index Model_Deriv Model_Ode Lib_Deriv Lib_Gronwall Spec_MHD Spec_Ode Spec_Unique Spec_Error
  Proofs_Ode Proofs_Fields Proofs_Unique Proofs_Error Witness_Ode Props_Unique.
Open Scope R_scope.

(** One constant, given by the parameters of the solver, the interval and the margin, bounds the error of every approximation of
    every solution: what it was at one angle and what its slopes add, both growing at most exponentially. *)
Theorem C126_error_bound : forall o m M a b, 0 < m -> a <= b -> interpolant_continuous o a b ->
  exists K, 0 <= K /\ forall y z ε, 0 <= ε ->
    (forall x, a <= x <= b -> solves_at o y x /\ margin o m M x (y x)) ->
    (forall x, a <= x <= b -> almost_solves_at o z ε x /\ margin o m M x (z x)) ->
    forall s t, a <= s <= b -> a <= t <= b ->
    dist_sq (y t) (z t) <= dist_sq (y s) (z s) * exp (K * Rabs (t - s)) + ε ^ 2 * (exp (K * Rabs (t - s)) - 1).
Proof. intros o m M a b Pm Hab Hi. exact (error_bound o a b m M Hab Pm Hi). Qed.
Print Assumptions C126_error_bound.

(** So a solver whose errors tend to zero (in the slopes, and at the angle where it starts) finds the solution, equally well at
    all angles of the interval. *)
Theorem C126_converges : forall o m M a b y (z : nat -> R -> vec) (ε : nat -> R) s, 0 < m -> a <= s <= b -> interpolant_continuous o a b ->
  (forall x, a <= x <= b -> solves_at o y x /\ margin o m M x (y x)) ->
  (forall n x, a <= x <= b -> 0 <= ε n /\ almost_solves_at o (z n) (ε n) x /\ margin o m M x (z n x)) ->
  Un_cv ε 0 -> (forall i, (i < ODE_LEN)%nat -> Un_cv (fun n => z n s i) (y s i)) ->
  forall δ, 0 < δ -> exists N, forall n, (N <= n)%nat -> forall t i, a <= t <= b -> (i < ODE_LEN)%nat -> Rabs (y t i - z n t i) < δ.
Proof.
  intros o m M a b y z ε s Pm Hs Hi Hy Hz Cε Cs δ Pδ.
  destruct (C126_error_bound o m M a b Pm ltac:(lra) Hi) as (K & PK & HK).
  set (G := exp (K * (b - a))). assert (PG : 0 < G) by apply exp_pos.
  (* the bound at the start of the sequence *)
  assert (Cd : Un_cv (fun n => dist_sq (y s) (z n s)) 0).
  { unfold dist_sq. assert (one : forall i, (i < ODE_LEN)%nat -> Un_cv (fun n => (y s i - z n s i) ^ 2) 0).
    { intros i Hl. assert (C1 : Un_cv (fun n => y s i - z n s i) 0).
      { replace 0 with (y s i - y s i) by ring. apply CV_minus; [|apply Cs, Hl]. intros e He. exists 0%nat. intros n _. unfold R_dist.
        rewrite Rminus_diag_eq by reflexivity. rewrite Rabs_R0. exact He. }
      pose proof (CV_mult _ _ _ _ C1 C1) as C2. rewrite Rmult_0_l in C2. eapply Un_cv_ext; [|exact C2]. intros n. cbv beta. ring. }
    assert (G1 : forall k, (k < ODE_LEN)%nat -> Un_cv (fun n => sum_f_R0 (fun i => (y s i - z n s i) ^ 2) k) 0).
    { induction k as [|k IH]; intros Hk; [exact (one 0%nat Hk)|]. cbn [sum_f_R0].
      replace 0 with (0 + 0) by ring. apply CV_plus; [apply IH; lia|apply one, Hk]. }
    apply G1. unfold ODE_LEN. cbn. lia. }
  pose proof (CV_mult _ _ _ _ Cε Cε) as Ce2. rewrite Rmult_0_l in Ce2.
  assert (Pd : 0 < δ ^ 2 / (2 * G)) by (apply Rdiv_lt_0_compat; [apply sq_pos; lra|lra]).
  destruct (Cd _ Pd) as (N1 & H1). destruct (Ce2 _ Pd) as (N2 & H2). exists (max N1 N2). intros n Hn t i Ht Hl.
  specialize (H1 n ltac:(unfold ge; lia)). specialize (H2 n ltac:(unfold ge; lia)). unfold R_dist in H1, H2. rewrite Rminus_0_r in H1, H2.
  destruct (Hz n s Hs) as (Pe & _).
  pose proof (HK y (z n) (ε n) Pe Hy (fun x Hx => proj2 (Hz n x Hx)) s t Hs Ht) as B.
  pose proof (slot_le (y t) (z n t) i Hl) as L. pose proof (dist_pos (y s) (z n s)) as Q.
  rewrite Rabs_right in H1 by lra. rewrite Rabs_right in H2 by (apply Rle_ge, Rmult_le_pos; exact Pe).
  assert (GE : exp (K * Rabs (t - s)) <= G).
  { unfold G. assert (Le : K * Rabs (t - s) <= K * (b - a)) by (apply Rmult_le_compat_l; [exact PK|apply Rabs_le; lra]).
    destruct Le as [Le| Le]; [apply Rlt_le, exp_increasing, Le|rewrite Le; apply Rle_refl]. }
  pose proof (exp_pos (K * Rabs (t - s))) as PE. set (X := exp (K * Rabs (t - s))) in *.
  assert (S1 : dist_sq (y s) (z n s) * X <= dist_sq (y s) (z n s) * G) by (apply Rmult_le_compat_l; assumption).
  assert (S2 : ε n * ε n * X <= ε n * ε n * G) by (apply Rmult_le_compat_l; [apply Rmult_le_pos; exact Pe|assumption]).
  assert (S3 : dist_sq (y s) (z n s) * G < δ ^ 2 / 2) by (apply (Rmult_lt_compat_r G) in H1; [|exact PG]; replace (δ ^ 2 / (2 * G) * G) with (δ ^ 2 / 2) in H1 by (field; lra); exact H1).
  assert (S4 : ε n * ε n * G < δ ^ 2 / 2) by (apply (Rmult_lt_compat_r G) in H2; [|exact PG]; replace (δ ^ 2 / (2 * G) * G) with (δ ^ 2 / 2) in H2 by (field; lra); exact H2).
  assert (F : (y t i - z n t i) ^ 2 < δ ^ 2).
  { eapply Rle_lt_trans; [exact L|]. eapply Rle_lt_trans; [exact B|].
    assert (0 <= ε n * ε n) by (apply Rmult_le_pos; exact Pe). replace (ε n ^ 2 * (X - 1)) with (ε n * ε n * X - ε n * ε n) by ring. lra. }
  rewrite <- !Rsqr_pow2 in F. apply Rsqr_lt_abs_0 in F. rewrite (Rabs_right δ) in F by lra. exact F.
Qed.
Print Assumptions C126_converges.

(** Not empty: the solution of Witness_Ode.v, and curves with a Hall diffusivity that wrongly grows at the rate c. *)
Definition z_err (c t : R) : vec := state 0 0 (1 / cos t) 0 0 (1 / 2) (1 / cos t) 0 1 0 (c * t).

Lemma z_err_solves : forall c x, 0 <= c -> 0 < cos x -> almost_solves_at (o_int false) (z_err c) c x.
Proof.
  intros c x Pc Hc. assert (Hi : 0 < 1 / cos x) by (apply Rdiv_lt_0_compat; lra).
  destruct (rhs_accept (o_int false) x (z_err c x)) as [e He]; [reflexivity | simpl; lra | simpl; lra |].
  exists (fst (rhs_derivs (o_int false) x (z_err c x))), e, (fun i => if Nat.eqb i iη_H then c else fst (rhs_derivs (o_int false) x (z_err c x)) i).
  split; [exact He|]. clear He.
  set (d := fst (rhs_derivs (o_int false) x (z_err c x))).
  assert (Hd1 : d iB_φ = 0) by reflexivity.
  assert (Hd0 : d iB_r = 0).
  { unfold d. rewrite rhs_B_r. fold d. rewrite Hd1. unfold deriv_B_r_func. simpl. unfold Rdiv. ring. }
  assert (Hd2 : d iB_θ = 1 / cos x * tan x).
  { unfold d. rewrite rhs_B_θ. simpl. ring. }
  assert (Hd5 : d iv_θ = 0) by reflexivity.
  assert (Hk : sqrt (9 / 4) = 3 / 2).
  { replace (9 / 4) with (3 / 2 * (3 / 2)) by field. apply sqrt_square; lra. }
  assert (Hd3 : d iv_r = 0).
  { unfold d. rewrite rhs_v_r by reflexivity. fold d. rewrite Hd0. unfold deriv_v_r_normal_expr. simpl. rewrite Hk. field. lra. }
  assert (Hd4 : d iv_φ = 0).
  { unfold d. rewrite rhs_v_φ by reflexivity. fold d. rewrite Hd1. unfold deriv_v_φ_normal_expr. simpl. field. lra. }
  assert (Hd6 : d iρ = 1 / cos x * tan x).
  { unfold d. rewrite rhs_ρ by reflexivity. fold d. rewrite Hd5. unfold deriv_ρ_normal_expr. simpl. field. lra. }
  destruct (rhs_η (o_int false) x (z_err c x)) as (E8 & E9 & E10). fold d in E8, E9, E10. cbn [o_int oa_η_derivs] in E8, E9, E10.
  assert (Hd7 : d iB_φ_prime = 0).
  { unfold d. rewrite rhs_B_φ_prime by reflexivity. fold d.
    unfold B_unit_derivs. cbv zeta. unfold dderiv_B_φ_soln.
    rewrite Hd0, Hd1, Hd3, Hd4, Hd5, E9, E10. unfold C_func. simpl. unfold Rdiv. ring. }
  intros i Hl. unfold ODE_LEN in Hl. clearbody d.
  assert (HI : derivable_pt_lim (fun t => 1 / cos t) x (1 / cos x * tan x)) by (apply dpl_inv_cos; lra).
  assert (Z : forall v, Rabs (v - v) <= c) by (intros v; rewrite Rminus_diag_eq by reflexivity; rewrite Rabs_R0; exact Pc).
  do 10 (destruct i as [|i];
    [cbv beta iota delta [z_err state Nat.eqb iη_H]; split; [|apply Z]; first [ eapply dpl_eq; [exact HI | symmetry; first [exact Hd2 | exact Hd6]]
           | eapply dpl_eq; [apply dpl_const
             | symmetry; first [exact Hd0 | exact Hd1 | exact Hd3 | exact Hd4 | exact Hd5 | exact Hd7 | exact E8 | exact E9]] ] |]).
  destruct i as [|i]; [|lia]. cbv beta iota delta [z_err state Nat.eqb iη_H]. split.
  - eapply dpl_eq; [dlim|]. ring.
  - change 10%nat with iη_H. rewrite E10, Rminus_0_r, Rabs_right; lra.
Qed.

Lemma z_err_margin : forall c x, 0 <= c <= 1 -> 0 <= x <= 1 / 2 -> margin (o_int false) (1 / 4) 2 x (z_err c x).
Proof.
  intros c x Hc Hx. assert (C : 1 / 2 <= cos x).
  { rewrite <- cos_PI3. apply cos_decr_1; pose proof PI2_1; pose proof PI_RGT_0; try lra. }
  pose proof (COS_bound x) as (_ & C1).
  assert (I1 : 1 <= 1 / cos x) by (apply (Rmult_le_reg_r (cos x)); [lra|]; replace (1 / cos x * cos x) with 1 by (field; lra); lra).
  assert (I2 : 1 / cos x <= 2) by (apply (Rmult_le_reg_r (cos x)); [lra|]; replace (1 / cos x * cos x) with 1 by (field; lra); lra).
  unfold margin, o_int, z_err, state. cbn [oa_θ_scale oa_with_taylor oa_deriv_v_θ_func iB_r iB_φ iB_θ iv_θ iρ iη_O iη_A].
  rewrite Rmult_1_r. assert (S1 : 1 <= (1 / cos x) ^ 2) by nra.
  split; [rewrite Rabs_right; lra|]. split; [lra|]. split; [rewrite Rabs_right; lra|]. split; [lra|]. split; [lra|].
  split; [intros _; rewrite Rabs_right; lra|]. split; [discriminate|].
  intros i Hl. unfold ODE_LEN in Hl. assert (c * x <= 1) by nra. assert (0 <= c * x) by nra.
  do 11 (destruct i as [|i]; [rewrite Rabs_right; lra|]). lia.
Qed.

Example C126_nonvacuous : forall δ, 0 < δ -> exists c, 0 < c <= 1 /\
  (forall x, 0 <= x <= 1 / 2 -> almost_solves_at (o_int false) (z_err c) c x /\ margin (o_int false) (1 / 4) 2 x (z_err c x)) /\
  (forall x, 0 <= x <= 1 / 2 -> solves_at (o_int false) (y_int false) x /\ margin (o_int false) (1 / 4) 2 x (y_int false x)) /\
  (forall t, 0 <= t <= 1 / 2 -> dist_sq (y_int false t) (z_err c t) <= δ).
Proof.
  intros δ Pδ.
  assert (C : forall x, 0 <= x <= 1 / 2 -> 0 < cos x) by (intros x Hx; apply cos_gt_0; pose proof PI2_1; lra).
  assert (Hz : forall c, 0 <= c <= 1 -> forall x, 0 <= x <= 1 / 2 -> almost_solves_at (o_int false) (z_err c) c x /\ margin (o_int false) (1 / 4) 2 x (z_err c x)).
  { intros c Hc x Hx. split; [apply z_err_solves; [lra|apply C, Hx]|apply z_err_margin; assumption]. }
  assert (E0 : forall x, forall i, (i < ODE_LEN)%nat -> y_int false x i = z_err 0 x i).
  { intros x i Hl. unfold ODE_LEN in Hl. unfold y_int, z_err, state. do 11 (destruct i as [|i]; [cbv beta iota; try reflexivity; ring|]). lia. }
  assert (Hy : forall x, 0 <= x <= 1 / 2 -> solves_at (o_int false) (y_int false) x /\ margin (o_int false) (1 / 4) 2 x (y_int false x)).
  { intros x Hx. split; [apply y_int_solves_at, C, Hx|].
    pose proof (z_err_margin 0 x ltac:(lra) Hx) as Mg. unfold margin in *. unfold ODE_LEN in *.
    pose proof (E0 x) as E. unfold ODE_LEN in E.
    rewrite <- !E in Mg by (unfold iB_r, iB_φ, iB_θ, iρ, iη_O, iη_A, iv_θ; lia).
    destruct Mg as (A1 & A2 & A3 & A4 & A5 & A6 & A7 & A8). repeat (split; [assumption|]). intros i Hl. rewrite (E i Hl). exact (A8 i Hl). }
  destruct (C126_error_bound (o_int false) (1 / 4) 2 0 (1 / 2) ltac:(lra) ltac:(lra)) as (K & PK & HK).
  { intros f Ef x _. inversion Ef. apply continuity_pt_const. intros u v. reflexivity. }
  set (G := exp (K * (1 / 2))). assert (PG : 0 < G) by apply exp_pos.
  exists (Rmin 1 (δ / G)). assert (Pc : 0 < Rmin 1 (δ / G)) by (apply Rmin_pos; [lra|apply Rdiv_lt_0_compat; assumption]).
  assert (c1 : Rmin 1 (δ / G) <= 1) by apply Rmin_l. assert (c2 : Rmin 1 (δ / G) <= δ / G) by apply Rmin_r. set (c := Rmin 1 (δ / G)) in *.
  split; [lra|]. split; [apply Hz; lra|]. split; [exact Hy|]. intros t Ht.
  pose proof (HK (y_int false) (z_err c) c ltac:(lra) Hy (Hz c ltac:(lra)) 0 t ltac:(lra) Ht) as B.
  rewrite (dist_zero (y_int false 0) (z_err c 0)) in B.
  - rewrite Rmult_0_l, Rplus_0_l in B. eapply Rle_trans; [exact B|]. rewrite Rminus_0_r, (Rabs_right t) by lra.
    assert (GE : exp (K * t) <= G).
    { unfold G. assert (Le : K * t <= K * (1 / 2)) by (apply Rmult_le_compat_l; lra).
      destruct Le as [Le|Le]; [apply Rlt_le, exp_increasing, Le|rewrite Le; apply Rle_refl]. }
    assert (S1 : c * G <= δ) by (apply (Rmult_le_compat_r G) in c2; [|lra]; replace (δ / G * G) with δ in c2 by (field; lra); exact c2).
    assert (S2 : c ^ 2 <= c) by nra. assert (S3 : c ^ 2 * (exp (K * t) - 1) <= c ^ 2 * G) by (apply Rmult_le_compat_l; [apply pow2_ge_0|lra]). nra.
  - intros i Hl. rewrite (E0 0 i Hl). unfold ODE_LEN in Hl. unfold z_err, state. do 11 (destruct i as [|i]; [cbv beta iota; try reflexivity; ring|]). lia.
Qed.
