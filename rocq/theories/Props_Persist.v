(** C130: with nearly the same parameters and nearly the same start there is a solution as well, and it is nearly the same. *)
From Coq Require Import Reals Lra Lia.
From Verif Require Import Model_Index Model_Deriv Model_Ode Lib_Deriv Spec_MHD Spec_Ode Spec_Unique Spec_Error Spec_Param Spec_Exist
  Proofs_Ode Proofs_Unique Proofs_Error Proofs_Param Proofs_Exist Witness_Ode Props_Unique Props_Error Props_Param Props_Exist.
Open Scope R_scope.

Lemma within_more : forall M N o, M <= N -> parameters_within M o -> parameters_within N o.
Proof. intros M N o L (H1 & H2 & H3 & H4 & H5 & H6). unfold parameters_within. repeat split; lra. Qed.
Lemma within_near : forall M o o', parameters_within M o -> parameter_gap o o' <= 1 -> parameters_within (M + 1) o'.
Proof.
  intros M o o' (H1 & H2 & H3 & H4 & H5 & H6) G. unfold parameter_gap in G.
  assert (one : forall u v, Rabs u <= M -> Rabs (u - v) <= 1 -> Rabs v <= M + 1).
  { intros u v A B. replace v with (u + - (u - v)) by ring. eapply Rle_trans; [apply Rabs_triang|]. rewrite Rabs_Ropp. lra. }
  pose proof (Rabs_pos (oa_γ o - oa_γ o')). pose proof (Rabs_pos (oa_a_0 o - oa_a_0 o')).
  pose proof (Rabs_pos (sqrt (oa_norm_kepler_sq o) - sqrt (oa_norm_kepler_sq o'))). pose proof (Rabs_pos (oa_init_con o iη_O - oa_init_con o' iη_O)).
  pose proof (Rabs_pos (oa_init_con o iη_A - oa_init_con o' iη_A)). pose proof (Rabs_pos (oa_init_con o iη_H - oa_init_con o' iη_H)).
  unfold parameters_within. split; [apply (one (oa_γ o)); [exact H1|lra]|]. split; [apply (one (oa_a_0 o)); [exact H2|lra]|].
  split; [|split; [apply (one (oa_init_con o iη_O)); [exact H4|lra]|split; [apply (one (oa_init_con o iη_A)); [exact H5|lra]|apply (one (oa_init_con o iη_H)); [exact H6|lra]]]].
  assert (B : Rabs (sqrt (oa_norm_kepler_sq o) - sqrt (oa_norm_kepler_sq o')) <= 1) by lra.
  apply Rabs_le_between in B. lra.
Qed.
Lemma margin_less : forall o m M m' M' x p, m' <= m -> M <= M' -> margin o m M x p -> margin o m' M' x p.
Proof.
  intros o m M m' M' x p L L' (H1 & H2 & H3 & H4 & H5 & H6 & H7 & H8). unfold margin.
  repeat (split; [lra|]). split; [intros T; specialize (H6 T); lra|]. split; [intros T; specialize (H7 T); lra|]. intros i Hl. specialize (H8 i Hl). lra.
Qed.
Lemma margin_same : forall o o' m M x p, same_system o o' -> margin o m M x p <-> margin o' m M x p.
Proof. intros o o' m M x p (E1 & E2 & _ & _ & E5 & _). unfold margin. rewrite E1, E2, E5. reflexivity. Qed.

(** A solution with a margin. For every distance there is a tolerance: every set-up of the same system, and every start, within
    this tolerance of the first (that does not switch ambipolar diffusion on) has a solution on the whole interval, which stays
    within the distance of the first and keeps half of the margin. *)
Theorem C130_persists : forall o a b m M y, a <= b -> 0 < m -> interpolant_continuous o a b -> oa_with_taylor o = false -> parameters_within M o ->
  (forall x, a <= x <= b -> solves_at o y x /\ margin o m M x (y x) /\ ambipolar_from o m (y x)) ->
  forall ε, 0 < ε -> exists δ, 0 < δ /\ forall o' p, same_system o o' -> parameter_gap o o' < δ ->
    (oa_init_con o iη_A = 0 -> oa_init_con o' iη_A = 0) -> 0 <= p iη_A -> (forall i, (i < ODE_LEN)%nat -> Rabs (p i - y a i) < δ) ->
    exists z, (forall i, (i < ODE_LEN)%nat -> z a i = p i) /\
      forall x, a <= x <= b -> solves_at o' z x /\ margin o' (m / 2) (M + 1) x (z x) /\ ambipolar_from o' (m / 2) (z x) /\
        forall i, (i < ODE_LEN)%nat -> Rabs (z x i - y x i) < ε.
Proof.
  intros o a b m M y Hab Pm Hi T Mo Hy ε Pε.
  destruct (box_pos m M Pm) as (R1 & R2 & R3). set (r := box_size m M) in *.
  destruct (almost o (m / 4) (M + 2) a b ltac:(lra) Hab Hi T (within_more M (M + 2) o ltac:(lra) Mo)) as (L & PL & HL).
  destruct (error_bound_within o a b (m / 4) (M + 2) Hab ltac:(lra) Hi) as (K & PK & HK).
  set (G := exp (K * (b - a))). assert (PG : 0 < G) by apply exp_pos.
  set (q := Rmin r ε / 2). assert (Pq : 0 < q) by (unfold q; assert (0 < Rmin r ε) by (apply Rmin_pos; lra); lra).
  assert (q1 : q < r) by (unfold q; pose proof (Rmin_l r ε); lra). assert (q2 : q < ε) by (unfold q; pose proof (Rmin_r r ε); lra).
  (* the tolerance *)
  set (W := (11 + L ^ 2) * G). assert (PW : 0 < W) by (unfold W; apply Rmult_lt_0_compat; [pose proof (pow2_ge_0 L); lra|exact PG]).
  assert (Pt : 0 < sqrt (q ^ 2 / W)) by (apply sqrt_lt_R0, Rdiv_lt_0_compat; [apply pow_lt, Pq|exact PW]).
  set (δ := Rmin (Rmin 1 q) (sqrt (q ^ 2 / W))).
  assert (Pδ : 0 < δ) by (apply Rmin_pos; [apply Rmin_pos; lra|exact Pt]).
  assert (d1 : δ <= 1) by (eapply Rle_trans; [apply Rmin_l|apply Rmin_l]). assert (d2 : δ <= q) by (eapply Rle_trans; [apply Rmin_l|apply Rmin_r]).
  assert (d3 : δ ^ 2 * W <= q ^ 2).
  { assert (δ ^ 2 <= q ^ 2 / W).
    { replace (q ^ 2 / W) with (sqrt (q ^ 2 / W) ^ 2) by (rewrite <- Rsqr_pow2; apply Rsqr_sqrt; left; apply Rdiv_lt_0_compat; [apply pow_lt, Pq|exact PW]).
      apply pow_incr. split; [lra|apply Rmin_r]. }
    apply (Rmult_le_compat_r W) in H; [|lra]. unfold Rdiv in H. rewrite Rmult_assoc, Rinv_l in H by lra. lra. }
  exists δ. split; [exact Pδ|]. intros o' p So Gap On PA Hp.
  assert (Mo' : parameters_within (M + 1) o') by (apply (within_near M o o' Mo); lra).
  assert (Hi' : interpolant_continuous o' a b) by (destruct So as (E1 & _ & _ & _ & E5 & _); unfold interpolant_continuous in *; rewrite E5, E1; exact Hi).
  assert (T' : oa_with_taylor o' = false) by (destruct So as (_ & E2 & _); rewrite E2; exact T).
  destruct (Hy a ltac:(lra)) as (Sa & Ma & Aa).
  (* states near the solution are as good *)
  assert (Near : forall x v, a <= x <= b -> (forall i, (i < ODE_LEN)%nat -> Rabs (v i - y x i) <= q) -> 0 <= v iη_A ->
    margin o' (m / 2) (M + 1) x v /\ ambipolar_from o' (m / 2) v).
  { intros x v Hx Hv PA'. destruct (Hy x Hx) as (_ & Mx & Ax). split.
    - apply (margin_same o o' _ _ _ _ So). apply (margin_around o m M x (y x)); [exact Pm|exact Mx| |intros i Hl; fold r; specialize (Hv i Hl); lra|exact PA'].
      rewrite Rminus_diag_eq, Rabs_R0 by reflexivity. lra.
    - destruct So as (_ & _ & E3 & _). destruct Ax as [A|[A|A]]; [left|right; left; congruence|right; right; apply On, A].
      specialize (Hv iη_A ltac:(unfold iη_A, ODE_LEN; lia)). apply Rabs_le_between in Hv. lra. }
  destruct (Near a p ltac:(lra)) as (Mp & Ap); [intros i Hl; specialize (Hp i Hl); lra|exact PA|].
  assert (Acp : accepted_from o' (m / 2) p).
  { pose proof (solves_accepted o m M y a Pm T Sa Ma) as [A|(A1 & A2)]; [left; destruct So as (_ & _ & _ & _ & _ & E6); congruence|right].
    destruct Ma as (_ & _ & Q & _). rewrite Rabs_right in Q by lra.
    pose proof (Hp iρ ltac:(unfold iρ, ODE_LEN; lia)) as B1. pose proof (Hp iv_θ ltac:(unfold iv_θ, ODE_LEN; lia)) as B2. apply Rabs_def2 in B1. apply Rabs_def2 in B2. lra. }
  destruct (C129_reaches o' a b (m / 2) (M + 1) p Hab ltac:(lra) Hi' T' Mp Acp Ap) as (z & e & He & Z0 & Z & D).
  replace (m / 2 / 2) with (m / 4) in Z by field. replace (M + 1 + 1) with (M + 2) in Z by ring.
  (* close as far as it goes *)
  assert (Close : forall x, a <= x <= e -> forall i, (i < ODE_LEN)%nat -> Rabs (z x i - y x i) <= q).
  { assert (B : forall x, a <= x <= e -> dist_sq (y x) (z x) <= q ^ 2).
    { intros x Hx. assert (P := gap_pos o o').
      pose proof (HK a e y z (L * parameter_gap o o') ltac:(lra) ltac:(lra) ltac:(apply Rmult_le_pos; assumption)) as H.
      specialize (H ltac:(intros t Ht; destruct (Hy t ltac:(lra)) as (Y1 & Y2 & _); split; [exact Y1|]; apply (margin_less o m M); [lra|lra|exact Y2])).
      specialize (H ltac:(intros t Ht; destruct (Z t Ht) as (Z1 & Z2 & _); apply (margin_same o o' _ _ _ _ So) in Z2; split; [|exact Z2];
        apply (HL o' z t So (within_more (M + 1) (M + 2) o' ltac:(lra) Mo') ltac:(lra) Z1 Z2))).
      specialize (H a x ltac:(lra) Hx). eapply Rle_trans; [exact H|]. eapply Rle_trans; [|exact d3].
      assert (S0 : dist_sq (y a) (z a) <= 11 * δ ^ 2).
      { assert (one : forall i, (i < ODE_LEN)%nat -> (y a i - z a i) ^ 2 <= δ ^ 2).
        { intros i Hl. rewrite (Z0 i Hl). specialize (Hp i Hl). rewrite Rabs_minus_sym in Hp. rewrite <- (pow2_abs (y a i - p i)). apply pow_incr. split; [apply Rabs_pos|lra]. }
        unfold dist_sq, ODE_LEN in *. cbn [pred sum_f_R0].
        pose proof (one 0%nat ltac:(lia)). pose proof (one 1%nat ltac:(lia)). pose proof (one 2%nat ltac:(lia)). pose proof (one 3%nat ltac:(lia)).
        pose proof (one 4%nat ltac:(lia)). pose proof (one 5%nat ltac:(lia)). pose proof (one 6%nat ltac:(lia)). pose proof (one 7%nat ltac:(lia)).
        pose proof (one 8%nat ltac:(lia)). pose proof (one 9%nat ltac:(lia)). pose proof (one 10%nat ltac:(lia)). lra. }
      assert (Ex : exp (K * Rabs (x - a)) <= G).
      { unfold G. assert (K * Rabs (x - a) <= K * (b - a)) by (apply Rmult_le_compat_l; [exact PK|rewrite Rabs_right by lra; lra]).
        destruct H0 as [l|l]; [left; apply exp_increasing, l|right; rewrite l; reflexivity]. }
      assert (PE := exp_pos (K * Rabs (x - a))). assert (PD := dist_pos (y a) (z a)).
      assert (Lg : (L * parameter_gap o o') ^ 2 <= L ^ 2 * δ ^ 2).
      { rewrite Rpow_mult_distr. apply Rmult_le_compat_l; [apply pow2_ge_0|]. apply pow_incr. lra. }
      assert (PLg : 0 <= (L * parameter_gap o o') ^ 2) by apply pow2_ge_0.
      assert (X1 : dist_sq (y a) (z a) * exp (K * Rabs (x - a)) <= 11 * δ ^ 2 * G) by (apply Rmult_le_compat; lra).
      assert (X2 : (L * parameter_gap o o') ^ 2 * (exp (K * Rabs (x - a)) - 1) <= L ^ 2 * δ ^ 2 * G).
      { apply Rle_trans with ((L * parameter_gap o o') ^ 2 * G); [apply Rmult_le_compat_l; lra|apply Rmult_le_compat_r; lra]. }
      unfold W. lra. }
    intros x Hx i Hl. specialize (B x Hx). pose proof (slot_le (y x) (z x) i Hl) as S1. rewrite Rabs_minus_sym.
    apply Rsqr_incr_0; [|apply Rabs_pos|lra]. rewrite <- Rsqr_abs, !Rsqr_pow2. lra. }
  assert (Ee : e = b).
  { destruct D as [D|D]; [exact D|]. exfalso. apply D. apply Near; [lra|apply Close; lra|]. destruct (Z e ltac:(lra)) as (_ & Q & _). apply Q. }
  subst e. exists z. split; [exact Z0|]. intros x Hx. destruct (Z x Hx) as (Z1 & Z2 & _). split; [exact Z1|].
  destruct (Near x (z x) Hx (Close x Hx) ltac:(apply Z2)) as (N1 & N2). split; [exact N1|]. split; [exact N2|].
  intros i Hl. pose proof (Close x Hx i Hl). lra.
Qed.
Print Assumptions C130_persists.

(** Every solution of a set-up and from a start nearby is close. *)
Lemma all_close : forall o a b m M y, a <= b -> 0 < m -> interpolant_continuous o a b -> oa_with_taylor o = false -> parameters_within M o ->
  (forall x, a <= x <= b -> solves_at o y x /\ margin o m M x (y x) /\ ambipolar_from o m (y x)) ->
  forall ε, 0 < ε -> exists δ, 0 < δ /\ forall o' z, nearby o (y a) δ o' (z a) ->
    (forall x, a <= x <= b -> solves_at o' z x /\ regular o' x (z x)) -> forall x, a <= x <= b -> Rabs (z x iv_θ - y x iv_θ) < ε.
Proof.
  intros o a b m M y Hab Pm Hi T Mo Hy.
  intros ε Pε. destruct (C130_persists o a b m M y Hab Pm Hi T Mo Hy ε Pε) as (δ & Pδ & H). exists δ. split; [exact Pδ|].
  intros o' z (N1 & N2 & N3 & N4 & N5) Hz x Hx. destruct (H o' (z a) N1 N2 N3 N4 N5) as (w & W0 & W).
  assert (Hl : (iv_θ < ODE_LEN)%nat) by (unfold iv_θ, ODE_LEN; lia).
  assert (Hi' : interpolant_continuous o' a b) by (destruct N1 as (E1 & _ & _ & _ & E5 & _); unfold interpolant_continuous in *; rewrite E5, E1; exact Hi).
  rewrite <- (C122_determined o' w z a b Hab Hi') with (s := a); [apply W; assumption| |exact Hz|lra|exact W0|exact Hx|exact Hl].
  intros t Ht. destruct (W t Ht) as (P & Q & _). split; [exact P|]. apply (margin_regular o' (m / 2) (M + 1)); [lra|exact Q].
Qed.

(** So the outcome of an integration does not hang on the last digit: gas that passes a given speed before a given angle, passes
    it for all set-ups and starts nearby, and gas that does not reach a given speed does not reach it for all set-ups and starts
    nearby. *)
Theorem C130_outcome : forall o a b m M y, a <= b -> 0 < m -> interpolant_continuous o a b -> oa_with_taylor o = false -> parameters_within M o ->
  (forall x, a <= x <= b -> solves_at o y x /\ margin o m M x (y x) /\ ambipolar_from o m (y x)) ->
  forall V, ((exists x, a <= x <= b /\ V < y x iv_θ) -> exists δ, 0 < δ /\ forall o' z, nearby o (y a) δ o' (z a) ->
      (forall x, a <= x <= b -> solves_at o' z x /\ regular o' x (z x)) -> exists x, a <= x <= b /\ V < z x iv_θ) /\
    ((forall x, a <= x <= b -> y x iv_θ < V) -> exists δ, 0 < δ /\ forall o' z, nearby o (y a) δ o' (z a) ->
      (forall x, a <= x <= b -> solves_at o' z x /\ regular o' x (z x)) -> forall x, a <= x <= b -> z x iv_θ < V).
Proof.
  intros o a b m M y Hab Pm Hi T Mo Hy V.
  pose proof (all_close o a b m M y Hab Pm Hi T Mo Hy) as All.
  split.
  - intros (x & Hx & Vx). destruct (All (y x iv_θ - V) ltac:(lra)) as (δ & Pδ & H). exists δ. split; [exact Pδ|].
    intros o' z N Hz. exists x. split; [exact Hx|]. specialize (H o' z N Hz x Hx). apply Rabs_def2 in H. lra.
  - intros Hv. destruct (continuity_ab_maj (fun x => y x iv_θ) a b Hab) as (mx & Hm & Im).
    { intros x Hx. destruct (Hy x Hx) as ((d & e & _ & D) & _). apply derivable_continuous_pt. exists (d iv_θ). apply D. unfold iv_θ, ODE_LEN. lia. }
    specialize (Hv mx Im). destruct (All (V - y mx iv_θ) ltac:(lra)) as (δ & Pδ & H). exists δ. split; [exact Pδ|].
    intros o' z N Hz x Hx. specialize (H o' z N Hz x Hx). specialize (Hm x Hx). apply Rabs_def2 in H. lra.
Qed.
Print Assumptions C130_outcome.

(** What the splitter of the step method calls a sign flip, vertical speed that falls again, is not lost by a small change. *)
Theorem C130_sign_flip : forall o a b m M y, a <= b -> 0 < m -> interpolant_continuous o a b -> oa_with_taylor o = false -> parameters_within M o ->
  (forall x, a <= x <= b -> solves_at o y x /\ margin o m M x (y x) /\ ambipolar_from o m (y x)) ->
  forall x1 x2, a <= x1 -> x1 < x2 -> x2 <= b -> y x2 iv_θ < y x1 iv_θ ->
  exists δ, 0 < δ /\ forall o' z, nearby o (y a) δ o' (z a) ->
    (forall x, a <= x <= b -> solves_at o' z x /\ regular o' x (z x)) -> z x2 iv_θ < z x1 iv_θ.
Proof.
  intros o a b m M y Hab Pm Hi T Mo Hy x1 x2 H1 H12 H2 F.
  destruct (all_close o a b m M y Hab Pm Hi T Mo Hy ((y x1 iv_θ - y x2 iv_θ) / 2) ltac:(lra)) as (δ & Pδ & H).
  exists δ. split; [exact Pδ|]. intros o' z N Hz.
  pose proof (H o' z N Hz x1 ltac:(lra)) as A1. pose proof (H o' z N Hz x2 ltac:(lra)) as A2. apply Rabs_def2 in A1. apply Rabs_def2 in A2. lra.
Qed.
Print Assumptions C130_sign_flip.
(** So at the edge the gas does not slow down: if set-ups as near as one likes have gas whose vertical speed never falls with the
    angle, so has this one. *)
Corollary C130_threshold : forall o a b m M y, a <= b -> 0 < m -> interpolant_continuous o a b -> oa_with_taylor o = false -> parameters_within M o ->
  (forall x, a <= x <= b -> solves_at o y x /\ margin o m M x (y x) /\ ambipolar_from o m (y x)) ->
  (forall δ, 0 < δ -> exists o' z, nearby o (y a) δ o' (z a) /\ (forall x, a <= x <= b -> solves_at o' z x /\ regular o' x (z x)) /\
    forall x1 x2, a <= x1 -> x1 < x2 -> x2 <= b -> z x1 iv_θ <= z x2 iv_θ) ->
  forall x1 x2, a <= x1 -> x1 < x2 -> x2 <= b -> y x1 iv_θ <= y x2 iv_θ.
Proof.
  intros o a b m M y Hab Pm Hi T Mo Hy Lim x1 x2 H1 H12 H2. destruct (Rle_dec (y x1 iv_θ) (y x2 iv_θ)) as [L|L]; [exact L|exfalso].
  destruct (C130_sign_flip o a b m M y Hab Pm Hi T Mo Hy x1 x2 H1 H12 H2 ltac:(lra)) as (δ & Pδ & H).
  destruct (Lim δ Pδ) as (o' & z & N & Hz & Mono). specialize (H o' z N Hz). specialize (Mono x1 x2 H1 H12 H2). lra.
Qed.
Print Assumptions C130_threshold.

(** Not empty: the solution with diffusivity one, and the set-ups with a little more. *)
Example C130_nonvacuous : forall ε, 0 < ε -> exists δ, 0 < δ /\ forall c, 0 <= c < δ ->
  exists z, (forall i, (i < ODE_LEN)%nat -> z 0 i = y_par c 0 i) /\
    forall x, 0 <= x <= 1 / 2 -> solves_at (o_par c) z x /\ forall i, (i < ODE_LEN)%nat -> Rabs (z x i - y_par 0 x i) < ε.
Proof.
  intros ε Pε. destruct (C130_persists (o_par 0) 0 (1 / 2) (1 / 4) 4 (y_par 0)) with (ε := ε) as (δ & Pδ & H).
  - lra.
  - lra.
  - intros f Ef x _. inversion Ef. apply continuity_pt_const. intros u v. reflexivity.
  - reflexivity.
  - apply (proj2 (proj2 C128_nonvacuous) 0). lra.
  - intros x Hx. split; [apply y_par_solves; apply cos_gt_0; pose proof PI2_1; lra|]. split; [apply y_par_margin; lra|right; right; reflexivity].
  - exact Pε.
  - exists (Rmin δ 1). split; [apply Rmin_pos; lra|]. intros c Hc. pose proof (Rmin_l δ 1). pose proof (Rmin_r δ 1).
    destruct (proj2 (proj2 C128_nonvacuous) c ltac:(lra)) as (_ & _ & Gp & _). destruct (H (o_par c) (y_par c 0)) as (z & Z0 & Z).
    + repeat split.
    + rewrite Gp. lra.
    + reflexivity.
    + cbn. lra.
    + intros i Hl. unfold y_par, state. rewrite cos_0. unfold ODE_LEN in Hl.
      do 11 (destruct i as [|i]; [cbn; first [rewrite Rminus_diag_eq by reflexivity; rewrite Rabs_R0; exact Pδ |
        replace ((1 + c) * (1 / 1) - (1 + 0) * (1 / 1)) with c by field; rewrite Rabs_right by lra; lra]|]). lia.
    + exists z. split; [exact Z0|]. intros x Hx. destruct (Z x Hx) as (Z1 & _ & _ & Z3). split; [exact Z1|exact Z3].
Qed.
