(** C129: through every state that is not singular there is exactly one solution, and it goes on until it nears a singular state. *)
From Coq Require Import Reals Lra Lia.
From Verif Require Import Model_Index Model_Deriv Model_Ode Lib_Deriv Spec_MHD Spec_Ode Spec_Fields Spec_Unique Spec_Error Spec_Exist
  Proofs_Ode Proofs_Unique Proofs_Error Proofs_Exist Witness_Ode Props_Unique Props_Error.
Open Scope R_scope.

(** One length for all starting points with the margin. *)
Theorem C129_exists : forall o a b m M, a <= b -> 0 < m -> interpolant_continuous o a b ->
  exists h, 0 < h /\ forall x0 p0, a <= x0 <= b -> margin o m M x0 p0 -> accepted_from o m p0 -> ambipolar_from o m p0 ->
  exists y : R -> vec, (forall i, (i < ODE_LEN)%nat -> y x0 i = p0 i) /\
  forall x, a <= x <= b -> Rabs (x - x0) < h -> solves_at o y x /\ margin o (m / 2) (M + 1) x (y x) /\ ambipolar_from o (m / 2) (y x).
Proof. exact exist_uniform. Qed.
Print Assumptions C129_exists.

Lemma margin_regular : forall o m M x p, 0 < m -> margin o m M x p -> regular o x p.
Proof.
  intros o m M x p Pm (H1 & H2 & H3 & H4 & H5 & H6 & H7 & _).
  assert (Z : forall v, m <= Rabs v -> v <> 0) by (intros v Hv E; rewrite E, Rabs_R0 in Hv; lra).
  unfold regular, B_nonzero. split; [apply Z, H1|]. split; [lra|]. split; [apply Z, H3|]. split; [lra|]. split; [exact H5|]. split; [left; lra|].
  split; [intros T; apply Z, H6, T|]. intros F E. specialize (H7 F). rewrite E, Rminus_diag_eq, Rabs_R0 in H7 by reflexivity. lra.
Qed.

(** Through one state: exactly one solution on an interval around it. *)
Theorem C129_through : forall o x0 p0 d, 0 < d -> interpolant_continuous o (x0 - d) (x0 + d) -> regular o x0 p0 -> 0 < p0 iη_O ->
  (oa_derivs_post_solution o = true \/ (0 < p0 iρ /\ 0 < p0 iv_θ)) ->
  (0 < p0 iη_A \/ oa_η_derivs o = false \/ oa_init_con o iη_A = 0) ->
  exists h y, 0 < h /\ (forall i, (i < ODE_LEN)%nat -> y x0 i = p0 i) /\
    (forall x, Rabs (x - x0) < h -> solves_at o y x /\ regular o x (y x)) /\
    forall z, (forall i, (i < ODE_LEN)%nat -> z x0 i = p0 i) -> (forall x, Rabs (x - x0) < h -> solves_at o z x /\ regular o x (z x)) ->
    forall x, Rabs (x - x0) < h -> forall i, (i < ODE_LEN)%nat -> z x i = y x i.
Proof.
  intros o x0 p0 d Pd Hi (G1 & G2 & G3 & _ & G5 & _ & G7 & G8) PO Ac Am.
  assert (Two : forall u v : R, 0 < u -> 0 < v -> exists w, 0 < w /\ w <= u /\ w <= v) by (intros u v Hu Hv; exists (Rmin u v); split; [apply Rmin_pos; assumption|split; [apply Rmin_l|apply Rmin_r]]).
  assert (PB : 0 < p0 iB_r ^ 2 + p0 iB_φ ^ 2 + p0 iB_θ ^ 2).
  { unfold B_nonzero in G2. pose proof (pow2_ge_0 (p0 iB_r)). pose proof (pow2_ge_0 (p0 iB_φ)). pose proof (pow2_ge_0 (p0 iB_θ)). lra. }
  destruct (Two _ _ (Rabs_pos_lt _ G1) PB) as (m1 & P1 & L1 & L2).
  destruct (Two _ _ P1 (Rabs_pos_lt _ G3)) as (m2 & P2 & L3 & L4). destruct (Two _ _ P2 PO) as (m3 & P3 & L5 & L6).
  assert (X4 : exists m4, 0 < m4 /\ m4 <= m3 /\ (oa_with_taylor o = false -> m4 <= Rabs (p0 iv_θ))).
  { destruct (oa_with_taylor o); [exists m3; repeat split; [exact P3|lra|discriminate]|].
    destruct (Two _ _ P3 (Rabs_pos_lt _ (G7 eq_refl))) as (w & Pw & W1 & W2). exists w. repeat split; [exact Pw|exact W1|]. intros _. exact W2. }
  destruct X4 as (m4 & P4 & L7 & L8).
  assert (X5 : exists m5, 0 < m5 /\ m5 <= m4 /\ (oa_deriv_v_θ_func o = None -> m5 <= Rabs (1 - p0 iv_θ ^ 2))).
  { destruct (oa_deriv_v_θ_func o); [exists m4; repeat split; [exact P4|lra|discriminate]|].
    assert (Q : 1 - p0 iv_θ ^ 2 <> 0) by (specialize (G8 eq_refl); intros E; apply G8; lra).
    destruct (Two _ _ P4 (Rabs_pos_lt _ Q)) as (w & Pw & W1 & W2). exists w. repeat split; [exact Pw|exact W1|]. intros _. exact W2. }
  destruct X5 as (m5 & P5 & L9 & L10).
  assert (X6 : exists m6, 0 < m6 /\ m6 <= m5 /\ accepted_from o m6 p0).
  { destruct Ac as [Ac|(A1 & A2)]; [exists m5; repeat split; [exact P5|lra|left; exact Ac]|].
    destruct (Two _ _ P5 A2) as (w & Pw & W1 & W2). exists w. repeat split; [exact Pw|exact W1|]. right. lra. }
  destruct X6 as (m6 & P6 & L11 & Ac').
  assert (X7 : exists m7, 0 < m7 /\ m7 <= m6 /\ ambipolar_from o m7 p0).
  { destruct Am as [Am|Am]; [|exists m6; repeat split; [exact P6|lra|right; exact Am]].
    destruct (Two _ _ P6 Am) as (w & Pw & W1 & W2). exists w. repeat split; [exact Pw|exact W1|]. left. exact W2. }
  destruct X7 as (m & Pm & L12 & Am').
  set (M := sum_f_R0 (fun i => Rabs (p0 i)) (pred ODE_LEN)).
  assert (HM : forall i, (i < ODE_LEN)%nat -> Rabs (p0 i) <= M).
  { intros i Hl. unfold M, ODE_LEN in *. cbn [pred sum_f_R0].
    pose proof (Rabs_pos (p0 0%nat)). pose proof (Rabs_pos (p0 1%nat)). pose proof (Rabs_pos (p0 2%nat)). pose proof (Rabs_pos (p0 3%nat)).
    pose proof (Rabs_pos (p0 4%nat)). pose proof (Rabs_pos (p0 5%nat)). pose proof (Rabs_pos (p0 6%nat)). pose proof (Rabs_pos (p0 7%nat)).
    pose proof (Rabs_pos (p0 8%nat)). pose proof (Rabs_pos (p0 9%nat)). pose proof (Rabs_pos (p0 10%nat)).
    do 11 (destruct i as [|i]; [lra|]). lia. }
  assert (Mg : margin o m M x0 p0).
  { unfold margin. split; [lra|]. split; [lra|]. split; [lra|]. split; [lra|]. split; [exact G5|].
    split; [intros T; specialize (L8 T); lra|]. split; [intros F; specialize (L10 F); lra|exact HM]. }
  assert (Ac2 : accepted_from o m p0) by (destruct Ac' as [A|(A & B)]; [left; exact A|right; lra]).
  destruct (C129_exists o (x0 - d) (x0 + d) m M ltac:(lra) Pm Hi) as (h & Ph & H).
  destruct (H x0 p0 ltac:(lra) Mg Ac2 Am') as (y & Y0 & Y).
  exists (Rmin h d), y. assert (h1 : Rmin h d <= h) by apply Rmin_l. assert (h2 : Rmin h d <= d) by apply Rmin_r.
  assert (Yr : forall x, Rabs (x - x0) < Rmin h d -> solves_at o y x /\ regular o x (y x)).
  { intros x Hx. destruct (Y x) as (A & B & _); [apply Rabs_def2 in Hx; lra|lra|]. split; [exact A|]. apply (margin_regular o (m / 2) (M + 1)); [lra|exact B]. }
  split; [apply Rmin_pos; assumption|]. split; [exact Y0|]. split; [exact Yr|].
  intros z Z0 Z x Hx i Hl. set (k := Rabs (x - x0)) in *.
  assert (K : - k <= x - x0 <= k) by (apply Rabs_le_between; apply Rle_refl).
  assert (In : forall t, x0 - k <= t <= x0 + k -> Rabs (t - x0) < Rmin h d) by (intros t Ht; eapply Rle_lt_trans; [|exact Hx]; apply Rabs_le; lra).
  symmetry. apply (C122_determined o y z (x0 - k) (x0 + k)) with (s := x0); [lra| | | |lra| |lra|exact Hl].
  - intros f F t Ht. apply (Hi f F). specialize (In t Ht). apply Rabs_def2 in In. lra.
  - intros t Ht. apply Yr, In, Ht.
  - intros t Ht. apply Z, In, Ht.
  - intros j Hj. rewrite Y0, Z0 by exact Hj. reflexivity.
Qed.
Print Assumptions C129_through.

(** Outside the Taylor region a solution that keeps a margin up to an angle goes on beyond it: what ends a solution is a singular
    state or a quantity that grows without bound. *)
Theorem C129_continues : forall o a b c m M y, a < b -> b < c -> 0 < m -> interpolant_continuous o a c -> oa_with_taylor o = false ->
  (forall x, a <= x < b -> solves_at o y x /\ margin o m M x (y x) /\ ambipolar_from o m (y x)) ->
  exists b' z, b < b' <= c /\ (forall x, a <= x < b -> forall i, (i < ODE_LEN)%nat -> z x i = y x i) /\
    forall x, a <= x < b' -> solves_at o z x /\ regular o x (z x).
Proof.
  intros o a b c m M y Hab Hbc Pm Hi T Hy.
  destruct (C129_exists o a c m M ltac:(lra) Pm Hi) as (h & Ph & H).
  set (x1 := Rmax ((a + b) / 2) (b - h / 2)).
  assert (A1 : (a + b) / 2 <= x1) by apply Rmax_l. assert (A2 : b - h / 2 <= x1) by apply Rmax_r.
  assert (A3 : x1 < b) by (apply Rmax_lub_lt; lra).
  destruct (Hy x1 ltac:(lra)) as (S1 & M1 & B1).
  assert (Ac : accepted_from o m (y x1)).
  { destruct S1 as (d & e & E & _). destruct M1 as (_ & _ & _ & _ & _ & V & _). specialize (V T). unfold accepted_from.
    destruct (oa_derivs_post_solution o) eqn:Po; [left; reflexivity|right]. revert E. unfold rhs_equation. rewrite Po. cbn [negb andb].
    destruct (Rlt_dec (y x1 iρ) 0) as [L|L]; [discriminate|]. destruct (Rlt_dec (y x1 iv_θ) 0) as [L'|L']; [discriminate|]. intros _.
    rewrite Rabs_right in V by lra. split; [lra|exact V]. }
  destruct (H x1 (y x1) ltac:(lra) M1 Ac B1) as (w & W0 & W).
  set (b' := Rmin c (x1 + h)). assert (C1 : b' <= c) by apply Rmin_l. assert (C2 : b' <= x1 + h) by apply Rmin_r. assert (C3 : b < b') by (apply Rmin_glb_lt; lra).
  assert (Wr : forall x, a <= x <= c -> Rabs (x - x1) < h -> solves_at o w x /\ regular o x (w x)).
  { intros x Hx Hd. destruct (W x Hx Hd) as (P & Q & _). split; [exact P|]. apply (margin_regular o (m / 2) (M + 1)); [lra|exact Q]. }
  (* both agree where both are defined *)
  assert (Eq : forall x, a <= x < b -> Rabs (x - x1) < h -> forall i, (i < ODE_LEN)%nat -> w x i = y x i).
  { intros x Hx Hd i Hl. set (lo := Rmin x x1). set (hi := Rmax x x1).
    assert (lo <= x) by apply Rmin_l. assert (lo <= x1) by apply Rmin_r. assert (x <= hi) by apply Rmax_l. assert (x1 <= hi) by apply Rmax_r.
    assert (a <= lo) by (apply Rmin_glb; lra). assert (hi < b) by (apply Rmax_lub_lt; lra).
    assert (In : forall t, lo <= t <= hi -> Rabs (t - x1) < h).
    { intros t Ht. apply Rabs_def2 in Hd. apply Rabs_def1; unfold lo, hi, Rmin, Rmax in Ht; repeat destruct Rle_dec; lra. }
    apply (C122_determined o w y lo hi) with (s := x1); [lra| | | |lra| |lra|exact Hl].
    - intros f F t Ht. apply (Hi f F). lra.
    - intros t Ht. apply Wr; [lra|apply In, Ht].
    - intros t Ht. destruct (Hy t ltac:(lra)) as (P & Q & _). split; [exact P|]. apply (margin_regular o m M); assumption.
    - exact W0. }
  exists b', (fun x => if Rlt_dec x x1 then y x else w x). split; [lra|]. split.
  { intros x Hx i Hl. destruct (Rlt_dec x x1); [reflexivity|]. apply Eq; [exact Hx| |exact Hl]. apply Rabs_def1; lra. }
  intros x Hx. destruct (Rlt_dec x x1) as [L|L].
  - destruct (Hy x ltac:(lra)) as ((d & e & E & D) & Q & _). split; [|apply (margin_regular o m M); assumption].
    exists d, e. cbv beta. destruct (Rlt_dec x x1); [|lra]. split; [exact E|]. intros i Hl.
    apply (dpl_ext_loc (fun t => y t i) _ x (d i) (x1 - x)); [lra| |apply D, Hl].
    intros t Ht. apply Rabs_def2 in Ht. destruct (Rlt_dec t x1); [reflexivity|lra].
  - destruct (Wr x ltac:(lra)) as ((d & e & E & D) & Q); [apply Rabs_def1; lra|]. split; [|exact Q].
    exists d, e. cbv beta. destruct (Rlt_dec x x1); [lra|]. split; [exact E|]. intros i Hl.
    assert (Pk : 0 < Rmin h (x1 - a)) by (apply Rmin_pos; lra). assert (k1 : Rmin h (x1 - a) <= h) by apply Rmin_l. assert (k2 : Rmin h (x1 - a) <= x1 - a) by apply Rmin_r.
    apply (dpl_ext_loc (fun t => w t i) _ x (d i) (Rmin h (x1 - a))); [lra| |apply D, Hl].
    intros t Ht. apply Rabs_def2 in Ht. destruct (Rlt_dec t x1); [|reflexivity]. apply Eq; [lra|apply Rabs_def1; lra|exact Hl].
Qed.
Print Assumptions C129_continues.

(** Not empty: a state with every quantity different from zero, both with E_r and with B_φ' as variable and nothing interpolated. *)
Example C129_nonvacuous : forall use_E_r, exists h y, 0 < h /\ (forall i, (i < ODE_LEN)%nat -> y (1 / 2) i = p_ex i) /\
  forall x, Rabs (x - 1 / 2) < h -> solves_at (o_ex use_E_r) y x /\ regular (o_ex use_E_r) x (y x).
Proof.
  intros E. destruct (C129_through (o_ex E) (1 / 2) p_ex 1) as (h & y & Ph & H0 & H & _).
  - lra.
  - intros f F. discriminate F.
  - unfold regular, B_nonzero, o_ex, p_ex, state. cbn [oa_θ_scale oa_with_taylor oa_deriv_v_θ_func iB_r iB_φ iB_θ iv_θ iρ iη_O iη_A].
    split; [apply Rgt_not_eq, cos_gt_0; pose proof PI2_1; lra|]. repeat split; try lra; try (intros _; lra).
  - cbn. lra.
  - right. cbn. lra.
  - left. cbn. lra.
  - exists h, y. split; [exact Ph|]. split; [exact H0|exact H].
Qed.
(** And a solution with a margin that is continued. *)
Example C129_continues_nonvacuous : exists b' z, 1 / 2 < b' <= 1 /\
  (forall x, 0 <= x < 1 / 2 -> forall i, (i < ODE_LEN)%nat -> z x i = y_int false x i) /\
  forall x, 0 <= x < b' -> solves_at (o_int false) z x /\ regular (o_int false) x (z x).
Proof.
  apply (C129_continues (o_int false) 0 (1 / 2) 1 (1 / 4) 2); [lra|lra|lra| |reflexivity|].
  - intros f Ef x _. inversion Ef. apply continuity_pt_const. intros u v. reflexivity.
  - intros x Hx. split; [apply y_int_solves_at, cos_gt_0; pose proof PI2_1; lra|]. split; [|right; left; reflexivity].
    pose proof (z_err_margin 0 x ltac:(lra) ltac:(lra)) as Mg. unfold margin in *. unfold y_int, z_err, state in *.
    cbn [iB_r iB_φ iB_θ iv_θ iρ iη_O iη_A] in *. destruct Mg as (A1 & A2 & A3 & A4 & A5 & A6 & A7 & A8). repeat (split; [assumption|]).
    intros i Hl. specialize (A8 i Hl). do 10 (destruct i as [|i]; [exact A8|]). destruct i; [rewrite Rmult_0_l in A8; exact A8|unfold ODE_LEN in Hl; lia].
Qed.

Lemma solves_accepted : forall o m M y x, 0 < m -> oa_with_taylor o = false -> solves_at o y x -> margin o m M x (y x) -> accepted_from o m (y x).
Proof.
  intros o m M y x Pm T (d & e & E & _) (_ & _ & _ & _ & _ & V & _). specialize (V T). unfold accepted_from.
  destruct (oa_derivs_post_solution o) eqn:Po; [left; reflexivity|right]. revert E. unfold rhs_equation. rewrite Po. cbn [negb andb].
  destruct (Rlt_dec (y x iρ) 0) as [L|L]; [discriminate|]. destruct (Rlt_dec (y x iv_θ) 0) as [L'|L']; [discriminate|]. intros _.
  rewrite Rabs_right in V by lra. split; [lra|exact V].
Qed.
(** So for every margin: the solution from a state reaches the last angle, or an angle where the margin is used up; half of the
    margin is left all the way. *)
Theorem C129_reaches : forall o a c m M p0, a <= c -> 0 < m -> interpolant_continuous o a c -> oa_with_taylor o = false ->
  margin o m M a p0 -> accepted_from o m p0 -> ambipolar_from o m p0 ->
  exists y e, a <= e <= c /\ (forall i, (i < ODE_LEN)%nat -> y a i = p0 i) /\
    (forall x, a <= x <= e -> solves_at o y x /\ margin o (m / 2) (M + 1) x (y x) /\ ambipolar_from o (m / 2) (y x)) /\
    (e = c \/ ~ (margin o m M e (y e) /\ ambipolar_from o m (y e))).
Proof.
  intros o a c m M p0 Hac Pm Hi T M0 Ac0 Am0.
  destruct (C129_exists o a c m M Hac Pm Hi) as (h & Ph & H).
  assert (G : forall n, exists y e, a <= e <= c /\ (forall i, (i < ODE_LEN)%nat -> y a i = p0 i) /\
    (forall x, a <= x <= e -> solves_at o y x /\ margin o (m / 2) (M + 1) x (y x) /\ ambipolar_from o (m / 2) (y x)) /\
    (e = c \/ ~ (margin o m M e (y e) /\ ambipolar_from o m (y e)) \/ a + INR n * (h / 2) <= e)).
  { induction n as [|n (y & e & He & Y0 & Y & D)].
    - destruct (H a p0 ltac:(lra) M0 Ac0 Am0) as (w & W0 & W). exists w, a. split; [lra|]. split; [exact W0|]. split; [|right; right; cbn [INR]; lra].
      intros x Hx. apply W; [lra|]. apply Rabs_def1; lra.
    - destruct D as [D|[D|D]].
      + exists y, e. repeat (split; [assumption|]). left. exact D.
      + exists y, e. repeat (split; [assumption|]). right. left. exact D.
      + destruct (Req_dec e c) as [Ec|Ec]; [exists y, e; repeat (split; [assumption|]); left; exact Ec|].
        destruct (Classical_Prop.classic (margin o m M e (y e) /\ ambipolar_from o m (y e))) as [(Me & Ae)|N];
          [|exists y, e; repeat (split; [assumption|]); right; left; exact N].
        destruct (Y e ltac:(lra)) as (Se & _).
        destruct (H e (y e) He Me (solves_accepted o m M y e Pm T Se Me) Ae) as (w & W0 & W).
        set (e' := Rmin c (e + h / 2)). assert (C1 : e' <= c) by apply Rmin_l. assert (C2 : e' <= e + h / 2) by apply Rmin_r. assert (C3 : e < e') by (apply Rmin_glb_lt; lra).
        assert (En : e' = c \/ a + INR (S n) * (h / 2) <= e').
        { destruct (Rle_dec c (e + h / 2)) as [L|L]; [left; unfold e'; apply Rmin_left, L|]. right.
          unfold e'. rewrite Rmin_right by lra. rewrite S_INR. lra. }
        destruct (Req_dec a e) as [Ea|Ea].
        { subst e. exists w, e'. split; [lra|]. split; [intros i Hl; rewrite W0 by exact Hl; apply Y0, Hl|]. split; [|tauto].
          intros x Hx. apply W; [lra|apply Rabs_def1; lra]. }
        (* both agree below e *)
        assert (Eq : forall x, a <= x <= e -> Rabs (x - e) < h -> forall i, (i < ODE_LEN)%nat -> w x i = y x i).
        { intros x Hx Hd i Hl. apply Rabs_def2 in Hd. apply (C122_determined o w y x e) with (s := e); [lra| | | |lra|exact W0|lra|exact Hl].
          - intros f F t Ht. apply (Hi f F). lra.
          - intros t Ht. destruct (W t ltac:(lra)) as (P & Q & _); [apply Rabs_def1; lra|]. split; [exact P|]. apply (margin_regular o (m / 2) (M + 1)); [lra|exact Q].
          - intros t Ht. destruct (Y t ltac:(lra)) as (P & Q & _). split; [exact P|]. apply (margin_regular o (m / 2) (M + 1)); [lra|exact Q]. }
        exists (fun x => if Rlt_dec x e then y x else w x), e'. split; [lra|]. split.
        { intros i Hl. destruct (Rlt_dec a e) as [L|L]; [apply Y0, Hl|]. assert (a = e) by lra. subst e. rewrite W0 by exact Hl. apply Y0, Hl. }
        split; [|tauto].
        intros x Hx. destruct (Rlt_dec x e) as [L|L].
        * destruct (Y x ltac:(lra)) as ((d & e0 & E & D') & Q). split; [|exact Q].
          exists d, e0. cbv beta. destruct (Rlt_dec x e); [|lra]. split; [exact E|]. intros i Hl.
          apply (dpl_ext_loc (fun t => y t i) _ x (d i) (e - x)); [lra| |apply D', Hl].
          intros t Ht. apply Rabs_def2 in Ht. destruct (Rlt_dec t e); [reflexivity|lra].
        * destruct (W x ltac:(lra)) as ((d & e0 & E & D') & Q); [apply Rabs_def1; lra|]. split; [|exact Q].
          exists d, e0. cbv beta. destruct (Rlt_dec x e); [lra|]. split; [exact E|]. intros i Hl.
          assert (Pk : 0 < Rmin h (e - a)) by (apply Rmin_pos; lra). assert (k1 : Rmin h (e - a) <= h) by apply Rmin_l. assert (k2 : Rmin h (e - a) <= e - a) by apply Rmin_r.
          apply (dpl_ext_loc (fun t => w t i) _ x (d i) (Rmin h (e - a))); [lra| |apply D', Hl].
          intros t Ht. apply Rabs_def2 in Ht. destruct (Rlt_dec t e); [|reflexivity]. apply Eq; [lra|apply Rabs_def1; lra|exact Hl]. }
  assert (Ar : exists n, c - a < INR n * (h / 2)).
  { destruct (archimed_cor1 (h / 2 / (c - a + 1))) as (n & Hn & Pn); [apply Rdiv_lt_0_compat; lra|]. exists n. assert (0 < INR n) by (apply lt_0_INR, Pn).
    apply (Rmult_lt_compat_r (INR n * (c - a + 1))) in Hn; [|apply Rmult_lt_0_compat; lra].
    replace (/ INR n * (INR n * (c - a + 1))) with (c - a + 1) in Hn by (field; lra).
    replace (h / 2 / (c - a + 1) * (INR n * (c - a + 1))) with (INR n * (h / 2)) in Hn by (field; lra). lra. }
  destruct Ar as (n & Hn). destruct (G n) as (y & e & He & Y0 & Y & D).
  exists y, e. repeat (split; [assumption|]). destruct D as [D|[D|D]]; [left; exact D|right; exact D|].
  lra.
Qed.
Print Assumptions C129_reaches.
(** Not empty: a state with the margin. *)
Example C129_reaches_nonvacuous : margin (o_int false) (1 / 4) 2 0 (y_int false 0) /\ accepted_from (o_int false) (1 / 4) (y_int false 0) /\
  ambipolar_from (o_int false) (1 / 4) (y_int false 0) /\ interpolant_continuous (o_int false) 0 1 /\ oa_with_taylor (o_int false) = false.
Proof.
  assert (Mg : margin (o_int false) (1 / 4) 2 0 (y_int false 0)).
  { pose proof (z_err_margin 0 0 ltac:(lra) ltac:(lra)) as Mg. unfold margin in *. unfold y_int, z_err, state in *.
    cbn [iB_r iB_φ iB_θ iv_θ iρ iη_O iη_A] in *. destruct Mg as (A1 & A2 & A3 & A4 & A5 & A6 & A7 & A8). repeat (split; [assumption|]).
    intros i Hl. specialize (A8 i Hl). do 10 (destruct i as [|i]; [exact A8|]). destruct i; [rewrite Rmult_0_l in A8; exact A8|unfold ODE_LEN in Hl; lia]. }
  split; [exact Mg|]. split; [|split; [right; left; reflexivity|split; [|reflexivity]]].
  - apply (solves_accepted _ _ 2 (y_int false) 0); [lra|reflexivity| |exact Mg]. apply y_int_solves_at, cos_gt_0; pose proof PI2_1; lra.
  - intros f Ef x _. inversion Ef. apply continuity_pt_const. intros u v. reflexivity.
Qed.
