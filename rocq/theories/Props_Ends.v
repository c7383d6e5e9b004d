(** C129, last part: what a solution tends to where it ends is a singular state. *)
From Coq Require Import Reals Lra Lia.
From Verif Require Import Model_Index Model_Deriv Model_Ode Lib_Deriv Spec_Ode Spec_Unique Spec_Error Spec_Exist
  Proofs_Exist Witness_Ode Props_Unique Props_Error Props_Exist.
Open Scope R_scope.

(** A regular state with Ohmic diffusion has a margin. *)
Lemma has_margin : forall o x p, regular o x p -> 0 < p iη_O -> (0 < p iη_A \/ oa_η_derivs o = false \/ oa_init_con o iη_A = 0) ->
  exists m M, 0 < m /\ margin o m M x p /\ ambipolar_from o m p.
Proof.
  intros o x0 p0 (G1 & G2 & G3 & _ & G5 & _ & G7 & G8) PO Am.
  assert (Two : forall u v : R, 0 < u -> 0 < v -> exists w, 0 < w /\ w <= u /\ w <= v) by (intros u v Hu Hv; exists (Rmin u v); split; [apply Rmin_pos; assumption|split; [apply Rmin_l|apply Rmin_r]]).
  assert (Opt : forall (Q : Prop) u v, {Q} + {~ Q} -> 0 < u -> (Q -> 0 < v) -> exists w, 0 < w /\ w <= u /\ (Q -> w <= v)).
  { intros Q u v [Y|N] Hu Hv; [destruct (Two u v Hu (Hv Y)) as (w & W1 & W2 & W3); exists w; auto|exists u; split; [exact Hu|split; [lra|tauto]]]. }
  assert (PB : 0 < p0 iB_r ^ 2 + p0 iB_φ ^ 2 + p0 iB_θ ^ 2).
  { unfold B_nonzero in G2. pose proof (pow2_ge_0 (p0 iB_r)). pose proof (pow2_ge_0 (p0 iB_φ)). pose proof (pow2_ge_0 (p0 iB_θ)). lra. }
  destruct (Two _ _ (Rabs_pos_lt _ G1) PB) as (m1 & P1 & L1 & L2).
  destruct (Two _ _ P1 (Rabs_pos_lt _ G3)) as (m2 & P2 & L3 & L4). destruct (Two _ _ P2 PO) as (m3 & P3 & L5 & L6).
  destruct (Opt (oa_with_taylor o = false) m3 (Rabs (p0 iv_θ))) as (m4 & P4 & L7 & L8);
    [destruct (oa_with_taylor o); [right; discriminate|left; reflexivity]|exact P3|intros T; apply Rabs_pos_lt, G7, T|].
  destruct (Opt (oa_deriv_v_θ_func o = None) m4 (Rabs (1 - p0 iv_θ ^ 2))) as (m5 & P5 & L9 & L10);
    [destruct (oa_deriv_v_θ_func o); [right; discriminate|left; reflexivity]|exact P4|intros F; apply Rabs_pos_lt; specialize (G8 F); intros E; apply G8; lra|].
  assert (X7 : exists m7, 0 < m7 /\ m7 <= m5 /\ ambipolar_from o m7 p0).
  { destruct Am as [Am|Am]; [|exists m5; repeat split; [exact P5|lra|right; exact Am]].
    destruct (Two _ _ P5 Am) as (w & Pw & W1 & W2). exists w. repeat split; [exact Pw|exact W1|]. left. exact W2. }
  destruct X7 as (m & Pm & L12 & Am').
  set (M := sum_f_R0 (fun i => Rabs (p0 i)) (pred ODE_LEN)).
  assert (HM : forall i, (i < ODE_LEN)%nat -> Rabs (p0 i) <= M).
  { intros i Hl. unfold M, ODE_LEN in *. cbn [pred sum_f_R0].
    pose proof (Rabs_pos (p0 0%nat)). pose proof (Rabs_pos (p0 1%nat)). pose proof (Rabs_pos (p0 2%nat)). pose proof (Rabs_pos (p0 3%nat)).
    pose proof (Rabs_pos (p0 4%nat)). pose proof (Rabs_pos (p0 5%nat)). pose proof (Rabs_pos (p0 6%nat)). pose proof (Rabs_pos (p0 7%nat)).
    pose proof (Rabs_pos (p0 8%nat)). pose proof (Rabs_pos (p0 9%nat)). pose proof (Rabs_pos (p0 10%nat)).
    do 11 (destruct i as [|i]; [lra|]). lia. }
  exists m, M. split; [exact Pm|]. split; [|exact Am'].
  unfold margin. split; [lra|]. split; [lra|]. split; [lra|]. split; [lra|]. split; [exact G5|].
  split; [intros T; specialize (L8 T); lra|]. split; [intros F; specialize (L10 F); lra|exact HM].
Qed.

(** Outside the Taylor region: if every quantity has a limit at the angle where the solution ends, and the limit is not singular and
    has Ohmic diffusion (and ambipolar diffusion, if that can change), the solution does not end there. *)
Theorem C129_ends : forall o a b c y p, a < b -> b < c -> interpolant_continuous o a c -> oa_with_taylor o = false ->
  (forall x, a <= x < b -> solves_at o y x /\ regular o x (y x)) ->
  (forall i, (i < ODE_LEN)%nat -> forall e, 0 < e -> exists d, 0 < d /\ forall x, b - d < x < b -> Rabs (y x i - p i) < e) ->
  regular o b p -> 0 < p iη_O -> (0 < p iη_A \/ oa_η_derivs o = false \/ oa_init_con o iη_A = 0) ->
  exists b' z, b < b' <= c /\ (forall x, a <= x < b -> forall i, (i < ODE_LEN)%nat -> z x i = y x i) /\
    (forall i, (i < ODE_LEN)%nat -> z b i = p i) /\ forall x, a <= x < b' -> solves_at o z x /\ regular o x (z x).
Proof.
  intros o a b c y p Hab Hbc Hi T Hy Hl Hr PO Am.
  destruct (has_margin o b p Hr PO Am) as (m & M & Pm & Mg & Ap). destruct (box_pos m M Pm) as (R1 & _ & R3).
  assert (V : forall k, (k <= ODE_LEN)%nat -> exists d, 0 < d /\ forall t, b - d < t < b -> forall j, (j < k)%nat -> Rabs (y t j - p j) <= box_size m M).
  { induction k as [|k IH]; intros Hk; [exists 1; split; [lra|intros; lia]|]. destruct IH as (d & Pd & Hd); [lia|].
    destruct (Hl k Hk (box_size m M) ltac:(lra)) as (d' & Pd' & Hd'). exists (Rmin d d'). split; [apply Rmin_pos; assumption|].
    intros t Ht j Hj. pose proof (Rmin_l d d'). pose proof (Rmin_r d d').
    destruct (Nat.eq_dec j k) as [-> |Ne]; [apply Rlt_le, Hd'; lra|apply Hd; [lra|lia]]. }
  destruct (V ODE_LEN (le_n _)) as (d & Pd & Hd). clear V.
  set (w := m / 2 / (Rabs (oa_θ_scale o) + 1)). assert (Ps := Rabs_pos (oa_θ_scale o)). assert (Pw : 0 < w) by (apply Rdiv_lt_0_compat; lra).
  assert (Ws : forall t, Rabs (t - b) <= w -> Rabs (t - b) * Rabs (oa_θ_scale o) <= m / 2).
  { intros t Ht. apply Rle_trans with (w * (Rabs (oa_θ_scale o) + 1)); [apply Rmult_le_compat; try apply Rabs_pos; lra|]. unfold w. apply Req_le. field. lra. }
  set (a' := Rmax ((a + b) / 2) (Rmax (b - d / 2) (b - w))).
  assert (A1 : (a + b) / 2 <= a') by apply Rmax_l. assert (A2 : b - d / 2 <= a') by (eapply Rle_trans; [apply Rmax_l|apply Rmax_r]).
  assert (A3 : b - w <= a') by (eapply Rle_trans; [apply Rmax_r|apply Rmax_r]). assert (A4 : a' < b) by (repeat apply Rmax_lub_lt; lra). clearbody a'.
  destruct (C129_continues o a' b c (m / 2) (M + 1) y) as (b' & z & B & Z1 & Z2); [lra|lra|lra| |exact T| |].
  - intros f F x Hx. apply (Hi f F). lra.
  - intros x Hx. destruct (Hy x ltac:(lra)) as (S1 & S2). split; [exact S1|]. assert (Dx := Hd x ltac:(lra)). split.
    + apply (margin_around o m M b p); [exact Pm|exact Mg|apply Ws, Rabs_le; lra|exact Dx|apply S2].
    + destruct Ap as [Ap|Ap]; [left|right; exact Ap]. specialize (Dx iη_A ltac:(unfold iη_A, ODE_LEN; lia)). apply Rabs_le_between in Dx. lra.
  - set (z' := fun x => if Rlt_dec x b then y x else z x).
    assert (Ez : forall x, a' <= x < b' -> forall i, (i < ODE_LEN)%nat -> z x i = z' x i).
    { intros x Hx i Hi'. unfold z'. destruct (Rlt_dec x b); [apply Z1; [lra|exact Hi']|reflexivity]. }
    assert (Sz : forall x, a <= x < b' -> solves_at o z' x /\ regular o x (z' x)).
    { intros x Hx. unfold z'. destruct (Rlt_dec x b) as [L|L].
      - destruct (Hy x ltac:(lra)) as ((d0 & e & E & D) & G). split; [|exact G]. exists d0, e. cbv beta. destruct (Rlt_dec x b); [|lra]. split; [exact E|].
        intros i Hi'. apply (dpl_ext_loc (fun t => y t i) _ x _ (b - x)); [lra| |exact (D i Hi')]. intros t Ht. apply Rabs_def2 in Ht. destruct (Rlt_dec t b); [reflexivity|lra].
      - destruct (Z2 x ltac:(lra)) as ((d0 & e & E & D) & G). split; [|exact G]. exists d0, e. cbv beta. destruct (Rlt_dec x b); [lra|]. split; [exact E|].
        intros i Hi'. apply (dpl_ext_loc (fun t => z t i) _ x _ (Rmin (x - a') (b' - x))); [apply Rmin_pos; lra| |exact (D i Hi')].
        intros t Ht. apply Rabs_def2 in Ht. pose proof (Rmin_l (x - a') (b' - x)). pose proof (Rmin_r (x - a') (b' - x)).
        destruct (Rlt_dec t b); [apply Z1; [lra|exact Hi']|reflexivity]. }
    exists b', z'. split; [exact B|]. split; [intros x Hx i _; unfold z'; destruct (Rlt_dec x b); [reflexivity|lra]|]. split; [|exact Sz].
    intros i Hi'. destruct (Sz b ltac:(lra)) as ((d0 & e & _ & D) & _).
    assert (Cb : continuity_pt (fun t => z' t i) b) by (apply derivable_continuous_pt; exists (d0 i); apply D, Hi').
    destruct (Req_dec (z' b i) (p i)) as [E|N]; [exact E|exfalso]. set (ε := Rabs (z' b i - p i) / 2). assert (Pε : 0 < ε) by (unfold ε; apply Rabs_pos_lt in N || idtac; assert (0 < Rabs (z' b i - p i)) by (apply Rabs_pos_lt; lra); lra).
    destruct (Cb ε Pε) as (α & Pα & Hα). destruct (Hl i Hi' ε Pε) as (δ & Pδ & Hδ).
    set (t := b - Rmin (α / 2) (δ / 2)). assert (0 < Rmin (α / 2) (δ / 2)) by (apply Rmin_pos; lra).
    pose proof (Rmin_l (α / 2) (δ / 2)). pose proof (Rmin_r (α / 2) (δ / 2)).
    specialize (Hδ t ltac:(unfold t; lra)).
    assert (Ht : dist R_met (z' t i) (z' b i) < ε).
    { apply Hα. split; [split; [exact I|unfold t; lra]|]. cbn. unfold R_dist, t. rewrite Rabs_left; lra. }
    cbn in Ht. unfold R_dist in Ht. assert (Ey : z' t i = y t i) by (unfold z'; destruct (Rlt_dec t b); [reflexivity|unfold t in *; lra]). rewrite Ey in Ht.
    assert (Rabs (z' b i - p i) < ε + ε); [|unfold ε in *; lra].
    replace (z' b i - p i) with (- (y t i - z' b i) + (y t i - p i)) by ring. eapply Rle_lt_trans; [apply Rabs_triang|]. rewrite Rabs_Ropp. lra.
Qed.
Print Assumptions C129_ends.

(** Not empty: a solution cut off at 1/2. *)
Example C129_ends_nonvacuous : exists b' z, 1 / 2 < b' <= 1 /\
  (forall x, 0 <= x < 1 / 2 -> forall i, (i < ODE_LEN)%nat -> z x i = y_int false x i) /\
  (forall i, (i < ODE_LEN)%nat -> z (1 / 2) i = y_int false (1 / 2) i) /\ forall x, 0 <= x < b' -> solves_at (o_int false) z x /\ regular (o_int false) x (z x).
Proof.
  assert (Mg : forall x, 0 <= x <= 1 / 2 -> margin (o_int false) (1 / 4) 2 x (y_int false x)).
  { intros x Hx. pose proof (z_err_margin 0 x ltac:(lra) ltac:(lra)) as Mg. unfold margin in *. unfold y_int, z_err, state in *.
    cbn [iB_r iB_φ iB_θ iv_θ iρ iη_O iη_A] in *. destruct Mg as (A1 & A2 & A3 & A4 & A5 & A6 & A7 & A8). repeat (split; [assumption|]).
    intros i Hl. specialize (A8 i Hl). do 10 (destruct i as [|i]; [exact A8|]). destruct i; [rewrite Rmult_0_l in A8; exact A8|unfold ODE_LEN in Hl; lia]. }
  assert (Sv : forall x, 0 <= x <= 1 / 2 -> solves_at (o_int false) (y_int false) x) by (intros x Hx; apply y_int_solves_at, cos_gt_0; pose proof PI2_1; lra).
  apply (C129_ends (o_int false) 0 (1 / 2) 1); [lra|lra| |reflexivity| | | | |right; left; reflexivity].
  - intros f Ef x _. inversion Ef. apply continuity_pt_const. intros u v. reflexivity.
  - intros x Hx. split; [apply Sv; lra|]. apply (margin_regular _ (1 / 4) 2); [lra|apply Mg; lra].
  - intros i Hi e Pe. destruct (Sv (1 / 2) ltac:(lra)) as (d0 & e0 & _ & D).
    assert (Cb : continuity_pt (fun t => y_int false t i) (1 / 2)) by (apply derivable_continuous_pt; exists (d0 i); apply D, Hi).
    destruct (Cb e Pe) as (α & Pα & Hα). exists α. split; [exact Pα|]. intros x Hx. apply (Hα x). split; [split; [exact I|lra]|]. cbn. unfold R_dist. rewrite Rabs_left; lra.
  - apply (margin_regular _ (1 / 4) 2); [lra|apply Mg; lra].
  - destruct (Mg (1 / 2) ltac:(lra)) as (_ & _ & _ & H & _). lra.
Qed.
