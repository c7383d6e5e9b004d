(** C133: how the gas passes the sound speed. *)
From Coq Require Import Reals Lra Lia.
From Verif Require Import Model_Index Model_Deriv Model_Ode Lib_Deriv Spec_MHD Spec_Ode Spec_Unique Spec_Error Spec_Exist Spec_Transonic
  Proofs_Ode Proofs_Symmetry Proofs_Unique Proofs_Exist Witness_Ode Props_Exist.
Open Scope R_scope.

(** ** The law *)
Lemma drive_law : forall o x p, oa_deriv_v_θ_func o = None -> p iv_θ ^ 2 <> 1 ->
  (1 - p iv_θ ^ 2) * fst (rhs_derivs o (x * oa_θ_scale o) p) iv_θ = polar_drive o x p.
Proof.
  intros o x p F N. rewrite rhs_v_θ_any, F. unfold polar_drive.
  generalize (fst (rhs_derivs o (x * oa_θ_scale o) p) iB_r). generalize (fst (rhs_derivs o (x * oa_θ_scale o) p) iB_φ). intros u v.
  unfold deriv_v_θ_expr. set (q := oa_a_0 o / p iρ). clearbody q. field. split; intros E; apply N; nra.
Qed.

Lemma mvt_open : forall f df a b, a < b -> (forall c, a < c < b -> derivable_pt_lim f c (df c)) -> (forall c, a <= c <= b -> continuity_pt f c) ->
  exists c, a < c < b /\ f b - f a = df c * (b - a).
Proof.
  intros f df a b Hab D C.
  assert (pr1 : forall c, a < c < b -> derivable_pt f c) by (intros c Hc; exists (df c); apply D, Hc).
  assert (pr2 : forall c, a < c < b -> derivable_pt id c) by (intros c Hc; apply derivable_pt_id).
  destruct (MVT f id a b pr1 pr2 Hab C) as (c & P & E); [intros c Hc; apply derivable_continuous_pt, derivable_pt_id|].
  exists c. split; [exact P|]. unfold id in E at 1 2. rewrite (derive_pt_eq_0 f c (df c) (pr1 c P) (D c P)) in E.
  rewrite (derive_pt_eq_0 id c 1 (pr2 c P) (derivable_pt_lim_id c)) in E. lra.
Qed.
Lemma near_value : forall f c ε, continuity_pt f c -> 0 < ε -> exists δ, 0 < δ /\ forall x, Rabs (x - c) < δ -> Rabs (f x - f c) < ε.
Proof.
  intros f c ε C Pε. destruct (C ε Pε) as (k & Pk & Hk). exists k. split; [exact Pk|]. intros x Hx.
  destruct (Req_dec x c) as [->|N]; [rewrite Rminus_diag_eq, Rabs_R0 by reflexivity; exact Pε|].
  specialize (Hk x). unfold D_x, no_cond in Hk. cbn [dist R_met Base] in Hk. unfold R_dist in Hk. apply Hk.
  split; [split; [exact I|intros E; apply N; symmetry; exact E]|exact Hx].
Qed.

(** What drives the gas is continuous at the sonic point. *)
Lemma drive_continuous : forall o y c, oa_with_taylor o = false -> sonic_at o y c -> continuity_pt (fun x => polar_drive o x (y x)) c.
Proof.
  intros o y c T (V & Hc & Hb & Hr & HO & HA & Cy).
  set (o' := mk_ode_args (oa_γ o) (oa_a_0 o) (oa_norm_kepler_sq o) (oa_init_con o) (oa_θ_scale o) (oa_with_taylor o) (oa_η_derivs o) (oa_store_internal o)
    (oa_use_E_r o) (Some (fun _ => 0)) (oa_derivs_post_solution o)).
  assert (Er : forall x p, fst (rhs_derivs o (x * oa_θ_scale o) p) iB_r = fst (rhs_derivs o' (x * oa_θ_scale o') p) iB_r) by (intros; unfold rhs_derivs, o'; cbn [oa_use_E_r]; destruct (oa_use_E_r o); reflexivity).
  assert (Ef : forall x p, fst (rhs_derivs o (x * oa_θ_scale o) p) iB_φ = fst (rhs_derivs o' (x * oa_θ_scale o') p) iB_φ) by (intros; unfold rhs_derivs, o'; cbn [oa_use_E_r]; destruct (oa_use_E_r o); reflexivity).
  assert (Mg : exists m M, 0 < m /\ margin o' m M c (y c)).
  { assert (P1 : 0 < Rabs (cos (c * oa_θ_scale o))) by (apply Rabs_pos_lt, Hc). assert (P2 : 0 < Rabs (y c iρ)) by (apply Rabs_pos_lt, Hr).
    assert (B : forall n, exists M, forall i, (i < n)%nat -> Rabs (y c i) <= M).
    { induction n as [|n (M & HM)]; [exists 0; intros; lia|]. exists (Rmax M (Rabs (y c n))). intros i Hl.
      destruct (PeanoNat.Nat.eq_dec i n) as [->|]; [apply Rmax_r|]. eapply Rle_trans; [apply HM; lia|apply Rmax_l]. }
    destruct (B ODE_LEN) as (M & HM). set (b := y c iB_r ^ 2 + y c iB_φ ^ 2 + y c iB_θ ^ 2) in *.
    exists (Rmin 1 (Rmin (Rabs (cos (c * oa_θ_scale o))) (Rmin (Rabs (y c iρ)) (Rmin b (y c iη_O))))), M.
    set (m := Rmin 1 _). assert (m1 : m <= 1) by apply Rmin_l.
    assert (m2 : m <= Rabs (cos (c * oa_θ_scale o))) by (eapply Rle_trans; [apply Rmin_r|apply Rmin_l]).
    assert (m3 : m <= Rabs (y c iρ)) by (eapply Rle_trans; [apply Rmin_r|]; eapply Rle_trans; [apply Rmin_r|apply Rmin_l]).
    assert (m4 : m <= b) by (do 3 (eapply Rle_trans; [apply Rmin_r|]); apply Rmin_l).
    assert (m5 : m <= y c iη_O) by (do 3 (eapply Rle_trans; [apply Rmin_r|]); apply Rmin_r).
    split; [unfold m; repeat apply Rmin_pos; try assumption; lra|].
    split; [exact m2|]. split; [exact m4|]. split; [exact m3|]. split; [exact m5|]. split; [exact HA|].
    split; [intros _; rewrite V, Rabs_R1; exact m1|]. split; [intros E; discriminate E|exact HM]. }
  destruct Mg as (m & M & Pm & Mg).
  assert (S : forall i, (i < ODE_LEN)%nat -> continuity_pt (fun x => fst (rhs_derivs o' (x * oa_θ_scale o') (y x)) i) c).
  { intros i Hl. apply (slopes_continuous o' m M (fun x => x) y c Pm (derivable_continuous_pt _ _ (derivable_pt_id c)) Cy Mg); [|exact Hl].
    intros f Ef'. injection Ef' as <-. apply cp_const. }
  assert (Sr : continuity_pt (fun x => fst (rhs_derivs o (x * oa_θ_scale o) (y x)) iB_r) c).
  { replace (fun x => fst (rhs_derivs o (x * oa_θ_scale o) (y x)) iB_r) with (fun x => fst (rhs_derivs o' (x * oa_θ_scale o') (y x)) iB_r); [apply S; unfold iB_r, ODE_LEN; lia|].
    apply FunctionalExtensionality.functional_extensionality. intros x. symmetry. apply Er. }
  assert (Sf : continuity_pt (fun x => fst (rhs_derivs o (x * oa_θ_scale o) (y x)) iB_φ) c).
  { replace (fun x => fst (rhs_derivs o (x * oa_θ_scale o) (y x)) iB_φ) with (fun x => fst (rhs_derivs o' (x * oa_θ_scale o') (y x)) iB_φ); [apply S; unfold iB_φ, ODE_LEN; lia|].
    apply FunctionalExtensionality.functional_extensionality. intros x. symmetry. apply Ef. }
  assert (Cx : continuity_pt (fun x => x * oa_θ_scale o) c) by (repeat cc; apply derivable_continuous_pt, derivable_pt_id).
  assert (Ct : continuity_pt (fun x => tan (x * oa_θ_scale o)) c).
  { apply (continuity_pt_div (fun x => sin (x * oa_θ_scale o)) (fun x => cos (x * oa_θ_scale o))); [| |exact Hc].
    - apply (continuity_pt_comp (fun x => x * oa_θ_scale o) sin); [exact Cx|]. apply derivable_continuous_pt, derivable_pt_sin.
    - apply (continuity_pt_comp (fun x => x * oa_θ_scale o) cos); [exact Cx|]. apply derivable_continuous_pt, derivable_pt_cos. }
  pose proof (Cy iB_r ltac:(unfold iB_r, ODE_LEN; lia)). pose proof (Cy iB_φ ltac:(unfold iB_φ, ODE_LEN; lia)). pose proof (Cy iB_θ ltac:(unfold iB_θ, ODE_LEN; lia)).
  pose proof (Cy iv_r ltac:(unfold iv_r, ODE_LEN; lia)). pose proof (Cy iv_φ ltac:(unfold iv_φ, ODE_LEN; lia)). pose proof (Cy iv_θ ltac:(unfold iv_θ, ODE_LEN; lia)).
  pose proof (Cy iρ ltac:(unfold iρ, ODE_LEN; lia)). unfold polar_drive. cbv zeta. repeat cc; [lra|exact Hr].
Qed.

(** ** Before the sonic point *)
(** As long as the gas is subsonic, what drives it does work: it speeds up from v1 to v2 over an angle bounded by the drive. *)
Theorem C133_work : forall o y x1 x2, oa_deriv_v_θ_func o = None -> x1 < x2 ->
  (forall x, x1 <= x <= x2 -> polar_motion o y x /\ y x iv_θ ^ 2 < 1) ->
  (forall D, (forall x, x1 <= x <= x2 -> polar_drive o x (y x) <= D) -> sonic_work (y x2 iv_θ) - sonic_work (y x1 iv_θ) <= D * (x2 - x1)) /\
  (forall d, (forall x, x1 <= x <= x2 -> d <= polar_drive o x (y x)) -> d * (x2 - x1) <= sonic_work (y x2 iv_θ) - sonic_work (y x1 iv_θ)).
Proof.
  intros o y x1 x2 F H12 H.
  assert (G : forall c, x1 <= c <= x2 -> derivable_pt_lim (fun x => sonic_work (y x iv_θ)) c ((1 - y c iv_θ ^ 2) * fst (rhs_derivs o (c * oa_θ_scale o) (y c)) iv_θ)).
  { intros c Hc. destruct (H c Hc) as (D & _). unfold polar_motion in D. revert D. generalize (fst (rhs_derivs o (c * oa_θ_scale o) (y c)) iv_θ). intros s D. unfold sonic_work.
    eapply dpl_eq; [apply (dpl_minus (fun x => y x iv_θ) (fun x => y x iv_θ ^ 3 / 3)); [exact D|apply (dpl_div (fun x => y x iv_θ ^ 3) (fun _ => 3)); [lra|apply dpl_pow; exact D|apply dpl_const]]|].
    unfold Rsqr. cbn [INR pred]. field. }
  destruct (mvt_open (fun x => sonic_work (y x iv_θ)) (fun x => (1 - y x iv_θ ^ 2) * fst (rhs_derivs o (x * oa_θ_scale o) (y x)) iv_θ) x1 x2 H12) as (c & Hc & E).
  - intros c Hc. apply G. lra.
  - intros c Hc. pose proof (G c Hc) as Gc. apply derivable_continuous_pt. eexists. exact Gc.
  - cbv beta in E. destruct (H c ltac:(lra)) as (_ & V). rewrite drive_law in E by (try exact F; lra). rewrite E.
    split; [intros D HD|intros d Hd]; apply Rmult_le_compat_r; try lra; [apply HD|apply Hd]; lra.
Qed.
Print Assumptions C133_work.
(** So the gas stays below the speed of sound for some angle, and a drive that does not fade lets it stay below for a bounded angle
    only. *)
Corollary C133_distance : forall o y x1 x2 d D, oa_deriv_v_θ_func o = None -> x1 < x2 -> 0 < d ->
  (forall x, x1 <= x <= x2 -> polar_motion o y x /\ 0 < y x iv_θ < 1 /\ d <= polar_drive o x (y x) <= D) ->
  x2 - x1 < (2 / 3 - sonic_work (y x1 iv_θ)) / d /\ (sonic_work (y x2 iv_θ) - sonic_work (y x1 iv_θ)) / D <= x2 - x1.
Proof.
  intros o y x1 x2 d D F H12 Pd H.
  destruct (C133_work o y x1 x2 F H12) as (U & L).
  { intros x Hx. destruct (H x Hx) as (A & B & _). split; [exact A|nra]. }
  specialize (L d ltac:(intros x Hx; apply H, Hx)). specialize (U D ltac:(intros x Hx; apply H, Hx)).
  assert (HD : 0 < D) by (destruct (H x1 ltac:(lra)) as (_ & _ & A); lra).
  destruct (H x2 ltac:(lra)) as (_ & V & _). assert (W : sonic_work (y x2 iv_θ) < 2 / 3).
  { unfold sonic_work. generalize dependent (y x2 iv_θ). intros v _ _ V. assert (0 < (1 - v) ^ 2 * (v + 2)) by (apply Rmult_lt_0_compat; [apply pow_lt; lra|lra]). nra. }
  split.
  - apply (Rmult_lt_reg_r d); [exact Pd|]. unfold Rdiv. rewrite Rmult_assoc, Rinv_l by lra. lra.
  - apply (Rmult_le_reg_r D); [exact HD|]. unfold Rdiv. rewrite Rmult_assoc, Rinv_l by lra. lra.
Qed.
Print Assumptions C133_distance.

(** ** At the sonic point *)
Section At.
Variables (o : ode_args) (y : R -> vec) (c : R).
Hypothesis F : oa_deriv_v_θ_func o = None.
Hypothesis T : oa_with_taylor o = false.
Hypothesis Sn : sonic_at o y c.
Let v (x : R) := y x iv_θ.
Let g (x : R) := polar_drive o x (y x).
Let s (x : R) := fst (rhs_derivs o (x * oa_θ_scale o) (y x)) iv_θ.
Lemma g_near : forall ε, 0 < ε -> exists δ, 0 < δ /\ forall x, Rabs (x - c) < δ -> Rabs (g x - g c) < ε.
Proof. intros ε Pε. apply near_value; [apply (drive_continuous o y c T Sn)|exact Pε]. Qed.
Lemma v_sonic : v c = 1. Proof. apply Sn. Qed.
Lemma v_cont : continuity_pt v c. Proof. destruct Sn as (_ & _ & _ & _ & _ & _ & C). apply C. unfold iv_θ, ODE_LEN. lia. Qed.
Lemma law : forall x, v x ^ 2 <> 1 -> (1 - v x ^ 2) * s x = g x.
Proof. intros x N. apply drive_law; assumption. Qed.

Lemma reach : forall a, a < c -> (forall x, a <= x < c -> polar_motion o y x /\ -1 < v x < 1) -> 0 <= g c.
Proof.
  intros a Hac H. destruct (Rle_dec 0 (g c)) as [L|L]; [exact L|exfalso].
  destruct (g_near (- g c) ltac:(lra)) as (δ & Pδ & N). set (x := Rmax a (c - δ / 2)).
  assert (x0 : a <= x) by apply Rmax_l. assert (x1 : c - δ / 2 <= x) by apply Rmax_r. assert (x2 : x < c) by (apply Rmax_lub_lt; lra).
  destruct (mvt_open v s x c x2) as (t & Ht & E).
  - intros t Ht. apply H. lra.
  - intros t Ht. destruct (Req_dec t c) as [->|]; [exact v_cont|]. destruct (H t ltac:(lra)) as (D & _). apply derivable_continuous_pt. exists (s t). exact D.
  - rewrite v_sonic in E. destruct (H x ltac:(lra)) as (_ & Vx). destruct (H t ltac:(lra)) as (_ & Vt).
    specialize (N t ltac:(apply Rabs_def1; lra)). apply Rabs_def2 in N. pose proof (law t ltac:(nra)) as Lw.
    assert (0 < 1 - v t ^ 2) by nra. assert (s t < 0) by (apply (Rmult_lt_reg_l (1 - v t ^ 2)); [assumption|]; lra).
    assert (s t * (c - x) < 0) by nra. lra.
Qed.
Lemma leave : forall b, c < b -> (forall x, c < x <= b -> polar_motion o y x /\ 1 < v x) -> g c <= 0.
Proof.
  intros b Hcb H. destruct (Rle_dec (g c) 0) as [L|L]; [exact L|exfalso].
  destruct (g_near (g c) ltac:(lra)) as (δ & Pδ & N). set (x := Rmin b (c + δ / 2)).
  assert (x0 : x <= b) by apply Rmin_l. assert (x1 : x <= c + δ / 2) by apply Rmin_r. assert (x2 : c < x) by (apply Rmin_glb_lt; lra).
  destruct (mvt_open v s c x x2) as (t & Ht & E).
  - intros t Ht. apply H. lra.
  - intros t Ht. destruct (Req_dec t c) as [->|]; [exact v_cont|]. destruct (H t ltac:(lra)) as (D & _). apply derivable_continuous_pt. exists (s t). exact D.
  - rewrite v_sonic in E. destruct (H x ltac:(lra)) as (_ & Vx). destruct (H t ltac:(lra)) as (_ & Vt).
    specialize (N t ltac:(apply Rabs_def1; lra)). apply Rabs_def2 in N. pose proof (law t ltac:(nra)) as Lw.
    assert (1 - v t ^ 2 < 0) by nra. assert (s t < 0) by nra. assert (s t * (x - c) < 0) by nra. lra.
Qed.
Lemma steep : forall a, (forall x, a <= x < c -> -1 < v x < 1) -> 0 < g c ->
  forall K, exists ε, 0 < ε /\ forall x, a <= x -> c - ε < x < c -> K < s x.
Proof.
  intros a H Pg K. set (k := Rabs K + 1). assert (Pk : 0 < k) by (unfold k; pose proof (Rabs_pos K); lra).
  assert (Kk : K < k) by (unfold k; pose proof (Rle_abs K); lra).
  destruct (g_near (g c / 2) ltac:(lra)) as (δ & Pδ & N).
  assert (Cq : continuity_pt (fun x => 1 - v x ^ 2) c) by (pose proof v_cont; repeat cc).
  destruct (near_value (fun x => 1 - v x ^ 2) c (g c / 2 / k) Cq) as (η & Pη & Q); [apply Rdiv_lt_0_compat; lra|].
  exists (Rmin δ η). split; [apply Rmin_pos; assumption|]. intros x Hx Hc. assert (Rmin δ η <= δ) by apply Rmin_l. assert (Rmin δ η <= η) by apply Rmin_r.
  specialize (N x ltac:(apply Rabs_def1; lra)). specialize (Q x ltac:(apply Rabs_def1; lra)). rewrite v_sonic in Q. apply Rabs_def2 in N. apply Rabs_def2 in Q.
  specialize (H x ltac:(lra)). pose proof (law x ltac:(nra)) as Lw. assert (P : 0 < 1 - v x ^ 2) by nra.
  assert (Z : (1 - v x ^ 2) * k < g c / 2).
  { replace (g c / 2) with (g c / 2 / k * k) by (field; lra). apply Rmult_lt_compat_r; [exact Pk|]. lra. }
  apply Rlt_trans with k; [exact Kk|]. apply (Rmult_lt_reg_l (1 - v x ^ 2)); [exact P|]. lra.
Qed.
End At.

(** Gas can come up to the speed of sound only where the drive is not negative. Where it is positive the gas is accelerated without
    bound, so gas whose acceleration stays bounded reaches the speed of sound exactly where the drive vanishes. *)
Theorem C133_reach : forall o y a c, oa_deriv_v_θ_func o = None -> oa_with_taylor o = false -> a < c -> sonic_at o y c ->
  (forall x, a <= x < c -> polar_motion o y x /\ -1 < y x iv_θ < 1) ->
  0 <= polar_drive o c (y c) /\
  (0 < polar_drive o c (y c) -> forall K, exists ε, 0 < ε /\ forall x w, a <= x -> c - ε < x < c -> derivable_pt_lim (fun t => y t iv_θ) x w -> K < w) /\
  ((exists K, forall x w, a <= x < c -> derivable_pt_lim (fun t => y t iv_θ) x w -> w <= K) -> polar_drive o c (y c) = 0).
Proof.
  intros o y a c F T Hac Sn H.
  assert (P0 : 0 <= polar_drive o c (y c)) by (apply (reach o y c F T Sn a Hac H)).
  assert (P1 : 0 < polar_drive o c (y c) -> forall K, exists ε, 0 < ε /\ forall x w, a <= x -> c - ε < x < c -> derivable_pt_lim (fun t => y t iv_θ) x w -> K < w).
  { intros Pg K. destruct (steep o y c F T Sn a ltac:(intros x Hx; apply H, Hx) Pg K) as (ε & Pε & S). exists ε. split; [exact Pε|].
    intros x w Hx Hc D. destruct (H x ltac:(lra)) as (D' & _). rewrite (uniqueness_limite _ _ _ _ D D'). apply S; assumption. }
  split; [exact P0|]. split; [exact P1|]. intros (K & HK). destruct (Rle_lt_or_eq_dec _ _ P0) as [L|L]; [exfalso|symmetry; exact L].
  destruct (P1 L K) as (ε & Pε & S). set (x := Rmax a (c - ε / 2)).
  assert (x0 : a <= x) by apply Rmax_l. assert (x1 : c - ε / 2 <= x) by apply Rmax_r. assert (x2 : x < c) by (apply Rmax_lub_lt; lra).
  destruct (H x ltac:(lra)) as (D & _). specialize (S x _ x0 ltac:(lra) D). specialize (HK x _ ltac:(lra) D). lra.
Qed.
Print Assumptions C133_reach.
(** Gas that passes from below to above the speed of sound without a jump does so where the drive vanishes, whether its acceleration
    is bounded or not. This is the condition at the sonic point. *)
Theorem C133_transonic : forall o y a c b, oa_deriv_v_θ_func o = None -> oa_with_taylor o = false -> a < c < b -> sonic_at o y c ->
  (forall x, a <= x < c -> polar_motion o y x /\ -1 < y x iv_θ < 1) -> (forall x, c < x <= b -> polar_motion o y x /\ 1 < y x iv_θ) ->
  polar_drive o c (y c) = 0.
Proof.
  intros o y a c b F T Hc Sn H1 H2.
  pose proof (reach o y c F T Sn a ltac:(lra) H1) as A. pose proof (leave o y c F T Sn b ltac:(lra) H2) as B. lra.
Qed.
Print Assumptions C133_transonic.
(** If the drive has a rate of change k along the flow there, the drive does not rise (k <= 0) and the flow has no kink: it passes with
    the acceleration √(- k / 2). Of the two accelerations that the squared balance allows, this is the positive one. *)
Lemma work_rate : forall o y x, oa_deriv_v_θ_func o = None -> polar_motion o y x -> y x iv_θ ^ 2 <> 1 ->
  derivable_pt_lim (fun x => sonic_work (y x iv_θ)) x (polar_drive o x (y x)).
Proof.
  intros o y x F D N. rewrite <- (drive_law o x (y x) F N). unfold polar_motion in D. revert D. generalize (fst (rhs_derivs o (x * oa_θ_scale o) (y x)) iv_θ). intros s D. unfold sonic_work.
  eapply dpl_eq; [apply (dpl_minus (fun x => y x iv_θ) (fun x => y x iv_θ ^ 3 / 3)); [exact D|apply (dpl_div (fun x => y x iv_θ ^ 3) (fun _ => 3)); [lra|apply dpl_pow; exact D|apply dpl_const]]|].
  unfold Rsqr. cbn [INR pred]. field.
Qed.
Lemma Rabs_le_inv : forall x a, Rabs x <= a -> - a <= x <= a.
Proof. intros x a. unfold Rabs. destruct (Rcase_abs x); lra. Qed.
Lemma root_near : forall σ ε q w, 0 <= σ -> 0 < ε -> 0 <= q -> Rabs (q ^ 2 * w - σ ^ 2) <= ε ^ 2 / 4 -> Rabs (w - 1) * (σ + ε) ^ 2 <= ε ^ 2 / 4 -> Rabs (w - 1) < 1 -> Rabs (q - σ) < ε.
Proof.
  intros σ ε q w Ps Pe Pq H Hw H1. assert (Hw' : - (ε ^ 2 / 4) <= (w - 1) * (σ + ε) ^ 2 <= ε ^ 2 / 4).
  { assert (Rabs ((w - 1) * (σ + ε) ^ 2) <= ε ^ 2 / 4) by (rewrite Rabs_mult, (Rabs_right ((σ + ε) ^ 2)); [exact Hw|apply Rle_ge, pow2_ge_0]). apply Rabs_le_inv. assumption. }
  apply Rabs_le_inv in H. apply Rabs_def2 in H1. apply Rabs_def1; apply Rnot_le_lt; intros C.
  - assert (A : (σ + ε) ^ 2 <= q ^ 2) by (apply pow_incr; lra). assert (B : (σ + ε) ^ 2 * w <= q ^ 2 * w) by (apply Rmult_le_compat_r; lra). nra.
  - assert (A : q ^ 2 <= (σ - ε) ^ 2) by (apply pow_incr; lra). assert (B : q ^ 2 * w <= (σ - ε) ^ 2 * w) by (apply Rmult_le_compat_r; lra).
    assert (D : (σ - ε) ^ 2 <= (σ + ε) ^ 2) by nra.
    assert (G : (w - 1) * (σ - ε) ^ 2 <= ε ^ 2 / 4).
    { destruct (Rle_dec 0 (w - 1)) as [L|L]; [|pose proof (pow2_ge_0 (σ - ε)); nra]. apply Rle_trans with ((w - 1) * (σ + ε) ^ 2); [apply Rmult_le_compat_l; assumption|lra]. }
    nra.
Qed.
Theorem C133_slope : forall o y a c b k, oa_deriv_v_θ_func o = None -> oa_with_taylor o = false -> a < c < b -> sonic_at o y c ->
  (forall x, a <= x < c -> polar_motion o y x /\ -1 < y x iv_θ < 1) -> (forall x, c < x <= b -> polar_motion o y x /\ 1 < y x iv_θ) ->
  derivable_pt_lim (fun x => polar_drive o x (y x)) c k ->
  k <= 0 /\ derivable_pt_lim (fun x => y x iv_θ) c (sqrt (- k / 2)).
Proof.
  intros o y a c b k F T Hc Sn H1 H2 Dg. pose proof (C133_transonic o y a c b F T Hc Sn H1 H2) as G0.
  assert (Vc : y c iv_θ = 1) by apply Sn. assert (Cv : continuity_pt (fun x => y x iv_θ) c) by (apply (v_cont o y c Sn)).
  set (v := fun x => y x iv_θ) in *. set (g := fun x => polar_drive o x (y x)) in *. change (v c = 1) in Vc. change (g c = 0) in G0.
  assert (Dw : forall x, a <= x <= b -> x <> c -> derivable_pt_lim (fun x => sonic_work (v x)) x (g x)).
  { intros x Hx N. destruct (Rle_or_lt c x) as [L|L].
    - destruct (H2 x ltac:(lra)) as (D & V). apply (work_rate o y x F D). nra.
    - destruct (H1 x ltac:(lra)) as (D & V). apply (work_rate o y x F D). nra. }
  set (P := fun x => sonic_work (v x) - k / 2 * ((x - c) * (x - c))).
  assert (Dp : forall x, a <= x <= b -> x <> c -> derivable_pt_lim P x (g x - k * (x - c))).
  { intros x Hx N. eapply dpl_eq; [apply (dpl_minus (fun x => sonic_work (v x)) (fun x => k / 2 * ((x - c) * (x - c))));
      [apply Dw; assumption|apply (dpl_mult (fun _ => k / 2) (fun x => (x - c) * (x - c))); [apply dpl_const|apply (dpl_mult (fun x => x - c) (fun x => x - c)); apply (dpl_minus (fun x => x) (fun _ => c)); (apply dpl_id || apply dpl_const)]]|]. field. }
  assert (Cp : forall x, a <= x <= b -> continuity_pt P x).
  { intros x Hx. destruct (Req_dec x c) as [-> |N].
    - apply (continuity_pt_minus (fun x => sonic_work (v x)) (fun x => k / 2 * ((x - c) * (x - c)))); [|reg].
      apply (continuity_pt_comp v sonic_work); [exact Cv|]. unfold sonic_work. reg.
    - pose proof (Dp x Hx N) as D. apply derivable_continuous_pt. eexists. exact D. }
  assert (Pc : P c = 2 / 3) by (unfold P, sonic_work; rewrite Vc; field).
  assert (Key : forall ε, 0 < ε -> exists δ, 0 < δ /\ forall x, a <= x <= b -> x <> c -> Rabs (x - c) < δ ->
    Rabs (((v x - 1) / (x - c)) ^ 2 * (1 + (v x - 1) / 3) - - k / 2) <= ε).
  { intros ε Pε. destruct (Dg ε Pε) as (δ & Hδ). exists δ. split; [apply cond_pos|]. intros x Hx N Lx.
    assert (Gt : forall t, t <> c -> Rabs (t - c) < δ -> Rabs (g t - k * (t - c)) <= ε * Rabs (t - c)).
    { intros t Nt Lt. specialize (Hδ (t - c) ltac:(lra) Lt). change (Rabs ((g (c + (t - c)) - g c) / (t - c) - k) < ε) in Hδ. rewrite G0 in Hδ. replace (c + (t - c)) with t in Hδ by ring.
      replace (g t - k * (t - c)) with (((g t - 0) / (t - c) - k) * (t - c)) by (field; lra). rewrite Rabs_mult. apply Rmult_le_compat_r; [apply Rabs_pos|lra]. }
    assert (E : exists t, t <> c /\ Rabs (t - c) <= Rabs (x - c) /\ P x - P c = (g t - k * (t - c)) * (x - c)).
    { destruct (Rlt_or_le c x) as [L|L].
      - destruct (mvt_open P (fun t => g t - k * (t - c)) c x L) as (t & Ht & E); [intros t Ht; apply Dp; lra|intros t Ht; apply Cp; lra|].
        exists t. split; [lra|]. split; [rewrite !Rabs_right; lra|exact E].
      - destruct (mvt_open P (fun t => g t - k * (t - c)) x c ltac:(lra)) as (t & Ht & E); [intros t Ht; apply Dp; lra|intros t Ht; apply Cp; lra|].
        exists t. split; [lra|]. split; [rewrite !Rabs_left; lra|lra]. }
    destruct E as (t & Nt & Lt & E). specialize (Gt t Nt ltac:(lra)). rewrite Pc in E.
    assert (W : P x - 2 / 3 = - (((v x - 1) / (x - c)) ^ 2 * (1 + (v x - 1) / 3) - - k / 2) * (x - c) ^ 2) by (unfold P, sonic_work; field; lra).
    rewrite W in E. set (q := ((v x - 1) / (x - c)) ^ 2 * (1 + (v x - 1) / 3) - - k / 2) in *.
    assert (E' : q * (x - c) = - (g t - k * (t - c))) by (apply (Rmult_eq_reg_r (x - c)); [lra|lra]).
    assert (Ax : 0 < Rabs (x - c)) by (apply Rabs_pos_lt; lra). apply (Rmult_le_reg_r (Rabs (x - c))); [exact Ax|].
    rewrite <- Rabs_mult, E', Rabs_Ropp. apply Rle_trans with (ε * Rabs (t - c)); [exact Gt|]. apply Rmult_le_compat_l; lra. }
  assert (Nv : forall η, 0 < η -> exists δ, 0 < δ /\ forall x, Rabs (x - c) < δ -> Rabs (v x - 1) < η).
  { intros η Pη. destruct (near_value v c η Cv Pη) as (δ & Pδ & H). exists δ. split; [exact Pδ|]. intros x Hx. rewrite <- Vc. apply H, Hx. }
  assert (Kn : k <= 0).
  { apply Rnot_lt_le. intros Pk. destruct (Key (k / 4) ltac:(lra)) as (δ & Pδ & H). destruct (Nv 1 ltac:(lra)) as (δ' & Pδ' & H').
    set (x := c + Rmin (b - c) (Rmin (δ / 2) (δ' / 2))). assert (x0 : 0 < Rmin (b - c) (Rmin (δ / 2) (δ' / 2))) by (repeat apply Rmin_glb_lt; lra).
    assert (x1 : Rmin (b - c) (Rmin (δ / 2) (δ' / 2)) <= b - c) by apply Rmin_l.
    assert (x2 : Rmin (b - c) (Rmin (δ / 2) (δ' / 2)) <= δ / 2) by (eapply Rle_trans; [apply Rmin_r|apply Rmin_l]).
    assert (x3 : Rmin (b - c) (Rmin (δ / 2) (δ' / 2)) <= δ' / 2) by (eapply Rle_trans; [apply Rmin_r|apply Rmin_r]).
    specialize (H x ltac:(unfold x; lra) ltac:(unfold x; lra) ltac:(unfold x; apply Rabs_def1; lra)). specialize (H' x ltac:(unfold x; apply Rabs_def1; lra)).
    apply Rabs_le_inv in H. apply Rabs_def2 in H'. assert (0 <= ((v x - 1) / (x - c)) ^ 2 * (1 + (v x - 1) / 3)) by (apply Rmult_le_pos; [apply pow2_ge_0|lra]). lra. }
  split; [exact Kn|]. set (σ := sqrt (- k / 2)). assert (Ps : 0 <= σ) by apply sqrt_pos. assert (Es : σ ^ 2 = - k / 2) by (unfold σ; apply pow2_sqrt; lra).
  intros ε Pε. assert (Pe2 : 0 < ε ^ 2 / 4) by nra. assert (Ps2 : 0 < (σ + ε) ^ 2) by nra.
  destruct (Key (ε ^ 2 / 4) Pe2) as (δ1 & Q1 & K1). set (η := Rmin 1 (ε ^ 2 / 4 / (σ + ε) ^ 2)).
  assert (Pη : 0 < η) by (apply Rmin_glb_lt; [lra|apply Rdiv_lt_0_compat; assumption]). destruct (Nv η Pη) as (δ2 & Q2 & K2).
  set (δ := Rmin (Rmin δ1 δ2) (Rmin (c - a) (b - c))). assert (Pδ : 0 < δ) by (unfold δ; repeat apply Rmin_glb_lt; lra).
  assert (d1 : δ <= δ1) by (unfold δ; eapply Rle_trans; [apply Rmin_l|apply Rmin_l]). assert (d2 : δ <= δ2) by (unfold δ; eapply Rle_trans; [apply Rmin_l|apply Rmin_r]).
  assert (d3 : δ <= c - a) by (unfold δ; eapply Rle_trans; [apply Rmin_r|apply Rmin_l]). assert (d4 : δ <= b - c) by (unfold δ; eapply Rle_trans; [apply Rmin_r|apply Rmin_r]).
  exists (mkposreal δ Pδ). intros h Nh Lh. cbn in Lh. change (Rabs ((v (c + h) - v c) / h - σ) < ε). rewrite Vc.
  assert (Lh' := Rabs_def2 _ _ Lh). replace ((v (c + h) - 1) / h) with ((v (c + h) - 1) / (c + h - c)) by (f_equal; ring).
  specialize (K1 (c + h) ltac:(lra) ltac:(lra) ltac:(replace (c + h - c) with h by ring; lra)). specialize (K2 (c + h) ltac:(replace (c + h - c) with h by ring; lra)).
  assert (η1 : η <= 1) by apply Rmin_l. assert (η2 : η <= ε ^ 2 / 4 / (σ + ε) ^ 2) by apply Rmin_r.
  assert (W1 : Rabs (1 + (v (c + h) - 1) / 3 - 1) <= η).
  { replace (1 + (v (c + h) - 1) / 3 - 1) with ((v (c + h) - 1) * (1 / 3)) by field. rewrite Rabs_mult, (Rabs_right (1 / 3)) by lra. pose proof (Rabs_pos (v (c + h) - 1)). lra. }
  assert (W3 : Rabs (1 + (v (c + h) - 1) / 3 - 1) < 1).
  { replace (1 + (v (c + h) - 1) / 3 - 1) with ((v (c + h) - 1) * (1 / 3)) by field. rewrite Rabs_mult, (Rabs_right (1 / 3)) by lra. lra. }
  apply (root_near σ ε _ (1 + (v (c + h) - 1) / 3)); [exact Ps|exact Pε| |rewrite Es; exact K1| |exact W3].
  - replace (c + h - c) with h by ring. destruct (Rlt_or_le 0 h) as [L|L].
    + destruct (H2 (c + h) ltac:(lra)) as (_ & V). apply Rle_mult_inv_pos; [change (1 < v (c + h)) in V; lra|exact L].
    + destruct (H1 (c + h) ltac:(lra)) as (_ & V). change (-1 < v (c + h) < 1) in V. replace ((v (c + h) - 1) / h) with ((1 - v (c + h)) / (- h)) by (field; lra). apply Rle_mult_inv_pos; lra.
  - apply Rle_trans with (η * (σ + ε) ^ 2); [apply Rmult_le_compat_r; lra|]. replace (ε ^ 2 / 4) with (ε ^ 2 / 4 / (σ + ε) ^ 2 * (σ + ε) ^ 2) by (field; lra). apply Rmult_le_compat_r; lra.
Qed.
Print Assumptions C133_slope.
(** Solutions of the system move like this. *)
Theorem C133_solutions : forall o y x, solves_at o y x -> polar_motion o y x.
Proof.
  intros o y x (d & e & E & D). pose proof (rhs_ok_derivs _ _ _ _ _ E) as Ed. unfold polar_motion. rewrite <- Ed. apply D. unfold iv_θ, ODE_LEN. lia.
Qed.
Print Assumptions C133_solutions.

(** Not empty: gas with a vertical field whose vertical speed is 1 + θ, with the inflow that the balance asks for. *)
Definition o_son : ode_args := mk_ode_args 0 1 1 (state 0 0 1 0 0 0 1 0 1 0 0) 1 false true true false None false.
Definition y_son (t : R) : vec := state 0 0 1 (2 * ((1 - (1 + t) ^ 2) - (1 + t) * tan t) / (1 + t) ^ 2) 0 (1 + t) 1 0 1 0 0.
Lemma son_motion : forall x, -1 / 2 <= x <= 1 / 2 -> x <> 0 -> polar_motion o_son y_son x.
Proof.
  intros x Hx Nx. unfold polar_motion. rewrite rhs_v_θ_any. cbn [o_son oa_deriv_v_θ_func].
  generalize (fst (rhs_derivs o_son (x * oa_θ_scale o_son) (y_son x)) iB_r). generalize (fst (rhs_derivs o_son (x * oa_θ_scale o_son) (y_son x)) iB_φ). intros u v.
  eapply dpl_eq; [apply (dpl_plus (fun _ => 1) (fun t => t)); [apply dpl_const|apply dpl_id]|].
  unfold deriv_v_θ_expr, o_son, y_son, state. cbn [oa_θ_scale oa_γ oa_a_0 iB_r iB_φ iB_θ iv_r iv_φ iv_θ iρ]. rewrite Rmult_1_r.
  generalize (tan x). intros w. field. split; [|split]; lra || (intros E; apply Nx; lra).
Qed.
Lemma son_sonic : sonic_at o_son y_son 0.
Proof.
  unfold sonic_at, o_son, y_son, state. cbn [oa_θ_scale iB_r iB_φ iB_θ iv_θ iρ iη_O iη_A]. rewrite Rmult_1_r, cos_0.
  split; [lra|]. split; [lra|]. split; [lra|]. split; [lra|]. split; [lra|]. split; [lra|].
  assert (I : continuity_pt (fun t => t) 0) by apply derivable_continuous_pt, derivable_pt_id.
  assert (Ct : continuity_pt (fun t => tan t) 0) by (pose proof (dpl_tan 0 ltac:(rewrite cos_0; lra)) as D; apply derivable_continuous_pt; eexists; exact D).
  intros i Hl. unfold ODE_LEN in Hl. do 11 (destruct i as [|i]; [repeat cc; cbn; lra|]). lia.
Qed.
Example C133_nonvacuous : polar_drive o_son 0 (y_son 0) = 0 /\ polar_drive o_son (-1 / 4) (y_son (-1 / 4)) = 7 / 16.
Proof.
  split.
  - apply (C133_transonic o_son y_son (-1 / 2) 0 (1 / 2)); [reflexivity|reflexivity|lra|exact son_sonic| |].
    + intros x Hx. split; [apply son_motion; lra|]. unfold y_son, state. cbn [iv_θ]. lra.
    + intros x Hx. split; [apply son_motion; lra|]. unfold y_son, state. cbn [iv_θ]. lra.
  - rewrite <- (drive_law o_son (-1 / 4) (y_son (-1 / 4)) eq_refl); [|unfold y_son, state; cbn [iv_θ]; lra].
    assert (D : derivable_pt_lim (fun t => y_son t iv_θ) (-1 / 4) 1).
    { eapply dpl_eq; [apply (dpl_plus (fun _ => 1) (fun t => t)); [apply dpl_const|apply dpl_id]|ring]. }
    rewrite (uniqueness_limite _ _ _ _ (son_motion (-1 / 4) ltac:(lra) ltac:(lra)) D). unfold y_son, state. cbn [iv_θ]. lra.
Qed.
(** The bounds on the angle hold for it as well, from -1/2 to -1/4. *)
Example C133_distance_nonvacuous : forall x, -1 / 2 <= x <= -1 / 4 -> polar_motion o_son y_son x /\ 0 < y_son x iv_θ < 1 /\ 7 / 16 <= polar_drive o_son x (y_son x) <= 3 / 4.
Proof.
  intros x Hx. assert (M : polar_motion o_son y_son x) by (apply son_motion; lra). split; [exact M|].
  assert (V : y_son x iv_θ = 1 + x) by reflexivity. rewrite V. split; [lra|].
  rewrite <- (drive_law o_son x (y_son x) eq_refl) by (rewrite V; nra).
  assert (D : derivable_pt_lim (fun t => y_son t iv_θ) x 1).
  { eapply dpl_eq; [apply (dpl_plus (fun _ => 1) (fun t => t)); [apply dpl_const|apply dpl_id]|ring]. }
  rewrite (uniqueness_limite _ _ _ _ M D), V. nra.
Qed.
(** So do the rate of change of its drive, -2, and its acceleration, √(2 / 2). *)
Example C133_slope_nonvacuous : derivable_pt_lim (fun x => polar_drive o_son x (y_son x)) 0 (-2) /\ derivable_pt_lim (fun x => y_son x iv_θ) 0 (sqrt (- -2 / 2)).
Proof.
  assert (D : derivable_pt_lim (fun x => polar_drive o_son x (y_son x)) 0 (-2)).
  { apply (dpl_ext_loc (fun x => 1 - (1 + x) * (1 + x)) _ 0 (-2) (1 / 2)); [lra| |].
    - intros x Hx. apply Rabs_def2 in Hx. unfold polar_drive. generalize (fst (rhs_derivs o_son (x * oa_θ_scale o_son) (y_son x)) iB_r). generalize (fst (rhs_derivs o_son (x * oa_θ_scale o_son) (y_son x)) iB_φ). intros u w.
      unfold o_son, y_son, state. cbn [oa_θ_scale oa_γ oa_a_0 iB_r iB_φ iB_θ iv_r iv_φ iv_θ iρ]. rewrite Rmult_1_r. generalize (tan x). intros z. field. lra.
    - eapply dpl_eq; [apply (dpl_minus (fun _ => 1) (fun x => (1 + x) * (1 + x))); [apply dpl_const|apply (dpl_mult (fun x => 1 + x) (fun x => 1 + x)); apply (dpl_plus (fun _ => 1) (fun t => t)); (apply dpl_const || apply dpl_id)]|]. ring. }
  split; [exact D|].
  apply (C133_slope o_son y_son (-1 / 2) 0 (1 / 2)); [reflexivity|reflexivity|lra|exact son_sonic| | |exact D].
  - intros x Hx. split; [apply son_motion; lra|]. unfold y_son, state. cbn [iv_θ]. lra.
  - intros x Hx. split; [apply son_motion; lra|]. unfold y_son, state. cbn [iv_θ]. lra.
Qed.
