(** C131: between a number for which the gas slows down and one for which it does not there is an edge, and at the edge it does not. *)
From Coq Require Import Reals Lra Lia.
From Verif Require Import Model_Index Model_Deriv Model_Midplane Model_Ode Lib_Deriv Spec_MHD Spec_Ode Spec_Midplane Spec_Unique Spec_Error Spec_Param Spec_Exist Spec_Edge
  Proofs_Ode Proofs_Unique Proofs_Error Proofs_Param Proofs_Exist Witness_Ode Props_Unique Props_Error Props_Param Props_Exist Props_Persist Proofs_Edge Witness_Midplane.
Open Scope R_scope.

Lemma within_some : forall o, exists M, parameters_within M o.
Proof.
  intros o. set (K := Rabs (oa_γ o) + Rabs (oa_a_0 o) + sqrt (oa_norm_kepler_sq o) + Rabs (oa_init_con o iη_O) + Rabs (oa_init_con o iη_A) + Rabs (oa_init_con o iη_H)).
  pose proof (Rabs_pos (oa_γ o)). pose proof (Rabs_pos (oa_a_0 o)). pose proof (sqrt_pos (oa_norm_kepler_sq o)).
  pose proof (Rabs_pos (oa_init_con o iη_O)). pose proof (Rabs_pos (oa_init_con o iη_A)). pose proof (Rabs_pos (oa_init_con o iη_H)).
  exists K. unfold parameters_within, K. repeat split; lra.
Qed.

(** Slowing down survives small changes. *)
Lemma slows_nearby : forall o p a b, interpolant_continuous o a b -> oa_with_taylor o = false -> slows o p a b ->
  exists δ, 0 < δ /\ forall o' p', nearby o p δ o' p' -> slows o' p' a b.
Proof.
  intros o p a b Hi T (m & M & y & x1 & x2 & Pm & H1 & H12 & H2 & Y0 & Hy & F).
  destruct (within_some o) as (N & HN). set (M' := Rmax M N). assert (L1 : M <= M') by apply Rmax_l. assert (L2 : N <= M') by apply Rmax_r.
  destruct (C130_persists o a x2 m M' y ltac:(lra) Pm) with (ε := (y x1 iv_θ - y x2 iv_θ) / 2) as (δ & Pδ & H).
  - intros f Ef x Hx. apply (Hi f Ef). lra.
  - exact T.
  - apply (within_more N); assumption.
  - intros x Hx. destruct (Hy x Hx) as (A & B & C). split; [exact A|]. split; [|exact C]. apply (margin_less o m M); [lra|exact L1|exact B].
  - lra.
  - exists δ. split; [exact Pδ|]. intros o' p' (N1 & N2 & N3 & N4 & N5).
    destruct (H o' p' N1 N2 N3 N4) as (z & Z0 & Z).
    { intros i Hl. rewrite (Y0 i Hl). apply N5, Hl. }
    exists (m / 2), (M' + 1), z, x1, x2. split; [lra|]. repeat (split; [assumption|]). split.
    + intros x Hx. destruct (Z x Hx) as (A & B & C & _). split; [exact A|]. split; assumption.
    + assert (Hl : (iv_θ < ODE_LEN)%nat) by (unfold iv_θ, ODE_LEN; lia).
      destruct (Z x1 ltac:(lra)) as (_ & _ & _ & A1). destruct (Z x2 ltac:(lra)) as (_ & _ & _ & A2).
      specialize (A1 iv_θ Hl). specialize (A2 iv_θ Hl). apply Rabs_def2 in A1. apply Rabs_def2 in A2. lra.
Qed.

(** There is a first number for which the gas does not slow down: for all before it, it does. *)
Theorem C131_edge : forall O P a b g0 g1, g0 < g1 -> continuous_family O P g0 g1 ->
  (forall g, g0 <= g <= g1 -> interpolant_continuous (O g) a b /\ oa_with_taylor (O g) = false) ->
  slows (O g0) (P g0) a b -> ~ slows (O g1) (P g1) a b ->
  exists g, g0 < g <= g1 /\ ~ slows (O g) (P g) a b /\ forall g', g0 <= g' < g -> slows (O g') (P g') a b.
Proof.
  intros O P a b g0 g1 Hg Cf Hi S0 S1.
  set (A := fun g => g0 <= g <= g1 /\ forall g', g0 <= g' <= g -> slows (O g') (P g') a b).
  assert (A0 : A g0) by (split; [lra|]; intros g' Hg'; replace g' with g0 by lra; exact S0).
  destruct (completeness A) as (s & Up & Lo); [exists g1; intros g (Hg' & _); lra|exists g0; exact A0|].
  assert (s0 : g0 <= s) by (apply Up, A0). assert (s1 : s <= g1) by (apply Lo; intros g (Hg' & _); lra).
  assert (Below : forall g', g0 <= g' < s -> slows (O g') (P g') a b).
  { intros g' Hg'. destruct (Classical_Prop.classic (slows (O g') (P g') a b)) as [Y|N]; [exact Y|exfalso].
    assert (s <= g'); [|lra]. apply Lo. intros g (Hg1 & HA). destruct (Rle_dec g g') as [L|L]; [exact L|exfalso]. apply N, HA. lra. }
  (* around a slowing one all are *)
  assert (Open : forall g, g0 <= g <= g1 -> slows (O g) (P g) a b -> exists η, 0 < η /\ forall g', g0 <= g' <= g1 -> Rabs (g' - g) < η -> slows (O g') (P g') a b).
  { intros g Hg' Sg. destruct (Hi g Hg') as (I1 & I2). destruct (slows_nearby (O g) (P g) a b I1 I2 Sg) as (δ & Pδ & H).
    destruct (Cf g Hg' δ Pδ) as (η & Pη & H'). exists η. split; [exact Pη|]. intros g' Q1 Q2. apply H, H'; assumption. }
  assert (Ns : ~ slows (O s) (P s) a b).
  { intros Ss. destruct (Open s ltac:(lra) Ss) as (η & Pη & H). destruct (Req_dec s g1) as [E|E]; [apply S1; rewrite <- E; exact Ss|].
    set (t := Rmin g1 (s + η / 2)). assert (t1 : t <= g1) by apply Rmin_l. assert (t2 : t <= s + η / 2) by apply Rmin_r. assert (t3 : s < t) by (apply Rmin_glb_lt; lra).
    assert (At : A t).
    { split; [lra|]. intros g' Hg'. destruct (Rlt_dec g' s) as [L|L]; [apply Below; lra|]. apply H; [lra|]. apply Rabs_def1; lra. }
    specialize (Up t At). lra. }
  exists s. split; [|split; [exact Ns|exact Below]].
  destruct (Req_dec s g0) as [E|E]; [exfalso; apply Ns; rewrite E; exact S0|lra].
Qed.
Print Assumptions C131_edge.

(** Where the gas does not slow down, its vertical speed never falls up to the last angle, or up to an angle where the margin,
    however small, is used up. *)
Theorem C131_rises : forall o a c m M p, a <= c -> 0 < m -> interpolant_continuous o a c -> oa_with_taylor o = false ->
  margin o m M a p -> accepted_from o m p -> ambipolar_from o m p -> ~ slows o p a c ->
  exists y e, a <= e <= c /\ (forall i, (i < ODE_LEN)%nat -> y a i = p i) /\ (forall x, a <= x <= e -> solves_at o y x /\ regular o x (y x)) /\
    (forall x1 x2, a <= x1 -> x1 < x2 -> x2 <= e -> y x1 iv_θ <= y x2 iv_θ) /\
    (e = c \/ ~ (margin o m M e (y e) /\ ambipolar_from o m (y e))).
Proof.
  intros o a c m M p Hac Pm Hi T Mg Ac Am Ns.
  destruct (C129_reaches o a c m M p Hac Pm Hi T Mg Ac Am) as (y & e & He & Y0 & Y & D). exists y, e. split; [exact He|]. split; [exact Y0|].
  split; [|split; [|exact D]].
  - intros x Hx. destruct (Y x Hx) as (A & B & _). split; [exact A|]. apply (margin_regular o (m / 2) (M + 1)); [lra|exact B].
  - intros x1 x2 H1 H12 H2. destruct (Rle_dec (y x1 iv_θ) (y x2 iv_θ)) as [L|L]; [exact L|exfalso]. apply Ns.
    exists (m / 2), (M + 1), y, x1, x2. split; [lra|]. split; [exact H1|]. split; [exact H12|]. split; [lra|]. split; [exact Y0|]. split; [|lra].
    intros x Hx. apply Y. lra.
Qed.
Print Assumptions C131_rises.

(** The slopes depend on the eleven slots only. *)
Lemma rhs_ext : forall o θ p q, (forall i, (i < ODE_LEN)%nat -> p i = q i) -> fst (rhs_derivs o θ p) = fst (rhs_derivs o θ q).
Proof.
  intros o θ p q H. unfold rhs_derivs.
  rewrite (H iB_r), (H iB_φ), (H iB_θ), (H iv_r), (H iv_φ), (H iv_θ), (H iρ), (H iη_O), (H iη_A), (H iη_H), (H iE_r), (H iB_φ_prime) by (cbv; lia).
  destruct (oa_use_E_r o); reflexivity.
Qed.

(** The slope of the vertical speed at the start, as the code computes it, decides at once. *)
Theorem C131_falls_at_once : forall o a c m M p, a < c -> 0 < m -> interpolant_continuous o a c ->
  margin o m M a p -> accepted_from o m p -> ambipolar_from o m p -> fst (rhs_derivs o (a * oa_θ_scale o) p) iv_θ < 0 -> slows o p a c.
Proof.
  intros o a c m M p Hac Pm Hi Mg Ac Am F. assert (Hl : (iv_θ < ODE_LEN)%nat) by (unfold iv_θ, ODE_LEN; lia).
  destruct (C129_exists o a c m M ltac:(lra) Pm Hi) as (h & Ph & H). destruct (H a p ltac:(lra) Mg Ac Am) as (y & Y0 & Y).
  destruct (Y a ltac:(lra)) as ((d & e & E & D) & _ & _); [rewrite Rminus_diag_eq, Rabs_R0 by reflexivity; exact Ph|].
  pose proof (rhs_ok_derivs _ _ _ _ _ E) as Ed. specialize (D iv_θ Hl).
  assert (Fd : d iv_θ < 0) by (rewrite Ed; rewrite (rhs_ext o (a * oa_θ_scale o) (y a) p Y0); exact F).
  destruct (D (- d iv_θ) ltac:(lra)) as (k & Hk). set (t := Rmin (c - a) (Rmin (h / 2) (k / 2))). assert (Pk := cond_pos k).
  assert (Pt : 0 < t) by (repeat apply Rmin_pos; lra). assert (t1 : t <= c - a) by apply Rmin_l.
  assert (t2 : t <= h / 2) by (eapply Rle_trans; [apply Rmin_r|apply Rmin_l]). assert (t3 : t <= k / 2) by (eapply Rle_trans; [apply Rmin_r|apply Rmin_r]).
  specialize (Hk t ltac:(lra) ltac:(rewrite Rabs_right; lra)). apply Rabs_def2 in Hk. destruct Hk as (Hk & _).
  assert (Q : (y (a + t) iv_θ - y a iv_θ) / t < 0) by lra.
  exists (m / 2), (M + 1), y, a, (a + t). split; [lra|]. split; [lra|]. split; [lra|]. split; [lra|]. split; [exact Y0|]. split.
  - intros x Hx. apply Y; [lra|]. apply Rabs_def1; lra.
  - apply (Rmult_lt_compat_r t) in Q; [|exact Pt]. unfold Rdiv in Q. rewrite Rmult_assoc, Rinv_l in Q by lra. lra.
Qed.
Print Assumptions C131_falls_at_once.
Theorem C131_rises_at_once : forall o a c m M p, a < c -> 0 < m -> interpolant_continuous o a c ->
  margin o m M a p -> accepted_from o m p -> ambipolar_from o m p -> 0 < fst (rhs_derivs o (a * oa_θ_scale o) p) iv_θ ->
  exists b, a < b <= c /\ ~ slows o p a b.
Proof.
  intros o a c m M p Hac Pm Hi Mg Ac Am F. assert (Hl : (iv_θ < ODE_LEN)%nat) by (unfold iv_θ, ODE_LEN; lia).
  destruct (C129_exists o a c m M ltac:(lra) Pm Hi) as (h & Ph & H). destruct (H a p ltac:(lra) Mg Ac Am) as (y & Y0 & Y).
  assert (Ya : Rabs (a - a) < h) by (rewrite Rminus_diag_eq, Rabs_R0 by reflexivity; exact Ph).
  assert (Cs : continuity_pt (fun x => fst (rhs_derivs o (x * oa_θ_scale o) (y x)) iv_θ) a).
  { apply (slopes_continuous o (m / 2) (M + 1) (fun x => x) y a); [lra|apply derivable_continuous_pt, derivable_pt_id| | | |exact Hl].
    - intros j Hj. destruct (Y a ltac:(lra) Ya) as ((d & e & _ & D) & _). apply derivable_continuous_pt. exists (d j). apply D, Hj.
    - apply Y; [lra|exact Ya].
    - intros f Ef. apply (Hi f Ef). lra. }
  assert (Fa : 0 < fst (rhs_derivs o (a * oa_θ_scale o) (y a)) iv_θ) by (rewrite (rhs_ext o (a * oa_θ_scale o) (y a) p Y0); exact F).
  destruct (Cs _ Fa) as (k & Pk & Hk).
  set (t := Rmin (c - a) (Rmin (h / 2) (k / 2))). assert (Pk' : 0 < k) by exact Pk.
  assert (Pt : 0 < t) by (repeat apply Rmin_pos; lra). assert (t1 : t <= c - a) by apply Rmin_l.
  assert (t2 : t <= h / 2) by (eapply Rle_trans; [apply Rmin_r|apply Rmin_l]). assert (t3 : t <= k / 2) by (eapply Rle_trans; [apply Rmin_r|apply Rmin_r]).
  exists (a + t). split; [lra|]. intros (m' & M' & z & x1 & x2 & Pm' & H1 & H12 & H2 & Z0 & Z & Fz).
  assert (Eq : forall x, a <= x <= x2 -> z x iv_θ = y x iv_θ).
  { intros x Hx. apply (C122_determined o z y a x2) with (s := a); [lra| | | |lra| |exact Hx|exact Hl].
    - intros f Ef u Hu. apply (Hi f Ef). lra.
    - intros u Hu. destruct (Z u Hu) as (A & B & _). split; [exact A|]. apply (margin_regular o m' M'); assumption.
    - intros u Hu. destruct (Y u ltac:(lra)) as (A & B & _); [apply Rabs_def1; lra|]. split; [exact A|]. apply (margin_regular o (m / 2) (M + 1)); [lra|exact B].
    - intros i Hi'. rewrite Z0, Y0 by exact Hi'. reflexivity. }
  rewrite !Eq in Fz by lra.
  destruct (MVT_cor2 (fun x => y x iv_θ) (fun x => fst (rhs_derivs o (x * oa_θ_scale o) (y x)) iv_θ) x1 x2 H12) as (u & Eu & Hu).
  { intros u Hu. destruct (Y u ltac:(lra)) as ((d & e & E & D) & _); [apply Rabs_def1; lra|].
    rewrite <- (rhs_ok_derivs _ _ _ _ _ E). apply D, Hl. }
  assert (Pu : 0 < fst (rhs_derivs o (u * oa_θ_scale o) (y u)) iv_θ).
  { destruct (Req_dec u a) as [->|N]; [exact Fa|]. specialize (Hk u). unfold D_x, no_cond, R_dist in Hk. cbn [dist R_met Base] in Hk.
    assert (Q : Rabs (fst (rhs_derivs o (u * oa_θ_scale o) (y u)) iv_θ - fst (rhs_derivs o (a * oa_θ_scale o) (y a)) iv_θ) < fst (rhs_derivs o (a * oa_θ_scale o) (y a)) iv_θ).
    { apply Hk. split; [split; [exact I|intros E'; apply N; symmetry; exact E']|]. unfold R_dist. apply Rabs_def1; lra. }
    apply Rabs_def2 in Q. lra. }
  assert (0 < fst (rhs_derivs o (u * oa_θ_scale o) (y u)) iv_θ * (x2 - x1)) by (apply Rmult_lt_0_compat; lra). lra.
Qed.
Print Assumptions C131_rises_at_once.

(** Not empty: infalling gas with a vertical field, as γ grows from 0 to 1/8. The edge lies above 1/16, where the slope at the start
    changes sign. *)
Definition o_edge (g : R) : ode_args := mk_ode_args g 1 1 (state 0 0 1 (-1) 0 0 1 0 1 0 0) 1 false true true false None false.
Definition p_edge : vec := state 0 0 1 (-1) 0 (1 / 2) 1 0 1 0 0.
Lemma edge_start : forall g, margin (o_edge g) (1 / 4) 1 0 p_edge /\ accepted_from (o_edge g) (1 / 4) p_edge /\ ambipolar_from (o_edge g) (1 / 4) p_edge.
Proof.
  intros g. split; [|split; [right; cbn; lra|right; right; reflexivity]].
  unfold margin, o_edge, p_edge, state. cbn [oa_θ_scale oa_with_taylor oa_deriv_v_θ_func iB_r iB_φ iB_θ iv_θ iρ iη_O iη_A].
  rewrite Rmult_0_l, cos_0. split; [rewrite Rabs_right; lra|]. split; [lra|]. split; [rewrite Rabs_right; lra|]. split; [lra|]. split; [lra|].
  split; [intros _; rewrite Rabs_right; lra|]. split; [intros _; rewrite Rabs_right; lra|].
  intros i Hl. unfold ODE_LEN in Hl. do 11 (destruct i as [|i]; [apply Rabs_le; lra|]). lia.
Qed.
Lemma edge_slope : forall g, fst (rhs_derivs (o_edge g) (0 * oa_θ_scale (o_edge g)) p_edge) iv_θ = 8 / 3 * (g - 1 / 16).
Proof.
  intros g. rewrite rhs_v_θ by reflexivity.
  generalize (fst (rhs_derivs (o_edge g) (0 * oa_θ_scale (o_edge g)) p_edge) iB_r). generalize (fst (rhs_derivs (o_edge g) (0 * oa_θ_scale (o_edge g)) p_edge) iB_φ).
  intros u v. unfold deriv_v_θ_expr, o_edge, p_edge, state. cbn [oa_θ_scale oa_γ oa_a_0 iB_r iB_φ iB_θ iv_r iv_φ iv_θ iρ].
  rewrite Rmult_0_l, tan_0. field.
Qed.
Example C131_nonvacuous : exists b, 0 < b <= 1 /\ exists g, 1 / 16 <= g <= 1 / 8 /\ ~ slows (o_edge g) p_edge 0 b /\
  forall g', 0 <= g' < g -> slows (o_edge g') p_edge 0 b.
Proof.
  assert (Hi : forall g b, interpolant_continuous (o_edge g) 0 b) by (intros g b f Ef; discriminate Ef).
  destruct (edge_start (1 / 8)) as (E1 & E2 & E3).
  destruct (C131_rises_at_once (o_edge (1 / 8)) 0 1 (1 / 4) 1 p_edge ltac:(lra) ltac:(lra) (Hi _ _) E1 E2 E3) as (b & Hb & Nb); [rewrite edge_slope; lra|].
  assert (Low : forall g, g < 1 / 16 -> slows (o_edge g) p_edge 0 b).
  { intros g Hg. destruct (edge_start g) as (F1 & F2 & F3).
    apply (C131_falls_at_once (o_edge g) 0 b (1 / 4) 1 p_edge ltac:(lra) ltac:(lra) (Hi _ _) F1 F2 F3). rewrite edge_slope. lra. }
  exists b. split; [exact Hb|].
  destruct (C131_edge o_edge (fun _ => p_edge) 0 b 0 (1 / 8)) as (g & Hg & Ng & Bg).
  - lra.
  - intros g Hg δ Pδ. exists δ. split; [exact Pδ|]. intros g' Hg' D. split; [repeat split|]. split.
    + unfold parameter_gap, o_edge, state. cbn [oa_γ oa_a_0 oa_norm_kepler_sq oa_init_con iη_O iη_A iη_H]. rewrite !(Rminus_diag_eq _ _ eq_refl), Rabs_R0, Rabs_minus_sym. lra.
    + split; [reflexivity|]. split; [cbn; lra|]. intros i _. rewrite Rminus_diag_eq, Rabs_R0 by reflexivity. exact Pδ.
  - intros g Hg. split; [apply Hi|reflexivity].
  - apply Low. lra.
  - exact Nb.
  - exists g. split; [|split; [exact Ng|exact Bg]]. split; [|lra]. destruct (Rlt_dec g (1 / 16)) as [L|L]; [exfalso; apply Ng, Low, L|lra].
Qed.

(** The set-ups that the step search tries are such a family. The input is the same but for γ, and the integration starts from the
    state after the Taylor jump. Both depend continuously on γ as long as the midplane rotates and the denominators of the Taylor
    coefficients are not zero. *)
Theorem C131_start_continuous : forall inp ηd stop g0 g1, 0 < in_η_O inp + in_η_A inp -> in_v_a_on_c_s inp <> 0 ->
  (forall g, g0 <= g <= g1 -> regular_midplane inp g /\ 0 <= start_for inp ηd stop g iη_A) ->
  continuous_family (system_for inp ηd) (start_for inp ηd stop) g0 g1.
Proof.
  intros inp ηd stop g0 g1 PP Ha H g Hg δ Pδ. destruct (near_start inp ηd stop g PP Ha (proj1 (H g Hg)) δ Pδ) as (η & Pη & N).
  exists η. split; [exact Pη|]. intros g' Hg' D. apply N; [exact D|]. apply H, Hg'.
Qed.
Print Assumptions C131_start_continuous.

(** So the search has something to find: if the gas slows down for the one end of the range and not for the other, there is a least
    γ for which it does not. *)
Corollary C131_step_search : forall inp ηd stop b g0 g1, g0 < g1 -> 0 < in_η_O inp + in_η_A inp -> in_v_a_on_c_s inp <> 0 ->
  (forall g, g0 <= g <= g1 -> regular_midplane inp g /\ 0 <= start_for inp ηd stop g iη_A) ->
  slows (system_for inp ηd g0) (start_for inp ηd stop g0) stop b -> ~ slows (system_for inp ηd g1) (start_for inp ηd stop g1) stop b ->
  exists g, g0 < g <= g1 /\ ~ slows (system_for inp ηd g) (start_for inp ηd stop g) stop b /\
    forall g', g0 <= g' < g -> slows (system_for inp ηd g') (start_for inp ηd stop g') stop b.
Proof.
  intros inp ηd stop b g0 g1 Hg PP Ha H S0 S1.
  apply (C131_edge (system_for inp ηd) (start_for inp ηd stop) stop b g0 g1 Hg (C131_start_continuous inp ηd stop g0 g1 PP Ha H)); [|exact S0|exact S1].
  intros g _. split; [intros f Ef; discriminate Ef|reflexivity].
Qed.
Print Assumptions C131_step_search.

(** The midplane is regular without the Hall effect if the gas moves in, γ is not negative and the field is not too weak. *)
Theorem C131_regular : forall inp g, 0 < in_η_O inp + in_η_A inp -> in_η_H inp = 0 -> 0 < in_v_rin_on_c_s inp -> 0 <= g ->
  (exists c, define_conditions (with_γ inp g) = Some c /\ 0 < c_init_con c iv_φ) ->
  in_v_rin_on_c_s inp * (1 - 8 * g) < 2 * in_v_a_on_c_s inp ^ 2 / (in_η_O inp + in_η_A inp) -> regular_midplane inp g.
Proof.
  intros inp g PP HH Pv Pg (c & Ec & Pc) W. unfold regular_midplane, conditions_for. rewrite Ec, HH.
  unfold define_conditions, v_φ_boundary_func, with_γ in Ec.
  cbn [in_v_rin_on_c_s in_v_a_on_c_s in_c_s_on_v_k in_γ in_η_O in_η_A in_η_H in_use_E_r in_start in_stop in_num_angles] in Ec. rewrite HH in Ec.
  set (v := in_v_rin_on_c_s inp) in *. set (P := in_η_O inp + in_η_A inp) in *. set (a := in_v_a_on_c_s inp ^ 2) in *.
  assert (Pa : 0 <= a) by apply pow2_ge_0.
  assert (E5 : Y_5_func a (- v) g (midplane_Z_5_func (P ^ 2 + 0 ^ 2) P) = 2 * a / P - v * (1 - 8 * g)) by (unfold Y_5_func, midplane_Z_5_func; field; lra).
  rewrite E5. set (y := 2 * a / P - v * (1 - 8 * g)) in *. assert (Py : 0 < y) by (unfold y; lra).
  split; [|split; [lra|]].
  - set (r := v_φ_radicand (- v) 0 P (1 / in_c_s_on_v_k inp ^ 2) a g) in *. clearbody r. destruct (Rlt_dec r 0) as [L|L] in Ec; [discriminate Ec|].
    assert (V : c_init_con c iv_φ = - v * 0 / (4 * P) + sqrt r) by (injection Ec as <-; destruct (in_use_E_r inp); reflexivity).
    destruct (Rlt_le_dec 0 r) as [?|Q]; [assumption|exfalso]. assert (Z : r = 0) by lra. rewrite V, Z, sqrt_0 in Pc.
    assert (E : - v * 0 / (4 * P) + 0 = 0) by (field; lra). lra.
  - generalize dependent (c_init_con c iv_φ). intros w Pw. apply Rgt_not_eq.
    replace (Y_6_func w y a (midplane_C_func 0 P) (midplane_Z_5_func (P ^ 2 + 0 ^ 2) P) g (- v) P 0) with (w * w / y + (4 * g + 1) * v / 2 + a / (2 * P)).
    + assert (0 < w * w / y) by (apply Rdiv_lt_0_compat; [nra|exact Py]). assert (0 <= a / (2 * P)) by (apply Rmult_le_pos; [exact Pa|left; apply Rinv_0_lt_compat; lra]).
      assert (0 < (4 * g + 1) * v) by (apply Rmult_lt_0_compat; lra). lra.
    + unfold Y_6_func, midplane_C_func, midplane_Z_5_func. field. split; lra.
Qed.
Print Assumptions C131_regular.

(** Not empty: from γ = 0 to 1/8 the set-ups of the example disc form such a family, whatever the angle of the Taylor jump. *)
Example C131_start_nonvacuous : forall b ηd stop, continuous_family (system_for (inp_ex b) ηd) (start_for (inp_ex b) ηd stop) 0 (1 / 8).
Proof.
  intros b ηd stop. assert (PP : 0 < in_η_O (inp_ex b) + in_η_A (inp_ex b)) by (cbn; lra).
  apply C131_start_continuous; [exact PP|cbn; lra|]. intros g Hg.
  assert (Rd : v_φ_radicand (- (1)) 0 (1 + 0) (1 / (2 / 5) ^ 2) (1 ^ 2) g = (3 / 2) ^ 2 + 2 * g) by (unfold v_φ_radicand; field).
  assert (Ec : exists c, define_conditions (with_γ (inp_ex b) g) = Some c /\ 0 < c_init_con c iv_φ).
  { unfold define_conditions, v_φ_boundary_func, with_γ, inp_ex.
    cbn [in_v_rin_on_c_s in_v_a_on_c_s in_c_s_on_v_k in_γ in_η_O in_η_A in_η_H in_use_E_r in_start in_stop in_num_angles]. rewrite Rd.
    destruct (Rlt_dec _ 0) as [L|L]; [lra|]. eexists. split; [reflexivity|]. cbn [c_init_con].
    assert (0 < sqrt ((3 / 2) ^ 2 + 2 * g)) by (apply sqrt_lt_R0; lra). assert (- (1) * 0 / (4 * (1 + 0)) = 0) by (field).
    destruct b; cbv [upd Nat.eqb iE_r iB_φ_prime iη_H iη_A iη_O iρ iv_θ iv_φ iv_r]; lra. }
  split; [apply C131_regular; try exact Ec; cbn; lra|].
  unfold start_for, conditions_for. destruct Ec as (c & Ec & _). rewrite Ec. clear - Ec.
  match goal with |- 0 <= ?r => replace r with 0; [lra|] end.
  unfold define_conditions, v_φ_boundary_func, with_γ, inp_ex in Ec.
  cbn [in_v_rin_on_c_s in_v_a_on_c_s in_c_s_on_v_k in_γ in_η_O in_η_A in_η_H in_use_E_r in_start in_stop in_num_angles] in Ec.
  destruct (Rlt_dec _ 0) as [L|L] in Ec; [discriminate Ec|]. assert (A : c_init_con c iη_A = 0) by (injection Ec as <-; destruct b; reflexivity).
  transitivity (c_init_con c iη_A + stop / 1 * (0 + stop / 1 / 2 * (taylor_series (c_γ c) (c_a_0 c) (c_init_con c) ηd b iη_A + stop / 1 / 3 * 0))).
  - assert (T : taylor_series (c_γ c) (c_a_0 c) (c_init_con c) ηd b iη_A = 0); [|rewrite A, T; field].
    transitivity ((if ηd then dderiv_η_skw_midplane (taylor_series (c_γ c) (c_a_0 c) (c_init_con c) ηd b iρ)
      (deriv_B_r_midplane_func (c_γ c) (B_φ_prime_boundary_func (c_init_con c iv_r) (c_init_con c iv_φ) (c_a_0 c)) (c_init_con c iη_H) (c_init_con c iη_O + c_init_con c iη_A) (c_init_con c iv_r))
      (B_φ_prime_boundary_func (c_init_con c iv_r) (c_init_con c iv_φ) (c_a_0 c))
      (1 - (c_γ c + 3 / 4) * deriv_B_r_midplane_func (c_γ c) (B_φ_prime_boundary_func (c_init_con c iv_r) (c_init_con c iv_φ) (c_a_0 c)) (c_init_con c iη_H) (c_init_con c iη_O + c_init_con c iη_A) (c_init_con c iv_r))
      else 0) * c_init_con c iη_A); [destruct b, ηd; reflexivity|]. rewrite A. ring.
  - destruct b; reflexivity.
Qed.
