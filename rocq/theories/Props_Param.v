(** C128: a small change of the parameters changes the solution little. *)
From Coq Require Import Reals Lra Lia.
From Verif Require Import Model_Index Model_Deriv Model_Ode Lib_Deriv Lib_Lipschitz Spec_MHD Spec_Ode Spec_Unique Spec_Error Spec_Param
  Proofs_Ode Proofs_Fields Proofs_Unique Proofs_Error Proofs_Param Witness_Ode Props_Unique Props_Error.
Open Scope R_scope.

Lemma gap_pos : forall o o', 0 <= parameter_gap o o'.
Proof. intros. unfold parameter_gap. repeat match goal with |- context [Rabs ?x] => lazymatch goal with H : 0 <= Rabs x |- _ => fail | _ => pose proof (Rabs_pos x) end end. lra. Qed.

(** A solution of one set-up follows the equations of the other up to a multiple of the gap. *)
Lemma almost : forall o m M a b, 0 < m -> a <= b -> interpolant_continuous o a b -> oa_with_taylor o = false -> parameters_within M o ->
  exists L, 0 <= L /\ forall o' z x, same_system o o' -> parameters_within M o' -> a <= x <= b -> solves_at o' z x -> margin o m M x (z x) ->
    almost_solves_at o z (L * parameter_gap o o') x.
Proof.
  intros o m M a b Pm Hab Hi T Mo. destruct (lipschitz_params o a b m M Hab Pm Hi T) as (L & PL & HL). exists L. split; [exact PL|].
  intros o' z x (E1 & E2 & E3 & E4 & E5 & E6) Mo' Hx (d & e & E & Dz) Mz.
  assert (Eo : with_params o o = o) by (destruct o; reflexivity).
  assert (Ed : forall t p, fst (rhs_derivs o' t p) = fst (rhs_derivs (with_params o o') t p)).
  { intros t p. unfold with_params. rewrite <- E1, <- E2, <- E3, <- E4, <- E5, <- E6. destruct o'; reflexivity. }
  assert (A : exists e', rhs_equation o x (z x) = Rhs_ok (fst (rhs_derivs o (x * oa_θ_scale o) (z x))) e').
  { revert E. unfold rhs_equation. rewrite E6, E1. unfold scaled_to_rad_num. destruct (_ && _)%bool; [discriminate|]. destruct (_ && _)%bool; [discriminate|].
    intros _. destruct (rhs_derivs o _ _) as [d' e']. eexists. reflexivity. }
  destruct A as (e' & A). exists (fst (rhs_derivs o (x * oa_θ_scale o) (z x))), e', d. split; [exact A|]. intros i Hl. split; [apply Dz, Hl|].
  rewrite (rhs_ok_derivs _ _ _ _ _ E), E1, Ed. rewrite Rabs_minus_sym.
  pose proof (HL x (z x) o o' Hx Mz Mo Mo' i Hl) as B. rewrite Eo in B. exact B.
Qed.

(** Two constants, which depend on the first set-up, the interval, the margin and the bounds only, such that: a solution of any
    other set-up of the same system, where both keep the margin, is as close to the first solution at every angle as the two are
    at one angle and the parameters are. *)
Theorem C128_close : forall o m M a b, 0 < m -> a <= b -> interpolant_continuous o a b -> oa_with_taylor o = false -> parameters_within M o ->
  exists K L, 0 <= K /\ 0 <= L /\ forall o' y z, same_system o o' -> parameters_within M o' ->
    (forall x, a <= x <= b -> solves_at o y x /\ margin o m M x (y x)) ->
    (forall x, a <= x <= b -> solves_at o' z x /\ margin o' m M x (z x)) ->
    forall s t, a <= s <= b -> a <= t <= b ->
    dist_sq (y t) (z t) <= dist_sq (y s) (z s) * exp (K * Rabs (t - s)) + (L * parameter_gap o o') ^ 2 * (exp (K * Rabs (t - s)) - 1).
Proof.
  intros o m M a b Pm Hab Hi T Mo. destruct (almost o m M a b Pm Hab Hi T Mo) as (L & PL & HL).
  destruct (C126_error_bound o m M a b Pm Hab Hi) as (K & PK & HK). exists K, L. split; [exact PK|]. split; [exact PL|].
  intros o' y z So Mo' Hy Hz. apply HK; [apply Rmult_le_pos; [exact PL|apply gap_pos]|exact Hy|].
  intros x Hx. destruct (Hz x Hx) as (Z1 & Z2).
  assert (Z3 : margin o m M x (z x)) by (destruct So as (E1 & E2 & _ & _ & E5 & _); unfold margin in *; rewrite <- E1, <- E2, <- E5; exact Z2).
  split; [apply (HL o' z x So Mo' Hx Z1 Z3)|exact Z3].
Qed.
Print Assumptions C128_close.

(** So the solution depends continuously on γ, a_0, the Keplerian speed, the diffusivities in the midplane and the state it starts
    from, equally well at all angles of the interval. *)
Theorem C128_continuous : forall o m M a b y (os : nat -> ode_args) (z : nat -> R -> vec) s, 0 < m -> a <= s <= b ->
  interpolant_continuous o a b -> oa_with_taylor o = false -> parameters_within M o ->
  (forall x, a <= x <= b -> solves_at o y x /\ margin o m M x (y x)) ->
  (forall n, same_system o (os n) /\ parameters_within M (os n)) ->
  (forall n x, a <= x <= b -> solves_at (os n) (z n) x /\ margin (os n) m M x (z n x)) ->
  Un_cv (fun n => oa_γ (os n)) (oa_γ o) -> Un_cv (fun n => oa_a_0 (os n)) (oa_a_0 o) ->
  Un_cv (fun n => sqrt (oa_norm_kepler_sq (os n))) (sqrt (oa_norm_kepler_sq o)) ->
  (forall i, i = iη_O \/ i = iη_A \/ i = iη_H -> Un_cv (fun n => oa_init_con (os n) i) (oa_init_con o i)) ->
  (forall i, (i < ODE_LEN)%nat -> Un_cv (fun n => z n s i) (y s i)) ->
  forall δ, 0 < δ -> exists N, forall n, (N <= n)%nat -> forall t i, a <= t <= b -> (i < ODE_LEN)%nat -> Rabs (y t i - z n t i) < δ.
Proof.
  intros o m M a b y os z s Pm Hs Hi T Mo Hy So Hz C1 C2 C3 C4 Cs.
  destruct (almost o m M a b Pm ltac:(lra) Hi T Mo) as (L & PL & HL).
  apply (C126_converges o m M a b y z (fun n => L * parameter_gap o (os n)) s Pm Hs Hi Hy); [| |exact Cs].
  - intros n x Hx. split; [apply Rmult_le_pos; [exact PL|apply gap_pos]|]. destruct (So n) as (Sn & Mn). destruct (Hz n x Hx) as (Z1 & Z2).
    assert (Z3 : margin o m M x (z n x)) by (destruct Sn as (E1 & E2 & _ & _ & E5 & _); unfold margin in *; rewrite <- E1, <- E2, <- E5; exact Z2).
    split; [apply (HL (os n) (z n) x Sn Mn Hx Z1 Z3)|exact Z3].
  - assert (one : forall (u : nat -> R) l, Un_cv u l -> Un_cv (fun n => Rabs (l - u n)) 0).
    { intros u l H e He. destruct (H e He) as (N & HN). exists N. intros n Hn. specialize (HN n Hn). unfold R_dist in *.
      rewrite Rminus_0_r, Rabs_Rabsolu, Rabs_minus_sym. exact HN. }
    pose proof (CV_plus _ _ _ _ (CV_plus _ _ _ _ (CV_plus _ _ _ _ (CV_plus _ _ _ _ (CV_plus _ _ _ _ (one _ _ C1) (one _ _ C2)) (one _ _ C3))
      (one _ _ (C4 iη_O (or_introl eq_refl)))) (one _ _ (C4 iη_A (or_intror (or_introl eq_refl))))) (one _ _ (C4 iη_H (or_intror (or_intror eq_refl))))) as G.
    assert (CL : Un_cv (fun _ : nat => L) L) by (intros e He; exists 0%nat; intros n _; unfold R_dist; rewrite Rminus_diag_eq by reflexivity; rewrite Rabs_R0; exact He).
    pose proof (CV_mult _ _ _ _ CL G) as G'. cbv beta in G'. replace (L * (0 + 0 + 0 + 0 + 0 + 0)) with 0 in G' by ring. exact G'.
Qed.
Print Assumptions C128_continuous.

(** Not empty: set-ups with different diffusivity in the midplane, and a solution of each. *)
Definition o_par (c : R) : ode_args :=
  mk_ode_args (1 / 4) 1 (9 / 4) (state 0 0 1 0 0 (1 / 2) 1 0 (1 + c) 0 0) 1 false true true false (Some (fun _ => 0)) false.
Definition y_par (c t : R) : vec := state 0 0 (1 / cos t) 0 0 (1 / 2) (1 / cos t) 0 ((1 + c) * (1 / cos t)) 0 0.

Lemma y_par_solves : forall c x, 0 < cos x -> solves_at (o_par c) (y_par c) x.
Proof.
  intros c x Hc.
  assert (Hi : 0 < 1 / cos x) by (apply Rdiv_lt_0_compat; lra).
  destruct (rhs_accept (o_par c) x (y_par c x)) as [e He]; [reflexivity | simpl; lra | simpl; lra |].
  exists (fst (rhs_derivs (o_par c) x (y_par c x))), e. split; [exact He|].
  set (d := fst (rhs_derivs (o_par c) x (y_par c x))).
  assert (Hd1 : d iB_φ = 0) by reflexivity.
  assert (Hd0 : d iB_r = 0).
  { unfold d. rewrite rhs_B_r. fold d. rewrite Hd1. unfold deriv_B_r_func. simpl. unfold Rdiv. ring. }
  assert (Hd2 : d iB_θ = 1 / cos x * tan x).
  { unfold d. rewrite rhs_B_θ. simpl. ring. }
  assert (Hd5 : d iv_θ = 0) by reflexivity.
  assert (Hk : sqrt (9 / 4) = 3 / 2).
  { replace (9 / 4) with (3 / 2 * (3 / 2)) by field. apply sqrt_square; lra. }
  assert (Hd3 : d iv_r = 0).
  { unfold d. rewrite rhs_v_r by reflexivity. fold d. rewrite Hd0. unfold deriv_v_r_normal_expr.
    simpl. rewrite Hk. field. lra. }
  assert (Hd4 : d iv_φ = 0).
  { unfold d. rewrite rhs_v_φ by reflexivity. fold d. rewrite Hd1. unfold deriv_v_φ_normal_expr.
    simpl. field. lra. }
  assert (Hd6 : d iρ = 1 / cos x * tan x).
  { unfold d. rewrite rhs_ρ by reflexivity. fold d. rewrite Hd5. unfold deriv_ρ_normal_expr. simpl. field. lra. }
  destruct (rhs_η (o_par c) x (y_par c x)) as (E8 & E9 & E10). fold d in E8, E9, E10.
  assert (Hd8 : d iη_O = (1 + c) * (1 / cos x * tan x)).
  { rewrite E8. simpl. rewrite Hd0, Hd1, Hd2, Hd6. unfold deriv_η_skw_func. simpl. field. lra. }
  assert (Hd9 : d iη_A = 0) by (rewrite E9; simpl; ring).
  assert (Hd10 : d iη_H = 0) by (rewrite E10; simpl; ring).
  assert (Hd7 : d iB_φ_prime = 0).
  { unfold d. rewrite rhs_B_φ_prime by reflexivity. fold d.
    unfold B_unit_derivs. cbv zeta. unfold dderiv_B_φ_soln.
    rewrite Hd0, Hd1, Hd4, Hd5, Hd9, Hd10. unfold C_func. simpl.
    unfold Rdiv. ring. }
  intros i Hi'. unfold ODE_LEN in Hi'. clear He E8 E9 E10. clearbody d.
  assert (HI : derivable_pt_lim (fun t => 1 / cos t) x (1 / cos x * tan x)) by (apply dpl_inv_cos; lra).
  assert (HJ : derivable_pt_lim (fun t => (1 + c) * (1 / cos t)) x ((1 + c) * (1 / cos x * tan x))).
  { eapply dpl_eq; [apply (derivable_pt_lim_mult (fun _ => 1 + c) (fun t => 1 / cos t) x _ _ (derivable_pt_lim_const (1 + c) x) HI)|]. ring. }
  do 11 (destruct i as [|i];
    [cbv beta iota delta [y_par state]; first [ eapply dpl_eq; [exact HI | symmetry; first [exact Hd2 | exact Hd6]]
           | eapply dpl_eq; [exact HJ | symmetry; exact Hd8]
           | eapply dpl_eq; [apply dpl_const
             | symmetry; first [exact Hd0 | exact Hd1 | exact Hd3 | exact Hd4 | exact Hd5 | exact Hd7
                               | exact Hd9 | exact Hd10]] ] |]); lia.
Qed.

Lemma y_par_margin : forall c x, 0 <= c <= 1 -> 0 <= x <= 1 / 2 -> margin (o_par c) (1 / 4) 4 x (y_par c x).
Proof.
  intros c x Hc Hx. assert (C : 1 / 2 <= cos x).
  { rewrite <- cos_PI3. apply cos_decr_1; pose proof PI2_1; pose proof PI_RGT_0; try lra. }
  pose proof (COS_bound x) as (_ & C1).
  assert (I1 : 1 <= 1 / cos x) by (apply (Rmult_le_reg_r (cos x)); [lra|]; replace (1 / cos x * cos x) with 1 by (field; lra); lra).
  assert (I2 : 1 / cos x <= 2) by (apply (Rmult_le_reg_r (cos x)); [lra|]; replace (1 / cos x * cos x) with 1 by (field; lra); lra).
  unfold margin, o_par, y_par, state. cbn [oa_θ_scale oa_with_taylor oa_deriv_v_θ_func iB_r iB_φ iB_θ iv_θ iρ iη_O iη_A].
  rewrite Rmult_1_r. assert (S1 : 1 <= (1 / cos x) ^ 2) by nra.
  assert (S2 : 1 <= (1 + c) * (1 / cos x)) by nra. assert (S3 : (1 + c) * (1 / cos x) <= 4) by nra.
  split; [rewrite Rabs_right; lra|]. split; [lra|]. split; [rewrite Rabs_right; lra|]. split; [lra|]. split; [lra|].
  split; [intros _; rewrite Rabs_right; lra|]. split; [discriminate|].
  intros i Hl. unfold ODE_LEN in Hl.
  do 11 (destruct i as [|i]; [rewrite Rabs_right; lra|]). lia.
Qed.

Example C128_nonvacuous :
  interpolant_continuous (o_par 0) 0 (1 / 2) /\ oa_with_taylor (o_par 0) = false /\
  (forall c, 0 <= c <= 1 -> same_system (o_par 0) (o_par c) /\ parameters_within 4 (o_par c) /\ parameter_gap (o_par 0) (o_par c) = c /\
    (forall x, 0 <= x <= 1 / 2 -> solves_at (o_par c) (y_par c) x /\ margin (o_par c) (1 / 4) 4 x (y_par c x)) /\
    (forall x, 0 <= x <= 1 / 2 -> y_par c x iη_O - y_par 0 x iη_O = c / cos x)).
Proof.
  split; [intros f Ef x _; inversion Ef; apply continuity_pt_const; intros u v; reflexivity|]. split; [reflexivity|]. intros c Hc.
  assert (C : forall x, 0 <= x <= 1 / 2 -> 0 < cos x) by (intros x Hx; apply cos_gt_0; pose proof PI2_1; lra).
  assert (Hk : sqrt (9 / 4) = 3 / 2).
  { replace (9 / 4) with (3 / 2 * (3 / 2)) by field. apply sqrt_square; lra. }
  split; [repeat split; reflexivity|].
  split. { unfold parameters_within, o_par, state. cbn [oa_γ oa_a_0 oa_norm_kepler_sq oa_init_con iη_O iη_A iη_H]. rewrite Hk. rewrite !Rabs_right by lra. lra. }
  split. { unfold parameter_gap, o_par, state. cbn [oa_γ oa_a_0 oa_norm_kepler_sq oa_init_con iη_O iη_A iη_H]. unfold Rminus. rewrite !Rplus_opp_r.
    rewrite Rabs_R0. replace (1 + 0 + - (1 + c)) with (- c) by ring. rewrite Rabs_Ropp, (Rabs_right c) by lra. lra. }
  split; [intros x Hx; split; [apply y_par_solves, C, Hx|apply y_par_margin; assumption]|].
  intros x Hx. unfold y_par, state. cbn [iη_O]. field. apply Rgt_not_eq, C, Hx.
Qed.
