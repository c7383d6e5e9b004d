(** Proof of C129: through every state with a margin there is a solution, on an interval whose length depends on the margin only. *)
From Coq Require Import Reals Lra Lia FunctionalExtensionality.
From Verif Require Import Model_Index Model_Deriv Model_Midplane Model_Ode Lib_Deriv Lib_Lipschitz Lib_Picard Spec_MHD Spec_Ode Spec_Unique Spec_Error Spec_Exist
  Proofs_Ode Proofs_Unique Proofs_Error.
Open Scope R_scope.

(** ** The slopes are continuous along continuous curves *)
Lemma cp_const : forall c t, continuity_pt (fun _ => c) t.
Proof. intros. apply continuity_pt_const. intros u v. reflexivity. Qed.
Lemma cp_sq : forall f t, continuity_pt f t -> continuity_pt (fun x => f x ^ 2) t.
Proof. intros f t H. apply (continuity_pt_mult f (fun x => f x ^ 1)); [exact H|]. apply (continuity_pt_mult f (fun x => f x ^ 0)); [exact H|exact (cp_const 1 t)]. Qed.
Lemma Rabs_le_between : forall x c, Rabs x <= c -> - c <= x <= c.
Proof. intros x c H. unfold Rabs in H. destruct Rcase_abs; lra. Qed.
Ltac cc := cbv beta; match goal with
  | |- continuity_pt (fun _ => ?c) ?t => exact (cp_const c t)
  | H : continuity_pt ?f ?t |- continuity_pt ?f ?t => exact H
  | |- continuity_pt (fun x => @?f x + @?g x) ?t => refine (continuity_pt_plus f g t _ _)
  | |- continuity_pt (fun x => @?f x - @?g x) ?t => refine (continuity_pt_minus f g t _ _)
  | |- continuity_pt (fun x => @?f x * @?g x) ?t => refine (continuity_pt_mult f g t _ _)
  | |- continuity_pt (fun x => @?f x / @?g x) ?t => refine (continuity_pt_div f g t _ _ _)
  | |- continuity_pt (fun x => @?f x ^ 2) ?t => refine (cp_sq f t _)
  | |- continuity_pt (fun x => - @?f x) ?t => refine (continuity_pt_opp f t _)
  end.

Section Slopes.
Variables (o : ode_args) (m M : R) (τ : R -> R) (w : R -> vec) (t : R).
Hypothesis Pm : 0 < m.
Hypothesis Cτ : continuity_pt τ t.
Hypothesis Cw : forall i, (i < ODE_LEN)%nat -> continuity_pt (fun x => w x i) t.
Hypothesis Mg : margin o m M (τ t) (w t).
Hypothesis Hi : forall f, oa_deriv_v_θ_func o = Some f -> continuity_pt f (τ t * oa_θ_scale o).
Let s := oa_θ_scale o.
Let D (i : nat) : Prop := continuity_pt (fun x => fst (rhs_derivs o (τ x * s) (w x)) i) t.

Ltac nz := match goal with
    | |- _ ^ 2 <> 0 => apply pow_nonzero; nz
    | Q : 0 < sqrt ?m, Y : dens_from ?m _ |- ?x <> 0 => apply Rgt_not_eq; first
      [ apply (Rlt_le_trans _ m); [assumption|apply Y] | apply (Rlt_le_trans _ (sqrt m)); [assumption|apply Y] ]
    end.

Lemma slopes_continuous : forall i, (i < ODE_LEN)%nat -> D i.
Proof.
  pose proof (Cw iB_r ltac:(unfold iB_r, ODE_LEN; lia)) as LBr. pose proof (Cw iB_φ ltac:(unfold iB_φ, ODE_LEN; lia)) as LBf.
  pose proof (Cw iB_θ ltac:(unfold iB_θ, ODE_LEN; lia)) as LBt. pose proof (Cw iv_r ltac:(unfold iv_r, ODE_LEN; lia)) as Lvr.
  pose proof (Cw iv_φ ltac:(unfold iv_φ, ODE_LEN; lia)) as Lvf. pose proof (Cw iv_θ ltac:(unfold iv_θ, ODE_LEN; lia)) as Lvt.
  pose proof (Cw iρ ltac:(unfold iρ, ODE_LEN; lia)) as Lr. pose proof (Cw iB_φ_prime ltac:(unfold iB_φ_prime, ODE_LEN; lia)) as L7.
  assert (L7' : continuity_pt (fun x => w x iE_r) t) by exact L7.
  pose proof (Cw iη_O ltac:(unfold iη_O, ODE_LEN; lia)) as LO. pose proof (Cw iη_A ltac:(unfold iη_A, ODE_LEN; lia)) as LA.
  pose proof (Cw iη_H ltac:(unfold iη_H, ODE_LEN; lia)) as LH.
  destruct Mg as (H1 & H2 & H3 & H4 & H5 & H6 & H7 & _).
  assert (Z : forall x, m <= Rabs x -> x <> 0) by (intros x Hx E; rewrite E, Rabs_R0 in Hx; lra).
  assert (Lθ : continuity_pt (fun x => τ x * s) t) by (apply (continuity_pt_mult τ (fun _ => s)); [exact Cτ|apply cp_const]).
  assert (Lcos : continuity_pt (fun x => cos (τ x * s)) t) by (apply (continuity_pt_comp (fun x => τ x * s) cos); [exact Lθ|apply continuity_cos]).
  assert (Lsin : continuity_pt (fun x => sin (τ x * s)) t) by (apply (continuity_pt_comp (fun x => τ x * s) sin); [exact Lθ|apply continuity_sin]).
  assert (Ltan : continuity_pt (fun x => tan (τ x * s)) t) by (unfold tan; repeat cc; apply Z, H1).
  assert (Lsec : continuity_pt (fun x => sec (τ x * s)) t) by (unfold sec; repeat cc; apply Z, H1).
  assert (Den : dens_from m (w t)) by (apply denominators_from; assumption).
  pose proof (sqrt_lt_R0 m Pm) as Qm.
  assert (Lm : continuity_pt (fun x => sqrt (w x iB_r ^ 2 + w x iB_φ ^ 2 + w x iB_θ ^ 2)) t).
  { apply (continuity_pt_comp (fun x => w x iB_r ^ 2 + w x iB_φ ^ 2 + w x iB_θ ^ 2) sqrt); [repeat cc|]. apply continuity_pt_sqrt. lra. }
  assert (Lbr : continuity_pt (fun x => w x iB_r / sqrt (w x iB_r ^ 2 + w x iB_φ ^ 2 + w x iB_θ ^ 2)) t) by (repeat cc; nz).
  assert (Lbf : continuity_pt (fun x => w x iB_φ / sqrt (w x iB_r ^ 2 + w x iB_φ ^ 2 + w x iB_θ ^ 2)) t) by (repeat cc; nz).
  assert (Lbt : continuity_pt (fun x => w x iB_θ / sqrt (w x iB_r ^ 2 + w x iB_φ ^ 2 + w x iB_θ ^ 2)) t) by (repeat cc; nz).
  assert (LC : continuity_pt (fun x => C_func (w x iη_O) (w x iη_A) (w x iη_H) (w x iB_θ / sqrt (w x iB_r ^ 2 + w x iB_φ ^ 2 + w x iB_θ ^ 2))
    (w x iB_r / sqrt (w x iB_r ^ 2 + w x iB_φ ^ 2 + w x iB_θ ^ 2)) (w x iB_φ / sqrt (w x iB_r ^ 2 + w x iB_φ ^ 2 + w x iB_θ ^ 2))) t).
  { unfold C_func. repeat cc; nz. }
  assert (eqD : forall i (G : R -> R), (forall x, fst (rhs_derivs o (τ x * s) (w x)) i = G x) -> continuity_pt G t -> D i).
  { intros i G E H. unfold D. replace (fun x => fst (rhs_derivs o (τ x * s) (w x)) i) with G; [exact H|]. apply functional_extensionality. intros x. symmetry. apply E. }
  assert (r0 : w t iρ <> 0) by (apply Z, H3).
  assert (v0 : oa_with_taylor o = false -> w t iv_θ <> 0) by (intros T; apply Z, H6, T).
  assert (v1 : oa_deriv_v_θ_func o = None -> (1 - w t iv_θ) * (1 + w t iv_θ) <> 0).
  { intros F. replace ((1 - w t iv_θ) * (1 + w t iv_θ)) with (1 - w t iv_θ ^ 2) by ring. apply Z, H7, F. }
  assert (two' : 2 <> 0) by lra. assert (four' : 4 <> 0) by lra.
  assert (DBt : D iB_θ) by (eapply eqD; [intros x; apply rhs_B_θ|]; repeat cc; lra).
  assert (DBf : D iB_φ).
  { eapply eqD; [intros x; apply rhs_B_φ|]. cbv zeta. destruct (oa_use_E_r o); [|exact L7].
    unfold deriv_B_φ_func. repeat cc; try (unfold Z_5_func; repeat cc); first [lra|nz]. }
  assert (DBr : D iB_r).
  { eapply eqD; [intros x; apply rhs_B_r|]. cbv zeta. unfold deriv_B_r_func. unfold D in DBf. repeat cc; first [lra|nz]. }
  assert (Dvr : D iv_r).
  { destruct (oa_with_taylor o) eqn:T.
    - eapply eqD; [intros x; apply (rhs_v_r_taylor o (τ x * s) (w x) T)|]. repeat cc.
    - eapply eqD; [intros x; apply (rhs_v_r o (τ x * s) (w x) T)|]. unfold deriv_v_r_normal_expr. unfold D in *.
      repeat cc; first [lra|exact r0|exact (v0 eq_refl)]. }
  assert (Dvf : D iv_φ).
  { destruct (oa_with_taylor o) eqn:T.
    - eapply eqD; [intros x; apply (rhs_v_φ_taylor o (τ x * s) (w x) T)|]. repeat cc.
    - eapply eqD; [intros x; apply (rhs_v_φ o (τ x * s) (w x) T)|]. unfold deriv_v_φ_normal_expr. unfold D in *.
      repeat cc; first [lra|exact r0|exact (v0 eq_refl)]. }
  assert (Dvt : D iv_θ).
  { destruct (oa_deriv_v_θ_func o) as [f|] eqn:F.
    - eapply eqD; [intros x; apply (rhs_v_θ_func o (τ x * s) (w x) f F)|].
      apply (continuity_pt_comp (fun x => τ x * s) f); [exact Lθ|exact (Hi f eq_refl)].
    - eapply eqD; [intros x; apply (rhs_v_θ o (τ x * s) (w x) F)|]. unfold deriv_v_θ_expr. unfold D in *.
      repeat cc; first [lra|exact r0|exact (v1 eq_refl)]. }
  assert (Dr : D iρ).
  { destruct (oa_with_taylor o) eqn:T.
    - eapply eqD; [intros x; apply (rhs_ρ_taylor o (τ x * s) (w x) T)|]. repeat cc.
    - eapply eqD; [intros x; apply (rhs_ρ o (τ x * s) (w x) T)|]. unfold deriv_ρ_normal_expr. unfold D in *.
      repeat cc; first [lra|exact (v0 eq_refl)]. }
  assert (DO : D iη_O).
  { eapply eqD; [intros x; apply (rhs_η o (τ x * s) (w x))|]. destruct (oa_η_derivs o); [|cc].
    unfold deriv_η_skw_func. cbv zeta. unfold D in *. repeat cc; first [lra|exact r0]. }
  assert (DA : D iη_A).
  { eapply eqD; [intros x; apply (rhs_η o (τ x * s) (w x))|]. destruct (oa_η_derivs o); [|cc].
    unfold deriv_η_skw_func. cbv zeta. unfold D in *. repeat cc; first [lra|exact r0]. }
  assert (DH : D iη_H).
  { eapply eqD; [intros x; apply (rhs_η o (τ x * s) (w x))|]. destruct (oa_η_derivs o); [|cc].
    unfold deriv_η_skw_func. cbv zeta. unfold D in *. repeat cc; first [lra|exact r0]. }
  assert (D7 : D iB_φ_prime).
  { destruct (oa_use_E_r o) eqn:U.
    - change (D iE_r). eapply eqD; [intros x; apply (rhs_E_r o (τ x * s) (w x) U)|].
      unfold deriv_E_r_func, E_θ_func, J_r_func, J_θ_func, J_φ_func. unfold D in *. repeat cc; lra.
    - eapply eqD; [intros x; apply (rhs_B_φ_prime o (τ x * s) (w x) U)|].
      unfold B_unit_derivs, B_unit_deriv_1. cbv beta zeta iota. unfold D in *.
      unfold dderiv_B_φ_soln, A_func.
      repeat cc; first [lra|nz]. }
  intros i Hl. unfold ODE_LEN in Hl.
  do 11 (destruct i as [|i]; [assumption|]). lia.
Qed.
End Slopes.

(** ** The states around one with a margin have half the margin *)
Definition box_size (m M : R) : R := Rmin 1 (m / (6 * (2 * Rabs M + 1))).
Lemma box_pos : forall m M, 0 < m -> 0 < box_size m M <= 1 /\ 3 * (box_size m M * (2 * Rabs M + 1)) <= m / 2 /\ box_size m M <= m / 2.
Proof.
  intros m M Pm. pose proof (Rabs_pos M) as PM. assert (P6 : 0 < 6 * (2 * Rabs M + 1)) by lra.
  assert (Q : 0 < m / (6 * (2 * Rabs M + 1))) by (apply Rdiv_lt_0_compat; lra).
  assert (L1 : box_size m M <= 1) by apply Rmin_l. assert (L2 : box_size m M <= m / (6 * (2 * Rabs M + 1))) by apply Rmin_r.
  assert (L3 : 0 < box_size m M) by (apply Rmin_pos; lra). set (r := box_size m M) in *.
  assert (L4 : r * (6 * (2 * Rabs M + 1)) <= m).
  { apply (Rmult_le_compat_r (6 * (2 * Rabs M + 1))) in L2; [|lra]. replace (m / (6 * (2 * Rabs M + 1)) * (6 * (2 * Rabs M + 1))) with m in L2 by (field; lra). exact L2. }
  assert (0 <= r * Rabs M) by (apply Rmult_le_pos; lra). lra.
Qed.
Lemma sq_close : forall x y r M, 0 <= r <= 1 -> Rabs (x - y) <= r -> Rabs y <= M -> Rabs (x ^ 2 - y ^ 2) <= r * (2 * Rabs M + 1).
Proof.
  intros x y r M Hr H Hy. replace (x ^ 2 - y ^ 2) with ((x - y) * ((x - y) + 2 * y)) by ring. rewrite Rabs_mult.
  apply Rmult_le_compat; [apply Rabs_pos|apply Rabs_pos|exact H|]. eapply Rle_trans; [apply Rabs_triang|]. rewrite Rabs_mult, (Rabs_right 2) by lra.
  pose proof (Rle_abs M). lra.
Qed.
Lemma cos_near : forall u v, Rabs (cos u - cos v) <= Rabs (u - v).
Proof.
  assert (H : forall u v, v < u -> Rabs (cos u - cos v) <= Rabs (u - v)).
  { intros u v L. destruct (MVT_cor2 cos (fun x => - sin x) v u L) as (c & E & _); [intros c _; apply derivable_pt_lim_cos|].
    rewrite E, Rabs_mult, Rabs_Ropp. rewrite <- (Rmult_1_l (Rabs (u - v))) at 2. apply Rmult_le_compat_r; [apply Rabs_pos|].
    apply Rabs_le. apply SIN_bound. }
  intros u v. destruct (Rtotal_order v u) as [L|[E|L]]; [apply H, L| |].
  - subst. rewrite !Rminus_diag_eq by reflexivity. rewrite Rabs_R0. lra.
  - rewrite (Rabs_minus_sym (cos u)), (Rabs_minus_sym u). apply H, L.
Qed.
Lemma abs_from : forall x y c, c <= Rabs y -> Rabs (x - y) <= c / 2 -> c / 2 <= Rabs x.
Proof. intros x y c H L. unfold Rabs in *. repeat destruct Rcase_abs; lra. Qed.

Lemma margin_around : forall o m M x0 p0 x p, 0 < m -> margin o m M x0 p0 -> Rabs (x - x0) * Rabs (oa_θ_scale o) <= m / 2 ->
  (forall i, (i < ODE_LEN)%nat -> Rabs (p i - p0 i) <= box_size m M) -> 0 <= p iη_A -> margin o (m / 2) (M + 1) x p.
Proof.
  intros o m M x0 p0 x p Pm (H1 & H2 & H3 & H4 & H5 & H6 & H7 & H8) Hx Hp PA.
  destruct (box_pos m M Pm) as (R1 & R2 & R3). set (r := box_size m M) in *.
  assert (PM := Rabs_pos M). assert (R4 : r * (2 * Rabs M + 1) <= m / 2) by (assert (0 <= r * (2 * Rabs M + 1)) by (apply Rmult_le_pos; lra); lra).
  assert (sq : forall i, (i < ODE_LEN)%nat -> Rabs (p i ^ 2 - p0 i ^ 2) <= r * (2 * Rabs M + 1)) by (intros i Hl; apply sq_close; [lra|apply Hp, Hl|apply H8, Hl]).
  split; [apply (abs_from _ (cos (x0 * oa_θ_scale o))); [exact H1|]; eapply Rle_trans; [apply cos_near|]; rewrite <- Rmult_minus_distr_r, Rabs_mult; exact Hx|].
  pose proof (sq iB_r ltac:(unfold iB_r, ODE_LEN; lia)) as S1. pose proof (sq iB_φ ltac:(unfold iB_φ, ODE_LEN; lia)) as S2.
  pose proof (sq iB_θ ltac:(unfold iB_θ, ODE_LEN; lia)) as S3. pose proof (sq iv_θ ltac:(unfold iv_θ, ODE_LEN; lia)) as S4.
  apply Rabs_le_between in S1. apply Rabs_le_between in S2. apply Rabs_le_between in S3.
  split; [lra|].
  pose proof (Hp iρ ltac:(unfold iρ, ODE_LEN; lia)) as Q1. pose proof (Hp iη_O ltac:(unfold iη_O, ODE_LEN; lia)) as Q2.
  pose proof (Hp iv_θ ltac:(unfold iv_θ, ODE_LEN; lia)) as Q3.
  split; [apply (abs_from _ (p0 iρ)); [exact H3|lra]|].
  split; [apply Rabs_le_between in Q2; lra|]. split; [exact PA|].
  split; [intros T; apply (abs_from _ (p0 iv_θ)); [exact (H6 T)|lra]|].
  split; [intros F; apply (abs_from _ (1 - p0 iv_θ ^ 2)); [exact (H7 F)|]; replace (1 - p iv_θ ^ 2 - (1 - p0 iv_θ ^ 2)) with (- (p iv_θ ^ 2 - p0 iv_θ ^ 2)) by ring; rewrite Rabs_Ropp; lra|].
  intros i Hl. specialize (Hp i Hl). specialize (H8 i Hl). replace (p i) with ((p i - p0 i) + p0 i) by ring. eapply Rle_trans; [apply Rabs_triang|]. lra.
Qed.

(** ** Existence *)
Section Exist.
Variables (o : ode_args) (a b m M : R).
Hypothesis Hab : a <= b.
Hypothesis Pm : 0 < m.
Hypothesis Hi : interpolant_continuous o a b.
Let s := oa_θ_scale o.
Let r := box_size m M.

(** One bound for all slopes at states with half the margin. *)
Lemma slopes_bounded : exists C, 0 <= C /\ forall t p i, a <= t <= b -> margin o (m / 2) (M + 1) t p -> (i < ODE_LEN)%nat ->
  Rabs (fst (rhs_derivs o (t * s) p) i) <= C.
Proof.
  assert (G : forall n, (n <= ODE_LEN)%nat -> exists C, 0 <= C /\ forall t p i, a <= t <= b -> margin o (m / 2) (M + 1) t p -> (i < n)%nat ->
    Rabs (fst (rhs_derivs o (t * s) p) i) <= C).
  { induction n as [|n IH]; intros Hn; [exists 0; split; [lra|intros; lia]|].
    destruct IH as (C & PC & H); [lia|]. destruct (near_derivs o a b (m / 2) (M + 1) Hab ltac:(lra) Hi n Hn) as ((C' & P' & H') & _).
    exists (C + C'). split; [lra|]. intros t p i Ht Hp Hl.
    destruct (Nat.eq_dec i n) as [-> |Ne]; [specialize (H' (mk_duo t p p) (conj Ht (conj Hp Hp))); change (Rabs (fst (rhs_derivs o (t * s) p) n) <= C') in H'; lra|].
    specialize (H t p i Ht Hp ltac:(lia)). lra. }
  apply (G ODE_LEN (le_n _)).
Qed.

Lemma exist_uniform : exists h, 0 < h /\ forall x0 p0, a <= x0 <= b -> margin o m M x0 p0 -> accepted_from o m p0 -> ambipolar_from o m p0 ->
  exists y : R -> vec, (forall i, (i < ODE_LEN)%nat -> y x0 i = p0 i) /\
  forall x, a <= x <= b -> Rabs (x - x0) < h -> solves_at o y x /\ margin o (m / 2) (M + 1) x (y x) /\ ambipolar_from o (m / 2) (y x).
Proof.
  destruct slopes_bounded as (C & PC & HC). destruct (lipschitz o a b (m / 2) (M + 1) Hab ltac:(lra) Hi) as (K & PK & HK). fold s in HK.
  destruct (box_pos m M Pm) as (R1 & _ & R3). fold r in R1, R3.
  pose proof (Rabs_pos s) as Ps.
  set (h1 := m / (2 * (Rabs s + 1))). assert (P1 : 0 < h1) by (apply Rdiv_lt_0_compat; lra).
  assert (S1 : h1 * Rabs s <= m / 2).
  { assert (E : h1 * (Rabs s + 1) = m / 2) by (unfold h1; field; lra). assert (0 < h1 * 1) by lra. lra. }
  set (h := Rmin h1 (Rmin (r / (C + 1)) (/ (2 * (4 * K + 1))))).
  assert (Ph : 0 < h). { repeat apply Rmin_pos; [exact P1|apply Rdiv_lt_0_compat; lra|apply Rinv_0_lt_compat; lra]. }
  assert (h_1 : h <= h1) by apply Rmin_l.
  assert (h_2 : C * h <= r).
  { assert (L : h <= r / (C + 1)) by (eapply Rle_trans; [apply Rmin_r|apply Rmin_l]).
    apply (Rmult_le_compat_l (C + 1)) in L; [|lra]. replace ((C + 1) * (r / (C + 1))) with r in L by (field; lra). lra. }
  assert (h_3 : 4 * K * h <= 1 / 2).
  { assert (L : h <= / (2 * (4 * K + 1))) by (eapply Rle_trans; [apply Rmin_r|apply Rmin_r]).
    apply (Rmult_le_compat_l (4 * K + 1)) in L; [|lra]. replace ((4 * K + 1) * / (2 * (4 * K + 1))) with (1 / 2) in L by (field; lra). lra. }
  exists h. split; [exact Ph|]. intros x0 p0 Hx0 Mg Ac Am.
  pose proof Mg as (_ & _ & G3 & _ & G5 & _ & _ & _).
  set (lo := fun i => if Nat.eqb i iη_A then Rmax 0 (p0 i - r) else p0 i - r). set (hi := fun i => p0 i + r).
  assert (lo_le : forall i, p0 i - r <= lo i <= p0 i).
  { intros i. unfold lo. destruct (Nat.eqb i iη_A) eqn:E; [|lra]. apply Nat.eqb_eq in E. subst i.
    split; [apply Rmax_r|apply Rmax_lub; lra]. }
  set (box := fun (p : vec) i => if Nat.ltb i ODE_LEN then clamp (lo i) (hi i) (p i) else p i).
  assert (box_at : forall p i, (i < ODE_LEN)%nat -> box p i = clamp (lo i) (hi i) (p i)).
  { intros p i Hl. unfold box. apply Nat.ltb_lt in Hl. rewrite Hl. reflexivity. }
  assert (box_in : forall p i, (i < ODE_LEN)%nat -> lo i <= box p i <= hi i).
  { intros p i Hl. rewrite box_at by exact Hl. apply clamp_in. unfold hi. specialize (lo_le i). lra. }
  set (ta := Rmax a (x0 - h1)). set (tb := Rmin b (x0 + h1)).
  assert (Tab : ta <= x0 <= tb) by (unfold ta, tb; split; [apply Rmax_lub; lra|apply Rmin_glb; lra]).
  set (τ := clamp ta tb).
  assert (τ_in : forall t, a <= τ t <= b /\ Rabs (τ t - x0) <= h1).
  { intros t. pose proof (clamp_in ta tb t ltac:(lra)) as I. fold τ in I. assert (a <= ta) by apply Rmax_l. assert (x0 - h1 <= ta) by apply Rmax_r.
    assert (tb <= b) by apply Rmin_l. assert (tb <= x0 + h1) by apply Rmin_r. split; [lra|]. apply Rabs_le. lra. }
  assert (Mb : forall t p, margin o (m / 2) (M + 1) (τ t) (box p)).
  { intros t p. apply (margin_around o m M x0 p0); [exact Pm|exact Mg| | |].
    - fold s. destruct (τ_in t) as (_ & B). apply (Rmult_le_compat_r (Rabs s)) in B; [|lra]. lra.
    - intros i Hl. pose proof (box_in p i Hl) as B. specialize (lo_le i). unfold hi in B. fold r. apply Rabs_le. lra.
    - pose proof (box_in p iη_A ltac:(unfold iη_A, ODE_LEN; lia)) as B. unfold lo in B. rewrite Nat.eqb_refl in B. assert (0 <= Rmax 0 (p0 iη_A - r)) by apply Rmax_l. lra. }
  set (G := fun t (p : nat -> R) i => fst (rhs_derivs o (τ t * s) (box p)) i).
  destruct (picard_std ODE_LEN G x0 h (4 * K) C p0 Ph ltac:(lra) PC) as (u & U0 & U).
  - intros t p i Hl. apply HC; [apply τ_in|apply Mb|exact Hl].
  - intros t p q i d Hl Hd. unfold G. eapply Rle_trans; [apply (HK (τ t) (box p) (box q)); [apply τ_in|apply Mb|apply Mb|exact Hl]|].
    assert (Pd : 0 <= d) by (eapply Rle_trans; [apply Rabs_pos|apply (Hd 0%nat); unfold ODE_LEN; lia]).
    replace (4 * K * d) with (K * (4 * d)) by ring. apply Rmult_le_compat_l; [exact PK|].
    apply Rsqr_incr_0; [|apply sqrt_pos|lra]. rewrite Rsqr_sqrt by apply dist_pos. unfold Rsqr.
    assert (one : forall j, (j < ODE_LEN)%nat -> (box p j - box q j) ^ 2 <= d * d).
    { intros j Hj. rewrite !box_at by exact Hj. assert (L : Rabs (clamp (lo j) (hi j) (p j) - clamp (lo j) (hi j) (q j)) <= d).
      { eapply Rle_trans; [apply clamp_near; unfold hi; specialize (lo_le j); lra|apply Hd, Hj]. }
      rewrite <- Rsqr_pow2, Rsqr_abs. unfold Rsqr. apply Rmult_le_compat; auto using Rabs_pos. }
    unfold dist_sq, ODE_LEN in *. cbn [pred sum_f_R0].
    pose proof (one 0%nat ltac:(lia)). pose proof (one 1%nat ltac:(lia)). pose proof (one 2%nat ltac:(lia)). pose proof (one 3%nat ltac:(lia)).
    pose proof (one 4%nat ltac:(lia)). pose proof (one 5%nat ltac:(lia)). pose proof (one 6%nat ltac:(lia)). pose proof (one 7%nat ltac:(lia)).
    pose proof (one 8%nat ltac:(lia)). pose proof (one 9%nat ltac:(lia)). pose proof (one 10%nat ltac:(lia)).
    assert (0 <= d * d) by (apply Rmult_le_pos; exact Pd). lra.
  - intros u Cu i t Hl. unfold G. apply (slopes_continuous o (m / 2) (M + 1) τ (fun x => box (u x)) t); [lra| | |apply Mb| |exact Hl].
    + apply clamp_cont. lra.
    + intros j Hj.
      replace (fun x => box (u x) j) with (fun x => clamp (lo j) (hi j) (u x j)) by (apply functional_extensionality; intros x; symmetry; apply box_at, Hj).
      apply (continuity_pt_comp (fun x => u x j) (clamp (lo j) (hi j))); [apply Cu, Hj|]. apply clamp_cont. unfold hi. specialize (lo_le j). lra.
    + intros f F. apply (Hi f F), τ_in.
  - exact h_3.
  - exists u. split; [exact U0|].
    (* the ambipolar diffusivity stays where it may be *)
    assert (NA : forall x, Rabs (x - x0) < h -> lo iη_A <= u x iη_A).
    { intros x Hx. destruct Am as [Am|Am].
      - unfold lo. rewrite Nat.eqb_refl. rewrite Rmax_right by lra.
        destruct (U x iη_A ltac:(unfold iη_A, ODE_LEN; lia) Hx) as (_ & B).
        assert (C * Rabs (x - x0) <= C * h) by (apply Rmult_le_compat_l; lra). apply Rabs_le_between in B. lra.
      - assert (Z : forall t p, G t p iη_A = 0).
        { intros t p. unfold G. rewrite (proj1 (proj2 (rhs_η o (τ t * s) (box p)))). destruct Am as [Am|Am]; rewrite Am; [reflexivity|].
          destruct (oa_η_derivs o); [ring|reflexivity]. }
        assert (Q : u x iη_A = p0 iη_A).
        { rewrite <- (U0 iη_A) by (unfold iη_A, ODE_LEN; lia). destruct (Rtotal_order x x0) as [L|[->|L]]; [| reflexivity |].
          - destruct (MVT_cor2 (fun t => u t iη_A) (fun t => G t (u t) iη_A) x x0 L) as (c & E & _).
            + intros c Hc. apply U; [unfold iη_A, ODE_LEN; lia|]. apply Rabs_def1; apply Rabs_def2 in Hx; lra.
            + rewrite Z in E. lra.
          - destruct (MVT_cor2 (fun t => u t iη_A) (fun t => G t (u t) iη_A) x0 x L) as (c & E & _).
            + intros c Hc. apply U; [unfold iη_A, ODE_LEN; lia|]. apply Rabs_def1; apply Rabs_def2 in Hx; lra.
            + rewrite Z in E. lra. }
        rewrite Q. apply lo_le. }
    assert (In : forall x, Rabs (x - x0) < h -> forall i, (i < ODE_LEN)%nat -> lo i <= u x i <= hi i).
    { intros x Hx i Hl. destruct (U x i Hl Hx) as (_ & B). assert (C * Rabs (x - x0) <= C * h) by (apply Rmult_le_compat_l; lra).
      apply Rabs_le_between in B. split; [|unfold hi; lra]. destruct (Nat.eq_dec i iη_A) as [-> |N]; [apply NA, Hx|].
      unfold lo. apply Nat.eqb_neq in N. rewrite N. lra. }
    intros x Hx Hd.
    assert (Ebox : box (u x) = u x).
    { apply functional_extensionality. intros i. unfold box. destruct (Nat.ltb i ODE_LEN) eqn:E; [|reflexivity]. apply Nat.ltb_lt in E.
      apply clamp_id. apply In; assumption. }
    assert (Eτ : τ x = x).
    { apply clamp_id. apply Rabs_def2 in Hd. unfold ta, tb. split; [apply Rmax_lub; lra|apply Rmin_glb; lra]. }
    pose proof (Mb x (u x)) as Mx. rewrite Ebox, Eτ in Mx. split; [|split; [exact Mx|]].
    2:{ destruct Am as [Am|Am]; [left|right; exact Am]. pose proof (In x Hd iη_A ltac:(unfold iη_A, ODE_LEN; lia)) as B. specialize (lo_le iη_A). lra. }
    assert (A : exists e, rhs_equation o x (u x) = Rhs_ok (fst (rhs_derivs o (x * s) (u x))) e).
    { unfold rhs_equation, scaled_to_rad_num. fold s. destruct (rhs_derivs o (x * s) (u x)) as [d e]. cbn [fst].
      destruct Ac as [Ac|(A1 & A2)].
      - rewrite Ac. eexists. reflexivity.
      - assert (Q1 : 0 <= u x iρ).
        { pose proof (In x Hd iρ ltac:(unfold iρ, ODE_LEN; lia)) as B. specialize (lo_le iρ). rewrite Rabs_right in G3 by lra. lra. }
        assert (Q2 : 0 <= u x iv_θ).
        { pose proof (In x Hd iv_θ ltac:(unfold iv_θ, ODE_LEN; lia)) as B. specialize (lo_le iv_θ). lra. }
        destruct (Rlt_dec (u x iρ) 0); [lra|]. destruct (Rlt_dec (u x iv_θ) 0); [lra|]. rewrite !Bool.andb_false_r. eexists. reflexivity. }
    destruct A as (e & A). exists (fst (rhs_derivs o (x * s) (u x))), e. split; [exact A|]. intros i Hl.
    destruct (U x i Hl Hd) as (D & _). unfold G in D. rewrite Ebox, Eτ in D. exact D.
Qed.
End Exist.
