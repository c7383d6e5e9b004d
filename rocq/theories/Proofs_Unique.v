(** Proof of C122: along two regular solutions the right-hand side changes by at most a multiple of the distance between them. *)
From Coq Require Import Reals Lra Lia FunctionalExtensionality.
From Verif Require Import Model_Index Model_Deriv Model_Midplane Model_Ode Lib_Deriv Lib_Gronwall Spec_MHD Spec_Ode Spec_Unique Proofs_Ode.
Open Scope R_scope.

Lemma sq_pos : forall x, x <> 0 -> 0 < x ^ 2.
Proof. intros x H. rewrite <- Rsqr_pow2. apply Rsqr_pos_lt. exact H. Qed.

(** The denominators of the code at a regular state. *)
Definition dens (p : vec) : Prop :=
  let m := sqrt (p iB_r ^ 2 + p iB_φ ^ 2 + p iB_θ ^ 2) in
  let b_r := p iB_r / m in let b_φ := p iB_φ / m in let b_θ := p iB_θ / m in
  let X := p iη_O + p iη_A * (1 - b_φ ^ 2) in
  let C := C_func (p iη_O) (p iη_A) (p iη_H) b_θ b_r b_φ in
  m <> 0 /\ 0 < X /\ p iη_O + p iη_A * (1 - b_φ) * (1 + b_φ) <> 0 /\
  Z_5_func (p iη_O) (p iη_A) (p iη_H) b_r b_θ b_φ C <> 0 /\
  p iη_O + p iη_A * (1 - b_r ^ 2) + C * (p iη_H * b_θ + p iη_A * b_r * b_φ) <> 0.
Lemma denominators : forall p, B_nonzero p -> 0 <= p iη_O -> 0 <= p iη_A -> (0 < p iη_O \/ (0 < p iη_A /\ p iB_θ <> 0)) -> dens p.
Proof.
  intros p HB HO HA HD. cbv beta delta [dens]. intros m b_r b_φ b_θ X C.
  assert (Hm : 0 < m) by (apply sqrt_lt_R0; exact HB).
  assert (HU : b_r ^ 2 + b_φ ^ 2 + b_θ ^ 2 = 1).
  { assert (E : m ^ 2 = p iB_r ^ 2 + p iB_φ ^ 2 + p iB_θ ^ 2).
    { unfold m. rewrite <- Rsqr_pow2. apply Rsqr_sqrt. unfold B_nonzero in HB. lra. }
    unfold b_r, b_φ, b_θ.
    replace ((p iB_r / m) ^ 2 + (p iB_φ / m) ^ 2 + (p iB_θ / m) ^ 2) with ((p iB_r ^ 2 + p iB_φ ^ 2 + p iB_θ ^ 2) / m ^ 2) by (field; lra).
    rewrite <- E. field. lra. }
  assert (HT : p iB_θ <> 0 -> 0 < b_θ ^ 2).
  { intros H. apply sq_pos. unfold b_θ. intros Z. apply H. replace (p iB_θ) with (p iB_θ / m * m) by (field; lra). rewrite Z. ring. }
  set (O := p iη_O) in *. set (A := p iη_A) in *. set (H := p iη_H) in *.
  pose proof (pow2_ge_0 b_r) as Pr. pose proof (pow2_ge_0 b_φ) as Pf. pose proof (pow2_ge_0 b_θ) as Pt.
  assert (P1 : 0 <= A * (1 - b_φ ^ 2)) by (apply Rmult_le_pos; lra).
  assert (P2 : 0 <= A * (1 - b_r ^ 2)) by (apply Rmult_le_pos; lra).
  assert (HX : 0 < X).
  { unfold X. destruct HD as [D|[D T]]; [lra|]. specialize (HT T).
    assert (0 < A * (1 - b_φ ^ 2)) by (apply Rmult_lt_0_compat; lra). lra. }
  assert (HR : 0 < O + A * (1 - b_r ^ 2)).
  { destruct HD as [D|[D T]]; [lra|]. specialize (HT T).
    assert (0 < A * (1 - b_r ^ 2)) by (apply Rmult_lt_0_compat; lra). lra. }
  split; [lra|]. split; [exact HX|].
  split; [replace (O + A * (1 - b_φ) * (1 + b_φ)) with X by (unfold X; ring); lra|].
  assert (EC : C = (H * b_θ - A * b_r * b_φ) / X) by reflexivity.
  split.
  - unfold Z_5_func. apply Rgt_not_eq.
    assert (0 <= C * (H * b_θ - A * b_r * b_φ)); [|lra].
    rewrite EC. replace ((H * b_θ - A * b_r * b_φ) / X * (H * b_θ - A * b_r * b_φ)) with ((H * b_θ - A * b_r * b_φ) ^ 2 * / X) by (field; lra).
    apply Rmult_le_pos; [apply pow2_ge_0|]. apply Rlt_le, Rinv_0_lt_compat, HX.
  - apply Rgt_not_eq. apply (Rmult_lt_reg_r X); [exact HX|]. rewrite Rmult_0_l.
    replace ((O + A * (1 - b_r ^ 2) + C * (H * b_θ + A * b_r * b_φ)) * X)
      with (O * X + O * (A * (1 - b_r ^ 2)) + (A * b_θ) ^ 2 + (H * b_θ) ^ 2).
    + pose proof (pow2_ge_0 (A * b_θ)). pose proof (pow2_ge_0 (H * b_θ)).
      destruct HD as [D|[D T]].
      * assert (0 < O * X) by (apply Rmult_lt_0_compat; lra). assert (0 <= O * (A * (1 - b_r ^ 2))) by (apply Rmult_le_pos; lra). lra.
      * specialize (HT T). assert (0 <= O * X) by (apply Rmult_le_pos; lra). assert (0 <= O * (A * (1 - b_r ^ 2))) by (apply Rmult_le_pos; lra).
        assert (0 < (A * b_θ) ^ 2) by (rewrite Rpow_mult_distr; apply Rmult_lt_0_compat; [apply sq_pos; lra|exact HT]). lra.
    + rewrite EC. replace ((O + A * (1 - b_r ^ 2) + (H * b_θ - A * b_r * b_φ) / X * (H * b_θ + A * b_r * b_φ)) * X)
        with ((O + A * (1 - b_r ^ 2)) * X + (H * b_θ - A * b_r * b_φ) * (H * b_θ + A * b_r * b_φ)) by (field; lra).
      unfold X. replace (b_θ ^ 2) with (1 - b_r ^ 2 - b_φ ^ 2) by lra.
      rewrite !Rpow_mult_distr. replace (b_θ ^ 2) with (1 - b_r ^ 2 - b_φ ^ 2) by lra.
      replace ((H * b_θ - A * b_r * b_φ) * (H * b_θ + A * b_r * b_φ)) with (H ^ 2 * b_θ ^ 2 - A ^ 2 * b_r ^ 2 * b_φ ^ 2) by ring.
      replace (b_θ ^ 2) with (1 - b_r ^ 2 - b_φ ^ 2) by lra. ring.
Qed.

Ltac two := intros ? ?; apply Rgt_not_eq; lra.
Ltac cl := cbv beta; match goal with
  | |- close ?a ?b ?S (fun _ => ?c) (fun _ => ?c) => exact (close_const a b S c)
  | H : close ?a ?b ?S ?f ?g |- close ?a ?b ?S ?f ?g => exact H
  | |- close ?a ?b ?S (fun t => @?f1 t + @?f2 t) (fun u => @?g1 u + @?g2 u) => refine (close_plus a b S f1 g1 f2 g2 _ _)
  | |- close ?a ?b ?S (fun t => @?f1 t - @?f2 t) (fun u => @?g1 u - @?g2 u) => refine (close_minus a b S f1 g1 f2 g2 _ _)
  | Hab : ?a <= ?b, HS : forall x, _ -> 0 <= ?S x |- close ?a ?b ?S (fun t => @?f1 t * @?f2 t) (fun u => @?g1 u * @?g2 u) =>
      refine (close_mult a b Hab S HS f1 g1 f2 g2 _ _)
  | Hab : ?a <= ?b, HS : forall x, _ -> 0 <= ?S x |- close ?a ?b ?S (fun t => @?f1 t / @?f2 t) (fun u => @?g1 u / @?g2 u) =>
      refine (close_div a b Hab S HS f1 g1 f2 g2 _ _ _ _)
  | Hab : ?a <= ?b, HS : forall x, _ -> 0 <= ?S x |- close ?a ?b ?S (fun t => @?f1 t ^ 2) (fun u => @?g1 u ^ 2) =>
      refine (close_sq a b Hab S HS f1 g1 _)
  | |- close ?a ?b ?S (fun t => - @?f1 t) (fun u => - @?g1 u) => refine (close_opp a b S f1 g1 _)
  end.

Lemma rhs_v_r_taylor : forall o θ p, oa_with_taylor o = true -> fst (rhs_derivs o θ p) iv_r =
  θ * taylor_series (oa_γ o) (oa_a_0 o) (oa_init_con o) (oa_η_derivs o) (oa_use_E_r o) iv_r.
Proof. intros o θ p H; unfold rhs_derivs; rewrite H. destruct (oa_use_E_r o); reflexivity. Qed.
Lemma rhs_v_φ_taylor : forall o θ p, oa_with_taylor o = true -> fst (rhs_derivs o θ p) iv_φ =
  θ * taylor_series (oa_γ o) (oa_a_0 o) (oa_init_con o) (oa_η_derivs o) (oa_use_E_r o) iv_φ.
Proof. intros o θ p H; unfold rhs_derivs; rewrite H. destruct (oa_use_E_r o); reflexivity. Qed.
Lemma rhs_ρ_taylor : forall o θ p, oa_with_taylor o = true -> fst (rhs_derivs o θ p) iρ =
  θ * taylor_series (oa_γ o) (oa_a_0 o) (oa_init_con o) (oa_η_derivs o) (oa_use_E_r o) iρ.
Proof. intros o θ p H; unfold rhs_derivs; rewrite H. destruct (oa_use_E_r o); reflexivity. Qed.

Section Two.
Variables (o : ode_args) (y z : R -> vec) (a b : R).
Hypothesis Hab : a <= b.
Hypothesis Hy : solves_from_to o y a b.
Hypothesis Hz : solves_from_to o z a b.
Hypothesis Hi : interpolant_continuous o a b.
Let s := oa_θ_scale o.
Let S (t : R) : R := sqrt (dist_sq (y t) (z t)).

Lemma dist_pos : forall p q, 0 <= dist_sq p q.
Proof. intros p q. unfold dist_sq. apply cond_pos_sum. intros n. apply pow2_ge_0. Qed.
Lemma slot_le : forall p q i, (i < ODE_LEN)%nat -> (p i - q i) ^ 2 <= dist_sq p q.
Proof.
  intros p q i H. unfold ODE_LEN in H. unfold dist_sq. cbn [pred ODE_LEN sum_f_R0].
  pose proof (fun j => pow2_ge_0 (p j - q j)) as P.
  pose proof (P 0%nat). pose proof (P 1%nat). pose proof (P 2%nat). pose proof (P 3%nat). pose proof (P 4%nat). pose proof (P 5%nat).
  pose proof (P 6%nat). pose proof (P 7%nat). pose proof (P 8%nat). pose proof (P 9%nat). pose proof (P 10%nat). clear P.
  do 11 (destruct i as [|i]; [lra|]). lia.
Qed.
Lemma S_pos : forall x, a <= x <= b -> 0 <= S x.
Proof. intros x _. apply sqrt_pos. Qed.

Lemma solves_derivs : forall w, solves_from_to o w a b -> forall t i, a <= t <= b -> (i < ODE_LEN)%nat ->
  derivable_pt_lim (fun x => w x i) t (fst (rhs_derivs o (t * s) (w t)) i).
Proof.
  intros w Hw t i Ht Hl. destruct (Hw t Ht) as ((d & e & E & D) & _).
  unfold s. rewrite <- (rhs_ok_derivs _ _ _ _ _ E). apply D. exact Hl.
Qed.
Lemma slot_cont : forall w, solves_from_to o w a b -> forall i, (i < ODE_LEN)%nat -> cont a b (fun t => w t i).
Proof.
  intros w Hw i Hl t Ht. apply derivable_continuous_pt. eexists. apply (solves_derivs w Hw t i Ht Hl).
Qed.
Lemma close_slot : forall i, (i < ODE_LEN)%nat -> close a b S (fun t => y t i) (fun t => z t i).
Proof.
  intros i Hl. split; [exact (slot_cont y Hy i Hl)|]. split; [exact (slot_cont z Hz i Hl)|].
  exists 1. split; [lra|]. intros t Ht. rewrite Rmult_1_l. unfold S.
  rewrite <- sqrt_Rsqr_abs. apply sqrt_le_1_alt. rewrite Rsqr_pow2. apply slot_le. exact Hl.
Qed.

Let mag (p : vec) : R := sqrt (p iB_r ^ 2 + p iB_φ ^ 2 + p iB_θ ^ 2).
Let D (i : nat) : Prop := close a b S (fun t => fst (rhs_derivs o (t * s) (y t)) i) (fun t => fst (rhs_derivs o (t * s) (z t)) i).

Lemma close_derivs : forall i, (i < ODE_LEN)%nat -> D i.
Proof.
  pose proof S_pos as HS.
  assert (L : forall i, (i < ODE_LEN)%nat -> close a b S (fun t => y t i) (fun t => z t i)) by exact close_slot.
  pose proof (L iB_r ltac:(unfold iB_r, ODE_LEN; lia)) as LBr. pose proof (L iB_φ ltac:(unfold iB_φ, ODE_LEN; lia)) as LBf.
  pose proof (L iB_θ ltac:(unfold iB_θ, ODE_LEN; lia)) as LBt. pose proof (L iv_r ltac:(unfold iv_r, ODE_LEN; lia)) as Lvr.
  pose proof (L iv_φ ltac:(unfold iv_φ, ODE_LEN; lia)) as Lvf. pose proof (L iv_θ ltac:(unfold iv_θ, ODE_LEN; lia)) as Lvt.
  pose proof (L iρ ltac:(unfold iρ, ODE_LEN; lia)) as Lr. pose proof (L iB_φ_prime ltac:(unfold iB_φ_prime, ODE_LEN; lia)) as L7.
  assert (L7' : close a b S (fun t => y t iE_r) (fun t => z t iE_r)) by exact L7.
  pose proof (L iη_O ltac:(unfold iη_O, ODE_LEN; lia)) as LO. pose proof (L iη_A ltac:(unfold iη_A, ODE_LEN; lia)) as LA.
  pose proof (L iη_H ltac:(unfold iη_H, ODE_LEN; lia)) as LH. clear L.
  (* functions of the angle alone *)
  assert (CT : cont a b (fun t => t * s)).
  { intros t Ht. apply (continuity_pt_mult id (fun _ => s)); [apply derivable_continuous_pt, derivable_pt_id|apply continuity_pt_const; intros u v; reflexivity]. }
  assert (Hc : forall t, a <= t <= b -> cos (t * s) <> 0) by (intros t Ht; apply (Hy t Ht)).
  assert (Cc : cont a b (fun t => cos (t * s))) by (intros t Ht; apply (continuity_pt_comp (fun t => t * s) cos); [apply CT, Ht|apply continuity_cos]).
  assert (Csn : cont a b (fun t => sin (t * s))) by (intros t Ht; apply (continuity_pt_comp (fun t => t * s) sin); [apply CT, Ht|apply continuity_sin]).
  assert (Lθ : close a b S (fun t => t * s) (fun t => t * s)) by (apply close_same; exact CT).
  assert (Ltan : close a b S (fun t => tan (t * s)) (fun t => tan (t * s))).
  { apply close_same. intros t Ht. apply (continuity_pt_div (fun t => sin (t * s)) (fun t => cos (t * s))); auto. }
  assert (Lsec : close a b S (fun t => sec (t * s)) (fun t => sec (t * s))).
  { apply close_same. intros t Ht. apply (continuity_pt_div (fun _ => 1) (fun t => cos (t * s))); auto. apply continuity_pt_const. intros u v. reflexivity. }
  (* the unit field *)
  assert (By : forall t, a <= t <= b -> 0 < y t iB_r ^ 2 + y t iB_φ ^ 2 + y t iB_θ ^ 2) by (intros t Ht; apply (Hy t Ht)).
  assert (Bz : forall t, a <= t <= b -> 0 < z t iB_r ^ 2 + z t iB_φ ^ 2 + z t iB_θ ^ 2) by (intros t Ht; apply (Hz t Ht)).
  assert (Lm : close a b S (fun t => mag (y t)) (fun t => mag (z t))).
  { unfold mag. apply (close_sqrt a b Hab S (fun t => y t iB_r ^ 2 + y t iB_φ ^ 2 + y t iB_θ ^ 2) (fun t => z t iB_r ^ 2 + z t iB_φ ^ 2 + z t iB_θ ^ 2));
      [repeat cl|exact By|exact Bz]. }
  assert (Den : forall w, solves_from_to o w a b -> forall t, a <= t <= b -> dens (w t))
    by (intros w Hw t Ht; destruct (Hw t Ht) as (_ & _ & H1 & _ & H2 & H3 & H4 & _); apply denominators; assumption).
  assert (Lbr : close a b S (fun t => y t iB_r / mag (y t)) (fun t => z t iB_r / mag (z t)))
    by (repeat cl; intros t Ht; [apply (Den y Hy t Ht)|apply (Den z Hz t Ht)]).
  assert (Lbf : close a b S (fun t => y t iB_φ / mag (y t)) (fun t => z t iB_φ / mag (z t)))
    by (repeat cl; intros t Ht; [apply (Den y Hy t Ht)|apply (Den z Hz t Ht)]).
  assert (Lbt : close a b S (fun t => y t iB_θ / mag (y t)) (fun t => z t iB_θ / mag (z t)))
    by (repeat cl; intros t Ht; [apply (Den y Hy t Ht)|apply (Den z Hz t Ht)]).
  assert (LC : close a b S (fun t => C_func (y t iη_O) (y t iη_A) (y t iη_H) (y t iB_θ / mag (y t)) (y t iB_r / mag (y t)) (y t iB_φ / mag (y t)))
                           (fun t => C_func (z t iη_O) (z t iη_A) (z t iη_H) (z t iB_θ / mag (z t)) (z t iB_r / mag (z t)) (z t iB_φ / mag (z t)))).
  { unfold C_func. repeat cl; intros t Ht; apply Rgt_not_eq; [apply (Den y Hy t Ht)|apply (Den z Hz t Ht)]. }
  unfold mag in LC, Lbr, Lbf, Lbt, Lm.
  (* the derivatives, slot by slot *)
  assert (eqD : forall i (G : (R -> vec) -> R -> R), (forall w t, fst (rhs_derivs o (t * s) (w t)) i = G w t) ->
    close a b S (fun t => G y t) (fun t => G z t) -> D i).
  { intros i G E H. unfold D.
    replace (fun t => fst (rhs_derivs o (t * s) (y t)) i) with (fun t => G y t) by (apply functional_extensionality; intros t; symmetry; apply E).
    replace (fun t => fst (rhs_derivs o (t * s) (z t)) i) with (fun t => G z t) by (apply functional_extensionality; intros t; symmetry; apply E).
    exact H. }
  assert (v0 : oa_with_taylor o = false -> forall w, solves_from_to o w a b -> forall t, a <= t <= b -> w t iv_θ <> 0)
    by (intros T w Hw t Ht; destruct (Hw t Ht) as (_ & _ & _ & _ & _ & _ & _ & H & _); exact (H T)).
  assert (v1 : oa_deriv_v_θ_func o = None -> forall w, solves_from_to o w a b -> forall t, a <= t <= b -> (1 - w t iv_θ) * (1 + w t iv_θ) <> 0).
  { intros T w Hw t Ht. destruct (Hw t Ht) as (_ & _ & _ & _ & _ & _ & _ & _ & H). specialize (H T). intros X. apply H. lra. }
  assert (r0 : forall w, solves_from_to o w a b -> forall t, a <= t <= b -> w t iρ <> 0)
    by (intros w Hw t Ht; destruct (Hw t Ht) as (_ & _ & _ & H & _); exact H).
  assert (DBt : D iB_θ) by (eapply eqD; [intros w t; apply rhs_B_θ|]; repeat cl).
  assert (DBf : D iB_φ).
  { eapply eqD; [intros w t; apply rhs_B_φ|]. cbv zeta. destruct (oa_use_E_r o); [|exact L7].
    unfold deriv_B_φ_func. repeat cl; try (unfold Z_5_func; repeat cl); intros t Ht; [apply (Den y Hy t Ht)|apply (Den z Hz t Ht)]. }
  assert (DBr : D iB_r).
  { eapply eqD; [intros w t; apply rhs_B_r|]. cbv zeta.
    unfold deriv_B_r_func. unfold D in DBf. repeat cl; intros t Ht; [apply (Den y Hy t Ht)|apply (Den z Hz t Ht)]. }
  assert (Dvr : D iv_r).
  { destruct (oa_with_taylor o) eqn:T.
    - eapply eqD; [intros w t; apply (rhs_v_r_taylor o (t * s) (w t) T)|]. repeat cl.
    - eapply eqD; [intros w t; apply (rhs_v_r o (t * s) (w t) T)|]. unfold deriv_v_r_normal_expr. unfold D in *.
      repeat cl; first [two|exact (r0 y Hy)|exact (r0 z Hz)|exact (v0 ltac:(first [exact T|reflexivity]) y Hy)|exact (v0 ltac:(first [exact T|reflexivity]) z Hz)]. }
  assert (Dvf : D iv_φ).
  { destruct (oa_with_taylor o) eqn:T.
    - eapply eqD; [intros w t; apply (rhs_v_φ_taylor o (t * s) (w t) T)|]. repeat cl.
    - eapply eqD; [intros w t; apply (rhs_v_φ o (t * s) (w t) T)|]. unfold deriv_v_φ_normal_expr. unfold D in *.
      repeat cl; first [two|exact (r0 y Hy)|exact (r0 z Hz)|exact (v0 ltac:(first [exact T|reflexivity]) y Hy)|exact (v0 ltac:(first [exact T|reflexivity]) z Hz)]. }
  assert (Dvt : D iv_θ).
  { destruct (oa_deriv_v_θ_func o) as [f|] eqn:F.
    - eapply eqD; [intros w t; apply (rhs_v_θ_func o (t * s) (w t) f F)|]. apply close_same. intros t Ht.
      apply (continuity_pt_comp (fun t => t * s) f); [exact (CT t Ht)|exact (Hi f F t Ht)].
    - eapply eqD; [intros w t; apply (rhs_v_θ o (t * s) (w t) F)|]. unfold deriv_v_θ_expr. unfold D in *.
      repeat cl; first [two|exact (r0 y Hy)|exact (r0 z Hz)|exact (v1 ltac:(first [exact F|reflexivity]) y Hy)|exact (v1 ltac:(first [exact F|reflexivity]) z Hz)]. }
  assert (Dr : D iρ).
  { destruct (oa_with_taylor o) eqn:T.
    - eapply eqD; [intros w t; apply (rhs_ρ_taylor o (t * s) (w t) T)|]. repeat cl.
    - eapply eqD; [intros w t; apply (rhs_ρ o (t * s) (w t) T)|]. unfold deriv_ρ_normal_expr. unfold D in *.
      repeat cl; first [two|exact (v0 ltac:(first [exact T|reflexivity]) y Hy)|exact (v0 ltac:(first [exact T|reflexivity]) z Hz)]. }
  assert (DO : D iη_O).
  { eapply eqD; [intros w t; apply (rhs_η o (t * s) (w t))|]. destruct (oa_η_derivs o); [|cl].
    unfold deriv_η_skw_func. cbv zeta. unfold D in *. repeat cl; first [two|exact (r0 y Hy)|exact (r0 z Hz)]. }
  assert (DA : D iη_A).
  { eapply eqD; [intros w t; apply (rhs_η o (t * s) (w t))|]. destruct (oa_η_derivs o); [|cl].
    unfold deriv_η_skw_func. cbv zeta. unfold D in *. repeat cl; first [two|exact (r0 y Hy)|exact (r0 z Hz)]. }
  assert (DH : D iη_H).
  { eapply eqD; [intros w t; apply (rhs_η o (t * s) (w t))|]. destruct (oa_η_derivs o); [|cl].
    unfold deriv_η_skw_func. cbv zeta. unfold D in *. repeat cl; first [two|exact (r0 y Hy)|exact (r0 z Hz)]. }
  assert (D7 : D iB_φ_prime).
  { destruct (oa_use_E_r o) eqn:U.
    - change (D iE_r). eapply eqD; [intros w t; apply (rhs_E_r o (t * s) (w t) U)|].
      unfold deriv_E_r_func, E_θ_func, J_r_func, J_θ_func, J_φ_func. unfold D in *. repeat cl.
    - eapply eqD; [intros w t; apply (rhs_B_φ_prime o (t * s) (w t) U)|].
      unfold B_unit_derivs, B_unit_deriv_1. cbv beta zeta iota. unfold D in *.
      unfold dderiv_B_φ_soln, A_func.
      repeat cl; intros t Ht;
        first [ apply (Den y Hy t Ht) | apply (Den z Hz t Ht)
              | apply Rgt_not_eq; apply (Den y Hy t Ht) | apply Rgt_not_eq; apply (Den z Hz t Ht)
              | apply pow_nonzero, Rgt_not_eq; apply (Den y Hy t Ht) | apply pow_nonzero, Rgt_not_eq; apply (Den z Hz t Ht) ]. }
  intros i Hl. unfold ODE_LEN in Hl.
  do 11 (destruct i as [|i]; [assumption|]). lia.
Qed.

(** The squared distance changes at a rate bounded by a multiple of itself. *)
Lemma energy_rate : exists (E' : R -> R) K, 0 <= K /\
  (forall t, a <= t <= b -> derivable_pt_lim (fun x => dist_sq (y x) (z x)) t (E' t)) /\
  (forall t, a <= t <= b -> Rabs (E' t) <= K * dist_sq (y t) (z t)).
Proof.
  set (F := fun w t i => fst (rhs_derivs o (t * s) (w t)) i).
  exists (fun t => sum_f_R0 (fun i => 2 * (y t i - z t i) * (F y t i - F z t i)) (pred ODE_LEN)).
  assert (HK : exists K, 0 <= K /\ forall i t, (i < ODE_LEN)%nat -> a <= t <= b -> Rabs (F y t i - F z t i) <= K * S t).
  { assert (G : forall n, (n <= ODE_LEN)%nat -> exists K, 0 <= K /\ forall i t, (i < n)%nat -> a <= t <= b -> Rabs (F y t i - F z t i) <= K * S t).
    { induction n as [|n IH]; intros Hn; [exists 0; split; [lra|intros i t Hl; lia]|].
      destruct IH as (K & P & H); [lia|]. destruct (close_derivs n Hn) as (_ & _ & K' & P' & H').
      exists (K + K'). split; [lra|]. intros i t Hl Ht. pose proof (S_pos t Ht) as Q.
      assert (0 <= K * S t) by (apply Rmult_le_pos; assumption). assert (0 <= K' * S t) by (apply Rmult_le_pos; assumption).
      destruct (Nat.eq_dec i n) as [-> |Ne]; [specialize (H' t Ht); cbv beta in H'; unfold F; lra|].
      specialize (H i t ltac:(lia) Ht). lra. }
    exact (G ODE_LEN (le_n _)). }
  destruct HK as (K & P & HK). exists (22 * K). split; [lra|]. split.
  - intros t Ht. unfold dist_sq.
    assert (G : forall n, (n < ODE_LEN)%nat -> derivable_pt_lim (fun x => sum_f_R0 (fun i => (y x i - z x i) ^ 2) n) t
      (sum_f_R0 (fun i => 2 * (y t i - z t i) * (F y t i - F z t i)) n)).
    { assert (one : forall i, (i < ODE_LEN)%nat -> derivable_pt_lim (fun x => (y x i - z x i) ^ 2) t (2 * (y t i - z t i) * (F y t i - F z t i))).
      { intros i Hl. pose proof (solves_derivs y Hy t i Ht Hl) as D1. pose proof (solves_derivs z Hz t i Ht Hl) as D2.
        fold (F y t i) in D1. fold (F z t i) in D2.
        pose proof (derivable_pt_lim_minus _ _ _ _ _ D1 D2) as D3.
        pose proof (derivable_pt_lim_comp _ (fun v => v ^ 2) t _ _ D3 (derivable_pt_lim_pow _ 2)) as D4.
        cbv beta in D4. unfold comp, minus_fct in D4. cbn [INR pred] in D4. eapply dpl_eq; [exact D4|]. ring. }
      induction n as [|n IH]; intros Hn; [exact (one 0%nat Hn)|].
      cbn [sum_f_R0]. apply (derivable_pt_lim_plus (fun x => sum_f_R0 (fun i => (y x i - z x i) ^ 2) n) (fun x => (y x (Datatypes.S n) - z x (Datatypes.S n)) ^ 2)).
      - apply IH. lia.
      - apply one. exact Hn. }
    apply G. unfold ODE_LEN. cbn. lia.
  - intros t Ht. pose proof (dist_pos (y t) (z t)) as Q. pose proof (S_pos t Ht) as QS.
    assert (ES : S t * S t = dist_sq (y t) (z t)) by (apply sqrt_sqrt; exact Q).
    assert (one : forall i, (i < ODE_LEN)%nat -> Rabs (2 * (y t i - z t i) * (F y t i - F z t i)) <= 2 * K * dist_sq (y t) (z t)).
    { intros i Hl. rewrite !Rabs_mult. rewrite (Rabs_right 2) by lra.
      assert (Rabs (y t i - z t i) <= S t).
      { rewrite <- sqrt_Rsqr_abs. apply sqrt_le_1_alt. rewrite Rsqr_pow2. apply slot_le. exact Hl. }
      pose proof (HK i t Hl Ht) as H2.
      assert (Rabs (y t i - z t i) * Rabs (F y t i - F z t i) <= S t * (K * S t)) by (apply Rmult_le_compat; auto using Rabs_pos).
      rewrite <- ES. lra. }
    assert (G : forall n, (n < ODE_LEN)%nat -> Rabs (sum_f_R0 (fun i => 2 * (y t i - z t i) * (F y t i - F z t i)) n) <= INR (Datatypes.S n) * (2 * K * dist_sq (y t) (z t))).
    { induction n as [|n IH]; intros Hn.
      - cbn [sum_f_R0 INR]. rewrite Rmult_1_l. apply one. exact Hn.
      - cbn [sum_f_R0]. rewrite (S_INR (Datatypes.S n)). eapply Rle_trans; [apply Rabs_triang|].
        specialize (IH ltac:(lia)). specialize (one (Datatypes.S n) Hn). lra. }
    specialize (G (pred ODE_LEN) ltac:(unfold ODE_LEN; cbn; lia)).
    replace (INR (Datatypes.S (pred ODE_LEN))) with 11 in G by (cbn; lra). lra.
Qed.

Lemma stays_close : exists K, 0 <= K /\ forall s t, a <= s <= b -> a <= t <= b ->
  dist_sq (y t) (z t) <= dist_sq (y s) (z s) * exp (K * Rabs (t - s)).
Proof.
  destruct energy_rate as (E' & K & P & H1 & H2). exists K. split; [exact P|].
  exact (gronwall a b (fun x => dist_sq (y x) (z x)) E' K H1 H2).
Qed.
End Two.
