(** Proof of C126: the right-hand side is Lipschitz where the state keeps a margin, with one constant for all such states. *)
From Coq Require Import Reals Lra Lia FunctionalExtensionality.
From Coquelicot Require Derive.
From Verif Require Import Model_Index Model_Deriv Model_Midplane Model_Ode Lib_Deriv Lib_Gronwall Lib_Lipschitz Spec_MHD Spec_Ode Spec_Unique Spec_Error
  Proofs_Ode Proofs_Unique.
Open Scope R_scope.

(** The denominators of the code keep their distance from zero too. *)
Definition dens_from (m : R) (p : vec) : Prop :=
  let g := sqrt (p iB_r ^ 2 + p iB_φ ^ 2 + p iB_θ ^ 2) in
  let b_r := p iB_r / g in let b_φ := p iB_φ / g in let b_θ := p iB_θ / g in
  let C := C_func (p iη_O) (p iη_A) (p iη_H) b_θ b_r b_φ in
  sqrt m <= g /\ m <= p iη_O + p iη_A * (1 - b_φ ^ 2) /\ m <= p iη_O + p iη_A * (1 - b_φ) * (1 + b_φ) /\
  m <= Z_5_func (p iη_O) (p iη_A) (p iη_H) b_r b_θ b_φ C /\
  m <= p iη_O + p iη_A * (1 - b_r ^ 2) + C * (p iη_H * b_θ + p iη_A * b_r * b_φ).
Lemma denominators_from : forall m p, 0 < m -> m <= p iB_r ^ 2 + p iB_φ ^ 2 + p iB_θ ^ 2 -> m <= p iη_O -> 0 <= p iη_A -> dens_from m p.
Proof.
  intros n p Pn HB HO HA. cbv beta delta [dens_from]. intros m b_r b_φ b_θ C.
  assert (Hm : 0 < m) by (apply sqrt_lt_R0; lra).
  assert (HU : b_r ^ 2 + b_φ ^ 2 + b_θ ^ 2 = 1).
  { assert (E : m ^ 2 = p iB_r ^ 2 + p iB_φ ^ 2 + p iB_θ ^ 2).
    { unfold m. rewrite <- Rsqr_pow2. apply Rsqr_sqrt. lra. }
    unfold b_r, b_φ, b_θ.
    replace ((p iB_r / m) ^ 2 + (p iB_φ / m) ^ 2 + (p iB_θ / m) ^ 2) with ((p iB_r ^ 2 + p iB_φ ^ 2 + p iB_θ ^ 2) / m ^ 2) by (field; lra).
    rewrite <- E. field. lra. }
  split; [apply sqrt_le_1_alt, HB|].
  set (O := p iη_O) in *. set (A := p iη_A) in *. set (H := p iη_H) in *. set (X := O + A * (1 - b_φ ^ 2)).
  pose proof (pow2_ge_0 b_r) as Pr. pose proof (pow2_ge_0 b_φ) as Pf. pose proof (pow2_ge_0 b_θ) as Pt.
  assert (P1 : 0 <= A * (1 - b_φ ^ 2)) by (apply Rmult_le_pos; lra).
  assert (P2 : 0 <= A * (1 - b_r ^ 2)) by (apply Rmult_le_pos; lra).
  assert (HX : n <= X) by (unfold X; lra).
  split; [exact HX|].
  split; [replace (O + A * (1 - b_φ) * (1 + b_φ)) with X by (unfold X; ring); exact HX|].
  assert (EC : C = (H * b_θ - A * b_r * b_φ) / X) by reflexivity.
  split.
  - unfold Z_5_func.
    assert (0 <= C * (H * b_θ - A * b_r * b_φ)); [|lra].
    rewrite EC. replace ((H * b_θ - A * b_r * b_φ) / X * (H * b_θ - A * b_r * b_φ)) with ((H * b_θ - A * b_r * b_φ) ^ 2 * / X) by (field; lra).
    apply Rmult_le_pos; [apply pow2_ge_0|]. apply Rlt_le, Rinv_0_lt_compat. lra.
  - apply (Rle_trans _ O); [exact HO|]. apply (Rmult_le_reg_r X); [lra|].
    replace ((O + A * (1 - b_r ^ 2) + C * (H * b_θ + A * b_r * b_φ)) * X)
      with (O * X + O * (A * (1 - b_r ^ 2)) + (A * b_θ) ^ 2 + (H * b_θ) ^ 2).
    + pose proof (pow2_ge_0 (A * b_θ)). pose proof (pow2_ge_0 (H * b_θ)).
      assert (0 <= O * (A * (1 - b_r ^ 2))) by (apply Rmult_le_pos; lra). lra.
    + rewrite EC. replace ((O + A * (1 - b_r ^ 2) + (H * b_θ - A * b_r * b_φ) / X * (H * b_θ + A * b_r * b_φ)) * X)
        with ((O + A * (1 - b_r ^ 2)) * X + (H * b_θ - A * b_r * b_φ) * (H * b_θ + A * b_r * b_φ)) by (field; lra).
      unfold X. replace (b_θ ^ 2) with (1 - b_r ^ 2 - b_φ ^ 2) by lra.
      rewrite !Rpow_mult_distr. replace (b_θ ^ 2) with (1 - b_r ^ 2 - b_φ ^ 2) by lra.
      replace ((H * b_θ - A * b_r * b_φ) * (H * b_θ + A * b_r * b_φ)) with (H ^ 2 * b_θ ^ 2 - A ^ 2 * b_r ^ 2 * b_φ ^ 2) by ring.
      replace (b_θ ^ 2) with (1 - b_r ^ 2 - b_φ ^ 2) by lra. ring.
Qed.

Ltac two := apply away_const; lra.
Ltac cl := cbv beta; match goal with
  | |- near ?P ?S (fun _ => ?c) (fun _ => ?c) => exact (near_const P S c)
  | H : near ?P ?S ?f ?g |- near ?P ?S ?f ?g => exact H
  | |- near ?P ?S (fun t => @?f1 t + @?f2 t) (fun u => @?g1 u + @?g2 u) => refine (near_plus P S f1 g1 f2 g2 _ _)
  | |- near ?P ?S (fun t => @?f1 t - @?f2 t) (fun u => @?g1 u - @?g2 u) => refine (near_minus P S f1 g1 f2 g2 _ _)
  | HS : forall x, ?P x -> 0 <= ?S x |- near ?P ?S (fun t => @?f1 t * @?f2 t) (fun u => @?g1 u * @?g2 u) =>
      refine (near_mult P S HS f1 g1 f2 g2 _ _)
  | HS : forall x, ?P x -> 0 <= ?S x |- near ?P ?S (fun t => @?f1 t / @?f2 t) (fun u => @?g1 u / @?g2 u) =>
      refine (near_div P S HS f1 g1 f2 g2 _ _ _ _)
  | HS : forall x, ?P x -> 0 <= ?S x |- near ?P ?S (fun t => @?f1 t ^ 2) (fun u => @?g1 u ^ 2) =>
      refine (near_sq P S HS f1 g1 _)
  | |- near ?P ?S (fun t => - @?f1 t) (fun u => - @?g1 u) => refine (near_opp P S f1 g1 _)
  end.

Ltac dn := match goal with
    | |- away _ (fun t => _ ^ 2) => apply away_sq; dn
    | Q : 0 < sqrt ?m |- away ?P _ => first
      [ apply (away_ge P m); [assumption|intros ? Ht;
          match goal with Y : forall t, P t -> dens_from m _, Z : forall t, P t -> dens_from m _ |- _ => first [apply (Y _ Ht)|apply (Z _ Ht)] end]
      | apply (away_ge P (sqrt m)); [assumption|intros ? Ht;
          match goal with Y : forall t, P t -> dens_from m _, Z : forall t, P t -> dens_from m _ |- _ => first [apply (Y _ Ht)|apply (Z _ Ht)] end] ]
    end.

(** A derivative function from derivatives at each point: that of a function is unique. *)
Lemma choose : forall a b (E : R -> R) K, (forall t, a <= t <= b -> exists l, derivable_pt_lim E t l /\ Rabs l <= K * E t) ->
  exists E' : R -> R, (forall t, a <= t <= b -> derivable_pt_lim E t (E' t)) /\ (forall t, a <= t <= b -> Rabs (E' t) <= K * E t).
Proof.
  intros a b E K H.
  exists (Derive.Derive E). split; intros t Ht; destruct (H t Ht) as (l & D & L); apply Derive.is_derive_Reals in D.
  - apply Derive.is_derive_Reals. rewrite (Derive.is_derive_unique _ _ _ D). exact D.
  - rewrite (Derive.is_derive_unique _ _ _ D). exact L.
Qed.

(** Two states at the same angle, both with the margin. *)
Record duo := mk_duo { at_ : R; one_ : vec; two_ : vec }.

Section Margin.
Variables (o : ode_args) (a b m M : R).
Hypothesis Hab : a <= b.
Hypothesis Pm : 0 < m.
Hypothesis Hi : interpolant_continuous o a b.
Let s := oa_θ_scale o.
Let P (x : duo) : Prop := a <= at_ x <= b /\ margin o m M (at_ x) (one_ x) /\ margin o m M (at_ x) (two_ x).
Let S (x : duo) : R := sqrt (dist_sq (one_ x) (two_ x)).
Let y := one_.
Let z := two_.

Lemma near_slot : forall i, (i < ODE_LEN)%nat -> near P S (fun t => y t i) (fun t => z t i).
Proof.
  assert (HM : 0 <= Rmax 0 M) by apply Rmax_l.
  intros i Hl. split; [exists (Rmax 0 M); split; [exact HM|]; intros x (_ & Hx & _); eapply Rle_trans; [apply Hx, Hl|apply Rmax_r]|].
  split; [exists (Rmax 0 M); split; [exact HM|]; intros x (_ & _ & Hx); eapply Rle_trans; [apply Hx, Hl|apply Rmax_r]|].
  exists 1. split; [lra|]. intros t Ht. rewrite Rmult_1_l. unfold S.
  rewrite <- sqrt_Rsqr_abs. apply sqrt_le_1_alt. rewrite Rsqr_pow2. apply slot_le. exact Hl.
Qed.

Let mag (p : vec) : R := sqrt (p iB_r ^ 2 + p iB_φ ^ 2 + p iB_θ ^ 2).
Let D (i : nat) : Prop := near P S (fun t => fst (rhs_derivs o (at_ t * s) (y t)) i) (fun t => fst (rhs_derivs o (at_ t * s) (z t)) i).

Lemma bounded_at : forall f, (forall t, a <= t <= b -> continuity_pt f t) -> bounded P (fun x => f (at_ x)).
Proof.
  intros f H. destruct (cont_bounded a b Hab f H) as (K & PK & HK). exists K. split; [exact PK|]. intros x (Hx & _). exact (HK _ Hx).
Qed.

Lemma near_derivs : forall i, (i < ODE_LEN)%nat -> D i.
Proof.
  assert (HS : forall x, P x -> 0 <= S x) by (intros x _; apply sqrt_pos).
  assert (L : forall i, (i < ODE_LEN)%nat -> near P S (fun t => y t i) (fun t => z t i)) by exact near_slot.
  pose proof (L iB_r ltac:(unfold iB_r, ODE_LEN; lia)) as LBr. pose proof (L iB_φ ltac:(unfold iB_φ, ODE_LEN; lia)) as LBf.
  pose proof (L iB_θ ltac:(unfold iB_θ, ODE_LEN; lia)) as LBt. pose proof (L iv_r ltac:(unfold iv_r, ODE_LEN; lia)) as Lvr.
  pose proof (L iv_φ ltac:(unfold iv_φ, ODE_LEN; lia)) as Lvf. pose proof (L iv_θ ltac:(unfold iv_θ, ODE_LEN; lia)) as Lvt.
  pose proof (L iρ ltac:(unfold iρ, ODE_LEN; lia)) as Lr. pose proof (L iB_φ_prime ltac:(unfold iB_φ_prime, ODE_LEN; lia)) as L7.
  assert (L7' : near P S (fun t => y t iE_r) (fun t => z t iE_r)) by exact L7.
  pose proof (L iη_O ltac:(unfold iη_O, ODE_LEN; lia)) as LO. pose proof (L iη_A ltac:(unfold iη_A, ODE_LEN; lia)) as LA.
  pose proof (L iη_H ltac:(unfold iη_H, ODE_LEN; lia)) as LH. clear L.
  (* functions of the angle alone *)
  assert (CT : forall t, continuity_pt (fun t => t * s) t).
  { intros t. apply (continuity_pt_mult id (fun _ => s)); [apply derivable_continuous_pt, derivable_pt_id|apply continuity_pt_const; intros u v; reflexivity]. }
  assert (Ac : away P (fun x => cos (at_ x * s))) by (exists m; split; [exact Pm|]; intros x (_ & Hx & _); apply Hx).
  assert (Cc : bounded P (fun x => cos (at_ x * s))).
  { apply (bounded_at (fun t => cos (t * s))). intros t _. apply (continuity_pt_comp (fun t => t * s) cos); [apply CT|apply continuity_cos]. }
  assert (Csn : bounded P (fun x => sin (at_ x * s))).
  { apply (bounded_at (fun t => sin (t * s))). intros t _. apply (continuity_pt_comp (fun t => t * s) sin); [apply CT|apply continuity_sin]. }
  assert (Lθ : near P S (fun t => at_ t * s) (fun t => at_ t * s)) by (apply near_same; apply (bounded_at (fun t => t * s)); intros t _; apply CT).
  assert (Ltan : near P S (fun t => tan (at_ t * s)) (fun t => tan (at_ t * s))).
  { apply near_same. unfold tan, Rdiv. apply bounded_mult; [exact Csn|apply bounded_inv; exact Ac]. }
  assert (Lsec : near P S (fun t => sec (at_ t * s)) (fun t => sec (at_ t * s))).
  { apply near_same. unfold sec, Rdiv. apply (bounded_mult P (fun _ => 1)); [exact (proj1 (near_const P S 1))|apply bounded_inv; exact Ac]. }
  (* the unit field *)
  assert (By : forall t, P t -> m <= y t iB_r ^ 2 + y t iB_φ ^ 2 + y t iB_θ ^ 2) by (intros t (_ & Ht & _); apply Ht).
  assert (Bz : forall t, P t -> m <= z t iB_r ^ 2 + z t iB_φ ^ 2 + z t iB_θ ^ 2) by (intros t (_ & _ & Ht); apply Ht).
  assert (Lm : near P S (fun t => mag (y t)) (fun t => mag (z t))).
  { unfold mag. apply (near_sqrt P S m (fun t => y t iB_r ^ 2 + y t iB_φ ^ 2 + y t iB_θ ^ 2) (fun t => z t iB_r ^ 2 + z t iB_φ ^ 2 + z t iB_θ ^ 2));
      [exact Pm|repeat cl|exact By|exact Bz]. }
  assert (Deny : forall t, P t -> dens_from m (y t)) by (intros t (_ & Ht & _); destruct Ht as (_ & H1 & _ & H2 & H3 & _); apply denominators_from; assumption).
  assert (Denz : forall t, P t -> dens_from m (z t)) by (intros t (_ & _ & Ht); destruct Ht as (_ & H1 & _ & H2 & H3 & _); apply denominators_from; assumption).
  pose proof (sqrt_lt_R0 m Pm) as Qm.
  assert (Lbr : near P S (fun t => y t iB_r / mag (y t)) (fun t => z t iB_r / mag (z t)))
    by (repeat cl; dn).
  assert (Lbf : near P S (fun t => y t iB_φ / mag (y t)) (fun t => z t iB_φ / mag (z t)))
    by (repeat cl; dn).
  assert (Lbt : near P S (fun t => y t iB_θ / mag (y t)) (fun t => z t iB_θ / mag (z t)))
    by (repeat cl; dn).
  assert (LC : near P S (fun t => C_func (y t iη_O) (y t iη_A) (y t iη_H) (y t iB_θ / mag (y t)) (y t iB_r / mag (y t)) (y t iB_φ / mag (y t)))
                           (fun t => C_func (z t iη_O) (z t iη_A) (z t iη_H) (z t iB_θ / mag (z t)) (z t iB_r / mag (z t)) (z t iB_φ / mag (z t)))).
  { unfold C_func. repeat cl; dn. }
  unfold mag in LC, Lbr, Lbf, Lbt, Lm.
  (* the derivatives, slot by slot *)
  assert (eqD : forall i (G : (duo -> vec) -> duo -> R), (forall w t, fst (rhs_derivs o (at_ t * s) (w t)) i = G w t) ->
    near P S (fun t => G y t) (fun t => G z t) -> D i).
  { intros i G E H. unfold D.
    replace (fun t => fst (rhs_derivs o (at_ t * s) (y t)) i) with (fun t => G y t) by (apply functional_extensionality; intros t; symmetry; apply E).
    replace (fun t => fst (rhs_derivs o (at_ t * s) (z t)) i) with (fun t => G z t) by (apply functional_extensionality; intros t; symmetry; apply E).
    exact H. }
  assert (v0y : oa_with_taylor o = false -> away P (fun t => y t iv_θ)).
  { intros T. exists m. split; [exact Pm|]. intros t (_ & Ht & _). destruct Ht as (_ & _ & _ & _ & _ & H & _). exact (H T). }
  assert (v0z : oa_with_taylor o = false -> away P (fun t => z t iv_θ)).
  { intros T. exists m. split; [exact Pm|]. intros t (_ & _ & Ht). destruct Ht as (_ & _ & _ & _ & _ & H & _). exact (H T). }
  assert (v1y : oa_deriv_v_θ_func o = None -> away P (fun t => (1 - y t iv_θ) * (1 + y t iv_θ))).
  { intros T. exists m. split; [exact Pm|]. intros t (_ & Ht & _). destruct Ht as (_ & _ & _ & _ & _ & _ & H & _).
    replace ((1 - y t iv_θ) * (1 + y t iv_θ)) with (1 - y t iv_θ ^ 2) by ring. exact (H T). }
  assert (v1z : oa_deriv_v_θ_func o = None -> away P (fun t => (1 - z t iv_θ) * (1 + z t iv_θ))).
  { intros T. exists m. split; [exact Pm|]. intros t (_ & _ & Ht). destruct Ht as (_ & _ & _ & _ & _ & _ & H & _).
    replace ((1 - z t iv_θ) * (1 + z t iv_θ)) with (1 - z t iv_θ ^ 2) by ring. exact (H T). }
  assert (r0y : away P (fun t => y t iρ)) by (exists m; split; [exact Pm|]; intros t (_ & Ht & _); apply Ht).
  assert (r0z : away P (fun t => z t iρ)) by (exists m; split; [exact Pm|]; intros t (_ & _ & Ht); apply Ht).
  assert (DBt : D iB_θ) by (eapply eqD; [intros w t; apply rhs_B_θ|]; repeat cl).
  assert (DBf : D iB_φ).
  { eapply eqD; [intros w t; apply rhs_B_φ|]. cbv zeta. destruct (oa_use_E_r o); [|exact L7].
    unfold deriv_B_φ_func. repeat cl; try (unfold Z_5_func; repeat cl); dn. }
  assert (DBr : D iB_r).
  { eapply eqD; [intros w t; apply rhs_B_r|]. cbv zeta.
    unfold deriv_B_r_func. unfold D in DBf. repeat cl; dn. }
  assert (Dvr : D iv_r).
  { destruct (oa_with_taylor o) eqn:T.
    - eapply eqD; [intros w t; apply (rhs_v_r_taylor o (at_ t * s) (w t) T)|]. repeat cl.
    - eapply eqD; [intros w t; apply (rhs_v_r o (at_ t * s) (w t) T)|]. unfold deriv_v_r_normal_expr. unfold D in *.
      repeat cl; first [two|exact r0y|exact r0z|exact (v0y ltac:(first [exact T|reflexivity]))|exact (v0z ltac:(first [exact T|reflexivity]))]. }
  assert (Dvf : D iv_φ).
  { destruct (oa_with_taylor o) eqn:T.
    - eapply eqD; [intros w t; apply (rhs_v_φ_taylor o (at_ t * s) (w t) T)|]. repeat cl.
    - eapply eqD; [intros w t; apply (rhs_v_φ o (at_ t * s) (w t) T)|]. unfold deriv_v_φ_normal_expr. unfold D in *.
      repeat cl; first [two|exact r0y|exact r0z|exact (v0y ltac:(first [exact T|reflexivity]))|exact (v0z ltac:(first [exact T|reflexivity]))]. }
  assert (Dvt : D iv_θ).
  { destruct (oa_deriv_v_θ_func o) as [f|] eqn:F.
    - eapply eqD; [intros w t; apply (rhs_v_θ_func o (at_ t * s) (w t) f F)|]. apply near_same. apply (bounded_at (fun t => f (t * s))). intros t Ht.
      apply (continuity_pt_comp (fun t => t * s) f); [exact (CT t)|exact (Hi f F t Ht)].
    - eapply eqD; [intros w t; apply (rhs_v_θ o (at_ t * s) (w t) F)|]. unfold deriv_v_θ_expr. unfold D in *.
      repeat cl; first [two|exact r0y|exact r0z|exact (v1y ltac:(first [exact F|reflexivity]))|exact (v1z ltac:(first [exact F|reflexivity]))]. }
  assert (Dr : D iρ).
  { destruct (oa_with_taylor o) eqn:T.
    - eapply eqD; [intros w t; apply (rhs_ρ_taylor o (at_ t * s) (w t) T)|]. repeat cl.
    - eapply eqD; [intros w t; apply (rhs_ρ o (at_ t * s) (w t) T)|]. unfold deriv_ρ_normal_expr. unfold D in *.
      repeat cl; first [two|exact (v0y ltac:(first [exact T|reflexivity]))|exact (v0z ltac:(first [exact T|reflexivity]))]. }
  assert (DO : D iη_O).
  { eapply eqD; [intros w t; apply (rhs_η o (at_ t * s) (w t))|]. destruct (oa_η_derivs o); [|cl].
    unfold deriv_η_skw_func. cbv zeta. unfold D in *. repeat cl; first [two|exact r0y|exact r0z]. }
  assert (DA : D iη_A).
  { eapply eqD; [intros w t; apply (rhs_η o (at_ t * s) (w t))|]. destruct (oa_η_derivs o); [|cl].
    unfold deriv_η_skw_func. cbv zeta. unfold D in *. repeat cl; first [two|exact r0y|exact r0z]. }
  assert (DH : D iη_H).
  { eapply eqD; [intros w t; apply (rhs_η o (at_ t * s) (w t))|]. destruct (oa_η_derivs o); [|cl].
    unfold deriv_η_skw_func. cbv zeta. unfold D in *. repeat cl; first [two|exact r0y|exact r0z]. }
  assert (D7 : D iB_φ_prime).
  { destruct (oa_use_E_r o) eqn:U.
    - change (D iE_r). eapply eqD; [intros w t; apply (rhs_E_r o (at_ t * s) (w t) U)|].
      unfold deriv_E_r_func, E_θ_func, J_r_func, J_θ_func, J_φ_func. unfold D in *. repeat cl.
    - eapply eqD; [intros w t; apply (rhs_B_φ_prime o (at_ t * s) (w t) U)|].
      unfold B_unit_derivs, B_unit_deriv_1. cbv beta zeta iota. unfold D in *.
      unfold dderiv_B_φ_soln, A_func.
      repeat cl; dn. }
  intros i Hl. unfold ODE_LEN in Hl.
  do 11 (destruct i as [|i]; [assumption|]). lia.
Qed.


Let F (w : vec) (t : R) (i : nat) : R := fst (rhs_derivs o (t * s) w) i.

Lemma lipschitz : exists K, 0 <= K /\ forall t p q, a <= t <= b -> margin o m M t p -> margin o m M t q ->
  forall i, (i < ODE_LEN)%nat -> Rabs (F p t i - F q t i) <= K * sqrt (dist_sq p q).
Proof.
  assert (G : forall n, (n <= ODE_LEN)%nat -> exists K, 0 <= K /\ forall x, P x -> forall i, (i < n)%nat ->
    Rabs (F (one_ x) (at_ x) i - F (two_ x) (at_ x) i) <= K * S x).
  { induction n as [|n IH]; intros Hn; [exists 0; split; [lra|intros x _ i Hl; lia]|].
    destruct IH as (K & PK & H); [lia|]. destruct (near_derivs n Hn) as (_ & _ & K' & P' & H').
    exists (K + K'). split; [lra|]. intros x Hx i Hl. assert (Q : 0 <= S x) by apply sqrt_pos.
    assert (0 <= K * S x) by (apply Rmult_le_pos; assumption). assert (0 <= K' * S x) by (apply Rmult_le_pos; assumption).
    destruct (Nat.eq_dec i n) as [-> |Ne]; [specialize (H' x Hx); cbv beta in H'; unfold F; unfold y, z in H'; lra|].
    specialize (H x Hx i ltac:(lia)). lra. }
  destruct (G ODE_LEN (le_n _)) as (K & PK & H). exists K. split; [exact PK|]. intros t p q Ht Hp Hq i Hl.
  exact (H (mk_duo t p q) (conj Ht (conj Hp Hq)) i Hl).
Qed.

(** A curve that follows the system up to ε, and an exact solution. *)
Lemma error_bound_within : exists K, 0 <= K /\ forall a' b' u w ε, a <= a' -> b' <= b -> 0 <= ε ->
  (forall x, a' <= x <= b' -> solves_at o u x /\ margin o m M x (u x)) ->
  (forall x, a' <= x <= b' -> almost_solves_at o w ε x /\ margin o m M x (w x)) ->
  forall r t, a' <= r <= b' -> a' <= t <= b' ->
  dist_sq (u t) (w t) <= dist_sq (u r) (w r) * exp (K * Rabs (t - r)) + ε ^ 2 * (exp (K * Rabs (t - r)) - 1).
Proof.
  destruct lipschitz as (K & PK & HK). exists (22 * K + 11). split; [lra|]. intros a' b' u w ε Ha' Hb' He Hu Hw.
  assert (Du : forall t i, a' <= t <= b' -> (i < ODE_LEN)%nat -> derivable_pt_lim (fun x => u x i) t (F (u t) t i)).
  { intros t i Ht Hl. destruct (Hu t Ht) as ((d & e & E & D') & _). unfold F, s. rewrite <- (rhs_ok_derivs _ _ _ _ _ E). apply D'. exact Hl. }
  assert (Dw : forall t i, a' <= t <= b' -> (i < ODE_LEN)%nat -> exists l, derivable_pt_lim (fun x => w x i) t l /\ Rabs (l - F (w t) t i) <= ε).
  { intros t i Ht Hl. destruct (Hw t Ht) as ((d & e & v & E & D') & _). unfold F, s. rewrite <- (rhs_ok_derivs _ _ _ _ _ E). exists (v i). apply D'. exact Hl. }
  assert (one : forall t i, a' <= t <= b' -> (i < ODE_LEN)%nat -> exists l, derivable_pt_lim (fun x => (u x i - w x i) ^ 2) t l /\
    Rabs l <= (2 * K + 1) * dist_sq (u t) (w t) + ε ^ 2).
  { intros t i Ht Hl. destruct (Dw t i Ht Hl) as (l & D2 & L). pose proof (Du t i Ht Hl) as D1.
    exists (2 * (u t i - w t i) * (F (u t) t i - l)). split.
    - pose proof (derivable_pt_lim_minus _ _ _ _ _ D1 D2) as D3.
      pose proof (derivable_pt_lim_comp _ (fun v => v ^ 2) t _ _ D3 (derivable_pt_lim_pow _ 2)) as D4.
      cbv beta in D4. unfold comp, minus_fct in D4. cbn [INR pred] in D4. eapply dpl_eq; [exact D4|]. ring.
    - pose proof (dist_pos (u t) (w t)) as Q. set (N := sqrt (dist_sq (u t) (w t))). assert (QN : 0 <= N) by apply sqrt_pos.
      assert (EN : N * N = dist_sq (u t) (w t)) by (apply sqrt_sqrt; exact Q).
      assert (A1 : Rabs (u t i - w t i) <= N) by (unfold N; rewrite <- sqrt_Rsqr_abs; apply sqrt_le_1_alt; rewrite Rsqr_pow2; apply slot_le; exact Hl).
      assert (A2 : Rabs (F (u t) t i - l) <= K * N + ε).
      { replace (F (u t) t i - l) with ((F (u t) t i - F (w t) t i) + - (l - F (w t) t i)) by ring.
        eapply Rle_trans; [apply Rabs_triang|]. rewrite Rabs_Ropp.
        pose proof (HK t (u t) (w t) ltac:(lra) (proj2 (Hu t Ht)) (proj2 (Hw t Ht)) i Hl). fold N in H. lra. }
      rewrite !Rabs_mult, (Rabs_right 2) by lra.
      assert (A3 : Rabs (u t i - w t i) * Rabs (F (u t) t i - l) <= N * (K * N + ε)) by (apply Rmult_le_compat; auto using Rabs_pos).
      rewrite <- EN. pose proof (pow2_ge_0 (N - ε)). nra. }
  assert (all : forall t, a' <= t <= b' -> exists l, derivable_pt_lim (fun x => dist_sq (u x) (w x)) t l /\
    Rabs l <= (22 * K + 11) * (dist_sq (u t) (w t) + ε ^ 2)).
  { intros t Ht. pose proof (dist_pos (u t) (w t)) as Q. pose proof (pow2_ge_0 ε) as Qe.
    assert (G : forall n, (n < ODE_LEN)%nat -> exists l, derivable_pt_lim (fun x => sum_f_R0 (fun i => (u x i - w x i) ^ 2) n) t l /\
      Rabs l <= INR (Datatypes.S n) * ((2 * K + 1) * dist_sq (u t) (w t) + ε ^ 2)).
    { induction n as [|n IH]; intros Hn.
      - destruct (one t 0%nat Ht Hn) as (l & D1 & L). exists l. split; [exact D1|]. cbn [INR]. lra.
      - destruct IH as (l1 & D1 & L1); [lia|]. destruct (one t (Datatypes.S n) Ht Hn) as (l2 & D2 & L2).
        exists (l1 + l2). split.
        + cbn [sum_f_R0]. apply (derivable_pt_lim_plus (fun x => sum_f_R0 (fun i => (u x i - w x i) ^ 2) n)
            (fun x => (u x (Datatypes.S n) - w x (Datatypes.S n)) ^ 2)); assumption.
        + rewrite (S_INR (Datatypes.S n)). eapply Rle_trans; [apply Rabs_triang|]. lra. }
    destruct (G (pred ODE_LEN) ltac:(unfold ODE_LEN; cbn; lia)) as (l & D1 & L). exists l. split; [exact D1|].
    replace (INR (Datatypes.S (pred ODE_LEN))) with 11 in L by (cbn; lra).
    assert (0 <= K * ε ^ 2) by (apply Rmult_le_pos; assumption). lra. }
  set (E := fun x => dist_sq (u x) (w x) + ε ^ 2).
  assert (DE : forall t, a' <= t <= b' -> exists l, derivable_pt_lim E t l /\ Rabs l <= (22 * K + 11) * E t).
  { intros t Ht. destruct (all t Ht) as (l & D1 & L). exists l. split; [|exact L]. unfold E.
    eapply dpl_eq; [apply (derivable_pt_lim_plus _ (fun _ => ε ^ 2) t l 0 D1); apply derivable_pt_lim_const|]. ring. }
  destruct (choose a' b' E (22 * K + 11) DE) as (E' & H1 & H2).
  intros r t Hr Ht. pose proof (gronwall a' b' E E' (22 * K + 11) H1 H2 r t Hr Ht) as Gr. unfold E in Gr. lra.
Qed.
Lemma error_bound : exists K, 0 <= K /\ forall u w ε, 0 <= ε ->
  (forall x, a <= x <= b -> solves_at o u x /\ margin o m M x (u x)) ->
  (forall x, a <= x <= b -> almost_solves_at o w ε x /\ margin o m M x (w x)) ->
  forall r t, a <= r <= b -> a <= t <= b ->
  dist_sq (u t) (w t) <= dist_sq (u r) (w r) * exp (K * Rabs (t - r)) + ε ^ 2 * (exp (K * Rabs (t - r)) - 1).
Proof.
  destruct error_bound_within as (K & PK & HK). exists K. split; [exact PK|]. intros u w ε. apply (HK a b u w ε); apply Rle_refl.
Qed.
End Margin.
