(** Proof of C128: the right-hand side is Lipschitz in the parameters, with one constant for all states that keep a margin. *)
From Coq Require Import Reals Lra Lia FunctionalExtensionality.
From Verif Require Import Model_Index Model_Deriv Model_Midplane Model_Ode Lib_Lipschitz Spec_MHD Spec_Ode Spec_Unique Spec_Error Spec_Param
  Proofs_Ode Proofs_Unique Proofs_Error.
Open Scope R_scope.

Definition with_params (o p : ode_args) : ode_args :=
  mk_ode_args (oa_γ p) (oa_a_0 p) (oa_norm_kepler_sq p) (oa_init_con p) (oa_θ_scale o) (oa_with_taylor o) (oa_η_derivs o)
    (oa_store_internal o) (oa_use_E_r o) (oa_deriv_v_θ_func o) (oa_derivs_post_solution o).

(** One state at one angle, and two sets of parameters. *)
Record pair := mk_pair { at_ : R; st_ : vec; one_ : ode_args; two_ : ode_args }.

Section Params.
Variables (o : ode_args) (a b m M : R).
Hypothesis Hab : a <= b.
Hypothesis Pm : 0 < m.
Hypothesis Hi : interpolant_continuous o a b.
Hypothesis T : oa_with_taylor o = false.
Let s := oa_θ_scale o.
Let P (x : pair) : Prop := a <= at_ x <= b /\ margin o m M (at_ x) (st_ x) /\ parameters_within M (one_ x) /\ parameters_within M (two_ x).
Let S (x : pair) : R := parameter_gap (one_ x) (two_ x).
Let y := st_.
Let q (x : pair) := with_params o (one_ x).
Let q' (x : pair) := with_params o (two_ x).

Lemma near_slot : forall i, (i < ODE_LEN)%nat -> near P S (fun t => y t i) (fun t => y t i).
Proof.
  intros i Hl. apply near_same. exists (Rmax 0 M). split; [apply Rmax_l|]. intros x (_ & Hx & _). eapply Rle_trans; [apply Hx, Hl|apply Rmax_r].
Qed.
Lemma near_param : forall f : ode_args -> R, (forall p, parameters_within M p -> Rabs (f p) <= M) ->
  (forall p p', Rabs (f p - f p') <= parameter_gap p p') -> near P S (fun t => f (one_ t)) (fun t => f (two_ t)).
Proof.
  intros f H1 H2. split; [exists (Rmax 0 M); split; [apply Rmax_l|]; intros x (_ & _ & Hx & _); eapply Rle_trans; [apply H1, Hx|apply Rmax_r]|].
  split; [exists (Rmax 0 M); split; [apply Rmax_l|]; intros x (_ & _ & _ & Hx); eapply Rle_trans; [apply H1, Hx|apply Rmax_r]|].
  exists 1. split; [lra|]. intros x _. rewrite Rmult_1_l. apply H2.
Qed.
Ltac gap := unfold parameter_gap; repeat match goal with |- context [Rabs ?x] => lazymatch goal with H : 0 <= Rabs x |- _ => fail | _ => pose proof (Rabs_pos x) end end; lra.

Let mag (p : vec) : R := sqrt (p iB_r ^ 2 + p iB_φ ^ 2 + p iB_θ ^ 2).
Let D (i : nat) : Prop := near P S (fun t => fst (rhs_derivs (q t) (at_ t * s) (y t)) i) (fun t => fst (rhs_derivs (q' t) (at_ t * s) (y t)) i).

Lemma bounded_at : forall f, (forall t, a <= t <= b -> continuity_pt f t) -> bounded P (fun x => f (at_ x)).
Proof.
  intros f H. destruct (Lib_Gronwall.cont_bounded a b Hab f H) as (K & PK & HK). exists K. split; [exact PK|]. intros x (Hx & _). exact (HK _ Hx).
Qed.

Ltac dn := match goal with
    | |- away _ (fun t => _ ^ 2) => apply away_sq; dn
    | Q : 0 < sqrt ?m |- away ?P _ => first
      [ apply (away_ge P m); [assumption|intros ? Ht;
          match goal with Y : forall t, P t -> dens_from m _ |- _ => apply (Y _ Ht) end]
      | apply (away_ge P (sqrt m)); [assumption|intros ? Ht;
          match goal with Y : forall t, P t -> dens_from m _ |- _ => apply (Y _ Ht) end] ]
    end.

Lemma near_derivs : forall i, (i < ODE_LEN)%nat -> D i.
Proof.
  assert (HS : forall x, P x -> 0 <= S x) by (intros x _; unfold S; gap).
  assert (L : forall i, (i < ODE_LEN)%nat -> near P S (fun t => y t i) (fun t => y t i)) by exact near_slot.
  pose proof (L iB_r ltac:(unfold iB_r, ODE_LEN; lia)) as LBr. pose proof (L iB_φ ltac:(unfold iB_φ, ODE_LEN; lia)) as LBf.
  pose proof (L iB_θ ltac:(unfold iB_θ, ODE_LEN; lia)) as LBt. pose proof (L iv_r ltac:(unfold iv_r, ODE_LEN; lia)) as Lvr.
  pose proof (L iv_φ ltac:(unfold iv_φ, ODE_LEN; lia)) as Lvf. pose proof (L iv_θ ltac:(unfold iv_θ, ODE_LEN; lia)) as Lvt.
  pose proof (L iρ ltac:(unfold iρ, ODE_LEN; lia)) as Lr. pose proof (L iB_φ_prime ltac:(unfold iB_φ_prime, ODE_LEN; lia)) as L7.
  assert (L7' : near P S (fun t => y t iE_r) (fun t => y t iE_r)) by exact L7.
  pose proof (L iη_O ltac:(unfold iη_O, ODE_LEN; lia)) as LO. pose proof (L iη_A ltac:(unfold iη_A, ODE_LEN; lia)) as LA.
  pose proof (L iη_H ltac:(unfold iη_H, ODE_LEN; lia)) as LH. clear L.
  (* the parameters *)
  assert (Lγ : near P S (fun t => oa_γ (q t)) (fun t => oa_γ (q' t))) by (apply (near_param oa_γ); [intros p Hp; apply Hp|intros p p'; gap]).
  assert (La : near P S (fun t => oa_a_0 (q t)) (fun t => oa_a_0 (q' t))) by (apply (near_param oa_a_0); [intros p Hp; apply Hp|intros p p'; gap]).
  assert (Lk : near P S (fun t => sqrt (oa_norm_kepler_sq (q t))) (fun t => sqrt (oa_norm_kepler_sq (q' t)))).
  { apply (near_param (fun p => sqrt (oa_norm_kepler_sq p))); [|intros p p'; gap]. intros p (_ & _ & Hp & _).
    rewrite Rabs_right; [exact Hp|]. apply Rle_ge, sqrt_pos. }
  assert (LO0 : near P S (fun t => oa_init_con (q t) iη_O) (fun t => oa_init_con (q' t) iη_O))
    by (apply (near_param (fun p => oa_init_con p iη_O)); [intros p Hp; apply Hp|intros p p'; gap]).
  assert (LA0 : near P S (fun t => oa_init_con (q t) iη_A) (fun t => oa_init_con (q' t) iη_A))
    by (apply (near_param (fun p => oa_init_con p iη_A)); [intros p Hp; apply Hp|intros p p'; gap]).
  assert (LH0 : near P S (fun t => oa_init_con (q t) iη_H) (fun t => oa_init_con (q' t) iη_H))
    by (apply (near_param (fun p => oa_init_con p iη_H)); [intros p Hp; apply Hp|intros p p'; gap]).
  (* functions of the angle alone *)
  assert (CT : forall t, continuity_pt (fun t => t * s) t).
  { intros t. apply (continuity_pt_mult id (fun _ => s)); [apply derivable_continuous_pt, derivable_pt_id|apply continuity_pt_const; intros u v; reflexivity]. }
  assert (Ac : away P (fun x => cos (at_ x * s))) by (exists m; split; [exact Pm|]; intros x (_ & Hx & _); apply Hx).
  assert (Csn : bounded P (fun x => sin (at_ x * s))).
  { apply (bounded_at (fun t => sin (t * s))). intros t _. apply (continuity_pt_comp (fun t => t * s) sin); [apply CT|apply continuity_sin]. }
  assert (Lθ : near P S (fun t => at_ t * s) (fun t => at_ t * s)) by (apply near_same; apply (bounded_at (fun t => t * s)); intros t _; apply CT).
  assert (Ltan : near P S (fun t => tan (at_ t * s)) (fun t => tan (at_ t * s))).
  { apply near_same. unfold tan, Rdiv. apply bounded_mult; [exact Csn|apply bounded_inv; exact Ac]. }
  assert (Lsec : near P S (fun t => sec (at_ t * s)) (fun t => sec (at_ t * s))).
  { apply near_same. unfold sec, Rdiv. apply (bounded_mult P (fun _ => 1)); [exact (proj1 (near_const P S 1))|apply bounded_inv; exact Ac]. }
  (* the unit field *)
  assert (By : forall t, P t -> m <= y t iB_r ^ 2 + y t iB_φ ^ 2 + y t iB_θ ^ 2) by (intros t (_ & Ht & _); apply Ht).
  assert (Lm : near P S (fun t => mag (y t)) (fun t => mag (y t))).
  { unfold mag. apply (near_sqrt P S m (fun t => y t iB_r ^ 2 + y t iB_φ ^ 2 + y t iB_θ ^ 2) (fun t => y t iB_r ^ 2 + y t iB_φ ^ 2 + y t iB_θ ^ 2));
      [exact Pm|repeat cl|exact By|exact By]. }
  assert (Deny : forall t, P t -> dens_from m (y t)) by (intros t (_ & Ht & _); destruct Ht as (_ & H1 & _ & H2 & H3 & _); apply denominators_from; assumption).
  pose proof (sqrt_lt_R0 m Pm) as Qm.
  assert (Lbr : near P S (fun t => y t iB_r / mag (y t)) (fun t => y t iB_r / mag (y t))) by (repeat cl; dn).
  assert (Lbf : near P S (fun t => y t iB_φ / mag (y t)) (fun t => y t iB_φ / mag (y t))) by (repeat cl; dn).
  assert (Lbt : near P S (fun t => y t iB_θ / mag (y t)) (fun t => y t iB_θ / mag (y t))) by (repeat cl; dn).
  assert (LC : near P S (fun t => C_func (y t iη_O) (y t iη_A) (y t iη_H) (y t iB_θ / mag (y t)) (y t iB_r / mag (y t)) (y t iB_φ / mag (y t)))
                        (fun t => C_func (y t iη_O) (y t iη_A) (y t iη_H) (y t iB_θ / mag (y t)) (y t iB_r / mag (y t)) (y t iB_φ / mag (y t)))).
  { unfold C_func. repeat cl; dn. }
  unfold mag in LC, Lbr, Lbf, Lbt, Lm.
  (* the derivatives, slot by slot *)
  assert (eqD : forall i (G : (pair -> ode_args) -> pair -> R),
    (forall (w : pair -> ode_args) t, oa_with_taylor (w t) = oa_with_taylor o -> oa_use_E_r (w t) = oa_use_E_r o -> oa_η_derivs (w t) = oa_η_derivs o ->
       oa_deriv_v_θ_func (w t) = oa_deriv_v_θ_func o -> fst (rhs_derivs (w t) (at_ t * s) (y t)) i = G w t) ->
    near P S (fun t => G q t) (fun t => G q' t) -> D i).
  { intros i G E H. unfold D.
    replace (fun t => fst (rhs_derivs (q t) (at_ t * s) (y t)) i) with (fun t => G q t) by (apply functional_extensionality; intros t; symmetry; apply E; reflexivity).
    replace (fun t => fst (rhs_derivs (q' t) (at_ t * s) (y t)) i) with (fun t => G q' t) by (apply functional_extensionality; intros t; symmetry; apply E; reflexivity).
    exact H. }
  assert (v0 : away P (fun t => y t iv_θ)).
  { exists m. split; [exact Pm|]. intros t (_ & Ht & _). destruct Ht as (_ & _ & _ & _ & _ & H & _). exact (H T). }
  assert (v1 : oa_deriv_v_θ_func o = None -> away P (fun t => (1 - y t iv_θ) * (1 + y t iv_θ))).
  { intros F. exists m. split; [exact Pm|]. intros t (_ & Ht & _). destruct Ht as (_ & _ & _ & _ & _ & _ & H & _).
    replace ((1 - y t iv_θ) * (1 + y t iv_θ)) with (1 - y t iv_θ ^ 2) by ring. exact (H F). }
  assert (r0 : away P (fun t => y t iρ)) by (exists m; split; [exact Pm|]; intros t (_ & Ht & _); apply Ht).
  assert (DBt : D iB_θ) by (eapply eqD; [intros w t _ _ _ _; apply rhs_B_θ|]; repeat cl).
  assert (DBf : D iB_φ).
  { eapply (eqD iB_φ); [intros w t _ U _ _; rewrite rhs_B_φ; cbv zeta; rewrite U; reflexivity|]. cbv beta.
    destruct (oa_use_E_r o); [|exact L7].
    unfold deriv_B_φ_func. repeat cl; try (unfold Z_5_func; repeat cl); dn. }
  assert (DBr : D iB_r).
  { eapply eqD; [intros w t _ _ _ _; apply rhs_B_r|]. cbv zeta.
    unfold deriv_B_r_func. unfold D in DBf. repeat cl; dn. }
  assert (Dvr : D iv_r).
  { eapply eqD; [intros w t W _ _ _; apply (rhs_v_r (w t) (at_ t * s) (y t)); rewrite W; exact T|]. unfold deriv_v_r_normal_expr. unfold D in *.
    repeat cl; first [two|exact r0|exact v0]. }
  assert (Dvf : D iv_φ).
  { eapply eqD; [intros w t W _ _ _; apply (rhs_v_φ (w t) (at_ t * s) (y t)); rewrite W; exact T|]. unfold deriv_v_φ_normal_expr. unfold D in *.
    repeat cl; first [two|exact r0|exact v0]. }
  assert (Dvt : D iv_θ).
  { destruct (oa_deriv_v_θ_func o) as [f|] eqn:F.
    - eapply eqD; [intros w t _ _ _ W; apply (rhs_v_θ_func (w t) (at_ t * s) (y t) f W)|]. apply near_same. apply (bounded_at (fun t => f (t * s))). intros t Ht.
      apply (continuity_pt_comp (fun t => t * s) f); [exact (CT t)|exact (Hi f F t Ht)].
    - eapply eqD; [intros w t _ _ _ W; apply (rhs_v_θ (w t) (at_ t * s) (y t) W)|]. unfold deriv_v_θ_expr. unfold D in *.
      repeat cl; first [two|exact r0|exact (v1 eq_refl)]. }
  assert (Dr : D iρ).
  { eapply eqD; [intros w t W _ _ _; apply (rhs_ρ (w t) (at_ t * s) (y t)); rewrite W; exact T|]. unfold deriv_ρ_normal_expr. unfold D in *.
    repeat cl; first [two|exact v0]. }
  assert (DO : D iη_O).
  { eapply (eqD iη_O); [intros w t _ _ W _; rewrite (proj1 (rhs_η (w t) (at_ t * s) (y t))), W; reflexivity|]. cbv beta. destruct (oa_η_derivs o); [|cl].
    unfold deriv_η_skw_func. cbv zeta. unfold D in *. repeat cl; first [two|exact r0]. }
  assert (DA : D iη_A).
  { eapply (eqD iη_A); [intros w t _ _ W _; rewrite (proj1 (proj2 (rhs_η (w t) (at_ t * s) (y t)))), W; reflexivity|]. cbv beta. destruct (oa_η_derivs o); [|cl].
    unfold deriv_η_skw_func. cbv zeta. unfold D in *. repeat cl; first [two|exact r0]. }
  assert (DH : D iη_H).
  { eapply (eqD iη_H); [intros w t _ _ W _; rewrite (proj2 (proj2 (rhs_η (w t) (at_ t * s) (y t)))), W; reflexivity|]. cbv beta. destruct (oa_η_derivs o); [|cl].
    unfold deriv_η_skw_func. cbv zeta. unfold D in *. repeat cl; first [two|exact r0]. }
  assert (D7 : D iB_φ_prime).
  { destruct (oa_use_E_r o) eqn:U.
    - change (D iE_r). eapply eqD; [intros w t _ W _ _; apply (rhs_E_r (w t) (at_ t * s) (y t) W)|].
      unfold deriv_E_r_func, E_θ_func, J_r_func, J_θ_func, J_φ_func. unfold D in *. repeat cl.
    - eapply eqD; [intros w t _ W _ _; apply (rhs_B_φ_prime (w t) (at_ t * s) (y t) W)|].
      unfold B_unit_derivs, B_unit_deriv_1. cbv beta zeta iota. unfold D in *.
      unfold dderiv_B_φ_soln, A_func.
      repeat cl; dn. }
  intros i Hl. unfold ODE_LEN in Hl.
  do 11 (destruct i as [|i]; [assumption|]). lia.
Qed.

Lemma lipschitz_params : exists K, 0 <= K /\ forall t p o1 o2, a <= t <= b -> margin o m M t p -> parameters_within M o1 -> parameters_within M o2 ->
  forall i, (i < ODE_LEN)%nat ->
  Rabs (fst (rhs_derivs (with_params o o1) (t * s) p) i - fst (rhs_derivs (with_params o o2) (t * s) p) i) <= K * parameter_gap o1 o2.
Proof.
  assert (G : forall n, (n <= ODE_LEN)%nat -> exists K, 0 <= K /\ forall x, P x -> forall i, (i < n)%nat ->
    Rabs (fst (rhs_derivs (q x) (at_ x * s) (y x)) i - fst (rhs_derivs (q' x) (at_ x * s) (y x)) i) <= K * S x).
  { induction n as [|n IH]; intros Hn; [exists 0; split; [lra|intros x _ i Hl; lia]|].
    destruct IH as (K & PK & H); [lia|]. destruct (near_derivs n Hn) as (_ & _ & K' & P' & H').
    exists (K + K'). split; [lra|]. intros x Hx i Hl. assert (Q : 0 <= S x) by (unfold S; gap).
    assert (0 <= K * S x) by (apply Rmult_le_pos; assumption). assert (0 <= K' * S x) by (apply Rmult_le_pos; assumption).
    destruct (Nat.eq_dec i n) as [-> |Ne]; [specialize (H' x Hx); cbv beta in H'; lra|].
    specialize (H x Hx i ltac:(lia)). lra. }
  destruct (G ODE_LEN (le_n _)) as (K & PK & H). exists K. split; [exact PK|]. intros t p o1 o2 Ht Hp H1 H2 i Hl.
  exact (H (mk_pair t p o1 o2) (conj Ht (conj Hp (conj H1 H2))) i Hl).
Qed.
End Params.
