(** C123: solutions that start physical stay physical. *)
From Coq Require Import Reals Lra Lia List Ranalysis5.
From Verif Require Import Model_Index Model_Deriv Model_Ode Lib_Deriv Lib_Gronwall Spec_MHD Spec_Ode Spec_Fields Spec_Unique Spec_Symmetry
  Proofs_Ode Proofs_Unique Witness_Ode Props_Ode.
Import ListNotations.
Open Scope R_scope.

(** A continuous function without zeros keeps its sign. *)
Lemma keeps_sign : forall f a b, (forall t, a <= t <= b -> continuity_pt f t) -> (forall t, a <= t <= b -> f t <> 0) ->
  forall s t, a <= s <= b -> a <= t <= b -> 0 < f s -> 0 < f t.
Proof.
  intros f a b C N s t Hs Ht P. destruct (Rlt_le_dec 0 (f t)) as [|L]; [assumption|]. exfalso.
  assert (L' : f t < 0) by (destruct L as [|E]; [assumption|exfalso; exact (N t Ht E)]).
  destruct (Rtotal_order s t) as [O|[O|O]].
  - destruct (IVT_interv (fun x => - f x) s t) as (w & Hw & E); try lra.
    + intros u Hu. apply (continuity_pt_opp f). apply C. lra.
    + apply (N w); lra.
  - subst. lra.
  - destruct (IVT_interv f t s) as (w & Hw & E); try lra.
    + intros u Hu. apply C. lra.
    + apply (N w); lra.
Qed.

(** The angle is not the axis, and the gas moves vertically. *)
Definition moving (o : ode_args) (y : R -> vec) (x : R) : Prop := cos (x * oa_θ_scale o) <> 0 /\ y x iv_θ <> 0.

Lemma solves_slot : forall o y x, solves_at o y x -> forall i, (i < ODE_LEN)%nat ->
  derivable_pt_lim (fun t => y t i) x (fst (rhs_derivs o (x * oa_θ_scale o) (y x)) i).
Proof. intros o y x (d & e & E & D) i Hl. rewrite <- (rhs_ok_derivs _ _ _ _ _ E). apply D. exact Hl. Qed.
Lemma solves_cont : forall o y x, solves_at o y x -> forall i, (i < ODE_LEN)%nat -> continuity_pt (fun t => y t i) x.
Proof. intros o y x H i Hl. apply derivable_continuous_pt. eexists. apply (solves_slot o y x H i Hl). Qed.

(** The vertical flux of mass of a solution never vanishes if it does not vanish at one angle: so gas that is there cannot run
    out, however the field behaves. *)
Theorem C123_density_positive : forall o y a b, oa_with_taylor o = false ->
  (forall x, a <= x <= b -> solves_at o y x /\ moving o y x) ->
  forall s, a <= s <= b -> 0 < y s iρ -> forall t, a <= t <= b -> 0 < y t iρ.
Proof.
  intros o y a b T H s Hs P t Ht.
  assert (Hab : a <= b) by lra.
  assert (Lρ : (iρ < ODE_LEN)%nat) by (unfold iρ, ODE_LEN; lia). assert (Lv : (iv_θ < ODE_LEN)%nat) by (unfold iv_θ, ODE_LEN; lia).
  assert (Lr : (iv_r < ODE_LEN)%nat) by (unfold iv_r, ODE_LEN; lia).
  set (k := fun x => - (2 * oa_γ o * y x iv_r) / y x iv_θ + tan (x * oa_θ_scale o)).
  assert (Ck : cont a b k).
  { intros x Hx. destruct (H x Hx) as (S & Hc & Hv).
    apply (continuity_pt_plus (fun x => - (2 * oa_γ o * y x iv_r) / y x iv_θ) (fun x => tan (x * oa_θ_scale o))).
    - apply (continuity_pt_div (fun x => - (2 * oa_γ o * y x iv_r)) (fun x => y x iv_θ)); [|apply (solves_cont o y x S); exact Lv|exact Hv].
      apply (continuity_pt_opp (fun x => 2 * oa_γ o * y x iv_r)).
      apply (continuity_pt_mult (fun _ => 2 * oa_γ o) (fun x => y x iv_r)); [apply continuity_pt_const; intros u v; reflexivity|apply (solves_cont o y x S); exact Lr].
    - assert (Cx : continuity_pt (fun x => x * oa_θ_scale o) x)
        by (apply (continuity_pt_mult id (fun _ => oa_θ_scale o)); [apply derivable_continuous_pt, derivable_pt_id|apply continuity_pt_const; intros u v; reflexivity]).
      apply (continuity_pt_div (fun x => sin (x * oa_θ_scale o)) (fun x => cos (x * oa_θ_scale o))).
      + apply (continuity_pt_comp (fun x => x * oa_θ_scale o) sin); [exact Cx|apply continuity_sin].
      + apply (continuity_pt_comp (fun x => x * oa_θ_scale o) cos); [exact Cx|apply continuity_cos].
      + exact Hc. }
  destruct (cont_bounded a b Hab k Ck) as (M & PM & HM).
  set (E := fun x => (y x iρ * y x iv_θ) ^ 2).
  assert (D : forall x, a <= x <= b -> derivable_pt_lim E x (2 * k x * E x)).
  { intros x Hx. destruct (H x Hx) as (S & Hc & Hv).
    pose proof (solves_slot o y x S iρ Lρ) as D1. pose proof (solves_slot o y x S iv_θ Lv) as D2.
    rewrite (rhs_ρ o _ _ T) in D1. unfold deriv_ρ_normal_expr in D1.
    set (d := fst (rhs_derivs o (x * oa_θ_scale o) (y x)) iv_θ) in *.
    unfold E. eapply dpl_eq; [dlim|]. cbn [INR pred]. unfold k. field. exact Hv. }
  assert (B : forall x, a <= x <= b -> Rabs (2 * k x * E x) <= 2 * M * E x).
  { intros x Hx. assert (0 <= E x) by apply pow2_ge_0. rewrite !Rabs_mult, (Rabs_right 2), (Rabs_right (E x)) by lra.
    specialize (HM x Hx). apply Rmult_le_compat_r; [assumption|]. lra. }
  assert (N : forall x, a <= x <= b -> y x iρ <> 0).
  { intros x Hx Z. pose proof (gronwall a b E _ (2 * M) D B x s Hx Hs) as G.
    unfold E in G at 2. rewrite Z, Rmult_0_l in G. replace (0 ^ 2) with 0 in G by ring. rewrite Rmult_0_l in G.
    assert (0 < E s); [|lra]. unfold E. apply sq_pos. destruct (H s Hs) as (_ & _ & Hv). apply Rmult_integral_contrapositive_currified; lra. }
  apply (keeps_sign (fun x => y x iρ) a b (fun x Hx => solves_cont o y x (proj1 (H x Hx)) iρ Lρ) N s t Hs Ht P).
Qed.
Print Assumptions C123_density_positive.

(** So the checks for negative density and velocity never stop an exact solution that starts with positive ones and keeps moving:
    what follows the derivatives without the checks follows them with the checks. *)
Theorem C123_never_rejected : forall o y a b, oa_with_taylor o = false ->
  (forall x, a <= x <= b -> solves_at (unchecked o) y x /\ moving o y x) ->
  forall s, a <= s <= b -> 0 < y s iρ -> 0 < y s iv_θ -> forall t, a <= t <= b -> solves_at o y t.
Proof.
  intros o y a b T H s Hs P V t Ht.
  pose proof (C123_density_positive (unchecked o) y a b T H s Hs P t Ht) as Pt.
  assert (Lv : (iv_θ < ODE_LEN)%nat) by (unfold iv_θ, ODE_LEN; lia).
  pose proof (keeps_sign (fun x => y x iv_θ) a b (fun x Hx => solves_cont _ y x (proj1 (H x Hx)) iv_θ Lv) (fun x Hx => proj2 (proj2 (H x Hx))) s t Hs Ht V) as Vt.
  cbv beta in Vt.
  destruct (H t Ht) as ((d & e & E & D) & _).
  pose proof (rhs_ok_derivs _ _ _ _ _ E) as Ed. change (rhs_derivs (unchecked o)) with (rhs_derivs o) in Ed. change (oa_θ_scale (unchecked o)) with (oa_θ_scale o) in Ed.
  destruct (proj2 (rhs_ok_iff o t (y t)) (or_intror (conj (Rlt_le _ _ Pt) (Rlt_le _ _ Vt)))) as (d' & e' & E').
  exists d', e'. split; [exact E'|]. rewrite (rhs_ok_derivs _ _ _ _ _ E'), <- Ed. exact D.
Qed.
Print Assumptions C123_never_rejected.

(** And so diffusivities that follow B²/ρ keep their signs as long as there is a field. *)
Theorem C123_diffusivities : forall o y lo hi, oa_with_taylor o = false -> oa_η_derivs o = true ->
  (forall x, lo < x < hi -> solves_at o y x /\ moving o y x /\ B_nonzero (y x)) ->
  forall s, lo < s < hi -> 0 < y s iρ -> forall X, In X DIFFUSIVE_INDEXES -> y s X = oa_init_con o X * B_sq_over_ρ (y s) ->
  forall t, lo < t < hi -> (0 < oa_init_con o X -> 0 < y t X) /\ (oa_init_con o X = 0 -> y t X = 0) /\ (oa_init_con o X < 0 -> y t X < 0).
Proof.
  intros o y lo hi T Hη H s Hs P X HX E t Ht.
  assert (Pt : forall t, lo < t < hi -> 0 < y t iρ).
  { intros u Hu. assert (I : forall x, Rmin s u <= x <= Rmax s u -> lo < x < hi).
    { intros x Hx. unfold Rmin, Rmax in Hx. destruct (Rle_dec s u); lra. }
    apply (C123_density_positive o y (Rmin s u) (Rmax s u) T) with (s := s); try exact P.
    - intros x Hx. split; apply (H x (I x Hx)).
    - split; [apply Rmin_l|apply Rmax_l].
    - split; [apply Rmin_r|apply Rmax_r]. }
  pose proof (C08_eta_tracks_B_sq_over_ρ o y lo hi (fun x Hx => proj1 (H x Hx)) Hη (fun x Hx => Rgt_not_eq _ _ (Pt x Hx)) X HX s t Hs Ht) as C.
  assert (F : y t X = oa_init_con o X * B_sq_over_ρ (y t)) by lra. rewrite F.
  assert (Q : 0 < B_sq_over_ρ (y t)).
  { destruct (H t Ht) as (_ & _ & B). unfold B_nonzero in B. unfold B_sq_over_ρ. apply Rdiv_lt_0_compat; [exact B|exact (Pt t Ht)]. }
  split; [intros L; apply Rmult_lt_0_compat; assumption|]. split; [intros ->; ring|].
  intros L. replace (oa_init_con o X * B_sq_over_ρ (y t)) with (- (- oa_init_con o X * B_sq_over_ρ (y t))) by ring.
  assert (0 < - oa_init_con o X * B_sq_over_ρ (y t)) by (apply Rmult_lt_0_compat; lra). lra.
Qed.
Print Assumptions C123_diffusivities.

(** Not empty: the solution of Witness_Ode.v, whose density and diffusivity vary, without the checks and with them. *)
Example C123_nonvacuous :
  (forall x, 0 <= x <= 1 -> solves_at (unchecked (o_int true)) (y_int true) x /\ moving (o_int true) (y_int true) x /\ B_nonzero (y_int true x)) /\
  0 < y_int true 0 iρ /\ 0 < y_int true 0 iv_θ /\ y_int true (1 / 2) iη_O = oa_init_con (o_int true) iη_O * B_sq_over_ρ (y_int true (1 / 2)) /\
  0 < oa_init_con (o_int true) iη_O.
Proof.
  assert (Q : forall x, 0 <= x <= 1 -> 0 < cos x) by (intros x Hx; apply cos_gt_0; pose proof PI2_1; lra).
  split.
  - intros x Hx. pose proof (Q x Hx) as Hc. assert (Hi : 0 < 1 / cos x) by (apply Rdiv_lt_0_compat; lra).
    destruct (y_int_solves_at true x Hc) as (d & e & E & D). split.
    + destruct (proj2 (rhs_ok_iff (unchecked (o_int true)) x (y_int true x)) (or_introl eq_refl)) as (d' & e' & E').
      exists d', e'. split; [exact E'|]. rewrite (rhs_ok_derivs _ _ _ _ _ E').
      change (rhs_derivs (unchecked (o_int true))) with (rhs_derivs (o_int true)). change (oa_θ_scale (unchecked (o_int true))) with (oa_θ_scale (o_int true)).
      rewrite <- (rhs_ok_derivs _ _ _ _ _ E). exact D.
    + unfold moving, B_nonzero. cbn [o_int oa_θ_scale]. rewrite Rmult_1_r. unfold y_int, state, iB_r, iB_φ, iB_θ, iv_θ.
      assert (0 < (1 / cos x) ^ 2) by (apply sq_pos; lra). split; [split; lra|lra].
  - pose proof (Q (1 / 2) ltac:(lra)) as Hc. unfold B_sq_over_ρ. cbn. rewrite cos_0. split; [lra|]. split; [lra|]. split; [field; lra|lra].
Qed.
