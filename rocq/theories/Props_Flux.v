(** C92: mass fluxes. *)
From Coq Require Import Reals ZArith List Bool Arith Lra Lia.
From Verif Require Import Lib_Deriv Model_Index Model_Array Model_Critical Model_Stats Spec_MHD Spec_Ode.
Import ListNotations.
Open Scope R_scope.

(** ** Specification: what passes through the surfaces of a wedge of the disc.
    [Out] is a primitive of the mass per unit radius and time through the two cones at latitudes θ and -θ, whose rings have circumference
    2 π r cos θ; [In r] is the mass per unit time through the part of the sphere of radius r between the cones, an integral over latitude, expressed by
    a primitive [P r] in latitude of 2 π r² cos t ρ v_r; both hemispheres count. *)
Definition cone_primitive (F : fluid) (θ lo hi : R) (Out : R -> R) : Prop :=
  forall r, lo <= r <= hi -> derivable_pt_lim Out r (2 * (2 * PI * r * cos θ) * (f_ρ F r θ * f_v_θ F r θ)).
Definition sphere_primitive (F : fluid) (r θ : R) (P : R -> R) : Prop :=
  forall t, 0 <= t <= θ -> derivable_pt_lim P t (2 * (2 * PI * r ^ 2 * cos t) * (f_ρ F r t * f_v_r F r t)).

(** Two primitives of one function differ by a constant. *)
Lemma primitives : forall F G f a b, a <= b -> (forall x, a <= x <= b -> derivable_pt_lim F x (f x)) ->
  (forall x, a <= x <= b -> derivable_pt_lim G x (f x)) -> F b - F a = G b - G a.
Proof.
  intros F G f a b Hab HF HG. destruct (Req_dec a b) as [->|Hne]; [ring|].
  destruct (MVT_cor2 (fun x => F x - G x) (fun x => f x - f x) a b) as (c & E & _); [lra | |].
  - intros x Hx. apply dpl_minus; auto.
  - cbn in E. lra.
Qed.
Lemma Rpower_2γ : forall γ r, 0 < r -> r * Rpower r (2 * γ - 3 / 2) * Rpower r (- (1 / 2)) = Rpower r (2 * γ) / r.
Proof.
  intros γ r Hr. apply (Rmult_eq_reg_r r); [|lra].
  replace (Rpower r (2 * γ) / r * r) with (Rpower r (2 * γ)) by (field; lra).
  replace (2 * γ) with (1 + (2 * γ - 3 / 2) + - (1 / 2) + 1) at 2 by field.
  rewrite !Rpower_plus, !Rpower_1 by exact Hr. ring.
Qed.
Lemma ring_flux : forall γ y r θ, 0 < r ->
  f_ρ (fluid_of γ y) r θ * f_v_θ (fluid_of γ y) r θ * r = Rpower r (2 * γ) / r * (y θ iρ * y θ iv_θ).
Proof.
  intros γ y r θ Hr. rewrite <- Rpower_2γ by exact Hr. cbn. unfold self_similar.
  replace (- 1 / 2) with (- (1 / 2)) by field. ring.
Qed.
Lemma sphere_flux : forall γ y r t, 0 < r ->
  r ^ 2 * (f_ρ (fluid_of γ y) r t * f_v_r (fluid_of γ y) r t) = Rpower r (2 * γ) * (y t iρ * y t iv_r).
Proof.
  intros γ y r t Hr. replace (Rpower r (2 * γ)) with (r * (Rpower r (2 * γ) / r)) by (field; lra).
  rewrite <- Rpower_2γ by exact Hr. cbn. unfold self_similar. replace (- 1 / 2) with (- (1 / 2)) by field. ring.
Qed.

(** C92, what the outflow of the code is: the outflow through the cones without the cosine of the last latitude. *)
Theorem C92_out_exact : forall γ y s θ lo hi Out, γ <> 0 -> 0 < lo <= hi -> cone_primitive (fluid_of γ y) θ lo hi Out ->
  exists m, compute_M_dot_out γ (s ++ [(θ, y θ)]) lo hi = Ret m /\ Out hi - Out lo = cos θ * m.
Proof.
  intros γ y s θ lo hi Out Hγ Hlo HO. unfold compute_M_dot_out. rewrite rev_app_distr. cbn [rev app snd]. eexists. split; [reflexivity|].
  rewrite (primitives Out (fun r => 4 * PI * cos θ * (y θ iρ * y θ iv_θ) * (Rpower r (2 * γ) / (2 * γ)))
    (fun r => 2 * (2 * PI * r * cos θ) * (f_ρ (fluid_of γ y) r θ * f_v_θ (fluid_of γ y) r θ)) lo hi); [field; exact Hγ | lra | exact HO |].
  intros r Hr. eapply dpl_eq; [apply dpl_mult; [apply dpl_const|]; apply dpl_div; [lra | apply dpl_Rpower; lra | apply dpl_const]|].
  replace (2 * (2 * PI * r * cos θ) * (f_ρ (fluid_of γ y) r θ * f_v_θ (fluid_of γ y) r θ))
    with (4 * PI * cos θ * (f_ρ (fluid_of γ y) r θ * f_v_θ (fluid_of γ y) r θ * r)) by ring.
  rewrite ring_flux by lra. unfold Rsqr. field. split; lra.
Qed.
Print Assumptions C92_out_exact.

Lemma mass_ode : forall γ y t, cos t <> 0 -> mass_conserved (fluid_of γ y) 1 t ->
  derivable_pt_lim (fun t => cos t * (y t iρ * y t iv_θ)) t (- (2 * γ) * (cos t * (y t iρ * y t iv_r))).
Proof.
  intros γ y t Hc (a & b & Ha & Hb & E). unfold pd_r, pd_θ in *. cbv beta in Ha, Hb.
  assert (Ea : a = 2 * γ * (y t iρ * y t iv_r)).
  { eapply uniqueness_limite; [exact Ha|].
    apply (dpl_ext_loc (fun s => Rpower s (2 * γ) * (y t iρ * y t iv_r)) _ 1 _ (1 / 2)); [lra | |].
    - intros s Hs. apply Rabs_def2 in Hs. symmetry. apply sphere_flux. lra.
    - eapply dpl_eq; [apply dpl_mult; [apply dpl_Rpower; lra | apply dpl_const]|]. unfold Rpower. rewrite ln_1, Rmult_0_r, exp_0. field. }
  apply (dpl_eq _ _ b); [|rewrite Ea in E;
    replace b with ((2 * γ * (y t iρ * y t iv_r) / 1 ^ 2 + b / (1 * cos t)) * cos t - 2 * γ * (y t iρ * y t iv_r) * cos t) by (field; exact Hc);
    rewrite <- E; ring].
  eapply dpl_ext; [|exact Hb]. intro u. cbv beta. f_equal. rewrite <- (Rmult_1_r (_ * _)), ring_flux by lra.
  unfold Rpower. rewrite ln_1, Rmult_0_r, exp_0. field.
Qed.

(** In a fluid that conserves mass and does not cross the midplane, what leaves through the cones is what enters through the outer sphere minus what leaves through the inner
    one: the true ratio of outflow to inflow is one. *)
Theorem C92_balance : forall γ y θ lo hi Out P_lo P_hi, γ <> 0 -> 0 < lo <= hi -> 0 <= θ < PI / 2 -> y 0 iv_θ = 0 ->
  (forall t, 0 <= t <= θ -> mass_conserved (fluid_of γ y) 1 t) ->
  cone_primitive (fluid_of γ y) θ lo hi Out -> sphere_primitive (fluid_of γ y) lo θ P_lo -> sphere_primitive (fluid_of γ y) hi θ P_hi ->
  Out hi - Out lo = - (P_hi θ - P_hi 0) - - (P_lo θ - P_lo 0).
Proof.
  intros γ y θ lo hi Out P_lo P_hi Hγ Hlo Hθ H0 HM HO HL HH.
  destruct (C92_out_exact γ y [] θ lo hi Out Hγ Hlo HO) as (m & Em & ->). unfold compute_M_dot_out in Em. cbn in Em. injection Em as <-.
  set (W := fun t => cos t * (y t iρ * y t iv_θ)).
  assert (K : forall r P, 0 < r -> sphere_primitive (fluid_of γ y) r θ P -> P θ - P 0 = - (4 * PI * Rpower r (2 * γ) / (2 * γ)) * W θ).
  { intros r P Hr HP. rewrite (primitives P (fun t => - (4 * PI * Rpower r (2 * γ) / (2 * γ)) * W t)
      (fun t => 2 * (2 * PI * r ^ 2 * cos t) * (f_ρ (fluid_of γ y) r t * f_v_r (fluid_of γ y) r t)) 0 θ); [|lra | exact HP |].
    - unfold W. rewrite H0. ring.
    - intros t Ht. assert (0 < cos t) by (apply cos_gt_0; lra).
      eapply dpl_eq; [apply dpl_mult; [apply dpl_const | apply mass_ode; [lra | apply HM; exact Ht]]|].
      replace (2 * (2 * PI * r ^ 2 * cos t) * (f_ρ (fluid_of γ y) r t * f_v_r (fluid_of γ y) r t))
        with (4 * PI * cos t * (r ^ 2 * (f_ρ (fluid_of γ y) r t * f_v_r (fluid_of γ y) r t))) by ring.
      rewrite sphere_flux by exact Hr. field. exact Hγ. }
  rewrite (K lo P_lo), (K hi P_hi) by (assumption || lra). unfold W. field. exact Hγ.
Qed.
Print Assumptions C92_balance.

(** ** A fluid with constant density and inflow, and the vertical velocity mass conservation asks for *)
Definition wedge (t : R) : vec := state 0 0 1 (- 1) 0 (tan t / 2) 1 0 0 0 0.
Lemma wedge_conserves : forall r t, 0 < r -> cos t <> 0 -> mass_conserved (fluid_of (1 / 4) wedge) r t.
Proof.
  intros r t Hr Hc. exists (- (Rpower r (1 / 2) / (2 * r))), (cos t * (Rpower r (1 / 2) / (2 * r ^ 2))). split; [|split].
  - apply (dpl_ext_loc (fun s => Rpower s (2 * (1 / 4)) * (wedge t iρ * wedge t iv_r)) _ r _ r Hr).
    + intros s Hs. apply Rabs_def2 in Hs. symmetry. apply sphere_flux. lra.
    + eapply dpl_eq; [apply dpl_mult; [apply dpl_Rpower; lra | apply dpl_const]|]. cbn. replace (2 * (1 / 4)) with (1 / 2) by field. field. lra.
  - unfold pd_θ.
    assert (Hne : exists e, 0 < e /\ forall u, Rabs (u - t) < e -> cos u <> 0).
    { destruct (continuity_cos t (Rabs (cos t)) (Rabs_pos_lt _ Hc)) as (e & He & K). exists e. split; [exact He|].
      intros u Hu E. destruct (Req_dec u t) as [->|Hn]; [congruence|]. specialize (K u). unfold D_x, no_cond, dist in K. cbn in K. unfold R_dist in K.
      assert (Rabs (cos u - cos t) < Rabs (cos t)) by (apply K; repeat split; auto). rewrite E in H. replace (0 - cos t) with (- cos t) in H by ring.
      rewrite Rabs_Ropp in H. lra. }
    destruct Hne as (e & He & Hne).
    apply (dpl_ext_loc (fun u => sin u * (Rpower r (1 / 2) / (2 * r ^ 2))) _ t _ e He).
    + intros u Hu. pose proof (Hne u Hu). pose proof (ring_flux (1 / 4) wedge r u Hr) as E.
      replace (f_ρ (fluid_of (1 / 4) wedge) r u * f_v_θ (fluid_of (1 / 4) wedge) r u) with (Rpower r (2 * (1 / 4)) / r * (wedge u iρ * wedge u iv_θ) / r)
        by (rewrite <- E; field; lra).
      cbn. replace (2 * (1 / 4)) with (1 / 2) by field. unfold tan. field. repeat split; (assumption || lra).
    + eapply dpl_eq; [apply dpl_mult; [apply dpl_sin | apply dpl_const]|]. cbv beta. field. lra.
  - field. repeat split; (assumption || lra).
Qed.

(** ** The ratio in the statistics *)
(** [simps] is exact on constants: so is any quadrature rule. *)
Definition exact_on_constants (simps : list R -> list R -> R) : Prop :=
  forall c x l xn, simps (map (fun _ => c) (x :: l ++ [xn])) (x :: l ++ [xn]) = c * (xn - x).
(** For a solution that conserves mass exactly the true ratio is one (C92_balance), but the statistic answers more than two, whatever the rule of quadrature
    and however fine the grid. *)
Theorem C92_ratio_refuted : forall simps l, exact_on_constants simps ->
  (forall r t, 0 < r -> 0 <= t <= PI / 4 -> mass_conserved (fluid_of (1 / 4) wedge) r t) /\ wedge 0 iv_θ = 0 /\
  exists q, compute_M_dot_out_on_M_dot_in simps (1 / 4) (map (fun t => (t, wedge t)) (0 :: l ++ [PI / 4])) = Ret q /\ 2 < q.
Proof.
  intros simps l HS. pose proof PI_RGT_0 as Hpi. pose proof PI_4 as Hpi4.
  split; [|split].
  - intros r t Hr Ht. apply wedge_conserves; [exact Hr|]. apply Rgt_not_eq, cos_gt_0; lra.
  - cbn. rewrite tan_0. field.
  - unfold compute_M_dot_out_on_M_dot_in, compute_M_dot_out.
    replace (map (fun t => (t, wedge t)) (0 :: l ++ [PI / 4])) with (((0, wedge 0) :: map (fun t => (t, wedge t)) l) ++ [(PI / 4, wedge (PI / 4))])
      by (cbn [map]; rewrite map_app; reflexivity).
    rewrite rev_app_distr. cbn [rev app snd pybind]. eexists. split; [reflexivity|].
    unfold compute_M_dot_in.
    replace (map fst ((0, wedge 0) :: map (fun t => (t, wedge t)) l ++ [(PI / 4, wedge (PI / 4))])) with (0 :: l ++ [PI / 4])
      by (cbn [map fst]; rewrite map_app, map_map, map_id; reflexivity).
    replace (map (fun p => snd p iρ * snd p iv_r) ((0, wedge 0) :: map (fun t => (t, wedge t)) l ++ [(PI / 4, wedge (PI / 4))]))
      with (map (fun _ : R => - (1)) (0 :: l ++ [PI / 4])).
    2: { cbn [map snd]. rewrite !map_app, map_map. f_equal; [cbn; lra|]. f_equal; [|cbn; f_equal; lra].
         apply map_ext. intro u. cbn. lra. }
    rewrite HS. cbn [wedge state iρ iv_θ]. change (wedge (PI / 4) iρ) with 1. change (wedge (PI / 4) iv_θ) with (tan (PI / 4) / 2). rewrite tan_PI4.
    replace (2 * (1 / 4)) with (1 / 2) by field. replace (1 / 2 - 1) with (- (1 / 2)) by field.
    replace (1 / 2) with (/ 2) by field. rewrite !Rpower_Ropp, !Rpower_sqrt by lra.
    assert (S1 : sqrt 100 = 10) by (replace 100 with (10 * 10) by ring; apply sqrt_square; lra). rewrite S1.
    assert (S2 : 3 / 10 < sqrt (1 / 10)). { replace (3 / 10) with (sqrt ((3 / 10) * (3 / 10))) by (apply sqrt_square; lra). apply sqrt_lt_1; lra. }
    assert (S3 : sqrt (1 / 10) < 1). { rewrite <- sqrt_1 at 2. apply sqrt_lt_1; lra. }
    set (s := sqrt (1 / 10)) in *. clearbody s.
    assert (I1 : / s < 10 / 3) by (apply (Rmult_lt_reg_r s); [lra | rewrite Rinv_l by lra; lra]).
    assert (I2 : 1 < / s) by (apply (Rmult_lt_reg_r s); [lra | rewrite Rinv_l by lra; lra]).
    set (i := / s) in *. clearbody i.
    replace (4 * PI * ((10 - s) / / 2) * (1 * / 2) / (-4 * PI * (- (1) * (PI / 4 - 0)) * (i - / 10)))
      with ((10 - s) / (PI / 4 * (i - / 10))) by (field; repeat split; try lra; apply Rgt_not_eq; lra).
    assert (D : 0 < PI / 4 * (i - / 10)) by (apply Rmult_lt_0_compat; lra).
    apply (Rmult_lt_reg_r (PI / 4 * (i - / 10))); [exact D|].
    replace ((10 - s) / (PI / 4 * (i - / 10)) * (PI / 4 * (i - / 10))) with (10 - s) by (field; repeat split; apply Rgt_not_eq; lra).
    assert (PI / 4 * (i - / 10) <= 1 * (i - / 10)) by (apply Rmult_le_compat_r; lra). lra.
Qed.
Print Assumptions C92_ratio_refuted.
(** With γ = 1/2 the inflow is zero for every solution, so the ratio divides by zero. *)
Theorem C92_in_half_refuted : forall simps soln r_in r_out, 0 < r_in -> 0 < r_out -> compute_M_dot_in simps (1 / 2) soln r_in r_out = 0.
Proof.
  intros simps soln r_in r_out H1 H2. unfold compute_M_dot_in. replace (2 * (1 / 2) - 1) with 0 by field. rewrite !Rpower_O by assumption. ring.
Qed.

(** ** The wedge meets the hypotheses of C92_out_exact and C92_balance *)
Definition wedge_out (θ r : R) : R := 4 * PI * sin θ * Rpower r (1 / 2).
Definition wedge_sphere (r t : R) : R := - (4 * PI * Rpower r (1 / 2)) * sin t.
Example C92_nonvacuous : forall θ lo hi, 0 < lo <= hi -> 0 <= θ < PI / 2 ->
  cone_primitive (fluid_of (1 / 4) wedge) θ lo hi (wedge_out θ) /\
  sphere_primitive (fluid_of (1 / 4) wedge) lo θ (wedge_sphere lo) /\ sphere_primitive (fluid_of (1 / 4) wedge) hi θ (wedge_sphere hi) /\
  wedge 0 iv_θ = 0 /\ (forall t, 0 <= t <= θ -> mass_conserved (fluid_of (1 / 4) wedge) 1 t).
Proof.
  intros θ lo hi Hlo Hθ.
  assert (S : forall r, 0 < r -> sphere_primitive (fluid_of (1 / 4) wedge) r θ (wedge_sphere r)).
  { intros r Hr t Ht. unfold wedge_sphere. eapply dpl_eq; [apply dpl_mult; [apply dpl_const | apply dpl_sin]|].
    replace (2 * (2 * PI * r ^ 2 * cos t) * (f_ρ (fluid_of (1 / 4) wedge) r t * f_v_r (fluid_of (1 / 4) wedge) r t))
      with (4 * PI * cos t * (r ^ 2 * (f_ρ (fluid_of (1 / 4) wedge) r t * f_v_r (fluid_of (1 / 4) wedge) r t))) by ring.
    rewrite sphere_flux by exact Hr. replace (2 * (1 / 4)) with (1 / 2) by field.
    change (wedge t iρ) with 1. change (wedge t iv_r) with (- (1)). ring. }
  split; [|split; [apply S; lra | split; [apply S; lra | split]]].
  - intros r Hr. unfold wedge_out. eapply dpl_eq; [apply dpl_mult; [apply dpl_const | apply dpl_Rpower; lra]|].
    replace (2 * (2 * PI * r * cos θ) * (f_ρ (fluid_of (1 / 4) wedge) r θ * f_v_θ (fluid_of (1 / 4) wedge) r θ))
      with (4 * PI * cos θ * (f_ρ (fluid_of (1 / 4) wedge) r θ * f_v_θ (fluid_of (1 / 4) wedge) r θ * r)) by ring.
    rewrite ring_flux by lra. replace (2 * (1 / 4)) with (1 / 2) by field.
    change (wedge θ iρ) with 1. change (wedge θ iv_θ) with (tan θ / 2). unfold tan. assert (0 < cos θ) by (apply cos_gt_0; lra). field. split; lra.
  - change (tan 0 / 2 = 0). rewrite tan_0. field.
  - intros t Ht. apply wedge_conserves; [lra|]. apply Rgt_not_eq, cos_gt_0; lra.
Qed.
(** The outflow reported is not the outflow. *)
Theorem C92_out_refuted : exists γ y θ lo hi Out m, γ <> 0 /\ 0 < lo <= hi /\ 0 <= θ < PI / 2 /\ cone_primitive (fluid_of γ y) θ lo hi Out /\
  compute_M_dot_out γ [(θ, y θ)] lo hi = Ret m /\ m <> Out hi - Out lo.
Proof.
  pose proof PI_RGT_0 as Hpi.
  destruct (C92_nonvacuous (PI / 3) 1 4) as (HO & _); [lra | lra |].
  destruct (C92_out_exact (1 / 4) wedge [] (PI / 3) 1 4 _ ltac:(lra) ltac:(lra) HO) as (m & Em & E).
  exists (1 / 4), wedge, (PI / 3), 1, 4, (wedge_out (PI / 3)), m. repeat split; try lra; [exact HO | exact Em |].
  intro K. rewrite <- K in E. rewrite cos_PI3 in E. assert (m = 0) by lra.
  unfold wedge_out in K. assert (P1 : Rpower 1 (1 / 2) = 1) by (unfold Rpower; rewrite ln_1, Rmult_0_r; apply exp_0).
  assert (P4 : Rpower 4 (1 / 2) = 2).
  { replace (1 / 2) with (/ 2) by field. rewrite Rpower_sqrt by lra. replace 4 with (2 * 2) by ring. apply sqrt_square; lra. }
  rewrite P1, P4 in K. assert (0 < sin (PI / 3)) by (apply sin_gt_0; lra).
  assert (0 < PI * sin (PI / 3)) by (apply Rmult_lt_0_compat; lra). lra.
Qed.
Print Assumptions C92_out_refuted.

(** ** Σ: for one and the same profile the sum over the samples exceeds any bound as the grid is refined. *)
Fixpoint increasing (l : list R) : Prop :=
  match l with [] => True | x :: t => (match t with [] => True | y :: _ => x < y end) /\ increasing t end.
Theorem C92_Σ_refuted : forall M, exists angles, increasing angles /\ Forall (fun t => 0 <= t <= PI / 4) angles /\
  M <= compute_Σ (map (fun t => (t, wedge t)) angles).
Proof.
  intro M. assert (Hex : exists n, M < INR n).
  { destruct (archimed M) as [A _]. exists (Z.to_nat (up M)). destruct (Z_lt_le_dec (up M) 0) as [Hz|Hz].
    - apply Rlt_le_trans with (IZR (up M)); [lra|]. apply Rle_trans with 0; [apply IZR_le; lia | apply pos_INR].
    - rewrite INR_IZR_INZ, Z2Nat.id by lia. lra. }
  destruct Hex as [n Hn]. pose proof PI_RGT_0 as Hpi.
  assert (G : forall k s d, 0 < d -> exists l, increasing l /\ Forall (fun t => s <= t <= s + INR k * d) l /\
    compute_Σ (map (fun t => (t, wedge t)) l) = INR k /\ (k <> 0%nat -> exists t, l = s :: t)).
  { induction k as [|k IH]; intros s d Hd.
    - exists []. cbn. split; [exact I|]. split; [constructor|]. split; [reflexivity|]. congruence.
    - destruct (IH (s + d) d Hd) as (l & H1 & H2 & H3 & H4). exists (s :: l). rewrite S_INR. assert (0 <= INR k) by apply pos_INR.
      assert (0 <= INR k * d) by (apply Rmult_le_pos; lra).
      refine (conj _ (conj _ (conj _ _))).
      + cbn. split; [|exact H1]. destruct l as [|z l']; [exact I|]. destruct k; [|destruct H4 as [t E]; [discriminate | injection E as -> _; lra]].
        inversion H2; subst. lra.
      + apply Forall_cons; [lra|]. eapply Forall_impl; [|exact H2]. cbv beta. intros a Ha. lra.
      + unfold compute_Σ in *. cbn [map fold_right fst snd]. rewrite H3. change (wedge s iρ) with 1. ring.
      + intros _. eexists. reflexivity. }
  assert (Hn' : 0 < INR n + 1) by (pose proof (pos_INR n); lra).
  destruct (G n 0 (PI / 4 / (INR n + 1))) as (l & H1 & H2 & H3 & _).
  { apply Rdiv_lt_0_compat; lra. }
  exists l. split; [exact H1|]. split; [|lra].
  eapply Forall_impl; [|exact H2]. cbv beta. intros a Ha.
  assert (INR n * (PI / 4 / (INR n + 1)) <= PI / 4); [|lra].
  apply (Rmult_le_reg_r (INR n + 1)); [lra|]. replace (INR n * (PI / 4 / (INR n + 1)) * (INR n + 1)) with (INR n * (PI / 4)) by (field; lra).
  rewrite Rmult_plus_distr_l. rewrite (Rmult_comm (PI / 4)). lra.
Qed.
Print Assumptions C92_Σ_refuted.
