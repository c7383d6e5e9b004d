(** Proofs about diffusivities, field directions, electric fields and currents (C07-C13). *)
From Coq Require Import Reals Lra Lia Ranalysis1 List.
Import ListNotations.
From Verif Require Import Model_Index Model_Deriv Model_Midplane Model_Ode Model_Validate
  Lib_Deriv Spec_MHD Spec_Ode Spec_Fields Proofs_Ode Proofs_MHD.
Open Scope R_scope.

(** ** C07: the polar induction residual of the validation command *)
Section PolarInduction.
Variables (o : ode_args) (x : R) (p d : vec) (e : option internal_entry).
Hypothesis Hok : rhs_equation o x p = Rhs_ok d e.
Let θ := x * oa_θ_scale o.
Let γ := oa_γ o.
Let ic := mk_ic (oa_γ o) (oa_a_0 o) (oa_norm_kepler_sq o).
Let m := sqrt (p iB_r ^ 2 + p iB_φ ^ 2 + p iB_θ ^ 2).

Lemma polar_induction_exact : B_nonzero p -> diffusive p ->
  validate_polar_induction ic (get_values ic θ p d) =
  2 * (d iB_φ * p iη_H * (p iB_θ / m)
       - p iB_φ * (p iη_H * (p iB_r / m * (1 / 4 - γ) + p iB_θ / m * tan θ)
                   - p iη_A * (p iB_φ / m) * (p iB_θ / m) * (1 / 4 - γ))).
Proof.
  intros HB HD. destruct (B_mag_facts _ HB) as [Hm Hm2]. fold m in Hm, Hm2.
  unfold diffusive in HD. rewrite <- Hm2 in HD.
  assert (HD' : p iη_O + p iη_A * (1 - p iB_φ / m) * (1 + p iB_φ / m) <> 0).
  { intros Hc. apply HD. rewrite <- Hc. field. assumption. }
  assert (HBr : d iB_r = deriv_B_r_func θ γ (p iB_r) (p iB_θ) (p iB_φ) (p iv_r) (p iv_θ) (d iB_φ)
    (p iη_O) (p iη_A) (p iη_H) (p iB_r / m) (p iB_φ / m) (p iB_θ / m)).
  { rewrite (rhs_ok_derivs _ _ _ _ _ Hok). apply rhs_B_r. }
  unfold validate_polar_induction, get_values, J_func, E_func.
  cbn -[Rmult Rplus Rminus Rdiv sqrt pow deriv_B_r_func iB_r iB_φ iB_θ iv_r iv_φ iv_θ iη_O iη_A iη_H].
  fold m. rewrite HBr. unfold deriv_B_r_func. fold γ.
  set (b_r := p iB_r / m) in *. set (b_φ := p iB_φ / m) in *. set (b_θ := p iB_θ / m) in *.
  clearbody b_r b_φ b_θ. field. exact HD'.
Qed.
End PolarInduction.

(** ** C08: diffusivities track B²/ρ *)
Lemma const_from_left : forall (f : R -> R) lo hi k, lo < hi -> continuity_pt f lo ->
  (forall x, lo < x < hi -> f x = k) -> f lo = k.
Proof.
  intros f lo hi k Hl Hc Hk.
  destruct (Req_dec (f lo) k) as [|Hne]; [assumption|]. exfalso.
  assert (He : 0 < Rabs (k - f lo)) by (apply Rabs_pos_lt; lra).
  destruct (Hc _ He) as (δ & Hδ & H).
  set (h := Rmin (δ / 2) ((hi - lo) / 2)).
  assert (Hh : 0 < h) by (apply Rmin_pos; lra).
  assert (h <= δ / 2) by apply Rmin_l. assert (h <= (hi - lo) / 2) by apply Rmin_r.
  specialize (H (lo + h)).
  assert (Hd : D_x no_cond lo (lo + h) /\ dist R_met (lo + h) lo < δ).
  { split.
    - unfold D_x, no_cond. split; [exact I | lra].
    - simpl. unfold R_dist. replace (lo + h - lo) with h by ring. rewrite Rabs_pos_eq; lra. }
  specialize (H Hd). simpl in H. unfold R_dist in H. rewrite (Hk (lo + h)) in H by lra. lra.
Qed.

Section Eta.
Variables (o : ode_args) (y : R -> vec) (lo hi : R).
Hypothesis Hsol : solves_on o y lo hi.
Hypothesis Hη : oa_η_derivs o = true.
Hypothesis Hρ : forall x, lo < x < hi -> y x iρ <> 0.
Ltac solve_lt := unfold ODE_LEN, iB_r, iB_φ, iB_θ, iv_r, iv_φ, iv_θ, iρ, iη_O, iη_A, iη_H, iE_r, iB_φ_prime; lia.

Lemma eta_deriv_zero : forall X, In X DIFFUSIVE_INDEXES -> forall x, lo < x < hi ->
  derivable_pt_lim (fun t => y t X - oa_init_con o X * B_sq_over_ρ (y t)) x 0.
Proof.
  intros X HX x Hx. destruct (Hsol x Hx) as (d & e & Hok & Hd).
  pose proof (rhs_ok_derivs _ _ _ _ _ Hok) as Ed.
  pose proof (Hρ x Hx) as Hr.
  pose proof (Hd iB_r ltac:(solve_lt)) as D1. pose proof (Hd iB_φ ltac:(solve_lt)) as D2.
  pose proof (Hd iB_θ ltac:(solve_lt)) as D3. pose proof (Hd iρ ltac:(solve_lt)) as D4.
  assert (HXlt : (X < ODE_LEN)%nat) by (simpl in HX; destruct HX as [<- | [<- | [<- | []]]]; solve_lt).
  pose proof (Hd X HXlt) as D5.
  assert (E5 : d X = deriv_η_skw_func (y x iρ) (y x iB_r) (y x iB_φ) (y x iB_θ)
      (d iρ) (d iB_r) (d iB_φ) (d iB_θ) * oa_init_con o X).
  { destruct (rhs_η o (x * oa_θ_scale o) (y x)) as (E1 & E2 & E3). rewrite <- Ed, Hη in E1, E2, E3.
    simpl in HX; destruct HX as [<- | [<- | [<- | []]]]; assumption. }
  unfold B_sq_over_ρ. eapply dpl_eq; [dlim; assumption|].
  rewrite E5. unfold deriv_η_skw_func, Rsqr. simpl. field. assumption.
Qed.

Lemma eta_const : forall X, In X DIFFUSIVE_INDEXES ->
  forall a b, lo < a < hi -> lo < b < hi ->
  y a X - oa_init_con o X * B_sq_over_ρ (y a) = y b X - oa_init_con o X * B_sq_over_ρ (y b).
Proof.
  intros X HX. apply (zero_deriv_const (fun t => y t X - oa_init_con o X * B_sq_over_ρ (y t)) lo hi).
  intros x Hx. apply eta_deriv_zero; assumption.
Qed.

Lemma eta_from_start : lo < hi ->
  (forall i, (i < ODE_LEN)%nat -> continuity_pt (fun t => y t i) lo) -> y lo iρ <> 0 ->
  forall X, In X DIFFUSIVE_INDEXES ->
  y lo X = oa_init_con o X * B_sq_over_ρ (y lo) ->
  forall x, lo < x < hi -> y x X = oa_init_con o X * B_sq_over_ρ (y x).
Proof.
  intros Hlh Hcont Hr0 X HX H0 x Hx.
  assert (HXlt : (X < ODE_LEN)%nat) by (simpl in HX; destruct HX as [<- | [<- | [<- | []]]]; solve_lt).
  set (f := fun t => y t X - oa_init_con o X * B_sq_over_ρ (y t)).
  assert (Hc : continuity_pt f lo).
  { pose proof (Hcont iB_r ltac:(solve_lt)) as C1. pose proof (Hcont iB_φ ltac:(solve_lt)) as C2.
    pose proof (Hcont iB_θ ltac:(solve_lt)) as C3. pose proof (Hcont iρ ltac:(solve_lt)) as C4.
    unfold f, B_sq_over_ρ.
    apply (continuity_pt_minus (fun t => y t X)); [apply Hcont; exact HXlt|].
    apply (continuity_pt_scal (fun t => (y t iB_r ^ 2 + y t iB_φ ^ 2 + y t iB_θ ^ 2) / y t iρ)).
    apply (continuity_pt_div (fun t => y t iB_r ^ 2 + y t iB_φ ^ 2 + y t iB_θ ^ 2) (fun t => y t iρ));
      [|exact C4|exact Hr0].
    assert (Hsq : forall i, continuity_pt (fun t => y t i) lo -> continuity_pt (fun t => y t i ^ 2) lo).
    { intros i Ci. apply (continuity_pt_comp (fun t => y t i) (fun z => z ^ 2)); [exact Ci|].
      apply derivable_continuous_pt. apply derivable_pt_pow. }
    apply (continuity_pt_plus (fun t => y t iB_r ^ 2 + y t iB_φ ^ 2) (fun t => y t iB_θ ^ 2)); [|auto].
    apply (continuity_pt_plus (fun t => y t iB_r ^ 2) (fun t => y t iB_φ ^ 2)); auto. }
  assert (Hk : forall z, lo < z < hi -> f z = f x).
  { intros z Hz. unfold f. apply eta_const; assumption. }
  pose proof (const_from_left f lo hi (f x) Hlh Hc Hk) as H1. unfold f in H1. lra.
Qed.
End Eta.

Lemma eta_const_no_derivs : forall o y lo hi, solves_on o y lo hi -> oa_η_derivs o = false ->
  forall X, In X DIFFUSIVE_INDEXES ->
  forall a b, lo < a < hi -> lo < b < hi -> y a X = y b X.
Proof.
  intros o y lo hi Hsol Hη X HX.
  apply (zero_deriv_const (fun t => y t X) lo hi). intros x Hx.
  destruct (Hsol x Hx) as (d & e & Hok & Hd). pose proof (rhs_ok_derivs _ _ _ _ _ Hok) as Ed.
  destruct (rhs_η o (x * oa_θ_scale o) (y x)) as (E1 & E2 & E3). rewrite <- Ed, Hη in E1, E2, E3.
  simpl in HX; destruct HX as [<- | [<- | [<- | []]]]; [rewrite <- E1 | rewrite <- E2 | rewrite <- E3];
    apply Hd; unfold ODE_LEN, iη_O, iη_A, iη_H; lia.
Qed.

(** ** C09: unit vector derivatives and A = C' *)
Section Unit.
Variables (B_r B_φ B_θ : R -> R) (x d_r d_φ d_θ : R).
Hypothesis H_r : derivable_pt_lim B_r x d_r.
Hypothesis H_φ : derivable_pt_lim B_φ x d_φ.
Hypothesis H_θ : derivable_pt_lim B_θ x d_θ.
Hypothesis Hpos : 0 < B_r x ^ 2 + B_φ x ^ 2 + B_θ x ^ 2.
Let m := fun t => sqrt (B_r t ^ 2 + B_φ t ^ 2 + B_θ t ^ 2).

Lemma mag_pos : 0 < sqrt (B_r x ^ 2 + B_φ x ^ 2 + B_θ x ^ 2).
Proof. apply sqrt_lt_R0; assumption. Qed.

Lemma unit_deriv : forall f f', derivable_pt_lim f x f' ->
  derivable_pt_lim (fun t => f t / sqrt (B_r t ^ 2 + B_φ t ^ 2 + B_θ t ^ 2)) x
    (B_unit_deriv_1 (B_r x) (B_φ x) (B_θ x) d_r d_φ d_θ
       (f x / sqrt (B_r x ^ 2 + B_φ x ^ 2 + B_θ x ^ 2)) f').
Proof.
  intros f f' Hf. pose proof mag_pos as Hm.
  eapply dpl_eq; [dlim; [lra | assumption]|].
  unfold B_unit_deriv_1, Rsqr. set (s := sqrt _) in *. simpl. field. lra.
Qed.

Lemma unit_derivs_correct :
  let '(u_r, u_φ, u_θ) := B_unit_derivs (B_r x) (B_φ x) (B_θ x) d_r d_φ d_θ
     (B_r x / m x) (B_φ x / m x) (B_θ x / m x) in
  derivable_pt_lim (fun t => B_r t / m t) x u_r /\
  derivable_pt_lim (fun t => B_φ t / m t) x u_φ /\
  derivable_pt_lim (fun t => B_θ t / m t) x u_θ /\
  u_r * (B_r x / m x) + u_φ * (B_φ x / m x) + u_θ * (B_θ x / m x) = 0.
Proof.
  unfold B_unit_derivs. cbv zeta. unfold m.
  repeat split; try (apply unit_deriv; assumption).
  pose proof mag_pos as Hm. unfold B_unit_deriv_1.
  assert (Hs : sqrt (B_r x ^ 2 + B_φ x ^ 2 + B_θ x ^ 2) ^ 2 = B_r x ^ 2 + B_φ x ^ 2 + B_θ x ^ 2)
    by (rewrite pow2_sqrt by lra; reflexivity).
  set (s := sqrt _) in *.
  field_simplify_eq; [|lra].
  transitivity ((B_r x * d_r + B_φ x * d_φ + B_θ x * d_θ) * (s ^ 2 - (B_r x ^ 2 + B_φ x ^ 2 + B_θ x ^ 2))).
  - ring.
  - rewrite Hs. ring.
Qed.
End Unit.

Lemma A_is_C_deriv : forall (η_O η_A η_H b_θ b_r b_φ : R -> R) x dO dA dH dθ dr dφ,
  derivable_pt_lim η_O x dO -> derivable_pt_lim η_A x dA -> derivable_pt_lim η_H x dH ->
  derivable_pt_lim b_θ x dθ -> derivable_pt_lim b_r x dr -> derivable_pt_lim b_φ x dφ ->
  η_O x + η_A x * (1 - b_φ x ^ 2) <> 0 ->
  derivable_pt_lim (fun t => C_func (η_O t) (η_A t) (η_H t) (b_θ t) (b_r t) (b_φ t)) x
    (A_func (η_O x) (η_A x) (η_H x) (b_θ x) (b_r x) (b_φ x) dO dA dH dθ dr dφ).
Proof.
  intros. unfold C_func. eapply dpl_eq; [dlim; assumption|].
  unfold A_func, Rsqr. simpl in *. field. intros Hc; apply H5; rewrite <- Hc; ring.
Qed.

(** ** C10: E_r recomputed from the derivatives *)
Lemma E_r_expand : forall θ γ B_r B_θ B_φ v_r v_φ v_θ dB η_O η_A η_H b_r b_φ b_θ,
  let dBr := deriv_B_r_func θ γ B_r B_θ B_φ v_r v_θ dB η_O η_A η_H b_r b_φ b_θ in
  let C := C_func η_O η_A η_H b_θ b_r b_φ in
  E_r_func v_θ v_φ B_θ B_φ (J_r_func θ B_φ dB) (J_θ_func γ B_φ) (J_φ_func γ B_θ dBr)
    η_O η_A η_H b_r b_θ b_φ =
  - (η_O + η_A * (1 - b_r ^ 2) + C * (η_H * b_θ + η_A * b_r * b_φ)) * dB
  + C * (v_θ * B_r - v_r * B_θ + B_φ * M_of γ θ η_A η_H b_r b_φ b_θ)
  + B_φ * N_of γ θ η_O η_A η_H b_r b_φ b_θ + v_θ * B_φ - v_φ * B_θ.
Proof.
  intros. unfold dBr, C, E_r_func, J_r_func, J_θ_func, J_φ_func, deriv_B_r_func, C_func, M_of, N_of, Rdiv.
  replace (η_O + η_A * (1 - b_φ) * (1 + b_φ)) with (η_O + η_A * (1 - b_φ ^ 2)) by ring.
  set (i := / (η_O + η_A * (1 - b_φ ^ 2))). clearbody i. ring.
Qed.

Section Er.
Variables (o : ode_args) (x : R) (p d : vec) (e : option internal_entry).
Hypothesis Hok : rhs_equation o x p = Rhs_ok d e.
Let θ := x * oa_θ_scale o.
Let γ := oa_γ o.
Let ic := mk_ic (oa_γ o) (oa_a_0 o) (oa_norm_kepler_sq o).
Let m := sqrt (p iB_r ^ 2 + p iB_φ ^ 2 + p iB_θ ^ 2).
Let b_r := p iB_r / m.
Let b_φ := p iB_φ / m.
Let b_θ := p iB_θ / m.
Let C := C_func (p iη_O) (p iη_A) (p iη_H) b_θ b_r b_φ.
Let Z_5 := Z_5_func (p iη_O) (p iη_A) (p iη_H) b_r b_θ b_φ C.

Lemma E_r_defect : oa_use_E_r o = true -> Z_5 <> 0 ->
  fst (fst (va_E (get_values ic θ p d))) - p iE_r =
  2 * C * (p iB_φ * M_of γ θ (p iη_A) (p iη_H) b_r b_φ b_θ - p iη_A * b_r * b_φ * d iB_φ).
Proof.
  intros HE HZ.
  pose proof (rhs_ok_derivs _ _ _ _ _ Hok) as Ed.
  assert (Hr : d iB_r = deriv_B_r_func θ γ (p iB_r) (p iB_θ) (p iB_φ) (p iv_r) (p iv_θ) (d iB_φ)
    (p iη_O) (p iη_A) (p iη_H) b_r b_φ b_θ) by (rewrite Ed; apply rhs_B_r).
  assert (Hp : d iB_φ = deriv_B_φ_func θ γ (p iB_r) (p iB_θ) (p iB_φ) (p iv_r) (p iv_φ) (p iv_θ)
      (p iη_O) (p iη_A) (p iη_H) (p iE_r) b_r b_φ b_θ C Z_5)
    by (rewrite Ed; rewrite rhs_B_φ; rewrite HE; reflexivity).
  transitivity (E_r_func (p iv_θ) (p iv_φ) (p iB_θ) (p iB_φ) (J_r_func θ (p iB_φ) (d iB_φ))
     (J_θ_func γ (p iB_φ)) (J_φ_func γ (p iB_θ) (d iB_r)) (p iη_O) (p iη_A) (p iη_H) b_r b_θ b_φ - p iE_r).
  { reflexivity. }
  rewrite Hr, E_r_expand. fold C.
  assert (Hz : Z_5 * d iB_φ = C * (p iv_θ * p iB_r - p iv_r * p iB_θ) - p iE_r - p iv_φ * p iB_θ
     + p iB_φ * (p iv_θ + N_of γ θ (p iη_O) (p iη_A) (p iη_H) b_r b_φ b_θ
                 - C * M_of γ θ (p iη_A) (p iη_H) b_r b_φ b_θ)).
  { rewrite Hp. unfold deriv_B_φ_func, N_of, M_of. field. assumption. }
  unfold Z_5, Z_5_func in Hz. lra.
Qed.
End Er.

(** ** C11: the induction law in the B_φ' formulation *)
Section Induction.
Variables (o : ode_args) (y : R -> vec) (θ : R).
Hypothesis Hscale : oa_θ_scale o = 1.
Hypothesis HE : oa_use_E_r o = false.
Hypothesis Hsol : solves_at o y θ.
Let γ := oa_γ o.
Notation E_r_along := (E_r_along o y). Notation E_θ_along := (E_θ_along o y).
Notation N_along := (N_along o y). Notation Z_along := (Z_along y).
Ltac solve_lt := unfold ODE_LEN, iB_r, iB_φ, iB_θ, iv_r, iv_φ, iv_θ, iρ, iη_O, iη_A, iη_H, iE_r, iB_φ_prime; lia.

Lemma E_r_along_expand : forall t, E_r_along t =
  - Z_along t * y t iB_φ_prime
  + C_func (y t iη_O) (y t iη_A) (y t iη_H) (y t iB_θ / B_mag_of (y t)) (y t iB_r / B_mag_of (y t))
      (y t iB_φ / B_mag_of (y t))
    * (y t iv_θ * y t iB_r - y t iv_r * y t iB_θ + y t iB_φ *
        (y t iη_A * (y t iB_φ / B_mag_of (y t)) * (y t iB_r / B_mag_of (y t) * tan t - y t iB_θ / B_mag_of (y t) * (1 / 4 - γ))
         + y t iη_H * (y t iB_r / B_mag_of (y t) * (1 / 4 - γ) + y t iB_θ / B_mag_of (y t) * tan t)))
  + y t iB_φ * N_along t + y t iv_θ * y t iB_φ - y t iv_φ * y t iB_θ.
Proof.
  intros t. unfold Spec_Fields.E_r_along.
  transitivity (E_r_func (y t iv_θ) (y t iv_φ) (y t iB_θ) (y t iB_φ)
     (J_r_func t (y t iB_φ) (fst (rhs_derivs o t (y t)) iB_φ))
     (J_θ_func γ (y t iB_φ)) (J_φ_func γ (y t iB_θ) (fst (rhs_derivs o t (y t)) iB_r))
     (y t iη_O) (y t iη_A) (y t iη_H) (y t iB_r / B_mag_of (y t)) (y t iB_θ / B_mag_of (y t))
     (y t iB_φ / B_mag_of (y t))); [reflexivity|].
  rewrite rhs_B_r. unfold B_mag_of. rewrite E_r_expand. rewrite rhs_B_φ, HE. reflexivity.
Qed.

Lemma induction_defect : cos θ <> 0 -> B_nonzero (y θ) -> diffusive (y θ) -> Z_along θ <> 0 ->
  derivable_pt_lim (fun t => E_r_along t - 2 * (y t iB_φ * N_along t)) θ ((γ - 3 / 4) * E_θ_along θ).
Proof.
  intros Hcos HB HD HZ.
  set (p := y θ). set (d := fst (rhs_derivs o θ p)).
  assert (Hd : forall i, (i < ODE_LEN)%nat -> derivable_pt_lim (fun t => y t i) θ (d i))
    by (intros i Hi; apply sol_d; assumption).
  pose proof (Hd iB_r ltac:(solve_lt)) as D0. pose proof (Hd iB_φ ltac:(solve_lt)) as D1.
  pose proof (Hd iB_θ ltac:(solve_lt)) as D2. pose proof (Hd iv_r ltac:(solve_lt)) as D3.
  pose proof (Hd iv_φ ltac:(solve_lt)) as D4. pose proof (Hd iv_θ ltac:(solve_lt)) as D5.
  pose proof (Hd iB_φ_prime ltac:(solve_lt)) as D7. pose proof (Hd iη_O ltac:(solve_lt)) as D8.
  pose proof (Hd iη_A ltac:(solve_lt)) as D9. pose proof (Hd iη_H ltac:(solve_lt)) as D10.
  pose proof (unit_derivs_correct (fun t => y t iB_r) (fun t => y t iB_φ) (fun t => y t iB_θ) θ _ _ _
    D0 D1 D2 HB) as HU.
  assert (E7 : d iB_φ_prime = d iB_φ_prime) by reflexivity.
  unfold d in E7 at 2. rewrite rhs_B_φ_prime in E7 by assumption. fold d in E7.
  cbv beta zeta in HU. fold p in HU.
  destruct (B_unit_derivs (p iB_r) (p iB_φ) (p iB_θ) (d iB_r) (d iB_φ) (d iB_θ) _ _ _) as [[u_r u_φ] u_θ].
  destruct HU as (U1 & U2 & U3 & _).
  pose proof (B_mag_facts _ HB) as [Hm Hm2]. 
  assert (HDC : p iη_O + p iη_A * (1 - (p iB_φ / B_mag_of p) ^ 2) <> 0).
  { unfold diffusive in HD. fold p in HD, Hm, Hm2. rewrite <- Hm2 in HD. fold (B_mag_of p) in HD, Hm.
    intros Hc; apply HD. rewrite <- Hc. field. assumption. }
  pose proof (A_is_C_deriv (fun t => y t iη_O) (fun t => y t iη_A) (fun t => y t iη_H) _ _ _ θ _ _ _ _ _ _
    D8 D9 D10 U3 U1 U2 HDC) as DC. cbv beta in DC. fold p in DC.
  set (br := fun t => y t iB_r / sqrt (y t iB_r ^ 2 + y t iB_φ ^ 2 + y t iB_θ ^ 2)) in *.
  set (bp := fun t => y t iB_φ / sqrt (y t iB_r ^ 2 + y t iB_φ ^ 2 + y t iB_θ ^ 2)) in *.
  set (bt := fun t => y t iB_θ / sqrt (y t iB_r ^ 2 + y t iB_φ ^ 2 + y t iB_θ ^ 2)) in *.
  set (C := fun t => C_func (y t iη_O) (y t iη_A) (y t iη_H) (bt t) (br t) (bp t)) in *.
  assert (HC : derivable_pt_lim C θ (A_func (p iη_O) (p iη_A) (p iη_H) (bt θ) (br θ) (bp θ)
     (d iη_O) (d iη_A) (d iη_H) u_θ u_r u_φ)) by exact DC.
  set (A := A_func _ _ _ _ _ _ _ _ _ _ _ _) in HC.
  apply dpl_ext with (f := fun t =>
     - (y t iη_O + y t iη_A * (1 - br t ^ 2) + C t * (y t iη_H * bt t + y t iη_A * br t * bp t)) * y t iB_φ_prime
     + C t * (y t iv_θ * y t iB_r - y t iv_r * y t iB_θ + y t iB_φ *
        (y t iη_A * bp t * (br t * tan t - bt t * (1 / 4 - γ))
         + y t iη_H * (br t * (1 / 4 - γ) + bt t * tan t)))
     - y t iB_φ * (tan t * (y t iη_O + y t iη_A * (1 - br t ^ 2))
                   + (1 / 4 - γ) * (y t iη_H * bp t + y t iη_A * br t * bt t))
     + y t iv_θ * y t iB_φ - y t iv_φ * y t iB_θ).
  { intros t. rewrite E_r_along_expand. unfold Spec_Fields.Z_along, Spec_Fields.N_along, N_of. fold γ. fold (br t) (bp t) (bt t).
    unfold B_mag_of. fold (br t) (bp t) (bt t). unfold C, C_func. ring. }
  assert (Hprime : d iB_φ = p iB_φ_prime) by (unfold d; rewrite rhs_B_φ, HE; reflexivity).
  assert (Et : E_θ_along θ = E_θ_func (p iv_r) (p iv_φ) (p iB_r) (p iB_φ) (J_r_func θ (p iB_φ) (d iB_φ))
     (J_θ_func γ (p iB_φ)) (J_φ_func γ (p iB_θ) (d iB_r)) (p iη_O) (p iη_A) (p iη_H) (br θ) (bt θ) (bp θ))
    by reflexivity.
  rewrite Et. clear Et.
  assert (HZ' : p iη_O + p iη_A * (1 - br θ ^ 2) + C θ * (p iη_H * bt θ + p iη_A * br θ * bp θ) <> 0) by exact HZ.
  fold (br θ) (bp θ) (bt θ) in E7. fold p in E7.
  change (p iB_r / sqrt (p iB_r ^ 2 + p iB_φ ^ 2 + p iB_θ ^ 2)) with (br θ) in E7.
  change (p iB_φ / sqrt (p iB_r ^ 2 + p iB_φ ^ 2 + p iB_θ ^ 2)) with (bp θ) in E7.
  change (p iB_θ / sqrt (p iB_r ^ 2 + p iB_φ ^ 2 + p iB_θ ^ 2)) with (bt θ) in E7.
  fold A in E7. change (C_func (p iη_O) (p iη_A) (p iη_H) (bt θ) (br θ) (bp θ)) with (C θ) in E7.
  assert (E7' : (p iη_O + p iη_A * (1 - br θ ^ 2) + C θ * (p iη_H * bt θ + p iη_A * br θ * bp θ)) * d iB_φ_prime
     = (p iη_O + p iη_A * (1 - br θ ^ 2) + C θ * (p iη_H * bt θ + p iη_A * br θ * bp θ)) * d iB_φ_prime)
    by reflexivity.
  rewrite E7 in E7' at 2. unfold dderiv_B_φ_soln in E7'.
  match type of E7' with _ = ?Z * (?n / ?Z) => replace (Z * (n / Z)) with n in E7' by (field; exact HZ') end.
  fold γ in E7'.
  clearbody A. clear DC HZ HZ' HDC E7.
  assert (V1 : derivable_pt_lim br θ u_r) by exact U1.
  assert (V2 : derivable_pt_lim bp θ u_φ) by exact U2.
  assert (V3 : derivable_pt_lim bt θ u_θ) by exact U3.
  clear U1 U2 U3. clearbody C. clearbody br bp bt.
  eapply dpl_eq; [dlim; assumption|].
  cbv beta. fold p. simpl INR. simpl pred.
  unfold sec in E7'. 
  replace ((1 / cos θ) ^ 2) with (1 + tan θ ^ 2) in E7'.
  2:{ unfold tan. pose proof (sin2_cos2 θ) as Hsc. unfold Rsqr in Hsc. field_simplify_eq; [|assumption]. lra. }
  unfold E_θ_func, J_r_func, J_θ_func, J_φ_func.
  rewrite Hprime in *. 
  match type of E7' with ?l = ?r =>
    match goal with |- _ = ?t => transitivity (t + (r - l)); [ring | rewrite E7'; ring] end end.
Qed.
End Induction.

(** ** C12: dissipation *)
Lemma ohm_parallel : forall J_r J_θ J_φ η_O η_A η_H b_r b_θ b_φ, b_r ^ 2 + b_φ ^ 2 + b_θ ^ 2 = 1 ->
  E_r_func 0 0 0 0 J_r J_θ J_φ η_O η_A η_H b_r b_θ b_φ * b_r
  + E_θ_func 0 0 0 0 J_r J_θ J_φ η_O η_A η_H b_r b_θ b_φ * b_θ
  + E_φ_func 0 0 0 0 J_r J_θ J_φ η_O η_A η_H b_r b_θ b_φ * b_φ
  = η_O * (J_r * b_r + J_θ * b_θ + J_φ * b_φ).
Proof.
  intros. unfold E_r_func, E_θ_func, E_φ_func.
  replace (1 - b_r ^ 2) with (b_φ ^ 2 + b_θ ^ 2) by lra.
  replace (1 - b_θ ^ 2) with (b_φ ^ 2 + b_r ^ 2) by lra.
  replace (1 - b_φ ^ 2) with (b_θ ^ 2 + b_r ^ 2) by lra. ring.
Qed.
Lemma ohm_work : forall J_r J_θ J_φ η_O η_A η_H b_r b_θ b_φ, b_r ^ 2 + b_φ ^ 2 + b_θ ^ 2 = 1 ->
  E_r_func 0 0 0 0 J_r J_θ J_φ η_O η_A η_H b_r b_θ b_φ * J_r
  + E_θ_func 0 0 0 0 J_r J_θ J_φ η_O η_A η_H b_r b_θ b_φ * J_θ
  + E_φ_func 0 0 0 0 J_r J_θ J_φ η_O η_A η_H b_r b_θ b_φ * J_φ
  = η_O * (J_r ^ 2 + J_θ ^ 2 + J_φ ^ 2)
    + η_A * ((J_φ * b_θ - J_θ * b_φ) ^ 2 + (J_r * b_φ - J_φ * b_r) ^ 2 + (J_θ * b_r - J_r * b_θ) ^ 2).
Proof.
  intros. unfold E_r_func, E_θ_func, E_φ_func.
  replace (1 - b_r ^ 2) with (b_φ ^ 2 + b_θ ^ 2) by lra.
  replace (1 - b_θ ^ 2) with (b_φ ^ 2 + b_r ^ 2) by lra.
  replace (1 - b_φ ^ 2) with (b_θ ^ 2 + b_r ^ 2) by lra. ring.
Qed.

Lemma values_dash : forall ic θ p d, B_nonzero p ->
  let v := get_values ic θ p d in
  let '(J_r, J_θ, J_φ) := va_J v in
  let '(E_r, E_θ, E_φ) := va_E_dash v in
  let '(b_r, b_θ, b_φ) := (va_norm_B_r v, va_norm_B_θ v, va_norm_B_φ v) in
  b_r ^ 2 + b_φ ^ 2 + b_θ ^ 2 = 1 /\
  E_r = E_r_func 0 0 0 0 J_r J_θ J_φ (p iη_O) (p iη_A) (p iη_H) b_r b_θ b_φ /\
  E_θ = E_θ_func 0 0 0 0 J_r J_θ J_φ (p iη_O) (p iη_A) (p iη_H) b_r b_θ b_φ /\
  E_φ = E_φ_func 0 0 0 0 J_r J_θ J_φ (p iη_O) (p iη_A) (p iη_H) b_r b_θ b_φ.
Proof.
  intros ic θ p d HB. destruct (B_mag_facts p HB) as [Hm Hm2].
  unfold get_values, J_func, E_func.
  cbn -[Rmult Rplus Rminus Rdiv sqrt pow iB_r iB_φ iB_θ iv_r iv_φ iv_θ iη_O iη_A iη_H E_r_func E_θ_func E_φ_func].
  set (m := sqrt _) in *. repeat split.
  - apply Rmult_eq_reg_r with (m ^ 2); [|apply pow_nonzero; assumption].
    field_simplify; [|assumption]. lra.
  - unfold E_r_func. ring.
  - unfold E_θ_func. ring.
  - unfold E_φ_func. ring.
Qed.

Lemma dissipation : forall ic θ p d, B_nonzero p ->
  let v := get_values ic θ p d in
  let '(J_r, J_θ, J_φ) := va_J v in
  let '(E_r, E_θ, E_φ) := va_E_dash v in
  let '(b_r, b_θ, b_φ) := (va_norm_B_r v, va_norm_B_θ v, va_norm_B_φ v) in
  dot E_r E_φ E_θ b_r b_φ b_θ = p iη_O * dot J_r J_φ J_θ b_r b_φ b_θ /\
  dot E_r E_φ E_θ J_r J_φ J_θ = p iη_O * dot J_r J_φ J_θ J_r J_φ J_θ
    + p iη_A * (cross_r J_r J_φ J_θ b_r b_φ b_θ ^ 2 + cross_φ J_r J_φ J_θ b_r b_φ b_θ ^ 2
                + cross_θ J_r J_φ J_θ b_r b_φ b_θ ^ 2) /\
  (0 <= p iη_O -> 0 <= p iη_A -> 0 <= dot E_r E_φ E_θ J_r J_φ J_θ).
Proof.
  intros ic θ p d HB. pose proof (values_dash ic θ p d HB) as H. cbv zeta in *.
  destruct (va_J (get_values ic θ p d)) as [[J_r J_θ] J_φ].
  destruct (va_E_dash (get_values ic θ p d)) as [[E_r E_θ] E_φ].
  set (b_r := va_norm_B_r (get_values ic θ p d)) in *.
  set (b_θ := va_norm_B_θ (get_values ic θ p d)) in *.
  set (b_φ := va_norm_B_φ (get_values ic θ p d)) in *.
  clearbody b_r b_θ b_φ.
  destruct H as (Hu & E1 & E2 & E3).
  pose proof (ohm_parallel J_r J_θ J_φ (p iη_O) (p iη_A) (p iη_H) b_r b_θ b_φ Hu) as P.
  pose proof (ohm_work J_r J_θ J_φ (p iη_O) (p iη_A) (p iη_H) b_r b_θ b_φ Hu) as W.
  rewrite <- E1, <- E2, <- E3 in P, W.
  assert (W' : dot E_r E_φ E_θ J_r J_φ J_θ = p iη_O * dot J_r J_φ J_θ J_r J_φ J_θ
    + p iη_A * (cross_r J_r J_φ J_θ b_r b_φ b_θ ^ 2 + cross_φ J_r J_φ J_θ b_r b_φ b_θ ^ 2
                + cross_θ J_r J_φ J_θ b_r b_φ b_θ ^ 2)).
  { unfold dot, cross_r, cross_φ, cross_θ. transitivity (E_r * J_r + E_θ * J_θ + E_φ * J_φ); [ring|].
    rewrite W. ring. }
  split; [|split].
  - unfold dot. transitivity (E_r * b_r + E_θ * b_θ + E_φ * b_φ); [ring|]. rewrite P. ring.
  - exact W'.
  - intros HO HA. rewrite W'. unfold dot.
    apply Rplus_le_le_0_compat; apply Rmult_le_pos; try assumption.
    + pose proof (Rle_0_sqr J_r). pose proof (Rle_0_sqr J_θ). pose proof (Rle_0_sqr J_φ). unfold Rsqr in *. lra.
    + pose proof (pow2_ge_0 (cross_r J_r J_φ J_θ b_r b_φ b_θ)).
      pose proof (pow2_ge_0 (cross_φ J_r J_φ J_θ b_r b_φ b_θ)).
      pose proof (pow2_ge_0 (cross_θ J_r J_φ J_θ b_r b_φ b_θ)). lra.
Qed.

(** ** C13: the current is divergence free *)
Lemma div_J : forall γ (B_φ dB_φ : R -> R) r θ, 0 < r -> cos θ <> 0 ->
  derivable_pt_lim B_φ θ (dB_φ θ) ->
  divergence_is (self_similar (γ - 9 / 4) (fun t => J_r_func t (B_φ t) (dB_φ t)))
                (self_similar (γ - 9 / 4) (fun t => J_θ_func γ (B_φ t))) r θ 0.
Proof.
  intros γ B_φ dB_φ r θ Hr Hc HB. unfold divergence_is.
  assert (HJ : derivable_pt_lim (fun t => J_θ_func γ (B_φ t)) θ (- dB_φ θ * (1 / 4 - γ))).
  { unfold J_θ_func. dlim_to. ring. }
  eexists. eexists. split; [|split].
  - apply ss_pd_r_r2 with (f := fun t => J_r_func t (B_φ t) (dB_φ t)); assumption.
  - apply ss_pd_θ_cos with (f := fun t => J_θ_func γ (B_φ t)); eassumption.
  - unfold J_r_func, J_θ_func. rewrite sin_tan by assumption. field. repeat split; try assumption; lra.
Qed.

(** ** Concrete evaluation of the right-hand side *)
Lemma rhs_accept : forall o x p, oa_θ_scale o = 1 -> 0 <= p iρ -> 0 <= p iv_θ ->
  exists e, rhs_equation o x p = Rhs_ok (fst (rhs_derivs o x p)) e.
Proof.
  intros o x p Hs H1 H2. unfold rhs_equation, scaled_to_rad_num. rewrite Hs, Rmult_1_r.
  destruct (rhs_derivs o x p) as [d e]. simpl.
  destruct (Rlt_dec (p iρ) 0); [lra|]. destruct (Rlt_dec (p iv_θ) 0); [lra|].
  destruct (oa_derivs_post_solution o); simpl; eexists; reflexivity.
Qed.
Lemma rhs_accept_scaled : forall o x p, 0 <= p iρ -> 0 <= p iv_θ ->
  exists e, rhs_equation o x p = Rhs_ok (fst (rhs_derivs o (x * oa_θ_scale o) p)) e.
Proof.
  intros o x p H1 H2. unfold rhs_equation, scaled_to_rad_num.
  destruct (rhs_derivs o (x * oa_θ_scale o) p) as [d e]. simpl.
  destruct (Rlt_dec (p iρ) 0); [lra|]. destruct (Rlt_dec (p iv_θ) 0); [lra|].
  destruct (oa_derivs_post_solution o); simpl; eexists; reflexivity.
Qed.
