(** C64: v_θ' at the sonic point. *)
From Coq Require Import Reals Lra Lia List.
From Verif Require Import Lib_Deriv Model_Index Model_Deriv Model_Ode Model_SonicPoint Spec_MHD Spec_Ode Proofs_Ode Proofs_Fields.
Open Scope R_scope.
Ltac nrm := replace (INR 2) with 2 by (simpl; ring); change (Init.Nat.pred 2) with 1%nat.
Ltac sidec H := let Z := fresh in intro Z; apply H; rewrite <- Z; ring.

(** Each quantity's derivative is taken to depend on x = v_θ' as up + x down. *)
Section Curves.
Variables (θ x γ : R) (B_r B_φ B_θ v_r v_φ v_θ ρ η_O η_A η_H b_r b_φ b_θ E_r : R -> R).
Variables (B_r' B_φ' B_θ' v_r' v_φ' η_Ou η_Od η_Au η_Ad η_Hu η_Hd b_r' b_φ' b_θ' E_r' : R).
Hypotheses (DB_r : derivable_pt_lim B_r θ B_r') (DB_φ : derivable_pt_lim B_φ θ B_φ') (DB_θ : derivable_pt_lim B_θ θ B_θ')
  (Dv_r : derivable_pt_lim v_r θ v_r') (Dv_φ : derivable_pt_lim v_φ θ v_φ') (Dv_θ : derivable_pt_lim v_θ θ x)
  (Dη_O : derivable_pt_lim η_O θ (η_Ou + x * η_Od)) (Dη_A : derivable_pt_lim η_A θ (η_Au + x * η_Ad)) (Dη_H : derivable_pt_lim η_H θ (η_Hu + x * η_Hd))
  (Db_r : derivable_pt_lim b_r θ b_r') (Db_φ : derivable_pt_lim b_φ θ b_φ') (Db_θ : derivable_pt_lim b_θ θ b_θ')
  (DE_r : derivable_pt_lim E_r θ E_r').
Hypotheses (Hcos : cos θ <> 0) (HD : η_O θ + η_A θ * (1 - b_φ θ ^ 2) <> 0).

Lemma HD' : η_O θ + η_A θ * (1 - b_φ θ) * (1 + b_φ θ) <> 0.
Proof. replace (η_O θ + η_A θ * (1 - b_φ θ) * (1 + b_φ θ)) with (η_O θ + η_A θ * (1 - b_φ θ ^ 2)) by ring. exact HD. Qed.

Let Cf := fun t => C_func (η_O t) (η_A t) (η_H t) (b_θ t) (b_r t) (b_φ t).
Let Au := A_up_func (η_O θ) (η_A θ) (η_H θ) (b_θ θ) (b_r θ) (b_φ θ) η_Ou η_Au η_Hu b_θ' b_r' b_φ'.
Let Ad := A_down_func (η_O θ) (η_A θ) (η_H θ) (b_θ θ) (b_r θ) (b_φ θ) η_Od η_Ad η_Hd b_φ'.
Let D := η_O θ + η_A θ * (1 - b_φ θ ^ 2).

(** C64: the derivative of C, and how far A_up + x A_down is from it. *)
Theorem C64_A_exact : derivable_pt_lim Cf θ (Au + x * Ad - x * (2 * η_A θ * b_φ θ * b_φ' * Cf θ / D)).
Proof.
  unfold Cf, C_func. eapply dpl_eq; [dlim; try assumption|]. unfold Au, Ad, A_up_func, A_down_func, D, Rsqr, C_func. nrm. field. sidec HD.
Qed.

(** C64: the same for Z_5, when C' is A_up + x A_down. *)
Theorem C64_Z_5_exact : derivable_pt_lim Cf θ (Au + x * Ad) ->
  derivable_pt_lim (fun t => Z_5_func (η_O t) (η_A t) (η_H t) (b_r t) (b_θ t) (b_φ t) (Cf t)) θ
    (Z_5_up_func (η_H θ) (η_A θ) (b_r θ) (b_φ θ) (b_θ θ) Au (Cf θ) η_Ou η_Au η_Hu b_θ' b_r' b_φ'
     + x * Z_5_down_func (η_H θ) (η_A θ) (b_r θ) (b_φ θ) (b_θ θ) Ad (Cf θ) η_Od η_Ad η_Hd - η_A θ * b_r θ * b_r').
Proof.
  intro HC. unfold Z_5_func. eapply dpl_eq; [dlim; try assumption; exact HC|]. unfold Z_5_up_func, Z_5_down_func. nrm. ring.
Qed.

(** C64: B_r''. *)
Theorem C64_B_r : forall B_φ_prime u d, B_φ_prime θ = B_φ' -> derivable_pt_lim B_φ_prime θ (u + x * d) ->
  derivable_pt_lim (fun t => deriv_B_r_func t γ (B_r t) (B_θ t) (B_φ t) (v_r t) (v_θ t) (B_φ_prime t) (η_O t) (η_A t) (η_H t) (b_r t) (b_φ t) (b_θ t)) θ
    (dderiv_B_r_up_func (η_O θ) (η_A θ) (η_H θ) (b_θ θ) (b_r θ) (b_φ θ) η_Ou η_Au η_Hu b_θ' b_r' b_φ' (B_r θ) (B_φ θ) (B_θ θ) θ (v_r θ) (v_θ θ)
       v_r' B_r' B_θ' B_φ' γ u
     + x * dderiv_B_r_down_func (η_O θ) (η_A θ) (η_H θ) (b_θ θ) (b_r θ) (b_φ θ) η_Od η_Ad η_Hd (B_r θ) (B_φ θ) (B_θ θ) θ (v_r θ) (v_θ θ) B_φ' γ d).
Proof.
  intros B_φ_prime u d E0 D2. pose proof HD' as H2. unfold deriv_B_r_func. eapply dpl_eq; [dlim; try assumption|].
  rewrite E0. unfold dderiv_B_r_up_func, dderiv_B_r_down_func, Rsqr.
  set (T := tan θ). nrm. field. sidec HD.
Qed.

(** C64: B_φ'', given C' and Z_5'; the last term is missing from the code. *)
Theorem C64_B_φ_exact : forall C Z_5 Cu Cd Z_5u Z_5d, derivable_pt_lim C θ (Cu + x * Cd) -> derivable_pt_lim Z_5 θ (Z_5u + x * Z_5d) -> Z_5 θ <> 0 ->
  derivable_pt_lim (fun t => deriv_B_φ_func t γ (B_r t) (B_θ t) (B_φ t) (v_r t) (v_φ t) (v_θ t) (η_O t) (η_A t) (η_H t) (E_r t) (b_r t) (b_φ t) (b_θ t) (C t) (Z_5 t)) θ
    (dderiv_B_φ_up_func (η_O θ) (η_A θ) (η_H θ) (b_θ θ) (b_r θ) (b_φ θ) η_Ou η_Au η_Hu b_θ' b_r' b_φ' (B_r θ) (B_φ θ) (B_θ θ) θ (v_r θ) (v_φ θ) (v_θ θ)
       v_r' v_φ' B_r' B_θ' B_φ' γ (E_r θ) (C θ) Cu E_r' (Z_5 θ) Z_5u
     + x * dderiv_B_φ_down_func (η_O θ) (η_A θ) (η_H θ) (b_θ θ) (b_r θ) (b_φ θ) η_Od η_Ad η_Hd (B_r θ) (B_φ θ) (B_θ θ) θ (v_r θ) (v_φ θ) (v_θ θ) γ (E_r θ) (C θ)
         Cd (Z_5 θ) Z_5d
     + x * (C θ * B_r θ / Z_5 θ)).
Proof.
  intros C Z_5 Cu Cd Z_5u Z_5d DC DZ HZ. unfold deriv_B_φ_func. eapply dpl_eq; [dlim; try assumption|].
  unfold dderiv_B_φ_up_func, dderiv_B_φ_down_func, Rsqr. set (T := tan θ). nrm. field. exact HZ.
Qed.

(** C64: the bracket in the equation for v_θ'. *)
Theorem C64_S : forall a_0 ρu ρd B_r1 B_φ1 ru rd φu φd, ρ θ <> 0 -> derivable_pt_lim ρ θ (ρu + x * ρd) ->
  B_r1 θ = B_r' -> B_φ1 θ = B_φ' -> derivable_pt_lim B_r1 θ (ru + x * rd) -> derivable_pt_lim B_φ1 θ (φu + x * φd) ->
  derivable_pt_lim (fun t => tan t * (v_φ t ^ 2 + 1) + a_0 / ρ t * ((1 / 4 - γ) * B_θ t * B_r t + B_r t * B_r1 t + B_φ t * B_φ1 t - B_φ t ^ 2 * tan t)) θ
    (S_1_dash_up_func a_0 (ρ θ) (B_r θ) (B_φ θ) (B_θ θ) θ (v_φ θ) v_φ' B_r' B_θ' B_φ' γ ru φu ρu
     + x * S_1_dash_down_func a_0 (ρ θ) (B_r θ) (B_φ θ) (B_θ θ) θ B_r' B_φ' γ rd φd ρd).
Proof.
  intros a_0 ρu ρd B_r1 B_φ1 ru rd φu φd Hρ Dρ E1 E2 D1 D2. eapply dpl_eq; [dlim; try assumption|].
  rewrite E1, E2. unfold S_1_dash_up_func, S_1_dash_down_func, Rsqr. set (T := tan θ). nrm. field. exact Hρ.
Qed.
End Curves.

(** C64: density and diffusivities. *)
Theorem C64_ρ : forall θ γ v_r v_θ ρ x, v_θ <> 0 ->
  deriv_ρ_normal_expr θ γ v_r v_θ ρ x = deriv_ρ_up_func ρ v_r v_θ γ θ + x * deriv_ρ_down_func ρ v_θ.
Proof. intros. unfold deriv_ρ_normal_expr, deriv_ρ_up_func, deriv_ρ_down_func. field. assumption. Qed.
Theorem C64_η : forall ρ B_r B_φ B_θ u d B_r' B_φ' B_θ' x, ρ <> 0 ->
  deriv_η_skw_func ρ B_r B_φ B_θ (u + x * d) B_r' B_φ' B_θ' =
  deriv_η_up_func ρ B_r B_φ B_θ u B_r' B_φ' B_θ' + x * deriv_η_down_func ρ B_r B_φ B_θ d.
Proof. intros. unfold deriv_η_skw_func, deriv_η_up_func, deriv_η_down_func. field. assumption. Qed.

(** C64: if the equation for v_θ' holds near a sonic point and v_θ is twice differentiable there, v_θ' is a root of the quadratic. *)
Theorem C64_quadratic : forall θ γ (v_r v_θ S w : R -> R) v_r' w' Su Sd e, 0 < e ->
  (forall t, Rabs (t - θ) < e -> (1 - v_θ t ^ 2) * w t = v_r t / 2 * (v_θ t ^ 2 - 4 * γ) + v_θ t * S t) ->
  derivable_pt_lim v_θ θ (w θ) -> derivable_pt_lim w θ w' -> derivable_pt_lim v_r θ v_r' -> derivable_pt_lim S θ (Su + w θ * Sd) -> v_θ θ = 1 ->
  let x := w θ in
  2 * v_θ θ * x ^ 2 + (v_r θ * v_θ θ + S_1_func (v_r θ) (v_θ θ) γ + v_θ θ * Sd) * x + (v_r' / 2 * (v_θ θ ^ 2 - 4 * γ) + v_θ θ * Su) = 0.
Proof.
  intros θ γ v_r v_θ S w v_r' w' Su Sd e He Heq Dv Dw Dr DS Hv x.
  assert (H1 : derivable_pt_lim (fun t => (1 - v_θ t ^ 2) * w t - (v_r t / 2 * (v_θ t ^ 2 - 4 * γ) + v_θ t * S t)) θ
    (- (2 * v_θ θ * x) * w θ + (1 - v_θ θ ^ 2) * w' - (v_r' / 2 * (v_θ θ ^ 2 - 4 * γ) + v_r θ / 2 * (2 * v_θ θ * x) + (x * S θ + v_θ θ * (Su + x * Sd))))).
  { unfold x. eapply dpl_eq; [dlim; lra|]. unfold Rsqr. nrm. field. }
  assert (H0 : derivable_pt_lim (fun t => (1 - v_θ t ^ 2) * w t - (v_r t / 2 * (v_θ t ^ 2 - 4 * γ) + v_θ t * S t)) θ 0).
  { apply (dpl_ext_loc (fun _ => 0) _ θ 0 e He); [|apply dpl_const]. intros t Ht. rewrite (Heq t Ht). ring. }
  pose proof (uniqueness_limite _ _ _ _ H0 H1) as U.
  pose proof (Heq θ ltac:(replace (θ - θ) with 0 by ring; rewrite Rabs_R0; exact He)) as Hθ.
  unfold S_1_func. unfold x in *. clear x. rewrite Hv in *. assert (ES : S θ = - v_r θ / (2 * 1) * (1 ^ 2 - 4 * γ)) by lra.
  rewrite ES in U. lra.
Qed.

(** C64: the choice between the roots. *)
Theorem C64_choice : forall x1 x2 x, choose_root (x1, x2) = Some x <-> (x = x1 /\ 0 < x1 /\ x2 <= 0) \/ (x = x2 /\ 0 < x2 /\ x1 <= 0).
Proof.
  intros x1 x2 x. unfold choose_root. split.
  - destruct (Rlt_dec 0 x1), (Rlt_dec 0 x2); intro H; try discriminate; injection H as <-; [left | right]; repeat split; lra.
  - intros [(-> & H1 & H2) | (-> & H1 & H2)]; destruct (Rlt_dec 0 x1), (Rlt_dec 0 x2); try reflexivity; lra.
Qed.

(** The equation for v_θ' without the division by 1 - v_θ², as the ODE system has it. *)
Definition v_θ_equation (o : ode_args) (y : R -> vec) (w : R -> R) (t : R) : Prop :=
  let d := fst (rhs_derivs o t (y t)) in
  (1 - y t iv_θ ^ 2) * w t = y t iv_r / 2 * (y t iv_θ ^ 2 - 4 * oa_γ o) + y t iv_θ *
    (tan t * (y t iv_φ ^ 2 + 1) + oa_a_0 o / y t iρ *
      ((1 / 4 - oa_γ o) * y t iB_θ * y t iB_r + y t iB_r * d iB_r + y t iB_φ * d iB_φ - y t iB_φ ^ 2 * tan t)).

(** C64: along a solution that passes smoothly through the sonic point, without ambipolar diffusion and without either
    Hall diffusion or radial field at that point, v_θ' is a root of the quadratic whose coefficients the code computes. *)
Theorem C64_no_ambipolar : forall o y w w' θ e, oa_use_E_r o = true -> oa_with_taylor o = false -> oa_deriv_v_θ_func o = Some w ->
  let p := y θ in let d := fst (rhs_derivs o θ p) in let m := sqrt (p iB_r ^ 2 + p iB_φ ^ 2 + p iB_θ ^ 2) in
  (forall i, (i < ODE_LEN)%nat -> derivable_pt_lim (fun t => y t i) θ (d i)) -> 0 < e ->
  (forall t, Rabs (t - θ) < e -> v_θ_equation o y w t) -> derivable_pt_lim w θ w' ->
  p iv_θ = 1 -> cos θ <> 0 -> p iρ <> 0 -> B_nonzero p -> p iη_O <> 0 ->
  p iη_A = 0 -> oa_init_con o iη_A = 0 -> p iη_H = 0 \/ p iB_r = 0 ->
  let '(a, b, c) := sonic_coefficients (oa_a_0 o) (p iρ) (p iB_r) (p iB_φ) (p iB_θ) (p iη_O) (p iη_H) (p iη_A) θ (p iv_r) (p iv_φ) (p iv_θ)
     (d iv_r) (d iv_φ) (d iB_r) (d iB_θ) (d iB_φ) (oa_γ o) (oa_init_con o iη_O) (oa_init_con o iη_A) (oa_init_con o iη_H)
     (p iB_r / m) (p iB_θ / m) (p iB_φ / m) (Some (p iE_r)) (oa_η_derivs o) in
  a * w θ ^ 2 + b * w θ + c = 0.
Proof.
  intros o y w w' θ e HE HT HW p d m Hd He Heq Dw Hv Hc Hρ HB HO HA HA0 HH.
  assert (Dat : forall i, (i < 11)%nat -> derivable_pt_lim (fun t => y t i) θ (d i)) by exact Hd.
  assert (Ex : d iv_θ = w θ) by (apply rhs_v_θ_func; exact HW).
  pose proof (rhs_ρ o θ p HT) as Eρ. fold d in Eρ. rewrite Ex, C64_ρ in Eρ by (rewrite Hv; lra).
  pose proof (rhs_η o θ p) as (EO & EA & EH). fold d in EO, EA, EH. rewrite Eρ in EO, EA, EH. rewrite C64_η in EO, EA, EH by exact Hρ.
  unfold sonic_coefficients. cbv zeta.
  set (x := w θ) in *.
  set (ρu := deriv_ρ_up_func (p iρ) (p iv_r) (p iv_θ) (oa_γ o) θ) in *. set (ρd := deriv_ρ_down_func (p iρ) (p iv_θ)) in *.
  set (su := deriv_η_up_func _ _ _ _ _ _ _ _) in *. set (sd := deriv_η_down_func _ _ _ _ _) in *.
  set (Ou := if oa_η_derivs o then su * oa_init_con o iη_O else 0) in *. set (Od := if oa_η_derivs o then sd * oa_init_con o iη_O else 0) in *.
  set (Au0 := if oa_η_derivs o then su * oa_init_con o iη_A else 0) in *. set (Ad0 := if oa_η_derivs o then sd * oa_init_con o iη_A else 0) in *.
  set (Hu := if oa_η_derivs o then su * oa_init_con o iη_H else 0) in *. set (Hd0 := if oa_η_derivs o then sd * oa_init_con o iη_H else 0) in *.
  assert (EO' : d iη_O = Ou + x * Od) by (rewrite EO; unfold Ou, Od; destruct (oa_η_derivs o); ring).
  assert (EA' : d iη_A = Au0 + x * Ad0) by (rewrite EA; unfold Au0, Ad0; destruct (oa_η_derivs o); ring).
  assert (EH' : d iη_H = Hu + x * Hd0) by (rewrite EH; unfold Hu, Hd0; destruct (oa_η_derivs o); ring).
  pose proof (unit_derivs_correct (fun t => y t iB_r) (fun t => y t iB_φ) (fun t => y t iB_θ) θ (d iB_r) (d iB_φ) (d iB_θ)
     (Dat iB_r ltac:(unfold iB_r; lia)) (Dat iB_φ ltac:(unfold iB_φ; lia)) (Dat iB_θ ltac:(unfold iB_θ; lia)) HB) as HU.
  cbv beta zeta in HU. fold p m in HU.
  destruct (B_unit_derivs _ _ _ _ _ _ _ _ _) as ((br' & bφ') & bθ'). destruct HU as (Dbr & Dbφ & Dbθ & _).
  pose proof (rhs_E_r o θ p HE) as EE. fold d m in EE.
  set (E_r' := deriv_E_r_func _ _ _ _ _ _ _ _ _ _ _ _ _ _) in *.
  set (mf := fun t => sqrt (y t iB_r ^ 2 + y t iB_φ ^ 2 + y t iB_θ ^ 2)) in *.
  change (derivable_pt_lim (fun t => y t iB_r / mf t) θ br') in Dbr.
  change (derivable_pt_lim (fun t => y t iB_φ / mf t) θ bφ') in Dbφ.
  change (derivable_pt_lim (fun t => y t iB_θ / mf t) θ bθ') in Dbθ.
  assert (DO : derivable_pt_lim (fun t => y t iη_O) θ (Ou + x * Od)) by (rewrite <- EO'; apply Dat; unfold iη_O; lia).
  assert (DA : derivable_pt_lim (fun t => y t iη_A) θ (Au0 + x * Ad0)) by (rewrite <- EA'; apply Dat; unfold iη_A; lia).
  assert (DH : derivable_pt_lim (fun t => y t iη_H) θ (Hu + x * Hd0)) by (rewrite <- EH'; apply Dat; unfold iη_H; lia).
  assert (Dv : derivable_pt_lim (fun t => y t iv_θ) θ x) by (rewrite <- Ex; apply Dat; unfold iv_θ; lia).
  assert (DE : derivable_pt_lim (fun t => y t iE_r) θ E_r') by (rewrite <- EE; apply Dat; unfold iE_r; lia).
  assert (DDen : y θ iη_O + y θ iη_A * (1 - (y θ iB_φ / mf θ) ^ 2) <> 0) by (fold p; rewrite HA; intro Z; apply HO; lra).
  pose proof (C64_A_exact θ x (fun t => y t iη_O) (fun t => y t iη_A) (fun t => y t iη_H) (fun t => y t iB_r / mf t) (fun t => y t iB_φ / mf t) (fun t => y t iB_θ / mf t)
    Ou Od Au0 Ad0 Hu Hd0 br' bφ' bθ' DO DA DH Dbr Dbφ Dbθ DDen) as DC.
  pose proof (C64_Z_5_exact θ x (fun t => y t iη_O) (fun t => y t iη_A) (fun t => y t iη_H) (fun t => y t iB_r / mf t) (fun t => y t iB_φ / mf t) (fun t => y t iB_θ / mf t)
    Ou Od Au0 Ad0 Hu Hd0 br' bφ' bθ' DO DA DH Dbr Dbφ Dbθ) as DZ.
  cbv beta zeta in DC, DZ. change (y θ) with p in DC, DZ. change (mf θ) with m in DC, DZ.
  set (Au := A_up_func _ _ _ _ _ _ _ _ _ _ _ _) in *. set (Ad := A_down_func _ _ _ _ _ _ _ _ _ _) in *.
  assert (DC1 : derivable_pt_lim (fun t => C_func (y t iη_O) (y t iη_A) (y t iη_H) (y t iB_θ / mf t) (y t iB_r / mf t) (y t iB_φ / mf t)) θ (Au + x * Ad)).
  { eapply dpl_eq; [exact DC|]. rewrite HA. unfold Rdiv. ring. }
  specialize (DZ DC1). rewrite HA in DZ. rewrite <- HA in DZ.
  set (C := C_func (p iη_O) (p iη_A) (p iη_H) (p iB_θ / m) (p iB_r / m) (p iB_φ / m)) in *.
  set (Zu := Z_5_up_func _ _ _ _ _ _ _ _ _ _ _ _ _) in *. set (Zd := Z_5_down_func _ _ _ _ _ _ _ _ _ _) in *.
  set (Cf := fun t => C_func (y t iη_O) (y t iη_A) (y t iη_H) (y t iB_θ / mf t) (y t iB_r / mf t) (y t iB_φ / mf t)) in *.
  set (Zf := fun t => Z_5_func (y t iη_O) (y t iη_A) (y t iη_H) (y t iB_r / mf t) (y t iB_θ / mf t) (y t iB_φ / mf t) (Cf t)).
  assert (DZ1 : derivable_pt_lim Zf θ (Zu + x * Zd)).
  { eapply dpl_eq; [exact DZ|]. rewrite HA. ring. }
  assert (HZ : Zf θ <> 0).
  { set (u := p iη_H * (p iB_θ / mf θ)).
    assert (EZ : Zf θ = (p iη_O ^ 2 + u ^ 2) / p iη_O).
    { unfold Zf, Cf, Z_5_func, C_func, u. change (y θ) with p. rewrite HA. rewrite !Rmult_0_l, !Rplus_0_r, !Rminus_0_r.
      set (q := p iη_H * (p iB_θ / mf θ)). field. exact HO. }
    rewrite EZ. intro Z. apply (f_equal (fun z => z * p iη_O)) in Z. unfold Rdiv in Z. rewrite Rmult_assoc, Rinv_l, Rmult_0_l, Rmult_1_r in Z by exact HO.
    pose proof (pow2_ge_0 u). assert (0 < p iη_O ^ 2) by (rewrite <- Rsqr_pow2; apply Rsqr_pos_lt; exact HO). lra. }
  pose proof (C64_B_φ_exact θ x (oa_γ o) (fun t => y t iB_r) (fun t => y t iB_φ) (fun t => y t iB_θ) (fun t => y t iv_r) (fun t => y t iv_φ) (fun t => y t iv_θ)
    (fun t => y t iη_O) (fun t => y t iη_A) (fun t => y t iη_H) (fun t => y t iB_r / mf t) (fun t => y t iB_φ / mf t) (fun t => y t iB_θ / mf t) (fun t => y t iE_r)
    (d iB_r) (d iB_φ) (d iB_θ) (d iv_r) (d iv_φ) Ou Od Au0 Ad0 Hu Hd0 br' bφ' bθ' E_r'
    (Dat iB_r ltac:(unfold iB_r; lia)) (Dat iB_φ ltac:(unfold iB_φ; lia)) (Dat iB_θ ltac:(unfold iB_θ; lia)) (Dat iv_r ltac:(unfold iv_r; lia))
    (Dat iv_φ ltac:(unfold iv_φ; lia)) Dv DO DA DH Dbr Dbφ Dbθ DE Hc Cf Zf Au Ad Zu Zd DC1 DZ1 HZ) as DP.
  cbv beta zeta in DP. change (y θ) with p in DP. change (mf θ) with m in DP. change (Cf θ) with C in DP.
  change (Zf θ) with (Z_5_func (p iη_O) (p iη_A) (p iη_H) (p iB_r / m) (p iB_θ / m) (p iB_φ / m) C) in DP.
  set (Z := Z_5_func _ _ _ _ _ _ C) in *.
  set (φu := dderiv_B_φ_up_func _ _ _ _ _ _ _ _ _ _ _ _ _ _ _ _ _ _ _ _ _ _ _ _ _ _ _ _ _ _ _) in *.
  set (φd := dderiv_B_φ_down_func _ _ _ _ _ _ _ _ _ _ _ _ _ _ _ _ _ _ _ _ _ _) in *.
  set (P := fun t => fst (rhs_derivs o t (y t)) iB_φ).
  assert (DP1 : derivable_pt_lim P θ (φu + x * φd)).
  { apply (dpl_ext (fun t => deriv_B_φ_func t (oa_γ o) (y t iB_r) (y t iB_θ) (y t iB_φ) (y t iv_r) (y t iv_φ) (y t iv_θ) (y t iη_O) (y t iη_A) (y t iη_H) (y t iE_r)
        (y t iB_r / mf t) (y t iB_φ / mf t) (y t iB_θ / mf t) (Cf t) (Zf t))).
    - intro t. unfold P. rewrite rhs_B_φ, HE. reflexivity.
    - eapply dpl_eq; [exact DP|]. unfold C, C_func. rewrite HA. destruct HH as [-> | ->]; unfold Rdiv; ring. }
  pose proof (C64_B_r θ x (oa_γ o) (fun t => y t iB_r) (fun t => y t iB_φ) (fun t => y t iB_θ) (fun t => y t iv_r) (fun t => y t iv_θ)
    (fun t => y t iη_O) (fun t => y t iη_A) (fun t => y t iη_H) (fun t => y t iB_r / mf t) (fun t => y t iB_φ / mf t) (fun t => y t iB_θ / mf t)
    (d iB_r) (d iB_φ) (d iB_θ) (d iv_r) Ou Od Au0 Ad0 Hu Hd0 br' bφ' bθ'
    (Dat iB_r ltac:(unfold iB_r; lia)) (Dat iB_φ ltac:(unfold iB_φ; lia)) (Dat iB_θ ltac:(unfold iB_θ; lia)) (Dat iv_r ltac:(unfold iv_r; lia))
    Dv DO DA DH Dbr Dbφ Dbθ Hc DDen P φu φd eq_refl DP1) as DR.
  cbv beta zeta in DR. change (y θ) with p in DR. change (mf θ) with m in DR.
  set (ru := dderiv_B_r_up_func _ _ _ _ _ _ _ _ _ _ _ _ _ _ _ _ _ _ _ _ _ _ _ _) in *.
  set (rd := dderiv_B_r_down_func _ _ _ _ _ _ _ _ _ _ _ _ _ _ _ _ _ _) in *.
  set (Q := fun t => fst (rhs_derivs o t (y t)) iB_r).
  assert (DR1 : derivable_pt_lim Q θ (ru + x * rd)).
  { eapply dpl_ext; [|exact DR]. intro t. unfold Q. rewrite rhs_B_r. reflexivity. }
  assert (Dρ : derivable_pt_lim (fun t => y t iρ) θ (ρu + x * ρd)) by (rewrite <- Eρ; apply Dat; unfold iρ; lia).
  pose proof (C64_S θ x (oa_γ o) (fun t => y t iB_r) (fun t => y t iB_φ) (fun t => y t iB_θ) (fun t => y t iv_φ) (fun t => y t iρ)
    (d iB_r) (d iB_φ) (d iB_θ) (d iv_φ) (Dat iB_r ltac:(unfold iB_r; lia)) (Dat iB_φ ltac:(unfold iB_φ; lia)) (Dat iB_θ ltac:(unfold iB_θ; lia))
    (Dat iv_φ ltac:(unfold iv_φ; lia)) Hc (oa_a_0 o) ρu ρd Q P ru rd φu φd Hρ Dρ eq_refl eq_refl DR1 DP1) as DS.
  cbv beta zeta in DS. change (y θ) with p in DS.
  exact (C64_quadratic θ (oa_γ o) (fun t => y t iv_r) (fun t => y t iv_θ) _ w (d iv_r) w' _ _ e He Heq Dv Dw (Dat iv_r ltac:(unfold iv_r; lia)) DS Hv).
Qed.


(** C64 refuted: with unit field directions that turn, the derivative of C is not A_up + x A_down. *)
Theorem C64_A_refuted : forall θ x, 0 < θ < PI / 2 -> x <> 0 -> exists b_r b_φ b_θ b_r' b_φ' b_θ',
  (forall t, b_r t ^ 2 + b_φ t ^ 2 + b_θ t ^ 2 = 1) /\ derivable_pt_lim b_r θ b_r' /\ derivable_pt_lim b_φ θ b_φ' /\ derivable_pt_lim b_θ θ b_θ' /\
  ~ derivable_pt_lim (fun t => C_func 1 1 1 (b_θ t) (b_r t) (b_φ t)) θ
    (A_up_func 1 1 1 (b_θ θ) (b_r θ) (b_φ θ) 0 0 0 b_θ' b_r' b_φ' + x * A_down_func 1 1 1 (b_θ θ) (b_r θ) (b_φ θ) 0 0 0 b_φ').
Proof.
  intros θ x Hθ Hx. exists (fun _ => 0), sin, cos, 0, (cos θ), (- sin θ).
  assert (Hs : 0 < sin θ) by (apply sin_gt_0; lra). assert (Hc : 0 < cos θ) by (apply cos_gt_0; lra).
  assert (E : sin θ * sin θ + cos θ * cos θ = 1) by (pose proof (sin2_cos2 θ) as E; unfold Rsqr in E; exact E).
  assert (D : 1 + 1 * (1 - sin θ ^ 2) <> 0) by nra.
  assert (K : forall l, derivable_pt_lim (fun _ : R => l) θ (0 + x * 0)) by (intro l; eapply dpl_eq; [apply dpl_const | ring]).
  refine (conj _ (conj _ (conj _ (conj _ _)))).
  - intro t. pose proof (sin2_cos2 t) as Et. unfold Rsqr in Et. lra.
  - apply dpl_const.
  - apply derivable_pt_lim_sin.
  - apply derivable_pt_lim_cos.
  - intro H. pose proof (C64_A_exact θ x (fun _ => 1) (fun _ => 1) (fun _ => 1) (fun _ => 0) sin cos 0 0 0 0 0 0 0 (cos θ) (- sin θ)
      (K 1) (K 1) (K 1) (dpl_const 0 θ) (derivable_pt_lim_sin θ) (derivable_pt_lim_cos θ) D) as G.
    pose proof (uniqueness_limite _ _ _ _ H G) as U. unfold C_func in U.
    assert (Z : x * (2 * 1 * sin θ * cos θ * ((1 * cos θ - 1 * 0 * sin θ) / (1 + 1 * (1 - sin θ ^ 2))) / (1 + 1 * (1 - sin θ ^ 2))) = 0) by lra.
    revert Z. apply Rmult_integral_contrapositive_currified; [exact Hx|].
    unfold Rdiv. repeat apply Rmult_integral_contrapositive_currified; try apply Rinv_neq_0_compat; try exact D; lra.
Qed.

(** C64 refuted: nor is the derivative of Z_5 what the code has, even when that of C is. *)
Theorem C64_Z_5_refuted : forall θ x, 0 < θ < PI / 2 -> exists b_r b_φ b_θ b_r' b_φ' b_θ',
  (forall t, b_r t ^ 2 + b_φ t ^ 2 + b_θ t ^ 2 = 1) /\ derivable_pt_lim b_r θ b_r' /\ derivable_pt_lim b_φ θ b_φ' /\ derivable_pt_lim b_θ θ b_θ' /\
  let C := fun t => C_func 1 1 1 (b_θ t) (b_r t) (b_φ t) in
  let Au := A_up_func 1 1 1 (b_θ θ) (b_r θ) (b_φ θ) 0 0 0 b_θ' b_r' b_φ' in let Ad := A_down_func 1 1 1 (b_θ θ) (b_r θ) (b_φ θ) 0 0 0 b_φ' in
  derivable_pt_lim C θ (Au + x * Ad) /\
  ~ derivable_pt_lim (fun t => Z_5_func 1 1 1 (b_r t) (b_θ t) (b_φ t) (C t)) θ
    (Z_5_up_func 1 1 (b_r θ) (b_φ θ) (b_θ θ) Au (C θ) 0 0 0 b_θ' b_r' b_φ' + x * Z_5_down_func 1 1 (b_r θ) (b_φ θ) (b_θ θ) Ad (C θ) 0 0 0).
Proof.
  intros θ x Hθ. exists sin, (fun _ => 0), cos, (cos θ), 0, (- sin θ).
  assert (Hs : 0 < sin θ) by (apply sin_gt_0; lra). assert (Hc : 0 < cos θ) by (apply cos_gt_0; lra).
  assert (D : 1 + 1 * (1 - 0 ^ 2) <> 0) by lra.
  assert (K : forall l, derivable_pt_lim (fun _ : R => l) θ (0 + x * 0)) by (intro l; eapply dpl_eq; [apply dpl_const | ring]).
  cbv zeta.
  assert (G1 : derivable_pt_lim (fun t => C_func 1 1 1 (cos t) (sin t) 0) θ
    (A_up_func 1 1 1 (cos θ) (sin θ) 0 0 0 0 (- sin θ) (cos θ) 0 + x * A_down_func 1 1 1 (cos θ) (sin θ) 0 0 0 0 0)).
  { pose proof (C64_A_exact θ x (fun _ => 1) (fun _ => 1) (fun _ => 1) sin (fun _ => 0) cos 0 0 0 0 0 0 (cos θ) 0 (- sin θ)
      (K 1) (K 1) (K 1) (derivable_pt_lim_sin θ) (dpl_const 0 θ) (derivable_pt_lim_cos θ) D) as G.
    eapply dpl_eq; [exact G|]. unfold Rdiv. ring. }
  refine (conj _ (conj _ (conj _ (conj _ (conj G1 _))))).
  - intro t. pose proof (sin2_cos2 t) as Et. unfold Rsqr in Et. lra.
  - apply derivable_pt_lim_sin.
  - apply dpl_const.
  - apply derivable_pt_lim_cos.
  - intro H. pose proof (C64_Z_5_exact θ x (fun _ => 1) (fun _ => 1) (fun _ => 1) sin (fun _ => 0) cos 0 0 0 0 0 0 (cos θ) 0 (- sin θ)
      (K 1) (K 1) (K 1) (derivable_pt_lim_sin θ) (dpl_const 0 θ) (derivable_pt_lim_cos θ) G1) as G.
    pose proof (uniqueness_limite _ _ _ _ H G) as U. assert (Z : 1 * sin θ * cos θ = 0) by lra. nra.
Qed.

(** C64 refuted: B_φ'' lacks a term, here with Hall diffusion only and everything but v_θ constant. *)
Theorem C64_B_φ_refuted : forall θ x, cos θ <> 0 -> x <> 0 -> 
  let C := C_func 1 0 1 1 0 0 in let Z_5 := Z_5_func 1 0 1 0 1 0 C in
  ~ derivable_pt_lim (fun t => deriv_B_φ_func t 0 1 0 0 0 0 (x * (t - θ)) 1 0 1 0 0 0 1 C Z_5) θ
    (dderiv_B_φ_up_func 1 0 1 1 0 0 0 0 0 0 0 0 1 0 0 θ 0 0 0 0 0 0 0 0 0 0 C 0 0 Z_5 0
     + x * dderiv_B_φ_down_func 1 0 1 1 0 0 0 0 0 1 0 0 θ 0 0 0 0 0 C 0 Z_5 0).
Proof.
  intros θ x Hc Hx C Z_5 H.
  assert (D : derivable_pt_lim (fun t => deriv_B_φ_func t 0 1 0 0 0 0 (x * (t - θ)) 1 0 1 0 0 0 1 C Z_5) θ (x * C / Z_5)).
  { apply (dpl_ext (fun t => x * C / Z_5 * (t - θ))).
    - intro t. unfold deriv_B_φ_func, Z_5, Z_5_func, C, C_func. field.
    - eapply dpl_eq; [dlim|]. ring. }
  pose proof (uniqueness_limite _ _ _ _ D H) as U. revert U.
  unfold dderiv_B_φ_up_func, dderiv_B_φ_down_func, Z_5, Z_5_func, C, C_func. intro U. apply Hx. field_simplify in U. lra.
Qed.

(** Non-vacuity of C64_no_ambipolar: an Ohmic flow that crosses the sonic point at 45 degrees with v_θ' = 1, with magnetic force. *)
Definition ex_p : vec := state 1 0 (-1) (-4 / 3) 0 1 1 0 1 0 0.
Definition ex_o : ode_args := mk_ode_args 0 1 (325 / 54) ex_p 1 false false false true (Some (fun _ => 1)) false.
Definition ex_v_r (t : R) : R :=
  let s := t - PI / 4 in
  ((1 - (1 + s) ^ 2) - (1 + s) * tan t - (1 + s) ^ 2 * (1 - s / 12) ^ 2) / ((1 + s) ^ 2 / 2 - (1 + s) * (1 - s / 12) * (-1 - 7 / 4 * s)).
Definition ex_y (t : R) : vec := let s := t - PI / 4 in state (1 - s / 12) 0 (-1 - 7 / 4 * s) (ex_v_r t) 0 (1 + s) 1 0 1 0 0.
Definition ex_d : vec := fst (rhs_derivs ex_o (PI / 4) ex_p).

Lemma ex_B_φ : forall t a b c v, fst (rhs_derivs ex_o t (state a 0 b c 0 v 1 0 1 0 0)) iB_φ = 0.
Proof.
  intros. rewrite rhs_B_φ. cbn [ex_o oa_use_E_r oa_γ]. cbv zeta. unfold deriv_B_φ_func, Z_5_func, C_func. cbn [state iB_r iB_φ iB_θ iv_r iv_φ iv_θ iη_O iη_A iη_H iE_r].
  unfold Rdiv. ring.
Qed.
Lemma ex_B_r : forall t a b c v, fst (rhs_derivs ex_o t (state a 0 b c 0 v 1 0 1 0 0)) iB_r = v * a - c * b - b / 4.
Proof.
  intros. rewrite rhs_B_r, ex_B_φ. unfold deriv_B_r_func. cbn [ex_o oa_γ state iB_r iB_φ iB_θ iv_r iv_φ iv_θ iη_O iη_A iη_H iE_r].
  set (m := sqrt _). set (q := 0 / m). set (q1 := a / m). set (q2 := b / m). field.
Qed.

Example C64_no_ambipolar_nonvacuous :
  ex_y (PI / 4) = ex_p /\ (forall i, (i < ODE_LEN)%nat -> derivable_pt_lim (fun t => ex_y t i) (PI / 4) (fst (rhs_derivs ex_o (PI / 4) ex_p) i)) /\
  (forall t, Rabs (t - PI / 4) < 1 / 10 -> v_θ_equation ex_o ex_y (fun _ => 1) t) /\
  ex_p iv_θ = 1 /\ cos (PI / 4) <> 0 /\ ex_p iρ <> 0 /\ B_nonzero ex_p /\ ex_p iη_O <> 0 /\ ex_p iη_A = 0 /\ ex_p iη_H = 0.
Proof.
  assert (Hc : 0 < cos (PI / 4)) by (apply cos_gt_0; pose proof PI_RGT_0; lra).
  assert (E0 : ex_y (PI / 4) = ex_p).
  { apply FunctionalExtensionality.functional_extensionality. intro i. unfold ex_y, ex_v_r. rewrite tan_PI4.
    replace (PI / 4 - PI / 4) with 0 by ring. unfold ex_p. destruct i as [|[|[|[|[|[|[|[|[|[|[|i]]]]]]]]]]]; [..|reflexivity]; cbn [state]; field. }
  assert (KBφ : ex_d iB_φ = 0) by apply ex_B_φ.
  assert (KBr : ex_d iB_r = - (1 / 12)) by (unfold ex_d, ex_p; rewrite ex_B_r; field).
  refine (conj E0 (conj _ (conj _ _))).
  - intros i Hi. fold ex_d. unfold ODE_LEN in Hi. unfold ex_y.
    destruct i as [|[|[|[|[|[|[|[|[|[|[|i]]]]]]]]]]]; [..|lia]; cbn [state].
    + change (ex_d 0%nat) with (ex_d iB_r). rewrite KBr. eapply dpl_eq; [dlim; lra|]. unfold Rsqr. field.
    + change (ex_d 1%nat) with (ex_d iB_φ). rewrite KBφ. apply dpl_const.
    + change (ex_d 2%nat) with (ex_d iB_θ). unfold ex_d. rewrite rhs_B_θ. rewrite tan_PI4. cbn [ex_o oa_γ ex_p state iB_θ iB_r]. eapply dpl_eq; [dlim; lra|]. field.
    + change (ex_d 3%nat) with (ex_d iv_r). unfold ex_d. rewrite rhs_v_r by reflexivity. fold ex_d. rewrite KBr.
      unfold deriv_v_r_normal_expr. cbn [ex_o oa_a_0 oa_norm_kepler_sq oa_γ ex_p state iv_φ iv_r iv_θ iρ iB_θ iB_φ].
      replace ((0 - sqrt (325 / 54)) * (0 + sqrt (325 / 54))) with (- (sqrt (325 / 54) * sqrt (325 / 54))) by ring. rewrite sqrt_sqrt by lra.
      unfold ex_v_r. cbv zeta. eapply dpl_eq; [dlim; try lra|].
      rewrite tan_PI4. replace (PI / 4 - PI / 4) with 0 by ring. unfold Rsqr. nrm. field.
    + change (ex_d 4%nat) with (ex_d iv_φ). unfold ex_d. rewrite rhs_v_φ by reflexivity. fold ex_d. rewrite KBφ. unfold deriv_v_φ_normal_expr.
      cbn [ex_o oa_a_0 oa_norm_kepler_sq oa_γ ex_p state iv_φ iv_r iv_θ iρ iB_θ iB_φ]. eapply dpl_eq; [apply dpl_const|]. field.
    + change (ex_d 5%nat) with 1. eapply dpl_eq; [dlim|]. ring.
    + change (ex_d 6%nat) with (ex_d iρ). unfold ex_d. rewrite rhs_ρ by reflexivity. change (fst (rhs_derivs ex_o (PI / 4) ex_p) iv_θ) with 1.
      unfold deriv_ρ_normal_expr. rewrite tan_PI4. cbn [ex_o oa_γ ex_p state iv_r iv_θ iρ]. eapply dpl_eq; [apply dpl_const|]. field.
    + change (ex_d 7%nat) with (ex_d iE_r). unfold ex_d. rewrite rhs_E_r by reflexivity. fold ex_d. rewrite KBφ.
      unfold deriv_E_r_func, E_θ_func, J_r_func, J_θ_func. cbn [ex_o oa_γ ex_p state iv_r iv_θ iv_φ iη_O iη_A iη_H iB_r iB_φ iB_θ]. eapply dpl_eq; [apply dpl_const|]. unfold Rdiv. ring.
    + change (ex_d 8%nat) with 0. apply dpl_const.
    + change (ex_d 9%nat) with 0. apply dpl_const.
    + change (ex_d 10%nat) with 0. apply dpl_const.
  - intros t Ht. unfold v_θ_equation. cbv zeta. 
    assert (R1 : fst (rhs_derivs ex_o t (ex_y t)) iB_r = ex_y t iv_θ * ex_y t iB_r - ex_y t iv_r * ex_y t iB_θ - ex_y t iB_θ / 4) by apply ex_B_r.
    assert (R2 : fst (rhs_derivs ex_o t (ex_y t)) iB_φ = 0) by apply ex_B_φ. rewrite R1, R2. clear R1 R2.
    unfold ex_y, ex_v_r. cbn [ex_o oa_a_0 oa_γ state iv_φ iv_r iv_θ iρ iB_r iB_θ iB_φ]. apply Rabs_def2 in Ht. set (s := t - PI / 4) in *. field.
    assert (0 < (1 + s) * (1 - s / 12) * (1 + 7 / 4 * s)) by (repeat apply Rmult_lt_0_compat; lra). assert (0 < (1 + s) ^ 2) by (apply pow_lt; lra). lra.
  - unfold B_nonzero, ex_p, iv_θ, iρ, iB_r, iB_φ, iB_θ, iη_O, iη_A, iη_H. cbn [state]. repeat split; lra.
Qed.

(** C64, the whole function.  A quadratic that has a real root is solved if it is written as the product of its factors. *)
Definition solves (solve_quadratic : quadratic) : Prop := forall a b c x0, a <> 0 -> a * x0 ^ 2 + b * x0 + c = 0 ->
  forall x, a * x ^ 2 + b * x + c = a * (x - fst (solve_quadratic a b c)) * (x - snd (solve_quadratic a b c)).
(** Where the quadratic is right (C64_no_ambipolar) and v_θ rises through the sonic point, the function either gives the slope of
    the solution or fails, and it fails exactly if the other root is positive as well. *)
Theorem C64_slope_partial : forall sq o y w w' θ e, solves sq -> oa_use_E_r o = true -> oa_with_taylor o = false -> oa_deriv_v_θ_func o = Some w ->
  let p := y θ in let d := fst (rhs_derivs o θ p) in let m := sqrt (p iB_r ^ 2 + p iB_φ ^ 2 + p iB_θ ^ 2) in
  (forall i, (i < ODE_LEN)%nat -> derivable_pt_lim (fun t => y t i) θ (d i)) -> 0 < e ->
  (forall t, Rabs (t - θ) < e -> v_θ_equation o y w t) -> derivable_pt_lim w θ w' ->
  p iv_θ = 1 -> cos θ <> 0 -> p iρ <> 0 -> B_nonzero p -> p iη_O <> 0 ->
  p iη_A = 0 -> oa_init_con o iη_A = 0 -> p iη_H = 0 \/ p iB_r = 0 -> 0 < w θ ->
  let found := deriv_v_θ_sonic sq (oa_a_0 o) (p iρ) (p iB_r) (p iB_φ) (p iB_θ) (p iη_O) (p iη_H) (p iη_A) θ (p iv_r) (p iv_φ) (p iv_θ)
     (d iv_r) (d iv_φ) (d iB_r) (d iB_θ) (d iB_φ) (oa_γ o) (oa_init_con o iη_O) (oa_init_con o iη_A) (oa_init_con o iη_H)
     (p iB_r / m) (p iB_θ / m) (p iB_φ / m) (Some (p iE_r)) (oa_η_derivs o) in
  let '(a, b, c) := sonic_coefficients (oa_a_0 o) (p iρ) (p iB_r) (p iB_φ) (p iB_θ) (p iη_O) (p iη_H) (p iη_A) θ (p iv_r) (p iv_φ) (p iv_θ)
     (d iv_r) (d iv_φ) (d iB_r) (d iB_θ) (d iB_φ) (oa_γ o) (oa_init_con o iη_O) (oa_init_con o iη_A) (oa_init_con o iη_H)
     (p iB_r / m) (p iB_θ / m) (p iB_φ / m) (Some (p iE_r)) (oa_η_derivs o) in
  a = 2 /\ (c <= 0 -> found = Some (w θ)) /\ (0 < c -> found = None).
Proof.
  intros sq o y w w' θ e SQ HE HT HW p d m Hd He Heq Dw Hv Hc Hρ HB HO HA HA0 HH Hw found.
  pose proof (C64_no_ambipolar o y w w' θ e HE HT HW Hd He Heq Dw Hv Hc Hρ HB HO HA HA0 HH) as Q. fold p d m in Q.
  unfold found, deriv_v_θ_sonic. clear found.
  assert (EA : fst (fst (sonic_coefficients (oa_a_0 o) (p iρ) (p iB_r) (p iB_φ) (p iB_θ) (p iη_O) (p iη_H) (p iη_A) θ (p iv_r) (p iv_φ) (p iv_θ)
     (d iv_r) (d iv_φ) (d iB_r) (d iB_θ) (d iB_φ) (oa_γ o) (oa_init_con o iη_O) (oa_init_con o iη_A) (oa_init_con o iη_H)
     (p iB_r / m) (p iB_θ / m) (p iB_φ / m) (Some (p iE_r)) (oa_η_derivs o))) = 2 * p iv_θ).
  { unfold sonic_coefficients. destruct (B_unit_derivs _ _ _ _ _ _ _ _ _) as ((? & ?) & ?). reflexivity. }
  destruct (sonic_coefficients _ _ _ _ _ _ _ _ _ _ _ _ _ _ _ _ _ _ _ _ _ _ _ _ _ _) as ((a & b) & c). cbn [fst] in EA. rewrite Hv in EA.
  assert (E2 : a = 2) by lra. clear EA. subst a. split; [reflexivity|]. specialize (SQ 2 b c (w θ) ltac:(lra) Q). destruct (sq 2 b c) as (x1 & x2). cbn [fst snd] in SQ.
  assert (Z := SQ (w θ)). assert (Z0 := SQ 0). assert (P : 2 * (x1 * x2) = c) by lra.
  assert (R : w θ = x1 \/ w θ = x2).
  { assert (Y : (w θ - x1) * (w θ - x2) = 0) by lra. apply Rmult_integral in Y. destruct Y; [left | right]; lra. }
  unfold choose_root. split; intro C; destruct R as [R|R]; destruct (Rlt_dec 0 x1), (Rlt_dec 0 x2); subst; try (f_equal; lra); try reflexivity; nra.
Qed.
Print Assumptions C64_slope_partial.
(** The formula for the roots solves quadratics in this sense. *)
Example C64_slope_nonvacuous : solves (fun a b c => ((- b + sqrt (b ^ 2 - 4 * a * c)) / (2 * a), (- b - sqrt (b ^ 2 - 4 * a * c)) / (2 * a))).
Proof.
  intros a b c x0 Ha H0 x. cbn [fst snd]. set (D := b ^ 2 - 4 * a * c).
  assert (HD : 0 <= D) by (unfold D; replace (b ^ 2 - 4 * a * c) with ((2 * a * x0 + b) ^ 2) by (replace c with (- (a * x0 ^ 2 + b * x0)) by lra; ring); apply pow2_ge_0).
  assert (S2 : sqrt D * sqrt D = D) by (apply sqrt_sqrt; exact HD).
  replace (a * (x - (- b + sqrt D) / (2 * a)) * (x - (- b - sqrt D) / (2 * a))) with (a * x ^ 2 + b * x + (b ^ 2 - sqrt D * sqrt D) / (4 * a)) by (field; exact Ha).
  rewrite S2. unfold D. field. exact Ha.
Qed.
