(** C147: pressure carries weight along solutions of the hydrostatic methods. *)
From Coq Require Import Reals Lra Lia.
From Coquelicot Require Import Coquelicot.
From Verif Require Import Lib_Deriv Model_Index Model_Deriv Model_Ode Model_Hydro Model_ModHydro Spec_Ode Spec_HydroUnique Spec_ModHydroUnique Spec_HydroPressure
  Proofs_HydroUnique Proofs_ModHydroUnique Props_HydroUnique Props_ModHydroUnique Props_HydroSymmetry Witness_Ode Props_Budget.
Open Scope R_scope.

(** From what the two methods have in common. *)
Section Common.
Variables (a_0 : R) (y d : R -> vec) (a b : R).
Hypotheses (Hab : a < b) (D : forall x i, a <= x <= b -> (i < ODE_LEN)%nat -> derivable_pt_lim (fun t => y t i) x (d x i))
  (Hc : forall x, a <= x <= b -> cos x <> 0) (Df : forall x, d x iB_φ = y x iB_φ_prime)
  (Dρ : forall x, d x iρ = - y x iρ * y x iv_φ ^ 2 * tan x - a_0 * (y x iB_θ * y x iB_r / 4 + y x iB_r * d x iB_r + y x iB_φ * y x iB_φ_prime - y x iB_φ ^ 2 * tan x)).
Lemma pressure_cont : forall x i, a <= x <= b -> (i < ODE_LEN)%nat -> continuity_pt (fun t => y t i) x.
Proof. intros x i Hx Hi. apply derivable_continuous_pt. exists (d x i). apply D; assumption. Qed.
Lemma tan_cont : forall x, a <= x <= b -> continuity_pt tan x.
Proof. intros x Hx. unfold tan. apply (continuity_pt_div sin cos); [apply continuity_sin|apply continuity_cos|apply Hc, Hx]. Qed.
Ltac cc :=
  match goal with
  | |- continuity_pt (fun t => @?f t * @?g t) ?x => apply (continuity_pt_mult f g); cbv beta; cc
  | |- continuity_pt (fun t => @?f t - @?g t) ?x => apply (continuity_pt_minus f g); cbv beta; cc
  | |- continuity_pt (fun t => @?f t + @?g t) ?x => apply (continuity_pt_plus f g); cbv beta; cc
  | |- continuity_pt (fun t => @?f t / ?k) ?x => apply (continuity_pt_mult f (fun _ => / k)); cbv beta; cc
  | |- continuity_pt (fun t => y t ?i ^ 2) ?x => change (continuity_pt (fun t => y t i * (y t i * 1)) x); cc
  | |- continuity_pt (fun t => tan t) ?x => apply tan_cont; assumption
  | |- continuity_pt tan ?x => apply tan_cont; assumption
  | |- _ => first [apply pressure_cont; [assumption|idx] | apply continuity_pt_const; intros ? ?; reflexivity]
  end.
Lemma weight_cont : forall x, a <= x <= b -> continuity_pt (fun θ => weight a_0 θ (y θ)) x.
Proof. intros x Hx. unfold weight. cc. Qed.
Lemma pressure_rate : forall x, a <= x <= b -> derivable_pt_lim (fun θ => total_pressure a_0 (y θ)) x (- weight a_0 x (y x)).
Proof.
  intros x Hx. pose proof (D x iρ Hx ltac:(idx)) as D1. rewrite Dρ in D1. pose proof (D x iB_r Hx ltac:(idx)) as D2. pose proof (D x iB_φ Hx ltac:(idx)) as D3. rewrite Df in D3.
  unfold total_pressure, weight. eapply dpl_eq; [dlim; try eassumption; try discrR|]. replace (INR 2) with 2 by (cbn; lra). cbn [Nat.pred]. unfold Rsqr. field.
Qed.
Lemma common_pressure : total_pressure a_0 (y b) - total_pressure a_0 (y a) = - RInt (fun θ => weight a_0 θ (y θ)) a b.
Proof.
  rewrite (budget (fun θ => total_pressure a_0 (y θ)) (fun θ => weight a_0 θ (y θ)) (-1) a b); [ring|exact Hab| |exact weight_cont|].
  - intros x Hx. unfold total_pressure. cc.
  - intros x Hx. eapply dpl_eq; [apply pressure_rate; lra|ring].
Qed.
Lemma common_confined : 0 <= a_0 -> 0 <= a -> b < PI / 2 -> (forall x, a <= x <= b -> 0 <= y x iB_r * y x iB_θ /\ a_0 * y x iB_φ ^ 2 <= y x iρ * y x iv_φ ^ 2) ->
  total_pressure a_0 (y b) <= total_pressure a_0 (y a) /\ y b iρ <= total_pressure a_0 (y a).
Proof.
  intros A0 Ha Hb V.
  assert (P : total_pressure a_0 (y b) <= total_pressure a_0 (y a)).
  { pose proof common_pressure as E. enough (0 <= RInt (fun θ => weight a_0 θ (y θ)) a b) by lra.
    apply RInt_ge_0; [lra| |].
    - apply (ex_RInt_continuous (V := R_CompleteNormedModule)). intros z Hz. rewrite Rmin_left, Rmax_right in Hz by lra. apply continuity_pt_filterlim. apply weight_cont. exact Hz.
    - intros x Hx. destruct (V x ltac:(lra)) as (V1 & V2). unfold weight. assert (T : 0 <= tan x) by (destruct (Rle_lt_or_eq_dec 0 x ltac:(lra)) as [L| <-]; [left; apply tan_gt_0; lra|rewrite tan_0; lra]).
      pose proof (Rmult_le_pos _ _ A0 V1). assert (V3 : 0 <= y x iρ * y x iv_φ ^ 2 - a_0 * y x iB_φ ^ 2) by lra. pose proof (Rmult_le_pos _ _ V3 T). nra. }
  split; [exact P|]. eapply Rle_trans; [|exact P]. unfold total_pressure. pose proof (pow2_ge_0 (y b iB_r)). pose proof (pow2_ge_0 (y b iB_φ)).
  pose proof (Rmult_le_pos _ _ A0 (Rplus_le_le_0_compat _ _ H H0)). lra.
Qed.
Lemma common_column : a_0 = 0 -> (forall x, a <= x <= b -> 0 < y x iρ) -> y b iρ = y a iρ * exp (- RInt (fun θ => y θ iv_φ ^ 2 * tan θ) a b).
Proof.
  intros A0 P.
  assert (E : ln (y b iρ) - ln (y a iρ) = -1 * RInt (fun θ => y θ iv_φ ^ 2 * tan θ) a b).
  { apply (budget (fun θ => ln (y θ iρ)) (fun θ => y θ iv_φ ^ 2 * tan θ)); [exact Hab| | |].
    - intros x Hx. apply derivable_continuous_pt. eexists. apply (derivable_pt_lim_comp (fun t => y t iρ) ln x); [apply (D x iρ Hx ltac:(idx))|apply derivable_pt_lim_ln, P, Hx].
    - intros x Hx. cc.
    - intros x Hx. pose proof (P x ltac:(lra)) as Px. eapply dpl_eq; [apply (derivable_pt_lim_comp (fun t => y t iρ) ln x); [apply (D x iρ ltac:(lra) ltac:(idx))|apply derivable_pt_lim_ln, Px]|].
      rewrite Dρ, A0. field. lra. }
  replace (- RInt (fun θ => y θ iv_φ ^ 2 * tan θ) a b) with (ln (y b iρ) - ln (y a iρ)) by (rewrite E; ring).
  pose proof (P a ltac:(lra)). pose proof (P b ltac:(lra)). unfold Rminus. rewrite exp_plus, exp_Ropp, !exp_ln by assumption. field. lra.
Qed.
End Common.

Lemma hydro_common : forall h y a b, hydro_solves h y a b -> ha_θ_scale h = 1 ->
  (forall x i, a <= x <= b -> (i < ODE_LEN)%nat -> derivable_pt_lim (fun t => y t i) x (q_d h x (y x) i)) /\ (forall x, a <= x <= b -> cos x <> 0) /\ forall x, a <= x <= b -> 0 < y x iρ.
Proof.
  intros h y a b H S1. split; [|split].
  - intros x i Hx Hi. pose proof (hydro_derivs h a b y H x i Hx Hi) as D. rewrite S1, Rmult_1_r in D. exact D.
  - intros x Hx. destruct (H x Hx) as (_ & Hc & _). rewrite S1, Rmult_1_r in Hc. exact Hc.
  - intros x Hx. destruct (H x Hx) as (_ & _ & _ & Hρ & _). exact Hρ.
Qed.
Lemma mod_common : forall m y a b, mod_solves m y a b -> ma_use_E_r m = false -> ma_θ_scale m = 1 ->
  (forall x i, a <= x <= b -> (i < ODE_LEN)%nat -> derivable_pt_lim (fun t => y t i) x (m_d m x (y x) i)) /\ (forall x, a <= x <= b -> cos x <> 0) /\ forall x, a <= x <= b -> 0 < y x iρ.
Proof.
  intros m y a b H NE S1. split; [|split].
  - intros x i Hx Hi. pose proof (mod_derivs m a b NE y H x i Hx Hi) as D. rewrite S1, Rmult_1_r in D. exact D.
  - intros x Hx. destruct (H x Hx) as (_ & Hc & _). rewrite S1, Rmult_1_r in Hc. exact Hc.
  - intros x Hx. destruct (H x Hx) as (_ & _ & _ & Hρ & _). exact Hρ.
Qed.

(** Between two cones the pressure falls by exactly the weight of what is between them. *)
Theorem C147_pressure : forall h y a b, a < b -> hydro_solves h y a b -> ha_θ_scale h = 1 ->
  total_pressure (ha_a_0 h) (y b) - total_pressure (ha_a_0 h) (y a) = - RInt (fun θ => weight (ha_a_0 h) θ (y θ)) a b.
Proof.
  intros h y a b Hab H S1. destruct (hydro_common h y a b H S1) as (D & C & _).
  exact (common_pressure (ha_a_0 h) y (fun x => q_d h x (y x)) a b Hab D C (fun _ => eq_refl) (fun _ => eq_refl)).
Qed.
Print Assumptions C147_pressure.
Theorem C147_mod_pressure : forall m y a b, a < b -> mod_solves m y a b -> ma_use_E_r m = false -> ma_θ_scale m = 1 ->
  total_pressure (ma_a_0 m) (y b) - total_pressure (ma_a_0 m) (y a) = - RInt (fun θ => weight (ma_a_0 m) θ (y θ)) a b.
Proof.
  intros m y a b Hab H NE S1. destruct (mod_common m y a b H NE S1) as (D & C & _).
  exact (common_pressure (ma_a_0 m) y (fun x => m_d m x (y x)) a b Hab D C (fun _ => eq_refl) (fun _ => eq_refl)).
Qed.
Print Assumptions C147_mod_pressure.

(** The disc is confined: where the field is bent outwards and the wound-up field moves slower waves than the gas orbits, the pressure does not rise with
    height, and the density never exceeds the pressure at the start. *)
Theorem C147_confined : forall h y a b, a < b -> hydro_solves h y a b -> ha_θ_scale h = 1 -> 0 <= ha_a_0 h -> 0 <= a -> b < PI / 2 ->
  (forall x, a <= x <= b -> 0 <= y x iB_r * y x iB_θ /\ ha_a_0 h * y x iB_φ ^ 2 <= y x iρ * y x iv_φ ^ 2) ->
  total_pressure (ha_a_0 h) (y b) <= total_pressure (ha_a_0 h) (y a) /\ y b iρ <= total_pressure (ha_a_0 h) (y a).
Proof.
  intros h y a b Hab H S1 A0 Ha Hb V. destruct (hydro_common h y a b H S1) as (D & C & _).
  exact (common_confined (ha_a_0 h) y (fun x => q_d h x (y x)) a b Hab D C (fun _ => eq_refl) (fun _ => eq_refl) A0 Ha Hb V).
Qed.
Print Assumptions C147_confined.
Theorem C147_mod_confined : forall m y a b, a < b -> mod_solves m y a b -> ma_use_E_r m = false -> ma_θ_scale m = 1 -> 0 <= ma_a_0 m -> 0 <= a -> b < PI / 2 ->
  (forall x, a <= x <= b -> 0 <= y x iB_r * y x iB_θ /\ ma_a_0 m * y x iB_φ ^ 2 <= y x iρ * y x iv_φ ^ 2) ->
  total_pressure (ma_a_0 m) (y b) <= total_pressure (ma_a_0 m) (y a) /\ y b iρ <= total_pressure (ma_a_0 m) (y a).
Proof.
  intros m y a b Hab H NE S1 A0 Ha Hb V. destruct (mod_common m y a b H NE S1) as (D & C & _).
  exact (common_confined (ma_a_0 m) y (fun x => m_d m x (y x)) a b Hab D C (fun _ => eq_refl) (fun _ => eq_refl) A0 Ha Hb V).
Qed.
Print Assumptions C147_mod_confined.

(** Where the field exerts no force the gas has the density of an isothermal atmosphere in its own orbital motion. *)
Theorem C147_atmosphere : forall h y a b, a < b -> hydro_solves h y a b -> ha_θ_scale h = 1 -> ha_a_0 h = 0 ->
  y b iρ = y a iρ * exp (- RInt (fun θ => y θ iv_φ ^ 2 * tan θ) a b).
Proof.
  intros h y a b Hab H S1 A0. destruct (hydro_common h y a b H S1) as (D & C & P).
  exact (common_column (ha_a_0 h) y (fun x => q_d h x (y x)) a b Hab D C (fun _ => eq_refl) A0 P).
Qed.
Print Assumptions C147_atmosphere.
Theorem C147_mod_atmosphere : forall m y a b, a < b -> mod_solves m y a b -> ma_use_E_r m = false -> ma_θ_scale m = 1 -> ma_a_0 m = 0 ->
  y b iρ = y a iρ * exp (- RInt (fun θ => y θ iv_φ ^ 2 * tan θ) a b).
Proof.
  intros m y a b Hab H NE S1 A0. destruct (mod_common m y a b H NE S1) as (D & C & P).
  exact (common_column (ma_a_0 m) y (fun x => m_d m x (y x)) a b Hab D C (fun _ => eq_refl) A0 P).
Qed.
Print Assumptions C147_mod_atmosphere.

(** A magnetised solution with the field bent outwards meets the hypotheses of [C147_confined]. *)
Lemma stays_near : forall f x, continuity_pt f x -> exists e, 0 < e /\ forall t, Rabs (t - x) < e -> Rabs (f t - f x) < 1 / 4.
Proof.
  intros f x C. destruct (C (1 / 4) ltac:(lra)) as (e & Pe & H). exists e. split; [exact Pe|]. intros t Ht.
  destruct (Req_dec t x) as [-> |N]; [rewrite Rminus_eq_0, Rabs_R0; lra|]. apply (H t). split; [split; [exact I|]|exact Ht]. intro E. apply N. symmetry. exact E.
Qed.
Example C147_nonvacuous : exists e y, 0 < e /\ e < PI / 2 /\ hydro_solves h_u y 0 e /\ 0 < ha_a_0 h_u /\ y 0 iB_r = 1 /\ y 0 iB_θ = 1 /\
  forall x, 0 <= x <= e -> 0 <= y x iB_r * y x iB_θ /\ ha_a_0 h_u * y x iB_φ ^ 2 <= y x iρ * y x iv_φ ^ 2.
Proof.
  destruct (C136_through h_u 0 p_u (u_regular h_u p_u 1 (1 / 2) eq_refl ltac:(lra) ltac:(field) eq_refl eq_refl eq_refl eq_refl eq_refl eq_refl eq_refl eq_refl eq_refl eq_refl))
    as (e & y & Pe & Y0 & Y1 & _).
  assert (N : forall i, (i < ODE_LEN)%nat -> exists r, 0 < r /\ forall t, Rabs (t - 0) < r -> Rabs (y t i - p_u i) < 1 / 4).
  { intros i Hi. rewrite <- (Y0 i Hi). apply (stays_near (fun t => y t i)). destruct (Y1 0 ltac:(rewrite Rminus_eq_0, Rabs_R0; exact Pe)) as ((d & θ & _ & D) & _).
    apply derivable_continuous_pt. exists (d i). apply D, Hi. }
  destruct (N iB_r ltac:(idx)) as (r0 & Q0 & N0). destruct (N iB_φ ltac:(idx)) as (r1 & Q1 & N1). destruct (N iB_θ ltac:(idx)) as (r2 & Q2 & N2).
  destruct (N iv_φ ltac:(idx)) as (r4 & Q4 & N4). destruct (N iρ ltac:(idx)) as (r6 & Q6 & N6). clear N.
  set (r := Rmin 1 (Rmin e (Rmin r0 (Rmin r1 (Rmin r2 (Rmin r4 r6)))))).
  assert (Pr : 0 < r) by (unfold r; repeat apply Rmin_pos; lra).
  assert (L : r <= 1 /\ r <= e /\ r <= r0 /\ r <= r1 /\ r <= r2 /\ r <= r4 /\ r <= r6) by (unfold r; repeat apply conj; repeat (apply Rmin_l || (eapply Rle_trans; [apply Rmin_r|])); apply Rle_refl).
  destruct L as (L & Le & L0 & L1 & L2 & L4 & L6).
  exists (r / 2), y. split; [lra|]. split; [pose proof PI2_1; lra|]. split.
  { intros x Hx. apply Y1. apply Rabs_def1; lra. }
  split; [cbn; lra|]. rewrite !Y0 by idx. split; [reflexivity|]. split; [reflexivity|]. intros x Hx.
  assert (A : Rabs (x - 0) < r) by (apply Rabs_def1; lra).
  pose proof (Rabs_def2 _ _ (N0 x ltac:(lra))) as B0. pose proof (Rabs_def2 _ _ (N1 x ltac:(lra))) as B1. pose proof (Rabs_def2 _ _ (N2 x ltac:(lra))) as B2.
  pose proof (Rabs_def2 _ _ (N4 x ltac:(lra))) as B4. pose proof (Rabs_def2 _ _ (N6 x ltac:(lra))) as B6.
  unfold p_u, state, iB_r, iB_φ, iB_θ, iv_φ, iρ in B0, B1, B2, B4, B6. cbn [h_u ha_a_0].
  fold iB_r in B0. fold iB_φ in B1. fold iB_θ in B2. fold iv_φ in B4. fold iρ in B6. unfold iB_r, iB_φ, iB_θ, iv_φ, iρ in *.
  split; [apply Rmult_le_pos; lra|].
  assert (y x 1%nat ^ 2 <= 1 / 16) by nra. assert (1 <= y x 4%nat ^ 2) by nra. nra.
Qed.
(** The solution of C136 and C140 without magnetic force is such an atmosphere: cos 1 = exp (- ∫ tan). *)
Example C147_atmosphere_nonvacuous : hydro_solves h_tor y_tor 0 1 /\ mod_solves m_tor y_tor 0 1 /\ ha_a_0 h_tor = 0 /\ ma_a_0 m_tor = 0 /\ y_tor 1 iρ = cos 1 /\
  cos 1 = cos 0 * exp (- RInt (fun θ => y_tor θ iv_φ ^ 2 * tan θ) 0 1) /\ total_pressure 0 (y_tor 1) <= total_pressure 0 (y_tor 0).
Proof.
  split; [exact y_tor_solves|]. split; [exact m_tor_solves|]. do 3 (split; [reflexivity|]). split.
  - exact (C147_atmosphere h_tor y_tor 0 1 ltac:(lra) y_tor_solves eq_refl eq_refl).
  - apply (C147_mod_confined m_tor y_tor 0 1); try reflexivity; try lra; [exact m_tor_solves|cbn; lra|pose proof PI2_1; lra|].
    intros x Hx. cbn [m_tor ma_a_0]. unfold y_tor, state, iB_r, iB_φ, iB_θ, iv_φ, iρ. destruct (m_tor_solves x Hx) as (_ & _ & _ & P & _). unfold y_tor, state, iρ in P. split; lra.
Qed.
(** And so for the modified method. *)
Definition m_bent : mod_hydro_args := mk_mod_hydro_args 1 9 (fun _ => 1) 1 true false false.
Definition p_bent : vec := state 1 0 1 (-2) 3 0 1 (-3) 1 0 0.
Lemma bent_regular : mod_regular m_bent 0 p_bent.
Proof.
  assert (U : unit p_bent iB_φ = 0) by (unfold unit, Rdiv; apply Rmult_0_l).
  assert (Ek : kepler m_bent = 3) by exact m_tor_kepler.
  assert (EX : the_X p_bent = 0) by (unfold the_X, X_func; rewrite U; unfold p_bent, state, iη_O, iη_A, iη_H; field).
  assert (E4 : the_Z_4 0 p_bent = -3) by (unfold the_Z_4, Z_4_func; rewrite tan_0; unfold p_bent, state, iB_r, iB_φ, iB_θ, iB_φ_prime; field).
  assert (EC : the_C p_bent = 0) by (unfold the_C, C_func; rewrite U; unfold p_bent, state, iη_O, iη_A, iη_H; field).
  assert (E5 : the_Z_5 p_bent = 1) by (unfold the_Z_5, Z_5_func; rewrite EC; unfold p_bent, state, iη_O, iη_A, iη_H; ring).
  assert (E3 : mod_Z_3 m_bent p_bent = 4 / 3) by (unfold mod_Z_3, Model_ModHydro.Z_3_func; rewrite Ek, U; unfold p_bent, state, iv_r, iB_θ, iη_O, iη_A; field).
  unfold mod_regular, mod_determinant, mod_denominator, mod_coefficient, Model_ModHydro.Z_6_func. replace (0 * ma_θ_scale m_bent) with 0 by ring.
  rewrite E3, E4, E5, EC, EX, Ek, cos_0, U.
  unfold B_nonzero, p_bent, state, m_bent, ma_a_0, ma_norm_kepler_sq, iB_r, iB_φ, iB_θ, iv_r, iv_φ, iρ, iη_O, iη_A. repeat split; lra.
Qed.
Example C147_mod_nonvacuous : exists e y, 0 < e /\ e < PI / 2 /\ mod_solves m_bent y 0 e /\ 0 < ma_a_0 m_bent /\ y 0 iB_r = 1 /\ y 0 iB_θ = 1 /\
  forall x, 0 <= x <= e -> 0 <= y x iB_r * y x iB_θ /\ ma_a_0 m_bent * y x iB_φ ^ 2 <= y x iρ * y x iv_φ ^ 2.
Proof.
  destruct (C140_through m_bent 0 p_bent eq_refl bent_regular) as (e & y & Pe & Y0 & Y1 & _).
  assert (N : forall i, (i < ODE_LEN)%nat -> exists r, 0 < r /\ forall t, Rabs (t - 0) < r -> Rabs (y t i - p_bent i) < 1 / 4).
  { intros i Hi. rewrite <- (Y0 i Hi). apply (stays_near (fun t => y t i)). destruct (Y1 0 ltac:(rewrite Rminus_eq_0, Rabs_R0; exact Pe)) as (W & _).
    destruct (W (fun r _ _ _ _ => r) 0) as (d & q & r & θ & _ & D). apply derivable_continuous_pt. exists (d i). apply D, Hi. }
  destruct (N iB_r ltac:(idx)) as (r0 & Q0 & N0). destruct (N iB_φ ltac:(idx)) as (r1 & Q1 & N1). destruct (N iB_θ ltac:(idx)) as (r2 & Q2 & N2).
  destruct (N iv_φ ltac:(idx)) as (r4 & Q4 & N4). destruct (N iρ ltac:(idx)) as (r6 & Q6 & N6). clear N.
  set (r := Rmin 1 (Rmin e (Rmin r0 (Rmin r1 (Rmin r2 (Rmin r4 r6)))))).
  assert (Pr : 0 < r) by (unfold r; repeat apply Rmin_pos; lra).
  assert (L : r <= 1 /\ r <= e /\ r <= r0 /\ r <= r1 /\ r <= r2 /\ r <= r4 /\ r <= r6) by (unfold r; repeat apply conj; repeat (apply Rmin_l || (eapply Rle_trans; [apply Rmin_r|])); apply Rle_refl).
  destruct L as (L & Le & L0 & L1 & L2 & L4 & L6).
  exists (r / 2), y. split; [lra|]. split; [pose proof PI2_1; lra|]. split.
  { intros x Hx. apply Y1. apply Rabs_def1; lra. }
  split; [cbn; lra|]. rewrite !Y0 by idx. split; [reflexivity|]. split; [reflexivity|]. intros x Hx.
  assert (A : Rabs (x - 0) < r) by (apply Rabs_def1; lra).
  pose proof (Rabs_def2 _ _ (N0 x ltac:(lra))) as B0. pose proof (Rabs_def2 _ _ (N1 x ltac:(lra))) as B1. pose proof (Rabs_def2 _ _ (N2 x ltac:(lra))) as B2.
  pose proof (Rabs_def2 _ _ (N4 x ltac:(lra))) as B4. pose proof (Rabs_def2 _ _ (N6 x ltac:(lra))) as B6.
  unfold p_bent, state, iB_r, iB_φ, iB_θ, iv_φ, iρ in *. cbn [m_bent ma_a_0].
  split; [apply Rmult_le_pos; lra|].
  assert (y x 1%nat ^ 2 <= 1 / 16) by nra. assert (1 <= y x 4%nat ^ 2) by nra. nra.
Qed.
