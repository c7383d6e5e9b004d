(** C145, solutions of the modified hydrostatic method: the sign of the field. *)
From Coq Require Import Reals Lra Lia.
From Verif Require Import Model_Index Model_Deriv Model_Ode Model_Hydro Model_ModHydro Lib_Deriv Spec_Ode Spec_HydroUnique Spec_ModHydroUnique Spec_HydroSymmetry
  Proofs_HydroUnique Proofs_ModHydroUnique Proofs_HydroSymmetry Props_HydroUnique Props_ModHydroUnique Props_HydroSymmetry.
Open Scope R_scope.

Lemma reversed_regular : forall m x p, mod_regular m x p -> mod_regular (mod_rescaled (-1) 1 m) x (rescaled (-1) 1 p).
Proof.
  intros m x p (Hc & HB & Hρ & HD & Hk & Hv & HT & HN & HK). set (θ := x * ma_θ_scale m) in *.
  assert (N1 : -1 <> 0) by lra. assert (S1 : (-1) ^ 2 = 1) by ring.
  pose proof (w_Z3 p (-1) 1 N1 HB HD m S1 Hk) as E3. pose proof (w_Z4 θ p (-1) 1 S1) as E4. pose proof (w_a (-1) 1 m S1 eq_refl) as Ea.
  pose proof (w_coef θ p (-1) 1 N1 HB HD m S1 eq_refl Hk) as EK.
  unfold mod_regular. change (x * ma_θ_scale (mod_rescaled (-1) 1 m)) with θ. rewrite EK, (u_φ p (-1) 1 N1 HB).
  unfold mod_determinant, mod_denominator. rewrite E3, E4, Ea. change (kepler (mod_rescaled (-1) 1 m)) with (kepler m). change (ma_norm_kepler_sq (mod_rescaled (-1) 1 m)) with (ma_norm_kepler_sq m).
  change (rescaled (-1) 1 p iρ) with (1 * p iρ). rewrite Rmult_1_l. change (rescaled (-1) 1 p iv_φ) with (p iv_φ). change (rescaled (-1) 1 p iv_r) with (p iv_r).
  change (rescaled (-1) 1 p iη_O) with (p iη_O). change (rescaled (-1) 1 p iη_A) with (p iη_A).
  split; [exact Hc|]. split; [|split; [exact Hρ|split; [|split; [exact Hk|split; [exact Hv|split; [exact HT|split; [exact HN|exact HK]]]]]]].
  - unfold B_nonzero in *. change (0 < (-1 * p iB_r) ^ 2 + (-1 * p iB_φ) ^ 2 + (-1 * p iB_θ) ^ 2).
    replace ((-1 * p iB_r) ^ 2 + (-1 * p iB_φ) ^ 2 + (-1 * p iB_θ) ^ 2) with (p iB_r ^ 2 + p iB_φ ^ 2 + p iB_θ ^ 2) by ring. exact HB.
  - replace ((hall_sign (-1) * unit p iB_φ) ^ 2) with (unit p iB_φ ^ 2); [exact HD|]. destruct (hall_cases (-1) N1) as [(_ & ->)|(_ & ->)]; ring.
Qed.
(** The curve with the field reversed solves the system with the Hall effect reversed. *)
Theorem C145_mod_solutions : forall m y a b, ma_use_E_r m = false -> mod_solves m y a b -> mod_solves (mod_rescaled (-1) 1 m) (fun t => rescaled (-1) 1 (y t)) a b.
Proof.
  intros m y a b NE H x Hx. destruct (H x Hx) as (S & Reg). split; [|apply reversed_regular; exact Reg].
  intros sr root. destruct (S sr root) as (d & q & r & θ & E & D).
  destruct (C145_mod_sign sr m root x (y x) d q r θ NE Reg E) as (d' & q' & r' & E' & Q). exists d', q', r', θ. split; [exact E'|].
  intros i Hi. rewrite (Q i Hi). unfold ODE_LEN in *.
  assert (Dm : forall j k, (j < 11)%nat -> derivable_pt_lim (fun t => k * y t j) x (k * d j)).
  { intros j k Hj. apply (derivable_pt_lim_scal (fun t => y t j)). apply D. exact Hj. }
  do 11 (destruct i as [|i]; [cbn [rescaled]; first [apply Dm; unfold iB_r, iB_φ, iB_θ, iv_r, iv_φ, iv_θ, iρ, iB_φ_prime, iη_O, iη_A, iη_H; lia
    | apply D; unfold iB_r, iB_φ, iB_θ, iv_r, iv_φ, iv_θ, iρ, iB_φ_prime, iη_O, iη_A, iη_H; lia]|]). lia.
Qed.
Print Assumptions C145_mod_solutions.
Example C145_mod_solutions_nonvacuous : ma_use_E_r m_tor = false /\ mod_solves m_tor y_tor 0 1 /\ mod_solves (mod_rescaled (-1) 1 m_tor) (fun t => rescaled (-1) 1 (y_tor t)) 0 1.
Proof. split; [reflexivity|]. split; [exact m_tor_solves|]. apply C145_mod_solutions; [reflexivity|exact m_tor_solves]. Qed.
