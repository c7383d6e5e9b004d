(** C146, the switch no_v_deriv: the velocities of the start are kept. *)
From Coq Require Import Reals Lra Lia.
From Verif Require Import Lib_Deriv Model_Index Model_Deriv Model_Ode Model_Hydro Model_ModHydro Spec_Ode Spec_HydroUnique Spec_ModHydroUnique Spec_HydroBudget
  Proofs_HydroUnique Proofs_ModHydroUnique Props_HydroUnique Props_ModHydroUnique Props_HydroInduction Props_Budget Props_HydroBudget Witness_Ode.
Open Scope R_scope.

(** With the switch no velocity changes along a solution, whatever the forces, so the azimuthal balance is kept only as far as the torque per mass stays the same;
    without it, and in the modified method, v_θ alone never changes. *)
Theorem C146_frozen : forall h y a b, hydro_solves h y a b -> forall x, a <= x <= b -> y x iv_θ = y a iv_θ /\
  (ha_no_v_deriv h = true -> y x iv_r = y a iv_r /\ y x iv_φ = y a iv_φ /\
     (excess_speed (ha_a_0 h) x (y x) = excess_speed (ha_a_0 h) a (y a) <-> balance_speed (ha_a_0 h) x (y x) = balance_speed (ha_a_0 h) a (y a))).
Proof.
  intros h y a b H x Hx. pose proof (hydro_derivs h a b y H) as D. split.
  - apply (constant (fun t => y t iv_θ) a b); [|exact Hx]. intros t Ht. exact (D t iv_θ Ht ltac:(idx)).
  - intros NV.
    assert (Er : y x iv_r = y a iv_r).
    { apply (constant (fun t => y t iv_r) a b); [|exact Hx]. intros t Ht. pose proof (D t iv_r Ht ltac:(idx)) as Q. unfold q_d, iv_r in Q. rewrite NV in Q. exact Q. }
    assert (Ef : y x iv_φ = y a iv_φ).
    { apply (constant (fun t => y t iv_φ) a b); [|exact Hx]. intros t Ht. pose proof (D t iv_φ Ht ltac:(idx)) as Q. unfold q_d, iv_φ in Q. rewrite NV in Q. exact Q. }
    split; [exact Er|]. split; [exact Ef|]. unfold excess_speed. rewrite Er. split; lra.
Qed.
Print Assumptions C146_frozen.
Theorem C146_mod_frozen : forall m y a b, mod_solves m y a b -> ma_use_E_r m = false -> forall x, a <= x <= b -> y x iv_θ = y a iv_θ.
Proof.
  intros m y a b H NE x Hx. pose proof (mod_derivs m a b NE y H) as D. apply (constant (fun t => y t iv_θ) a b); [|exact Hx]. intros t Ht. exact (D t iv_θ Ht ltac:(idx)).
Qed.
Print Assumptions C146_mod_frozen.
(** The magnetised midplane of C144 starts such a solution too. *)
Definition h_frozen : hydro_args := mk_hydro_args (ha_a_0 h_mid) (ha_norm_kepler_sq h_mid) (ha_init_con h_mid) (ha_θ_scale h_mid) (ha_η_derivs h_mid) (ha_store_internal h_mid) true.
Example C146_frozen_nonvacuous : exists e y, 0 < e /\ hydro_solves h_frozen y 0 e /\ ha_no_v_deriv h_frozen = true /\ forall x, 0 <= x <= e -> y x iv_r = -1 /\ y x iv_φ = 2.
Proof.
  destruct (C136_through h_frozen 0 p_mid mid_regular) as (e & y & Pe & Y0 & Y1 & _).
  assert (H : hydro_solves h_frozen y 0 (e / 2)) by (intros x Hx; apply Y1; apply Rabs_def1; lra).
  exists (e / 2), y. split; [lra|]. split; [exact H|]. split; [reflexivity|]. intros x Hx.
  destruct (proj2 (C146_frozen h_frozen y 0 (e / 2) H x Hx) eq_refl) as (-> & -> & _). rewrite !Y0 by idx. split; reflexivity.
Qed.
Example C146_mod_frozen_nonvacuous : mod_solves m_tor y_tor 0 1 /\ ma_use_E_r m_tor = false.
Proof. split; [exact m_tor_solves|reflexivity]. Qed.
