(** C63 and C86: the derivatives of the velocities that the hydrostatic methods return. *)
From Coq Require Import Reals Lra.
From Verif Require Import Lib_Deriv Model_Index Model_Deriv Model_Hydro Model_ModHydro Props_Hydro.
Open Scope R_scope.

(** Where v_φ' is the code's, the derivative of the azimuthal momentum equation v_r v_φ/2 = a_0 Z_4/ρ gives the code's v_r' (mod_hydro.py:296-307). *)
Theorem C63_v_r : forall (a_0 k X : R) (B_r B_φ B_θ v_r v_φ ρ B_φ_prime : R -> R) (θ B_r' B_φ' B_θ' v_r' v_φ' ρ' B_φ'' Z_2 : R),
  derivable_pt_lim B_r θ B_r' -> derivable_pt_lim B_φ θ B_φ' -> derivable_pt_lim B_θ θ B_θ' -> derivable_pt_lim v_r θ v_r' ->
  derivable_pt_lim v_φ θ v_φ' -> derivable_pt_lim ρ θ ρ' -> derivable_pt_lim B_φ_prime θ B_φ'' -> B_φ_prime θ = B_φ' ->
  (forall t, v_r t * v_φ t / 2 = a_0 * Z_4_func (B_θ t) (B_r t) (B_φ t) (B_φ_prime t) t / ρ t) ->
  v_φ' = Model_ModHydro.deriv_v_φ_func Z_2 v_r' B_φ'' k (v_r θ) X (B_θ θ) -> ρ θ <> 0 -> v_φ θ <> 0 -> cos θ <> 0 -> k <> 0 ->
  let Z_4 := Z_4_func (B_θ θ) (B_r θ) (B_φ θ) B_φ' θ in
  v_φ θ ^ 2 * ρ θ * k - Z_4 * a_0 * v_r θ <> 0 ->
  v_r' = Model_ModHydro.deriv_v_r_func (Z_1_func θ a_0 (B_φ θ) (B_θ θ) (B_r θ) (ρ θ) B_r' B_φ' B_θ' (v_φ θ) ρ') Z_2 Z_4 (v_φ θ) (ρ θ) a_0 B_φ'' (B_θ θ) k X (v_r θ).
Proof.
  intros a_0 k X B_r B_φ B_θ v_r v_φ ρ B_φ_prime θ B_r' B_φ' B_θ' v_r' v_φ' ρ' B_φ'' Z_2 D1 D2 D3 D4 D5 D6 D7 E0 Hall E1 Hρ Hv Hc Hk Z_4 Hne.
  assert (N : v_φ θ ^ 2 * ρ θ + 2 * a_0 * 0 * Z_4 <> 0).
  { replace (v_φ θ ^ 2 * ρ θ + 2 * a_0 * 0 * Z_4) with (v_φ θ * v_φ θ * ρ θ) by ring. repeat apply Rmult_integral_contrapositive_currified; assumption. }
  pose proof (C86_v_r a_0 B_r B_φ B_θ v_r v_φ ρ B_φ_prime θ B_r' B_φ' B_θ' v_r' v_φ' ρ' B_φ'' v_φ' 0 D1 D2 D3 D4 D5 D6 D7 E0 Hall ltac:(ring) Hρ Hv Hc N) as H.
  fold Z_4 in H. unfold Model_Hydro.deriv_v_r_func in H. set (Z_1 := Z_1_func _ _ _ _ _ _ _ _ _ _ _) in *. clearbody Z_1 Z_4.
  assert (M : v_r' * (v_φ θ ^ 2 * ρ θ) = Z_1 * v_φ θ ^ 2 * ρ θ + 2 * a_0 * (v_φ θ * B_θ θ * B_φ'' - v_φ' * Z_4)).
  { rewrite H at 1. field. split; assumption. }
  rewrite E1 in M. unfold Model_ModHydro.deriv_v_φ_func in M. unfold Model_ModHydro.deriv_v_r_func.
  apply Rmult_eq_reg_r with (v_φ θ ^ 2 * ρ θ * k - Z_4 * a_0 * v_r θ); [|exact Hne]. rewrite div_cancel by exact Hne.
  replace (v_r' * (v_φ θ ^ 2 * ρ θ * k - Z_4 * a_0 * v_r θ)) with (v_r' * (v_φ θ ^ 2 * ρ θ) * k - v_r' * Z_4 * a_0 * v_r θ) by ring.
  rewrite M. field. exact Hk.
Qed.

Section Balance.
Variables (a_0 k : R) (B_φ B_φ_prime B_θ v_r ρ η_O η_A η_H b_r b_φ b_θ X : R -> R).
(** The resistance to the azimuthal current and what drives it. *)
Definition resistance_φ (t : R) : R := η_O t + η_A t * (1 - b_φ t ^ 2).
Definition drive (t : R) : R := v_r t * B_θ t - B_φ t * (η_A t * b_φ t * (b_r t * tan t - b_θ t / 4) + η_H t * (b_r t / 4 + b_θ t * tan t)).
(** The radial force balance, linear in the departure of v_φ from the Keplerian velocity [k] (C63_velocities: momentum_r_linear), with B_r' replaced. *)
Definition balanced_v_φ (t : R) : R :=
  k - (5 / 2 + v_r t ^ 2 / 2 + a_0 / ρ t * (B_φ t ^ 2 / 4 - X t * B_θ t * B_φ_prime t - B_θ t / resistance_φ t * drive t)) / (2 * k).
Variables (θ B_φ'' B_θ' v_r' ρ' η_O' η_A' η_H' b_r' b_φ' b_θ' X' : R).
Hypotheses (D1 : derivable_pt_lim B_φ θ (B_φ_prime θ)) (D2 : derivable_pt_lim B_φ_prime θ B_φ'') (D3 : derivable_pt_lim B_θ θ B_θ') (D4 : derivable_pt_lim v_r θ v_r')
  (D5 : derivable_pt_lim ρ θ ρ') (D6 : derivable_pt_lim η_O θ η_O') (D7 : derivable_pt_lim η_A θ η_A') (D8 : derivable_pt_lim η_H θ η_H')
  (D9 : derivable_pt_lim b_r θ b_r') (D10 : derivable_pt_lim b_φ θ b_φ') (D11 : derivable_pt_lim b_θ θ b_θ') (D12 : derivable_pt_lim X θ X')
  (Hρ : ρ θ <> 0) (Hc : cos θ <> 0) (HR : resistance_φ θ <> 0) (Hk : k <> 0).
(** The derivative of v_φ, given the derivative of X: the code's, but a_0/ρ is left out in the term with B_φ'' and the term with v_r' is left out of what
    drives the azimuthal current (mod_hydro.py:285-293). *)
Theorem C63_v_φ_exact : derivable_pt_lim balanced_v_φ θ
  (Model_ModHydro.deriv_v_φ_func
     (Model_ModHydro.Z_2_func θ a_0 (X θ) (v_r θ) (B_φ θ) (B_θ θ) (ρ θ) (η_A θ) (η_O θ) (η_H θ) (b_φ θ) (b_r θ) (b_θ θ) X' (B_φ_prime θ) B_θ' b_θ' b_φ' b_r' η_O' η_A' η_H' ρ' k)
     v_r' B_φ'' k (v_r θ) (X θ) (B_θ θ)
   + ((a_0 / ρ θ - 1) * B_φ'' * B_θ θ * X θ + a_0 / ρ θ * B_θ θ ^ 2 * v_r' / resistance_φ θ) / (2 * k)).
Proof.
  unfold balanced_v_φ, drive. unfold resistance_φ in *. eapply dpl_eq; [dlim; try assumption; try discrR|].
  all: try (unfold Model_ModHydro.deriv_v_φ_func, Model_ModHydro.Z_2_func, Rsqr; nrm; field; repeat split; assumption).
  apply Rmult_integral_contrapositive_currified; [discrR|exact Hk].
Qed.
End Balance.

(** A twisted field that accelerates the gas outwards meets the hypotheses of C63_v_r at the midplane. *)
Example C63_v_r_nonvacuous : let v_r := fun t => 2 * (cos t * cos t - sin t * tan t * cos t) in
  derivable_pt_lim (fun _ => 0) 0 0 /\ derivable_pt_lim sin 0 1 /\ derivable_pt_lim cos 0 0 /\ derivable_pt_lim v_r 0 0 /\ cos 0 = 1 /\ (forall t, v_r t * 1 / 2 = 1 * Z_4_func (cos t) 0 (sin t) (cos t) t / 1) /\ 0 = Model_ModHydro.deriv_v_φ_func 0 0 0 10 (v_r 0) 0 1 /\
  1 ^ 2 * 1 * 10 - Z_4_func (cos 0) 0 (sin 0) 1 0 * 1 * v_r 0 = 8.
Proof.
  cbv zeta. assert (D1 : derivable_pt_lim sin 0 1) by (eapply dpl_eq; [apply derivable_pt_lim_sin|apply cos_0]).
  assert (D2 : derivable_pt_lim cos 0 0) by (eapply dpl_eq; [apply derivable_pt_lim_cos|rewrite sin_0; ring]).
  repeat split; auto using dpl_const, cos_0.
  - eapply dpl_eq; [dlim; try eassumption; rewrite cos_0; lra|]. rewrite sin_0, cos_0, tan_0. unfold Rsqr. lra.
  - intros t. unfold Z_4_func. field.
  - unfold Model_ModHydro.deriv_v_φ_func. field.
  - unfold Z_4_func. rewrite sin_0, cos_0, tan_0. field.
Qed.
(** At the midplane of a field that bends and twists, with all three kinds of diffusion, what the code leaves out is not nothing: the derivative it
    returns is 0 and the true one is not. *)
Example C63_v_φ_nonvacuous : derivable_pt_lim (balanced_v_φ 1 10 (fun _ => 0) (fun _ => 0) (fun _ => 1) (fun t => t) (fun _ => 1) (fun _ => 1) (fun _ => 1) (fun _ => 1)
    (fun _ => 0) (fun _ => 0) (fun _ => 1) (fun _ => 1 / 2)) 0 (1 / 40) /\
  Model_ModHydro.deriv_v_φ_func (Model_ModHydro.Z_2_func 0 1 (1 / 2) 0 0 1 1 1 1 1 0 0 1 0 0 0 0 0 0 0 0 0 0 10) 1 0 10 0 (1 / 2) 1 = 0.
Proof.
  split; [|unfold Model_ModHydro.deriv_v_φ_func, Model_ModHydro.Z_2_func; rewrite tan_0; field].
  eapply dpl_eq; [apply (C63_v_φ_exact 1 10 (fun _ => 0) (fun _ => 0) (fun _ => 1) (fun t => t) (fun _ => 1) (fun _ => 1) (fun _ => 1) (fun _ => 1)
    (fun _ => 0) (fun _ => 0) (fun _ => 1) (fun _ => 1 / 2) 0 0 0 1 0 0 0 0 0 0 0 0); try apply dpl_const; try apply derivable_pt_lim_id; unfold resistance_φ; try rewrite cos_0; lra|].
  unfold resistance_φ, Model_ModHydro.deriv_v_φ_func, Model_ModHydro.Z_2_func. rewrite tan_0. field.
Qed.

(** C86: Z_2 of the hydrostatic method (hydrostatic.py:169-223) is to be the derivative along the flow, for constant v_r, of the root of the quadratic. *)
Section Along.
Variables (K a_0 v_r : R) (B_r B_φ B_θ ρ η_O η_A η_H b_r b_φ b_θ X : R -> R) (θ B_r' B_φ' B_θ' ρ' η_O' η_A' η_H' b_r' b_φ' b_θ' X' : R).
Definition b_along (t : R) : R := b_func (X t) v_r.
Definition c_along (t : R) : R := c_func t K a_0 (X t) v_r (B_φ t) (B_θ t) (B_r t) (ρ t) (η_A t) (η_O t) (η_H t) (b_φ t) (b_r t) (b_θ t).
Definition root_along (t : R) : R := (- b_along t + sqrt (b_along t ^ 2 - 4 * c_along t)) / 2.
Hypotheses (D1 : derivable_pt_lim B_r θ B_r') (D2 : derivable_pt_lim B_φ θ B_φ') (D3 : derivable_pt_lim B_θ θ B_θ')
  (D5 : derivable_pt_lim ρ θ ρ') (D6 : derivable_pt_lim η_O θ η_O') (D7 : derivable_pt_lim η_A θ η_A') (D8 : derivable_pt_lim η_H θ η_H')
  (D9 : derivable_pt_lim b_r θ b_r') (D10 : derivable_pt_lim b_φ θ b_φ') (D11 : derivable_pt_lim b_θ θ b_θ') (D12 : derivable_pt_lim X θ X')
  (Hρ : ρ θ <> 0) (Hc : cos θ <> 0) (HR : η_O θ + η_A θ * (1 - b_φ θ ^ 2) <> 0) (Hs : 0 < b_along θ ^ 2 - 4 * c_along θ).
(** How far it is from it: v_r² X X' has half its factor, and the sign of b_θ/4, or of b_r/4, is wrong in three of the four copies of what drives the
    azimuthal current. *)
Theorem C86_Z_2_exact : let D := η_O θ + η_A θ * (1 - b_φ θ ^ 2) in let D' := η_O' + η_A' * (1 - b_φ θ ^ 2) - 2 * η_A θ * b_φ θ * b_φ' in
  let w := B_φ θ * η_A θ * b_φ θ * b_θ θ / 2 in
  derivable_pt_lim root_along θ
  (Model_Hydro.Z_2_func θ a_0 (X θ) v_r (B_φ θ) (B_θ θ) (B_r θ) (ρ θ) (η_A θ) (η_O θ) (η_H θ) (b_φ θ) (b_r θ) (b_θ θ) X' B_r' B_φ' B_θ' ρ' (b_along θ) (c_along θ)
     b_θ' b_φ' b_r' η_O' η_A' η_H' +
   (v_r ^ 2 * X θ * X' / 16 - a_0 * ρ' / ρ θ ^ 2 * (B_θ θ / D) * w + a_0 / ρ θ * ((B_θ' * D - B_θ θ * D') / D ^ 2) * w
    + a_0 / ρ θ * (B_θ θ / D) * B_φ' * (η_A θ * b_φ θ * b_θ θ - η_H θ * b_r θ) / 2) / sqrt (b_along θ ^ 2 - 4 * c_along θ)).
Proof.
  cbv zeta.
  assert (Esec : sec θ ^ 2 = 1 + tan θ ^ 2).
  { unfold sec, tan. pose proof (sin2_cos2 θ) as S. unfold Rsqr in S.
    transitivity ((sin θ * sin θ + cos θ * cos θ) / cos θ ^ 2); [rewrite S; field; assumption | field; assumption]. }
  assert (Db : derivable_pt_lim b_along θ (- X' * v_r / 2)) by (unfold b_along, b_func; eapply dpl_eq; [dlim; try eassumption; try discrR|]; unfold Rsqr; field).
  set (Z := fun b c => Model_Hydro.Z_2_func θ a_0 (X θ) v_r (B_φ θ) (B_θ θ) (B_r θ) (ρ θ) (η_A θ) (η_O θ) (η_H θ) (b_φ θ) (b_r θ) (b_θ θ) X' B_r' B_φ' B_θ' ρ' b c
     b_θ' b_φ' b_r' η_O' η_A' η_H').
  assert (EZ : forall b c, Z b c = v_r * X' / 4 + (Z 1 0 - v_r * X' / 4) / sqrt (b ^ 2 - 4 * c)).
  { intros b c. unfold Z, Model_Hydro.Z_2_func. replace (1 ^ 2 - 4 * 0) with 1 by ring. rewrite sqrt_1. unfold Rdiv. rewrite Rinv_1. ring. }
  set (w := B_φ θ * η_A θ * b_φ θ * b_θ θ / 2). set (D := η_O θ + η_A θ * (1 - b_φ θ ^ 2)) in *. set (D' := η_O' + η_A' * (1 - b_φ θ ^ 2) - 2 * η_A θ * b_φ θ * b_φ').
  set (N := - a_0 * ρ' / ρ θ ^ 2 * (B_θ θ / D) * w + a_0 / ρ θ * ((B_θ' * D - B_θ θ * D') / D ^ 2) * w + a_0 / ρ θ * (B_θ θ / D) * B_φ' * (η_A θ * b_φ θ * b_θ θ - η_H θ * b_r θ) / 2).
  assert (Dc : derivable_pt_lim c_along θ (- (Z 1 0 - v_r * X' / 4 - v_r ^ 2 * X θ * X' / 16 + N))).
  { unfold c_along, c_func. eapply dpl_eq; [dlim; try eassumption; try discrR|]. unfold Z, Model_Hydro.Z_2_func, N, D, D', w. rewrite Esec.
    replace (1 ^ 2 - 4 * 0) with 1 by ring. rewrite sqrt_1. unfold Rsqr. nrm. field. split; assumption. }
  change (derivable_pt_lim root_along θ (Z (b_along θ) (c_along θ) + (v_r ^ 2 * X θ * X' / 16 - a_0 * ρ' / ρ θ ^ 2 * (B_θ θ / D) * w + a_0 / ρ θ * ((B_θ' * D - B_θ θ * D') / D ^ 2) * w
    + a_0 / ρ θ * (B_θ θ / D) * B_φ' * (η_A θ * b_φ θ * b_θ θ - η_H θ * b_r θ) / 2) / sqrt (b_along θ ^ 2 - 4 * c_along θ))).
  replace (v_r ^ 2 * X θ * X' / 16 - a_0 * ρ' / ρ θ ^ 2 * (B_θ θ / D) * w + a_0 / ρ θ * ((B_θ' * D - B_θ θ * D') / D ^ 2) * w
    + a_0 / ρ θ * (B_θ θ / D) * B_φ' * (η_A θ * b_φ θ * b_θ θ - η_H θ * b_r θ) / 2) with (v_r ^ 2 * X θ * X' / 16 + N) by (unfold N, Rdiv; ring).
  rewrite EZ. clearbody N. clear EZ. generalize dependent (Z 1 0). intros z Dc. clear Z.
  set (s := sqrt (b_along θ ^ 2 - 4 * c_along θ)). assert (S0 : s <> 0) by (apply Rgt_not_eq, sqrt_lt_R0; exact Hs).
  unfold root_along. eapply dpl_eq; [dlim; try eassumption; try discrR|]. fold s. nrm. unfold Rsqr. rewrite pow_1. change (b_along θ) with (- X θ * v_r / 2). field. exact S0.
Qed.
End Along.
(** The toroidal field grows from zero at the midplane, the field leans and there is a Hall effect: Z_2 has the wrong sign. *)
Example C86_Z_2_nonvacuous : let root := root_along 10 1 0 (fun _ => 1 / 2) (fun t => t) (fun _ => 1) (fun _ => 1) (fun _ => 1) (fun _ => 0) (fun _ => 1) (fun _ => 1 / 2) (fun _ => 0)
    (fun _ => 1) (fun _ => 0) in
  derivable_pt_lim root 0 (- (1 / 8) / sqrt 30) /\
  Model_Hydro.Z_2_func 0 1 0 0 0 1 (1 / 2) 1 0 1 1 0 (1 / 2) 1 0 0 1 0 0 0 (- (15 / 2)) 0 0 0 0 0 0 = 1 / 8 / sqrt 30.
Proof.
  cbv zeta. assert (S : 0 < sqrt 30) by (apply sqrt_lt_R0; lra).
  assert (Eb : b_along 0 (fun _ => 0) 0 = 0) by (unfold b_along, b_func; field).
  assert (Ec : c_along 10 1 0 (fun _ => 1 / 2) (fun t => t) (fun _ => 1) (fun _ => 1) (fun _ => 1) (fun _ => 0) (fun _ => 1) (fun _ => 1 / 2) (fun _ => 0) (fun _ => 1) (fun _ => 0) 0
    = - (15 / 2)) by (unfold c_along, c_func; rewrite tan_0; field).
  assert (EZ : Model_Hydro.Z_2_func 0 1 0 0 0 1 (1 / 2) 1 0 1 1 0 (1 / 2) 1 0 0 1 0 0 0 (- (15 / 2)) 0 0 0 0 0 0 = 1 / 8 / sqrt 30).
  { unfold Model_Hydro.Z_2_func. rewrite tan_0. replace (0 ^ 2 - 4 * - (15 / 2)) with 30 by field. field. lra. }
  split; [|exact EZ]. eapply dpl_eq.
  - apply (C86_Z_2_exact 10 1 0 (fun _ => 1 / 2) (fun t => t) (fun _ => 1) (fun _ => 1) (fun _ => 1) (fun _ => 0) (fun _ => 1) (fun _ => 1 / 2) (fun _ => 0) (fun _ => 1) (fun _ => 0)
      0 0 1 0 0 0 0 0 0 0 0 0); try apply dpl_const; try apply derivable_pt_lim_id; try rewrite cos_0; try lra. rewrite Eb, Ec. lra.
  - cbv zeta. rewrite Eb, Ec, EZ. replace (0 ^ 2 - 4 * - (15 / 2)) with 30 by field. field. lra.
Qed.
