(** Symmetries of the disc: C115 (the mirror image in the midplane), C116 (field reversal, sense of rotation and units) and
    C117 (the sense of rotation in the Taylor coefficients). *)
From Coq Require Import Reals Lra Lia List Bool.
From Verif Require Import Lib_Deriv Model_Index Model_Deriv Model_Midplane Model_Ode Spec_MHD Spec_Ode Spec_Symmetry
  Proofs_Ode Proofs_Symmetry Witness_Ode.
Import ListNotations.
Open Scope R_scope.

Lemma dpl_neg_arg : forall f x l, derivable_pt_lim f (- x) l -> derivable_pt_lim (fun t => f (- t)) x (- l).
Proof.
  intros f x l H. replace (- l) with (l * -1) by ring.
  apply (derivable_pt_lim_comp (fun t => - t) f); [|exact H].
  eapply dpl_eq; [apply dpl_opp, dpl_id | ring].
Qed.
Lemma dpl_scal : forall k f x l, derivable_pt_lim f x l -> derivable_pt_lim (fun t => k * f t) x (k * l).
Proof. intros. apply (derivable_pt_lim_scal f k x l). assumption. Qed.
Lemma accepted_if : forall o x p, oa_derivs_post_solution o = true \/ (0 <= p iρ /\ 0 <= p iv_θ) ->
  exists e, rhs_equation o x p = Rhs_ok (fst (rhs_derivs o (x * oa_θ_scale o) p)) e.
Proof.
  intros o x p H. apply rhs_ok_iff with (x := x) in H. destruct H as (d & e & H). exists e. rewrite H.
  rewrite (rhs_ok_derivs _ _ _ _ _ H). reflexivity.
Qed.

(** ** C115.  The other half of the disc *)
(** The mirror image of a solution solves the same system below the midplane, Taylor terms included; an interpolated v_θ' has to
    be even. *)
Theorem C115_mirror : forall o y x, (forall f, oa_deriv_v_θ_func o = Some f -> forall t, f (- t) = f t) ->
  solves_at o y (- x) -> solves_at (unchecked o) (fun t => mirror (y (- t))) x.
Proof.
  intros o y x F (d & e & E & D).
  pose proof (rhs_ok_derivs _ _ _ _ _ E) as Ed.
  destruct (accepted_if (unchecked o) x (mirror (y (- x)))) as (e' & E'); [left; reflexivity|].
  exists (fst (rhs_derivs (unchecked o) (x * oa_θ_scale (unchecked o)) (mirror (y (- x))))), e'. split; [exact E'|].
  intros i Hi.
  pose proof (mirror_rhs o (- x * oa_θ_scale o) (y (- x)) F i Hi) as M.
  change (rhs_derivs (unchecked (for_disc mirror o))) with (rhs_derivs (unchecked o)) in M.
  replace (- (- x * oa_θ_scale o)) with (x * oa_θ_scale (unchecked o)) in M by (simpl; ring).
  rewrite <- Ed in M. rewrite M.
  unfold ODE_LEN in Hi. clear M E' E Ed.
  do 11 (destruct i as [|i];
    [cbv beta iota delta [mirror];
     match goal with
     | |- derivable_pt_lim (fun t => - y (- t) ?j) _ _ => apply dpl_opp, (dpl_neg_arg (fun t => y t j)), D
     | |- derivable_pt_lim (fun t => y (- t) ?j) _ _ => apply (dpl_neg_arg (fun t => y t j)), D
     end; unfold ODE_LEN, iB_r, iB_φ, iB_θ, iv_r, iv_φ, iv_θ, iρ, iB_φ_prime, iη_O, iη_A, iη_H; lia|]). lia.
Qed.
Print Assumptions C115_mirror.
Theorem C115_lower_half : forall o y hi, (forall f, oa_deriv_v_θ_func o = Some f -> forall t, f (- t) = f t) ->
  solves_on o y 0 hi -> solves_on (unchecked o) (fun t => mirror (y (- t))) (- hi) 0.
Proof. intros o y hi F H x Hx. apply C115_mirror; [exact F|]. apply H. lra. Qed.
Print Assumptions C115_lower_half.
(** The state that every solution starts from is its own mirror image, so the two halves meet. *)
Theorem C115_midplane : forall inp c, define_conditions inp = Some c -> forall i, mirror (c_init_con c) i = c_init_con c i.
Proof.
  intros inp c. unfold define_conditions. destruct (v_φ_boundary_func _ _ _ _ _ _); [|discriminate].
  intros H. injection H as <-. intros i. unfold mirror, c_init_con.
  do 11 (destruct i as [|i]; [destruct (in_use_E_r inp); cbn; ring|]). reflexivity.
Qed.
Print Assumptions C115_midplane.
(** The step off the midplane taken downwards arrives at the mirror image of where it arrives upwards. *)
Theorem C115_taylor : forall inp c, define_conditions inp = Some c -> forall angles t η s E i,
  ts_new_initial_conditions (taylor_jump angles (c_init_con c) (c_γ c) (c_a_0 c) (- t) η s E) i =
  mirror (ts_new_initial_conditions (taylor_jump angles (c_init_con c) (c_γ c) (c_a_0 c) t η s E)) i.
Proof.
  intros inp c Hc angles t η s E i. pose proof (C115_midplane inp c Hc) as M.
  unfold taylor_jump, ts_new_initial_conditions, rad_to_scaled_num.
  set (p := c_init_con c) in *. clearbody p. 
  set (f2 := get_taylor_second_order _ _ _ _ _). set (f1 := get_taylor_first_order _ _ _). set (f3 := get_taylor_third_order _ _ _ _ _).
  assert (Z1 : forall j, j <> iB_r -> j <> iB_φ -> j <> iv_θ -> f1 j = 0 /\ f3 j = 0).
  { intros j J0 J1 J2. unfold iB_r, iB_φ, iv_θ in *. unfold f1, f3, get_taylor_first_order, get_taylor_third_order, upd, iB_r, iB_φ, iv_θ, zeros.
    destruct (Nat.eqb_spec j 5), (Nat.eqb_spec j 1), (Nat.eqb_spec j 0); try contradiction. split; reflexivity. }
  assert (Z2 : f2 iB_r = 0 /\ f2 iB_φ = 0 /\ f2 iv_θ = 0)
    by (unfold f2, get_taylor_second_order; destruct E; repeat split; reflexivity).
  clearbody f1 f2 f3. destruct Z2 as (Z2 & Z3 & Z4).
  assert (N : forall k : R, - t / s * k = - (t / s * k)) by (intros; unfold Rdiv; ring).
  pose proof (M iB_r) as M0. pose proof (M iB_φ) as M1. pose proof (M iv_θ) as M5.
  cbv beta iota delta [mirror iB_r iB_φ iv_θ] in M0, M1, M5.
  unfold mirror, iB_r, iB_φ, iB_θ, iv_r, iv_φ, iv_θ, iρ, iB_φ_prime, iη_O, iη_A, iη_H in *.
  set (u := t / s) in *. replace (- t / s) with (- u) by (unfold u, Rdiv; ring). clearbody u.
  do 11 (destruct i as [|i];
    [first [ rewrite Z2; lra | rewrite Z3; lra | rewrite Z4; lra
           | match goal with |- context [f1 ?j] => destruct (Z1 j) as (-> & ->); [lia | lia | lia | unfold Rdiv; ring] end ] |]).
  destruct (Z1 (S (S (S (S (S (S (S (S (S (S (S i))))))))))) ) as (-> & ->); [lia|lia|lia|]. unfold Rdiv; ring.
Qed.
Print Assumptions C115_taylor.
(** A whole solution above the midplane, and a curve with every component different from 0. *)
Example C115_nonvacuous : solves_on (o_int true) (y_int true) 0 1 /\
  (forall f, oa_deriv_v_θ_func (o_int true) = Some f -> forall t, f (- t) = f t) /\
  (exists y, y (- (- (1 / 2))) = p_ex /\ solves_at (o_ex true) y (- (- (1 / 2))) /\ oa_deriv_v_θ_func (o_ex true) = None /\
     forall i, (i < ODE_LEN)%nat -> p_ex i <> 0) /\
  exists c, define_conditions (mk_cond_input 1 1 (1 / 2) (1 / 4) 1 1 0 false 0 1 3) = Some c.
Proof.
  split; [apply y_int_solves|]. split; [intros f H; injection H as <-; reflexivity|]. split.
  - destruct (curve_ex true) as (y & Y & H & _). exists y. rewrite Ropp_involutive. split; [exact Y|]. split; [exact H|]. split; [reflexivity|].
    intros i Hi. unfold ODE_LEN in Hi. do 11 (destruct i as [|i]; [cbn; lra|]). lia.
  - unfold define_conditions, v_φ_boundary_func, v_φ_radicand. simpl.
    destruct (Rlt_dec _ 0) as [H|H]; [exfalso|eexists; reflexivity]. lra.
Qed.

(** ** C116.  The field reversed, the rotation reversed, other units *)
Theorem C116_field_reversed : forall o y x, oa_with_taylor o = false ->
  solves_at o y x -> solves_at (for_disc reversed o) (fun t => reversed (y t)) x.
Proof.
  intros o y x T (d & e & E & D).
  pose proof (rhs_ok_derivs _ _ _ _ _ E) as Ed.
  destruct (accepted_if (for_disc reversed o) x (reversed (y x))) as (e' & E').
  { apply rhs_ok_iff with (x := x). destruct (proj1 (rhs_ok_iff o x (y x)) (ex_intro _ d (ex_intro _ e E))) as [P|P];
    apply rhs_ok_iff; [left; exact P | right; exact P]. }
  eexists. exists e'. split; [exact E'|]. intros i Hi.
  pose proof (rev_rhs o (x * oa_θ_scale o) (y x) T i Hi) as M. rewrite <- Ed in M. eapply dpl_eq; [|symmetry; exact M]. clear M. unfold ODE_LEN in Hi. clear E' E Ed.
  do 11 (destruct i as [|i]; [cbv beta iota delta [reversed];
     first [ apply D; unfold ODE_LEN, iv_r, iv_φ, iv_θ, iρ, iη_O, iη_A; lia
           | apply dpl_opp, D; unfold ODE_LEN, iB_r, iB_φ, iB_θ, iB_φ_prime, iη_H; lia ] |]). lia.
Qed.
Print Assumptions C116_field_reversed.
Theorem C116_counter_rotating : forall o y x, oa_with_taylor o = false ->
  solves_at o y x -> solves_at (for_disc counter_rotating o) (fun t => counter_rotating (y t)) x.
Proof.
  intros o y x T (d & e & E & D).
  pose proof (rhs_ok_derivs _ _ _ _ _ E) as Ed.
  destruct (accepted_if (for_disc counter_rotating o) x (counter_rotating (y x))) as (e' & E').
  { apply rhs_ok_iff with (x := x). destruct (proj1 (rhs_ok_iff o x (y x)) (ex_intro _ d (ex_intro _ e E))) as [P|P];
    apply rhs_ok_iff; [left; exact P | right; exact P]. }
  eexists. exists e'. split; [exact E'|]. intros i Hi.
  pose proof (rot_rhs o (x * oa_θ_scale o) (y x) T i Hi) as M. rewrite <- Ed in M. eapply dpl_eq; [|symmetry; exact M]. clear M. unfold ODE_LEN in Hi. clear E' E Ed.
  do 11 (destruct i as [|i]; [cbv beta iota delta [counter_rotating];
     first [ apply D; unfold ODE_LEN, iB_r, iB_θ, iv_r, iv_θ, iρ, iη_O, iη_A; lia
           | apply dpl_opp, D; unfold ODE_LEN, iB_φ, iv_φ, iB_φ_prime, iη_H; lia ] |]). lia.
Qed.
Print Assumptions C116_counter_rotating.
Theorem C116_units : forall o y x λ μ, oa_with_taylor o = false -> 0 < λ -> 0 < μ ->
  solves_at o y x -> solves_at (args_in_units λ μ o) (fun t => in_units λ μ (y t)) x.
Proof.
  intros o y x λ μ T Hλ Hμ (d & e & E & D).
  pose proof (rhs_ok_derivs _ _ _ _ _ E) as Ed.
  destruct (accepted_if (args_in_units λ μ o) x (in_units λ μ (y x))) as (e' & E').
  { destruct (proj1 (rhs_ok_iff o x (y x)) (ex_intro _ d (ex_intro _ e E))) as [P|(P & Q)];
    [left; exact P | right; split; [|exact Q]]. change (0 <= μ * y x iρ). apply Rmult_le_pos; lra. }
  eexists. exists e'. split; [exact E'|]. intros i Hi.
  pose proof (uni_rhs o (x * oa_θ_scale o) (y x) λ μ T Hλ Hμ i Hi) as M. rewrite <- Ed in M. eapply dpl_eq; [|symmetry; exact M]. clear M. unfold ODE_LEN in Hi. clear E' E Ed.
  do 11 (destruct i as [|i]; [cbv beta iota delta [in_units];
     first [ apply D; unfold ODE_LEN, iv_r, iv_φ, iv_θ, iη_O, iη_A, iη_H; lia
           | apply dpl_scal, D; unfold ODE_LEN, iB_r, iB_φ, iB_θ, iB_φ_prime, iρ; lia ] |]). lia.
Qed.
Print Assumptions C116_units.
(** Reversing the field and the rotation together leaves the Hall diffusivity: only its sign relative to both matters. *)
Theorem C116_hall_sign : forall o y x, oa_with_taylor o = false -> solves_at o y x ->
  solves_at (for_disc counter_rotating (for_disc reversed o)) (fun t => counter_rotating (reversed (y t))) x /\
  forall t, counter_rotating (reversed (y t)) iη_H = y t iη_H.
Proof.
  intros o y x T H. split.
  - apply (C116_counter_rotating (for_disc reversed o) (fun t => reversed (y t))); [exact T|]. apply C116_field_reversed; assumption.
  - intros t. unfold counter_rotating, reversed, iη_H. ring.
Qed.
Print Assumptions C116_hall_sign.
Example C116_nonvacuous : exists y, y (1 / 2) = p_ex /\ solves_at (o_ex true) y (1 / 2) /\ oa_with_taylor (o_ex true) = false /\
  (forall i, (i < ODE_LEN)%nat -> p_ex i <> 0) /\ 0 < 2 /\ 0 < 3.
Proof.
  destruct (curve_ex true) as (y & Y & H & _). exists y. split; [exact Y|]. split; [exact H|]. split; [reflexivity|]. split; [|lra].
  intros i Hi. unfold ODE_LEN in Hi. do 11 (destruct i as [|i]; [cbn; lra|]). lia.
Qed.

(** ** C117.  The sense of rotation in the Taylor coefficients *)
(** The coefficients of a disc turning the other way round should be those of the disc, counter-rotated.  For this disc
    (γ = 1/4, a_0 = 1, v_r = -1, v_φ = 1, η_O = 1, no other diffusivity) v_r'' at the midplane differs. *)
Theorem C117_taylor_refuted : exists γ a_0 p η_derivs use_E_r, p iη_H = 0 /\ p iη_O = 1 /\ 0 < a_0 /\
  taylor_series γ a_0 p η_derivs use_E_r iv_r = 3 / 4 /\
  taylor_series γ a_0 (counter_rotating p) η_derivs use_E_r iv_r = 29 / 44.
Proof.
  exists (1/4), 1, (state 0 0 1 (-1) 1 0 1 (-1/2) 1 0 0), false, false.
  split; [reflexivity|]. split; [reflexivity|]. split; [lra|].
  unfold taylor_series, counter_rotating, state, upd. cbn.
  unfold dderiv_v_r_midplane, Y_6_func, Y_5_func, Y_4_func, Y_3_func, Y_2_func, Y_1_func, midplane_C_func, midplane_deriv_A_func, midplane_Z_5_func,
    dderiv_Z_5_midplane, dderiv_b_θ_midplane, dderiv_E_r_midplane, deriv_B_r_midplane_func, B_φ_prime_boundary_func.
  split; field.
Qed.
Print Assumptions C117_taylor_refuted.
(** What does turn with the disc: every first-order coefficient, and the second-order ones of ρ, B_θ, E_r and the
    diffusivities. *)
Theorem C117_taylor_partial : forall γ a_0 p η_derivs use_E_r,
  (forall i, get_taylor_first_order (counter_rotating p) γ a_0 i = counter_rotating (get_taylor_first_order p γ a_0) i) /\
  (forall i, In i (iρ :: iB_θ :: DIFFUSIVE_INDEXES) \/ (i = iE_r /\ use_E_r = true) ->
     get_taylor_second_order (counter_rotating p) γ a_0 η_derivs use_E_r i =
     counter_rotating (get_taylor_second_order p γ a_0 η_derivs use_E_r) i).
Proof.
  intros γ a_0 p η_derivs use_E_r. split.
  - intros i. unfold get_taylor_first_order.
    do 11 (destruct i as [|i]; [unfold upd, counter_rotating, zeros; cbn; unfold deriv_B_r_midplane_func, B_φ_prime_boundary_func, Rdiv; ring|]). reflexivity.
  - set (Bp := fun q : vec => B_φ_prime_boundary_func (q iv_r) (q iv_φ) a_0).
    set (Br := fun q : vec => deriv_B_r_midplane_func γ (Bp q) (q iη_H) (q iη_O + q iη_A) (q iv_r)).
    set (Y := fun q : vec => - Y_1_func (q iv_r) (q iv_φ) (Br q) (Bp q) γ a_0).
    set (S2 := fun q : vec => if η_derivs then dderiv_η_skw_midplane (Y q) (Br q) (Bp q) (1 - (γ + 3 / 4) * Br q) else 0).
    assert (P1 : Bp (counter_rotating p) = - Bp p) by (unfold Bp, B_φ_prime_boundary_func, counter_rotating; cbn; unfold Rdiv; ring).
    assert (P2 : Br (counter_rotating p) = Br p)
      by (unfold Br; rewrite P1; unfold deriv_B_r_midplane_func, counter_rotating; cbn; unfold Rdiv; ring).
    assert (P3 : Y (counter_rotating p) = Y p)
      by (unfold Y; rewrite P1, P2; unfold Y_1_func, counter_rotating; cbn; unfold Rdiv; ring).
    assert (P4 : S2 (counter_rotating p) = S2 p)
      by (unfold S2; rewrite P1, P2, P3; unfold dderiv_η_skw_midplane; destruct η_derivs; ring).
    intros i [[<-|[<-|[<-|[<-|[<-|[]]]]]] | [-> ->]].
    + transitivity (Y (counter_rotating p)); [destruct use_E_r; reflexivity|]. rewrite P3. destruct use_E_r; reflexivity.
    + transitivity (1 - (γ + 3 / 4) * Br (counter_rotating p)); [destruct use_E_r; reflexivity|]. rewrite P2. destruct use_E_r; reflexivity.
    + transitivity (S2 (counter_rotating p) * p iη_O); [destruct use_E_r; reflexivity|]. rewrite P4. destruct use_E_r; reflexivity.
    + transitivity (S2 (counter_rotating p) * p iη_A); [destruct use_E_r; reflexivity|]. rewrite P4. destruct use_E_r; reflexivity.
    + transitivity (S2 (counter_rotating p) * - p iη_H); [destruct use_E_r; reflexivity|]. rewrite P4, Ropp_mult_distr_r_reverse. destruct use_E_r; reflexivity.
    + transitivity (dderiv_E_r_midplane (counter_rotating p iv_r) (counter_rotating p iv_φ) (Br (counter_rotating p)) (Bp (counter_rotating p)) γ
        (counter_rotating p iη_H) (p iη_O + p iη_A)); [reflexivity|]. rewrite P1, P2.
      transitivity (- dderiv_E_r_midplane (p iv_r) (p iv_φ) (Br p) (Bp p) γ (p iη_H) (p iη_O + p iη_A)); [|reflexivity].
      unfold dderiv_E_r_midplane, counter_rotating, iv_r, iv_φ, iη_H. ring.
Qed.
Print Assumptions C117_taylor_partial.
