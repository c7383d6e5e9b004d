(** C122: what the solver integrates is determined by where it starts. *)
From Coq Require Import Reals Lra Lia.
From Verif Require Import Model_Index Model_Deriv Model_Midplane Model_Ode Lib_Deriv Spec_MHD Spec_Ode Spec_Unique Spec_Symmetry
  Proofs_Ode Proofs_Unique Witness_Ode Props_Symmetry.
Open Scope R_scope.

(** Two regular solutions on [a, b] move apart, in either direction, at most exponentially. *)
Theorem C122_stays_close : forall o y z a b, a <= b -> interpolant_continuous o a b ->
  solves_from_to o y a b -> solves_from_to o z a b ->
  exists K, 0 <= K /\ forall s t, a <= s <= b -> a <= t <= b ->
    dist_sq (y t) (z t) <= dist_sq (y s) (z s) * exp (K * Rabs (t - s)).
Proof. intros o y z a b Hab Hi Hy Hz. exact (stays_close o y z a b Hab Hy Hz Hi). Qed.
Print Assumptions C122_stays_close.

Lemma dist_zero : forall p q, (forall i, (i < ODE_LEN)%nat -> p i = q i) -> dist_sq p q = 0.
Proof.
  intros p q H. unfold dist_sq, ODE_LEN in *. cbn [pred sum_f_R0].
  rewrite !H by lia. ring.
Qed.
(** Two regular solutions that agree at one angle agree at every angle, above it and below it. *)
Theorem C122_determined : forall o y z a b, a <= b -> interpolant_continuous o a b ->
  solves_from_to o y a b -> solves_from_to o z a b ->
  forall s, a <= s <= b -> (forall i, (i < ODE_LEN)%nat -> y s i = z s i) ->
  forall t, a <= t <= b -> forall i, (i < ODE_LEN)%nat -> y t i = z t i.
Proof.
  intros o y z a b Hab Hi Hy Hz s Hs E t Ht i Hl.
  destruct (C122_stays_close o y z a b Hab Hi Hy Hz) as (K & _ & H). specialize (H s t Hs Ht).
  rewrite (dist_zero _ _ E), Rmult_0_l in H. pose proof (slot_le (y t) (z t) i Hl) as L.
  assert (Z : (y t i - z t i) ^ 2 = 0) by (apply Rle_antisym; [lra|apply pow2_ge_0]).
  apply Rminus_diag_uniq. destruct (Req_dec (y t i - z t i) 0) as [|N]; [assumption|]. exfalso. exact (pow_nonzero _ 2 N Z).
Qed.
Print Assumptions C122_determined.

(** So a solution that runs through the midplane is its own mirror image as soon as its state in the midplane is; v_θ' has to be
    computed, or interpolated by an even function. *)
Theorem C122_mirror_image : forall o y h, 0 <= h -> oa_derivs_post_solution o = true ->
  (forall f, oa_deriv_v_θ_func o = Some f -> forall t, f (- t) = f t) -> interpolant_continuous o (- h) h ->
  solves_from_to o y (- h) h -> (forall i, (i < ODE_LEN)%nat -> mirror (y 0) i = y 0 i) ->
  forall t, - h <= t <= h -> forall i, (i < ODE_LEN)%nat -> y (- t) i = mirror (y t) i.
Proof.
  intros o y h Hh Hp Hf Hi Hy H0 t Ht i Hl.
  assert (U : unchecked o = o) by (destruct o; cbn in Hp; subst; reflexivity).
  assert (Hz : solves_from_to o (fun x => mirror (y (- x))) (- h) h).
  { intros x Hx. destruct (Hy (- x) ltac:(lra)) as (A & B). split.
    - pose proof (C115_mirror o y x Hf A) as M. rewrite U in M. exact M.
    - unfold regular, B_nonzero in *. unfold mirror. cbn [iB_r iB_φ iB_θ iv_r iv_φ iv_θ iρ iη_O iη_A iη_H] in *.
      replace (- x * oa_θ_scale o) with (- (x * oa_θ_scale o)) in B by ring. rewrite cos_neg in B.
      destruct B as (B1 & B2 & B3 & B4 & B5 & B6 & B7 & B8).
      split; [exact B1|]. split; [unfold iB_r, iB_φ, iB_θ in *; replace ((- y (- x)%R 0%nat) ^ 2 + (- y (- x)%R 1%nat) ^ 2 + y (- x)%R 2%nat ^ 2)
        with (y (- x)%R 0%nat ^ 2 + y (- x)%R 1%nat ^ 2 + y (- x)%R 2%nat ^ 2) by ring; exact B2|].
      split; [exact B3|]. split; [exact B4|]. split; [exact B5|]. split; [exact B6|]. split.
      + intros T. specialize (B7 T). intros Z. apply B7. unfold iv_θ in *. lra.
      + intros T. specialize (B8 T). unfold iv_θ in *. intros Z. apply B8. rewrite <- Z. ring. }
  pose proof (C122_determined o (fun x => mirror (y (- x))) y (- h) h ltac:(lra) Hi Hz Hy 0 ltac:(lra)) as Q.
  cbv beta in Q. rewrite <- (Q ltac:(intros j Hj; rewrite Ropp_0; exact (H0 j Hj)) (- t) ltac:(lra) i Hl), Ropp_involutive. reflexivity.
Qed.
Print Assumptions C122_mirror_image.

(** Not empty: the solution of Witness_Ode.v is regular from 0 to 1, so it is the only one that starts like it; and a solution in
    Taylor mode that runs through the midplane. *)
Lemma y_int_regular : forall b, solves_from_to (o_int b) (y_int b) 0 1.
Proof.
  intros b x Hx. assert (Hc : 0 < cos x) by (apply cos_gt_0; pose proof PI2_1; lra).
  split; [apply y_int_solves_at; exact Hc|]. assert (Hi : 0 < 1 / cos x) by (apply Rdiv_lt_0_compat; lra).
  unfold regular, B_nonzero. cbn [o_int oa_θ_scale oa_with_taylor oa_deriv_v_θ_func]. rewrite Rmult_1_r.
  unfold y_int, state, iB_r, iB_φ, iB_θ, iv_r, iv_φ, iv_θ, iρ, iη_O, iη_A, iη_H.
  assert (0 < (1 / cos x) ^ 2) by (apply sq_pos; lra).
  split; [lra|]. split; [lra|]. split; [lra|]. split; [destruct b; lra|]. split; [lra|]. split; [left; destruct b; lra|].
  split; [intros _; lra|discriminate].
Qed.
Example C122_nonvacuous : forall z, solves_from_to (o_int true) z 0 1 ->
  (forall i, (i < ODE_LEN)%nat -> z 0 i = y_int true 0 i) -> forall t, 0 <= t <= 1 -> z t iB_θ = 1 / cos t /\ z t iη_O = 1 / cos t.
Proof.
  intros z Hz E t Ht.
  assert (Hi : interpolant_continuous (o_int true) 0 1).
  { intros f Hf x _. injection Hf as <-. apply continuity_pt_const. intros u v. reflexivity. }
  pose proof (C122_determined (o_int true) z (y_int true) 0 1 ltac:(lra) Hi Hz (y_int_regular true) 0 ltac:(lra) E t Ht) as Q.
  split; rewrite Q by (unfold ODE_LEN, iB_θ, iη_O; lia); reflexivity.
Qed.

Definition o_mid : ode_args :=
  mk_ode_args (1 / 4) 1 100 (state 0 0 1 0 0 0 1 0 1 0 0) 1 true false true false None true.
Definition y_mid (t : R) : vec := state 0 0 (1 / cos t) 0 0 0 1 0 1 0 0.
Lemma y_mid_solves : solves_from_to o_mid y_mid (- 1) 1.
Proof.
  intros x Hx. assert (Hc : 0 < cos x) by (apply cos_gt_0; pose proof PI2_1; lra).
  assert (HI : derivable_pt_lim (fun t => 1 / cos t) x (1 / cos x * tan x)) by (apply dpl_inv_cos; lra).
  assert (Hi : 0 < 1 / cos x) by (apply Rdiv_lt_0_compat; lra).
  split.
  - destruct (accepted_if o_mid x (y_mid x)) as (e & He); [left; reflexivity|].
    change (oa_θ_scale o_mid) with 1 in He. rewrite Rmult_1_r in He.
    exists (fst (rhs_derivs o_mid x (y_mid x))), e. split; [exact He|].
    set (d := fst (rhs_derivs o_mid x (y_mid x))).
    assert (TS : taylor_series (1 / 4) 1 (state 0 0 1 0 0 0 1 0 1 0 0) false false iv_r = 0 /\
                 taylor_series (1 / 4) 1 (state 0 0 1 0 0 0 1 0 1 0 0) false false iv_φ = 0 /\
                 taylor_series (1 / 4) 1 (state 0 0 1 0 0 0 1 0 1 0 0) false false iρ = 0).
    { unfold taylor_series, B_φ_prime_boundary_func, deriv_B_r_midplane_func, dderiv_E_r_midplane, Y_1_func, dderiv_b_θ_midplane, midplane_C_func,
        midplane_deriv_A_func, midplane_Z_5_func, dderiv_Z_5_midplane, Y_2_func, Y_3_func, Y_4_func, Y_5_func, Y_6_func,
        dderiv_v_r_midplane, dderiv_v_φ_midplane, ddderiv_B_φ_midplane, ddderiv_B_r_midplane, ddderiv_v_θ_midplane.
      cbn. repeat split; field. }
    destruct TS as (T3 & T4 & T6).
    assert (Hd1 : d iB_φ = 0) by reflexivity.
    assert (Hd0 : d iB_r = 0) by (unfold d; rewrite rhs_B_r; fold d; rewrite Hd1; unfold deriv_B_r_func; simpl; unfold Rdiv; ring).
    assert (Hd2 : d iB_θ = 1 / cos x * tan x) by (unfold d; rewrite rhs_B_θ; simpl; ring).
    assert (Hd3 : d iv_r = 0) by (unfold d; rewrite rhs_v_r_taylor by reflexivity; cbn [o_mid oa_γ oa_a_0 oa_init_con oa_η_derivs oa_use_E_r]; rewrite T3; ring).
    assert (Hd4 : d iv_φ = 0) by (unfold d; rewrite rhs_v_φ_taylor by reflexivity; cbn [o_mid oa_γ oa_a_0 oa_init_con oa_η_derivs oa_use_E_r]; rewrite T4; ring).
    assert (Hd6 : d iρ = 0) by (unfold d; rewrite rhs_ρ_taylor by reflexivity; cbn [o_mid oa_γ oa_a_0 oa_init_con oa_η_derivs oa_use_E_r]; rewrite T6; ring).
    assert (Hd5 : d iv_θ = 0).
    { unfold d. rewrite rhs_v_θ by reflexivity. fold d. rewrite Hd0, Hd1. unfold deriv_v_θ_expr. simpl. unfold Rdiv. ring. }
    destruct (rhs_η o_mid x (y_mid x)) as (E8 & E9 & E10). fold d in E8, E9, E10. cbn [o_mid oa_η_derivs] in E8, E9, E10.
    assert (Hd7 : d iB_φ_prime = 0).
    { unfold d. rewrite rhs_B_φ_prime by reflexivity. fold d. unfold B_unit_derivs. cbv zeta. unfold dderiv_B_φ_soln.
      rewrite Hd0, Hd1, Hd4, Hd5, E9, E10. unfold C_func. simpl. unfold Rdiv. ring. }
    intros i Hl. unfold ODE_LEN in Hl. clear He. clearbody d.
    do 11 (destruct i as [|i];
      [cbv beta iota delta [y_mid state]; first [ eapply dpl_eq; [exact HI | symmetry; exact Hd2]
           | eapply dpl_eq; [apply dpl_const
             | symmetry; first [exact Hd0 | exact Hd1 | exact Hd3 | exact Hd4 | exact Hd5 | exact Hd6 | exact Hd7 | exact E8
                               | exact E9 | exact E10]] ] |]); lia.
  - assert (0 < (1 / cos x) ^ 2) by (apply sq_pos; lra).
    unfold regular, B_nonzero. cbn [o_mid oa_θ_scale oa_with_taylor oa_deriv_v_θ_func]. rewrite Rmult_1_r.
    unfold y_mid, state, iB_r, iB_φ, iB_θ, iv_r, iv_φ, iv_θ, iρ, iη_O, iη_A, iη_H.
    split; [lra|]. split; [lra|]. split; [lra|]. split; [lra|]. split; [lra|]. split; [left; lra|]. split; [discriminate|].
    intros _. lra.
Qed.
Example C122_mirror_nonvacuous : oa_derivs_post_solution o_mid = true /\ oa_with_taylor o_mid = true /\
  solves_from_to o_mid y_mid (- 1) 1 /\ (forall i, (i < ODE_LEN)%nat -> mirror (y_mid 0) i = y_mid 0 i) /\
  y_mid 0 iB_θ <> y_mid 1 iB_θ.
Proof.
  split; [reflexivity|]. split; [reflexivity|]. split; [apply y_mid_solves|]. split.
  - intros i Hl. unfold ODE_LEN in Hl. do 11 (destruct i as [|i]; [cbn; lra|]). lia.
  - unfold y_mid, state, iB_θ. rewrite cos_0. assert (0 < cos 1) by (apply cos_gt_0; pose proof PI2_1; lra).
    assert (cos 1 < cos 0) by (apply cos_decreasing_1; pose proof PI2_1; lra). rewrite cos_0 in *.
    intros E. assert (1 / 1 * cos 1 = 1 / cos 1 * cos 1) by (rewrite E; reflexivity).
    replace (1 / cos 1 * cos 1) with 1 in * by (field; lra). lra.
Qed.

