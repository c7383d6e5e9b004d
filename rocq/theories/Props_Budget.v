(** C125: the budgets of mass, magnetic flux and angular momentum of a solution between two angles. *)
From Coq Require Import Reals Lra Lia.
From Coquelicot Require Import Coquelicot.
From Verif Require Import Model_Index Model_Deriv Model_Ode Lib_Deriv Spec_MHD Spec_Ode Spec_Budget Proofs_Ode Proofs_Fields Props_Ode Witness_Ode Props_Positive.
Open Scope R_scope.

(** The fundamental theorem with the derivative known inside the interval only. *)
Lemma budget : forall f g k a b, a < b -> (forall x, a <= x <= b -> continuity_pt f x) -> (forall x, a <= x <= b -> continuity_pt g x) ->
  (forall x, a < x < b -> derivable_pt_lim f x (k * g x)) -> f b - f a = k * RInt g a b.
Proof.
  intros f g k a b Hab Cf Cg D.
  assert (E : forall u v, a < u < v -> v < b -> f v - f u = k * RInt g u v).
  { intros u v Hu Hv.
    assert (I : is_RInt (fun x => k * g x) u v (minus (f v) (f u))).
    { apply (is_RInt_derive f (fun x => k * g x)); rewrite Rmin_left, Rmax_right by lra; intros x Hx.
      - apply is_derive_Reals, D. lra.
      - apply continuity_pt_filterlim. apply (continuity_pt_mult (fun _ => k) g); [apply continuity_pt_const; intros p q; reflexivity|apply Cg; lra]. }
    apply (is_RInt_unique (V := R_CompleteNormedModule)) in I. change (minus (f v) (f u)) with (f v - f u) in I. rewrite <- I.
    apply (RInt_scal (V := R_CompleteNormedModule) g u v k). apply (ex_RInt_continuous g). rewrite Rmin_left, Rmax_right by lra. intros x Hx. apply continuity_pt_filterlim, Cg. lra. }
  (* both sides are continuous in the ends *)
  assert (EX : forall u v, a <= u -> v <= b -> u <= v -> ex_RInt g u v).
  { intros u v Hu Hv Huv. apply (ex_RInt_continuous g). rewrite Rmin_left, Rmax_right by lra. intros x Hx. apply continuity_pt_filterlim, Cg. lra. }
  assert (GB : exists M, 0 < M /\ forall x, a <= x <= b -> Rabs (g x) <= M).
  { destruct (continuity_ab_maj (fun x => Rabs (g x)) a b) as (m & Hm & _); [lra|intros x Hx; apply (continuity_pt_comp g Rabs); [apply Cg, Hx|apply Rcontinuity_abs]|].
    exists (Rabs (g m) + 1). split; [pose proof (Rabs_pos (g m)); lra|]. intros x Hx. specialize (Hm x Hx). cbv beta in Hm. lra. }
  destruct GB as (M & PM & HM).
  assert (SM : forall u v, a <= u -> v <= b -> u <= v -> Rabs (RInt g u v) <= M * (v - u)).
  { intros u v Hu Hv Huv. rewrite Rmult_comm. apply (abs_RInt_le_const g u v M Huv (EX u v Hu Hv Huv)). intros x Hx. apply HM. lra. }
  assert (Z : forall eps, 0 < eps -> Rabs (f b - f a - k * RInt g a b) <= eps).
  { intros eps He.
    destruct (Cf a ltac:(lra) (eps / 4) ltac:(lra)) as (da & Pa & Ha). destruct (Cf b ltac:(lra) (eps / 4) ltac:(lra)) as (db & Pb & Hb).
    set (K := Rabs k * M + 1). assert (PK : 0 < K) by (unfold K; pose proof (Rmult_le_pos _ _ (Rabs_pos k) (Rlt_le _ _ PM)); lra).
    set (h := Rmin (Rmin (da / 2) (db / 2)) (Rmin (eps / (4 * K)) ((b - a) / 4))).
    assert (Ph : 0 < h). { unfold h. repeat apply Rmin_pos; try lra. apply Rdiv_lt_0_compat; lra. }
    assert (h1 : h <= da / 2) by (unfold h; eapply Rle_trans; [apply Rmin_l|apply Rmin_l]).
    assert (h2 : h <= db / 2) by (unfold h; eapply Rle_trans; [apply Rmin_l|apply Rmin_r]).
    assert (h3 : h <= eps / (4 * K)) by (unfold h; eapply Rle_trans; [apply Rmin_r|apply Rmin_l]).
    assert (h4 : h <= (b - a) / 4) by (unfold h; eapply Rle_trans; [apply Rmin_r|apply Rmin_r]). clearbody h.
    set (u := a + h). set (v := b - h).
    assert (Fa : Rabs (f u - f a) < eps / 4).
    { apply (Ha u). split; [split; [exact Coq.Init.Logic.I|unfold u; lra]|]. unfold dist. cbn. unfold R_dist, u. replace (a + h - a) with h by ring. rewrite Rabs_right; lra. }
    assert (Fb : Rabs (f v - f b) < eps / 4).
    { apply (Hb v). split; [split; [exact Coq.Init.Logic.I|unfold v; lra]|]. unfold dist. cbn. unfold R_dist, v. replace (b - h - b) with (- h) by ring. rewrite Rabs_Ropp, Rabs_right; lra. }
    pose proof (E u v ltac:(unfold u, v; lra) ltac:(unfold v; lra)) as Eq.
    assert (S1 : RInt g a b = RInt g a u + RInt g u v + RInt g v b).
    { assert (A1 : RInt g a b = RInt g a v + RInt g v b) by (symmetry; apply (RInt_Chasles g); apply EX; unfold v; lra).
      assert (A2 : RInt g a v = RInt g a u + RInt g u v) by (symmetry; apply (RInt_Chasles g); apply EX; unfold u, v; lra). lra. }
    pose proof (SM a u ltac:(lra) ltac:(unfold u; lra) ltac:(unfold u; lra)) as B1. pose proof (SM v b ltac:(unfold v; lra) ltac:(lra) ltac:(unfold v; lra)) as B2.
    replace (u - a) with h in B1 by (unfold u; ring). replace (b - v) with h in B2 by (unfold v; ring).
    assert (T : Rabs k * (M * h) <= eps / 4).
    { apply Rle_trans with (K * h); [unfold K; lra|]. apply (Rmult_le_compat_l K) in h3; [|lra]. replace (K * (eps / (4 * K))) with (eps / 4) in h3 by (field; lra). exact h3. }
    replace (f b - f a - k * RInt g a b) with ((f u - f a) - (f v - f b) + (- (k * RInt g a u)) - k * RInt g v b) by (rewrite S1; lra).
    assert (T1 : Rabs (k * RInt g a u) <= eps / 4) by (rewrite Rabs_mult; eapply Rle_trans; [apply Rmult_le_compat_l; [apply Rabs_pos|exact B1]|exact T]).
    assert (T2 : Rabs (k * RInt g v b) <= eps / 4) by (rewrite Rabs_mult; eapply Rle_trans; [apply Rmult_le_compat_l; [apply Rabs_pos|exact B2]|exact T]).
    apply Rabs_le. apply Rabs_def2 in Fa. apply Rabs_def2 in Fb. apply Rabs_le_between in T1. apply Rabs_le_between in T2. lra. }
  set (d := f b - f a - k * RInt g a b) in Z. destruct (Req_dec d 0) as [D0|N]; [unfold d in D0; lra|].
  pose proof (Rabs_pos_lt d N) as P. specialize (Z (Rabs d / 2) ltac:(lra)). lra.
Qed.

Section Between.
Variables (o : ode_args) (y : R -> vec) (a b : R).
Hypothesis S : solves_between o y a b.

Lemma sb_slot : forall x i, a < x < b -> (i < ODE_LEN)%nat -> derivable_pt_lim (fun t => y t i) x (fst (rhs_derivs o x (y x)) i).
Proof.
  intros x i Hx Hi. destruct S as (_ & Sc & Sx & _). destruct (Sx x Hx) as (_ & Sa). pose proof (solves_slot o y x Sa i Hi) as D.
  rewrite Sc, Rmult_1_r in D. exact D.
Qed.
Lemma sb_cos : forall x, a < x < b -> cos x <> 0.
Proof. intros x Hx. destruct S as (_ & _ & Sx & _). apply (proj1 (Sx x Hx)). Qed.
Lemma sb_cont : forall x i, a <= x <= b -> (i < ODE_LEN)%nat -> continuity_pt (fun t => y t i) x.
Proof. intros x i Hx Hi. destruct S as (_ & _ & _ & C). apply C; assumption. Qed.
End Between.

Ltac idx := unfold iB_r, iB_φ, iB_θ, iv_r, iv_φ, iv_θ, iρ, iB_φ_prime, ODE_LEN; lia.
Ltac conts S :=
  match goal with
  | |- continuity_pt (fun t => @?f t * @?g t) ?x => apply (continuity_pt_mult f g); cbv beta; conts S
  | |- continuity_pt (fun t => @?f t - @?g t) ?x => apply (continuity_pt_minus f g); cbv beta; conts S
  | |- continuity_pt (fun t => cos t ^ 2) ?x => change (continuity_pt (fun t => cos t * (cos t * 1)) x); conts S
  | |- continuity_pt (fun t => cos t) ?x => apply continuity_cos
  | |- continuity_pt cos ?x => apply continuity_cos
  | |- _ => first [eapply (sb_cont _ _ _ _ S); [assumption|idx] | apply continuity_pt_const; intros ? ?; reflexivity]
  end.

(** Mass: what passes through the two cones differs by 2γ times what comes in between them. *)
Theorem C125_mass : forall o y a b, solves_between o y a b -> oa_with_taylor o = false -> (forall x, a < x < b -> y x iv_θ <> 0) ->
  mass_up (y b) b - mass_up (y a) a = - (2 * oa_γ o) * RInt (fun θ => mass_out (y θ) θ) a b.
Proof.
  intros o y a b S T V. apply (budget (fun θ => mass_up (y θ) θ) (fun θ => mass_out (y θ) θ)); [apply S| | |].
  - intros x Hx. unfold mass_up. conts S.
  - intros x Hx. unfold mass_out. conts S.
  - intros x Hx. pose proof (sb_cos _ _ _ _ S x Hx) as Hc. specialize (V x Hx).
    pose proof (sb_slot _ _ _ _ S x iρ Hx ltac:(idx)) as D1. pose proof (sb_slot _ _ _ _ S x iv_θ Hx ltac:(idx)) as D2.
    rewrite (rhs_ρ o _ _ T) in D1. unfold deriv_ρ_normal_expr in D1. set (d := fst (rhs_derivs o x (y x)) iv_θ) in *.
    unfold mass_up, mass_out. eapply dpl_eq; [dlim|]. unfold tan. field. split; assumption.
Qed.
Print Assumptions C125_mass.

(** Magnetic flux, whatever the expansion in use and the gas does. *)
Theorem C125_flux : forall o y a b, solves_between o y a b ->
  flux_up (y b) b - flux_up (y a) a = - (oa_γ o + 3 / 4) * RInt (fun θ => flux_out (y θ) θ) a b.
Proof.
  intros o y a b S. apply (budget (fun θ => flux_up (y θ) θ) (fun θ => flux_out (y θ) θ)); [apply S| | |].
  - intros x Hx. unfold flux_up. conts S.
  - intros x Hx. unfold flux_out. conts S.
  - intros x Hx. pose proof (sb_cos _ _ _ _ S x Hx) as Hc.
    pose proof (sb_slot _ _ _ _ S x iB_θ Hx ltac:(idx)) as D1. rewrite rhs_B_θ in D1.
    unfold flux_up, flux_out. eapply dpl_eq; [dlim|]. unfold tan. field. assumption.
Qed.
Print Assumptions C125_flux.

(** Angular momentum, of the gas and of the field together. *)
Theorem C125_angular_momentum : forall o y a b, solves_between o y a b -> oa_with_taylor o = false ->
  (forall x, a < x < b -> y x iv_θ <> 0 /\ y x iρ <> 0) ->
  torque_up (oa_a_0 o) (y b) b - torque_up (oa_a_0 o) (y a) a =
    - (2 * oa_γ o + 1 / 2) * RInt (fun θ => torque_out (oa_a_0 o) (y θ) θ) a b.
Proof.
  intros o y a b S T V. apply (budget (fun θ => torque_up (oa_a_0 o) (y θ) θ) (fun θ => torque_out (oa_a_0 o) (y θ) θ)); [apply S| | |].
  - intros x Hx. unfold torque_up. conts S.
  - intros x Hx. unfold torque_out. conts S.
  - intros x Hx. pose proof (sb_cos _ _ _ _ S x Hx) as Hc. destruct (V x Hx) as [V1 V2].
    pose proof (sb_slot _ _ _ _ S x iρ Hx ltac:(idx)) as D1. pose proof (sb_slot _ _ _ _ S x iv_θ Hx ltac:(idx)) as D2.
    pose proof (sb_slot _ _ _ _ S x iv_φ Hx ltac:(idx)) as D3. pose proof (sb_slot _ _ _ _ S x iB_θ Hx ltac:(idx)) as D4.
    pose proof (sb_slot _ _ _ _ S x iB_φ Hx ltac:(idx)) as D5.
    rewrite (rhs_ρ o _ _ T) in D1. unfold deriv_ρ_normal_expr in D1. rewrite (rhs_v_φ o _ _ T) in D3. unfold deriv_v_φ_normal_expr in D3.
    rewrite rhs_B_θ in D4. set (d := fst (rhs_derivs o x (y x)) iv_θ) in *. set (e := fst (rhs_derivs o x (y x)) iB_φ) in *.
    unfold torque_up, torque_out. eapply dpl_eq; [dlim|]. cbn [INR pred]. unfold tan. field. repeat split; assumption.
Qed.
Print Assumptions C125_angular_momentum.

(** So what leaves upwards can only have come in: in a disc that accretes everywhere between the two angles, the mass flux grows
    with height if γ is positive, shrinks if it is negative and stays the same if it is zero. *)
Theorem C125_ejection : forall o y a b, solves_between o y a b -> oa_with_taylor o = false -> (forall x, a < x < b -> y x iv_θ <> 0) ->
  (forall x, a < x < b -> 0 < y x iρ /\ y x iv_r < 0 /\ 0 < cos x) ->
  (mass_up (y a) a < mass_up (y b) b <-> 0 < oa_γ o) /\
  (mass_up (y b) b < mass_up (y a) a <-> oa_γ o < 0).
Proof.
  intros o y a b S T V A. pose proof (C125_mass o y a b S T V) as E.
  assert (N : RInt (fun θ => mass_out (y θ) θ) a b < 0).
  { assert (Q : 0 < RInt (fun θ => - mass_out (y θ) θ) a b).
    { apply RInt_gt_0; [apply S| |].
      - intros x Hx. destruct (A x Hx) as (A1 & A2 & A3). unfold mass_out.
        assert (0 < y x iρ * cos x) by (apply Rmult_lt_0_compat; assumption). nra.
      - intros x Hx. apply continuity_pt_filterlim. apply (continuity_pt_opp (fun θ => mass_out (y θ) θ)). unfold mass_out. conts S. }
    assert (EX : ex_RInt (fun θ => mass_out (y θ) θ) a b).
    { apply (ex_RInt_continuous (V := R_CompleteNormedModule)). assert (Hab : a < b) by apply S. rewrite Rmin_left, Rmax_right by lra. intros x Hx.
      apply continuity_pt_filterlim. unfold mass_out. conts S. }
    assert (O : RInt (fun θ => - mass_out (y θ) θ) a b = - RInt (fun θ => mass_out (y θ) θ) a b)
      by exact (RInt_opp (V := R_CompleteNormedModule) (fun θ => mass_out (y θ) θ) a b EX). lra. }
  set (I := RInt _ a b) in *. split; split; intros H; nra.
Qed.
Print Assumptions C125_ejection.

(** An accreting solution with γ = 1/8 whose mass flux grows with height. *)
Definition o_bud : ode_args :=
  mk_ode_args (1 / 8) 0 3 (state 0 0 1 (-1) 0 (1 / 2) 1 0 8 0 0) 1 false false true false (Some (fun _ => 0)) false.
Definition y_bud (t : R) : vec := state 0 0 (1 / cos t) (-1) 0 (1 / 2) (exp (t / 2) / cos t) 0 8 0 0.

Lemma y_bud_solves_at : forall x, 0 < cos x -> solves_at o_bud y_bud x.
Proof.
  intros x Hc.
  assert (Hi : 0 < exp (x / 2) / cos x) by (apply Rdiv_lt_0_compat; [apply exp_pos|lra]).
  destruct (rhs_accept o_bud x (y_bud x)) as [e He]; [reflexivity | simpl; lra | simpl; lra |].
  exists (fst (rhs_derivs o_bud x (y_bud x))), e. split; [exact He|].
  set (d := fst (rhs_derivs o_bud x (y_bud x))).
  assert (Hd1 : d iB_φ = 0) by reflexivity.
  assert (Hd0 : d iB_r = 0).
  { unfold d. rewrite rhs_B_r. fold d. rewrite Hd1. unfold deriv_B_r_func. simpl. set (m := sqrt _). replace (0 / m) with 0 by (unfold Rdiv; ring).
    replace (8 + 0 * (1 - 0) * (1 + 0)) with 8 by ring. generalize (1 / cos x / m). intros u. field. lra. }
  assert (Hd2 : d iB_θ = 1 / cos x * tan x).
  { unfold d. rewrite rhs_B_θ. simpl. ring. }
  assert (Hd5 : d iv_θ = 0) by reflexivity.
  assert (Hk : sqrt 3 * sqrt 3 = 3) by (apply sqrt_sqrt; lra).
  assert (Hd3 : d iv_r = 0).
  { unfold d. rewrite rhs_v_r by reflexivity. fold d. rewrite Hd0. unfold deriv_v_r_normal_expr. simpl. nra. }
  assert (Hd4 : d iv_φ = 0).
  { unfold d. rewrite rhs_v_φ by reflexivity. fold d. rewrite Hd1. unfold deriv_v_φ_normal_expr. simpl. field. pose proof (exp_pos (x / 2)). split; lra. }
  assert (Hd6 : d iρ = exp (x / 2) / cos x * (1 / 2 + tan x)).
  { unfold d. rewrite rhs_ρ by reflexivity. fold d. rewrite Hd5. unfold deriv_ρ_normal_expr. simpl. field. lra. }
  destruct (rhs_η o_bud x (y_bud x)) as (E8 & E9 & E10). fold d in E8, E9, E10.
  assert (Hd8 : d iη_O = 0) by (rewrite E8; reflexivity).
  assert (Hd9 : d iη_A = 0) by (rewrite E9; reflexivity).
  assert (Hd10 : d iη_H = 0) by (rewrite E10; reflexivity).
  assert (Hd7 : d iB_φ_prime = 0).
  { unfold d. rewrite rhs_B_φ_prime by reflexivity. fold d.
    unfold B_unit_derivs. cbv zeta. unfold dderiv_B_φ_soln.
    rewrite Hd0, Hd1, Hd2, Hd3, Hd4, Hd5, Hd9, Hd10. unfold C_func. simpl.
    assert (A0 : forall a b c e f g h, A_func 8 0 0 a b c e 0 0 f g h = 0) by (intros; unfold A_func; cbn [pow]; unfold Rdiv; ring).
    rewrite !A0. unfold Rdiv. ring. }
  intros i Hi'. unfold ODE_LEN in Hi'. clear He E8 E9 E10. clearbody d.
  assert (HI : derivable_pt_lim (fun t => 1 / cos t) x (1 / cos x * tan x)) by (apply dpl_inv_cos; lra).
  assert (HE : derivable_pt_lim (fun t => exp (t / 2) / cos t) x (exp (x / 2) / cos x * (1 / 2 + tan x))).
  { eapply dpl_eq; [dlim; lra|]. unfold tan, Rsqr. field. lra. }
  do 11 (destruct i as [|i];
    [cbv beta iota delta [y_bud state]; first [ eapply dpl_eq; [exact HI | symmetry; exact Hd2]
           | eapply dpl_eq; [exact HE | symmetry; exact Hd6]
           | eapply dpl_eq; [apply dpl_const
             | symmetry; first [exact Hd0 | exact Hd1 | exact Hd3 | exact Hd4 | exact Hd5 | exact Hd7 | exact Hd8
                               | exact Hd9 | exact Hd10]] ] |]); lia.
Qed.

Example C125_nonvacuous : solves_between o_bud y_bud 0 1 /\ oa_with_taylor o_bud = false /\
  (forall x, 0 < x < 1 -> y_bud x iv_θ <> 0 /\ y_bud x iρ <> 0) /\
  (forall x, 0 < x < 1 -> 0 < y_bud x iρ /\ y_bud x iv_r < 0 /\ 0 < cos x) /\
  mass_up (y_bud 0) 0 < mass_up (y_bud 1) 1.
Proof.
  assert (Hc : forall x, 0 <= x <= 1 -> 0 < cos x) by (intros x Hx; apply cos_gt_0; pose proof PI2_1; lra).
  assert (Hρ : forall x, 0 <= x <= 1 -> 0 < y_bud x iρ) by (intros x Hx; simpl; apply Rdiv_lt_0_compat; [apply exp_pos|apply Hc, Hx]).
  assert (S : solves_between o_bud y_bud 0 1).
  { split; [lra|]. split; [reflexivity|]. split.
    - intros x Hx. split; [apply Rgt_not_eq, Hc; lra|apply y_bud_solves_at, Hc; lra].
    - intros i x Hi Hx. apply (solves_cont o_bud y_bud x); [apply y_bud_solves_at, Hc, Hx|exact Hi]. }
  assert (V : forall x, 0 < x < 1 -> y_bud x iv_θ <> 0) by (intros x Hx; simpl; lra).
  assert (A : forall x, 0 < x < 1 -> 0 < y_bud x iρ /\ y_bud x iv_r < 0 /\ 0 < cos x).
  { intros x Hx. split; [apply Hρ; lra|]. split; [simpl; lra|apply Hc; lra]. }
  split; [exact S|]. split; [reflexivity|]. split; [intros x Hx; split; [apply V, Hx|apply Rgt_not_eq, Hρ; lra]|]. split; [exact A|].
  apply (C125_ejection o_bud y_bud 0 1 S eq_refl V A). simpl. lra.
Qed.
