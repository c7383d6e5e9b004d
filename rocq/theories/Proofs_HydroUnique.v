(** Proof of C136: the right-hand side of the hydrostatic method, piece by piece, changes along two regular solutions by at most a
    multiple of the distance between them. *)
From Coq Require Import Reals Lra Lia FunctionalExtensionality.
From Verif Require Import Model_Index Model_Deriv Model_Midplane Model_Ode Model_Hydro Lib_Deriv Lib_Gronwall Lib_LocalLip Spec_MHD Spec_Ode Spec_Unique
  Spec_HydroUnique Proofs_Ode Proofs_Unique.
Open Scope R_scope.

(** Two curves whose rates are close stay close, whatever the rates are. *)
Section Rates.
Variables (y z : R -> vec) (Fy Fz : R -> vec) (a b : R).
Let S (t : R) : R := sqrt (dist_sq (y t) (z t)).
Hypothesis Dy : forall t i, a <= t <= b -> (i < ODE_LEN)%nat -> derivable_pt_lim (fun x => y x i) t (Fy t i).
Hypothesis Dz : forall t i, a <= t <= b -> (i < ODE_LEN)%nat -> derivable_pt_lim (fun x => z x i) t (Fz t i).
Hypothesis HF : forall i, (i < ODE_LEN)%nat -> close a b S (fun t => Fy t i) (fun t => Fz t i).

Lemma rates_stay_close : exists K, 0 <= K /\ forall s t, a <= s <= b -> a <= t <= b ->
  dist_sq (y t) (z t) <= dist_sq (y s) (z s) * exp (K * Rabs (t - s)).
Proof.
  assert (SP : forall t, 0 <= S t) by (intros t; apply sqrt_pos).
  assert (HK : exists K, 0 <= K /\ forall i t, (i < ODE_LEN)%nat -> a <= t <= b -> Rabs (Fy t i - Fz t i) <= K * S t).
  { assert (G : forall n, (n <= ODE_LEN)%nat -> exists K, 0 <= K /\ forall i t, (i < n)%nat -> a <= t <= b -> Rabs (Fy t i - Fz t i) <= K * S t).
    { induction n as [|n IH]; intros Hn; [exists 0; split; [lra|intros i t Hl; lia]|].
      destruct IH as (K & P & H); [lia|]. destruct (HF n Hn) as (_ & _ & K' & P' & H').
      exists (K + K'). split; [lra|]. intros i t Hl Ht. pose proof (SP t) as Q.
      assert (0 <= K * S t) by (apply Rmult_le_pos; assumption). assert (0 <= K' * S t) by (apply Rmult_le_pos; assumption).
      destruct (Nat.eq_dec i n) as [-> |Ne]; [specialize (H' t Ht); cbv beta in H'; lra|].
      specialize (H i t ltac:(lia) Ht). lra. }
    exact (G ODE_LEN (le_n _)). }
  destruct HK as (K & P & HK). exists (22 * K). split; [lra|].
  apply (gronwall a b (fun x => dist_sq (y x) (z x))
    (fun t => sum_f_R0 (fun i => 2 * (y t i - z t i) * (Fy t i - Fz t i)) (pred ODE_LEN)) (22 * K)).
  - intros t Ht. unfold dist_sq.
    assert (G : forall n, (n < ODE_LEN)%nat -> derivable_pt_lim (fun x => sum_f_R0 (fun i => (y x i - z x i) ^ 2) n) t
      (sum_f_R0 (fun i => 2 * (y t i - z t i) * (Fy t i - Fz t i)) n)).
    { assert (one : forall i, (i < ODE_LEN)%nat -> derivable_pt_lim (fun x => (y x i - z x i) ^ 2) t (2 * (y t i - z t i) * (Fy t i - Fz t i))).
      { intros i Hl. pose proof (derivable_pt_lim_minus _ _ _ _ _ (Dy t i Ht Hl) (Dz t i Ht Hl)) as D3.
        pose proof (derivable_pt_lim_comp _ (fun v => v ^ 2) t _ _ D3 (derivable_pt_lim_pow _ 2)) as D4.
        cbv beta in D4. unfold comp, minus_fct in D4. cbn [INR pred] in D4. eapply dpl_eq; [exact D4|]. ring. }
      induction n as [|n IH]; intros Hn; [exact (one 0%nat Hn)|].
      cbn [sum_f_R0]. apply (derivable_pt_lim_plus (fun x => sum_f_R0 (fun i => (y x i - z x i) ^ 2) n) (fun x => (y x (Datatypes.S n) - z x (Datatypes.S n)) ^ 2)).
      - apply IH. lia.
      - apply one. exact Hn. }
    apply G. unfold ODE_LEN. cbn. lia.
  - intros t Ht. pose proof (dist_pos (y t) (z t)) as Q. pose proof (SP t) as QS.
    assert (ES : S t * S t = dist_sq (y t) (z t)) by (apply sqrt_sqrt; exact Q).
    assert (one : forall i, (i < ODE_LEN)%nat -> Rabs (2 * (y t i - z t i) * (Fy t i - Fz t i)) <= 2 * K * dist_sq (y t) (z t)).
    { intros i Hl. rewrite !Rabs_mult. rewrite (Rabs_right 2) by lra.
      assert (Rabs (y t i - z t i) <= S t).
      { rewrite <- sqrt_Rsqr_abs. apply sqrt_le_1_alt. rewrite Rsqr_pow2. apply slot_le. exact Hl. }
      pose proof (HK i t Hl Ht) as H2.
      assert (Rabs (y t i - z t i) * Rabs (Fy t i - Fz t i) <= S t * (K * S t)) by (apply Rmult_le_compat; auto using Rabs_pos).
      rewrite <- ES. lra. }
    assert (G : forall n, (n < ODE_LEN)%nat -> Rabs (sum_f_R0 (fun i => 2 * (y t i - z t i) * (Fy t i - Fz t i)) n) <= INR (Datatypes.S n) * (2 * K * dist_sq (y t) (z t))).
    { induction n as [|n IH]; intros Hn.
      - cbn [sum_f_R0 INR]. rewrite Rmult_1_l. apply one. exact Hn.
      - cbn [sum_f_R0]. rewrite (S_INR (Datatypes.S n)). eapply Rle_trans; [apply Rabs_triang|].
        specialize (IH ltac:(lia)). specialize (one (Datatypes.S n) Hn). lra. }
    specialize (G (pred ODE_LEN) ltac:(unfold ODE_LEN; cbn; lia)).
    replace (INR (Datatypes.S (pred ODE_LEN))) with 11 in G by (cbn; lra). lra.
Qed.
End Rates.

(** The right-hand side in pieces, each in terms of the earlier ones. *)
Section Pieces.
Variables (h : hydro_args) (θ : R) (p : vec).
Let a_0 := ha_a_0 h.
Definition q_dBt : R := p iB_θ * tan θ - 3 / 4 * p iB_r.
Definition q_dBr : R := (p iB_φ * (p iη_A * unit p iB_φ * (unit p iB_r * tan θ - unit p iB_θ / 4) + p iη_H * (unit p iB_r / 4 + unit p iB_θ * tan θ))
  - p iB_φ_prime * (p iη_H * unit p iB_θ + p iη_A * unit p iB_r * unit p iB_φ) - p iv_r * p iB_θ)
  / (p iη_O + p iη_A * (1 - unit p iB_φ) * (1 + unit p iB_φ)) - p iB_θ / 4.
Definition q_dρ : R := - p iρ * p iv_φ ^ 2 * tan θ - a_0 * (p iB_θ * p iB_r / 4 + p iB_r * q_dBr + p iB_φ * p iB_φ_prime - p iB_φ ^ 2 * tan θ).
Definition q_sc : R := deriv_η_skw_func (p iρ) (p iB_r) (p iB_φ) (p iB_θ) q_dρ q_dBr (p iB_φ_prime) q_dBt.
Definition q_dη (i : nat) : R := if ha_η_derivs h then q_sc * ha_init_con h i else 0.
Definition q_db (i : nat) (d : R) : R := B_unit_deriv_1 (p iB_r) (p iB_φ) (p iB_θ) q_dBr (p iB_φ_prime) q_dBt (unit p i) d.
Definition q_dbr : R := q_db iB_r q_dBr.
Definition q_dbf : R := q_db iB_φ (p iB_φ_prime).
Definition q_dbt : R := q_db iB_θ q_dBt.
Definition q_A : R := A_func (p iη_O) (p iη_A) (p iη_H) (unit p iB_θ) (unit p iB_r) (unit p iB_φ) (q_dη iη_O) (q_dη iη_A) (q_dη iη_H) q_dbt q_dbr q_dbf.
Definition q_Xd : R := X_dash_func (p iη_O) (p iη_A) (p iη_H) (unit p iB_θ) (unit p iB_r) (unit p iB_φ) (q_dη iη_O) (q_dη iη_A) (q_dη iη_H) q_dbt q_dbr q_dbf.
Definition q_Z1 : R := Z_1_func θ a_0 (p iB_φ) (p iB_θ) (p iB_r) (p iρ) q_dBr (p iB_φ_prime) q_dBt (p iv_φ) q_dρ.
Definition q_Z2 : R := Z_2_func θ a_0 (the_X p) (p iv_r) (p iB_φ) (p iB_θ) (p iB_r) (p iρ) (p iη_A) (p iη_O) (p iη_H) (unit p iB_φ) (unit p iB_r) (unit p iB_θ)
  q_Xd q_dBr (p iB_φ_prime) q_dBt q_dρ (the_b p) (the_c h θ p) q_dbt q_dbf q_dbr (q_dη iη_O) (q_dη iη_A) (q_dη iη_H).
Definition q_Z7 : R := Z_7_func (the_C p) q_Z1 q_Z2 (the_Z_3 h θ p) (the_Z_4 θ p) a_0 (p iv_φ) (p iρ).
Definition q_dd : R := dderiv_B_φ_func q_A (unit p iB_r) (unit p iB_θ) (p iB_θ) (unit p iB_φ) (p iB_φ) (the_C p) q_dbr q_dBr q_dbt q_dBt q_dbf (p iB_φ_prime)
  (q_dη iη_A) (q_dη iη_H) (q_dη iη_O) (p iv_r) (p iv_φ) (coefficient h θ p) q_Z7 (p iη_A) (p iη_H) (p iη_O) θ.
Definition q_dvr : R := deriv_v_r_func q_Z1 q_Z2 (the_Z_3 h θ p) (the_Z_4 θ p) (p iv_φ) (p iρ) a_0 q_dd (p iB_θ).
Definition q_dvf : R := deriv_v_φ_func q_Z2 q_dvr (the_Z_3 h θ p).
(** The derivative of each slot. *)
Definition q_d (i : nat) : R := match i with
  | 0%nat => q_dBr | 1%nat => p iB_φ_prime | 2%nat => q_dBt
  | 3%nat => if ha_no_v_deriv h then 0 else q_dvr | 4%nat => if ha_no_v_deriv h then 0 else q_dvf | 5%nat => 0
  | 6%nat => q_dρ | 7%nat => q_dd | 8%nat => q_dη iη_O | 9%nat => q_dη iη_A | 10%nat => q_dη iη_H | _ => 0 end.
End Pieces.

Lemma hydro_pieces : forall h x p d θ, hydro_rhs h x p = Hy_ok d θ -> forall i, (i < ODE_LEN)%nat -> d i = q_d h (x * ha_θ_scale h) p i.
Proof.
  intros h x p d θ. unfold hydro_rhs. cbv zeta. destruct (Rlt_dec (p iρ) 0); [discriminate|].
  unfold B_unit_derivs. cbv beta iota zeta.
  match goal with |- (if ?c then _ else _) = _ -> _ => destruct c; [discriminate|] end.
  intros E i Hl. match type of E with Hy_ok ?D ?t = _ => assert (E1 : D = d) by congruence end. clear E. subst d.
  unfold ODE_LEN in Hl. destruct (ha_no_v_deriv h) eqn:V;
  do 11 (destruct i as [|i]; [unfold q_d; rewrite ?V; reflexivity|]); lia.
Qed.

Section Two.
Variables (h : hydro_args) (y z : R -> vec) (a b : R).
Hypothesis Hab : a <= b.
Hypothesis Hy : hydro_solves h y a b.
Hypothesis Hz : hydro_solves h z a b.
Let s := ha_θ_scale h.
Let S (t : R) : R := sqrt (dist_sq (y t) (z t)).

Lemma hydro_derivs : forall w, hydro_solves h w a b -> forall t i, a <= t <= b -> (i < ODE_LEN)%nat ->
  derivable_pt_lim (fun x => w x i) t (q_d h (t * s) (w t) i).
Proof.
  intros w Hw t i Ht Hl. destruct (Hw t Ht) as ((d & e & E & D) & _).
  unfold s. rewrite <- (hydro_pieces _ _ _ _ _ E i Hl). apply D. exact Hl.
Qed.
Lemma hydro_slot : forall i, (i < ODE_LEN)%nat -> close a b S (fun t => y t i) (fun t => z t i).
Proof.
  assert (C : forall w, hydro_solves h w a b -> forall i, (i < ODE_LEN)%nat -> cont a b (fun t => w t i)).
  { intros w Hw i Hl t Ht. apply derivable_continuous_pt. exists (q_d h (t * s) (w t) i). apply (hydro_derivs w Hw t i Ht Hl). }
  intros i Hl. split; [exact (C y Hy i Hl)|]. split; [exact (C z Hz i Hl)|].
  exists 1. split; [lra|]. intros t Ht. rewrite Rmult_1_l. unfold S.
  rewrite <- sqrt_Rsqr_abs. apply sqrt_le_1_alt. rewrite Rsqr_pow2. apply slot_le. exact Hl.
Qed.

Let N (g : R -> vec -> R) : Prop := close a b S (fun t => g (t * s) (y t)) (fun t => g (t * s) (z t)).

Lemma hydro_close : forall i, (i < ODE_LEN)%nat -> N (fun θ p => q_d h θ p i).
Proof.
  assert (HS : forall x, a <= x <= b -> 0 <= S x) by (intros x _; apply sqrt_pos).
  assert (L : forall i, (i < ODE_LEN)%nat -> close a b S (fun t => y t i) (fun t => z t i)) by exact hydro_slot.
  pose proof (L iB_r ltac:(unfold iB_r, ODE_LEN; lia)) as LBr. pose proof (L iB_φ ltac:(unfold iB_φ, ODE_LEN; lia)) as LBf.
  pose proof (L iB_θ ltac:(unfold iB_θ, ODE_LEN; lia)) as LBt. pose proof (L iv_r ltac:(unfold iv_r, ODE_LEN; lia)) as Lvr.
  pose proof (L iv_φ ltac:(unfold iv_φ, ODE_LEN; lia)) as Lvf.
  pose proof (L iρ ltac:(unfold iρ, ODE_LEN; lia)) as Lr. pose proof (L iB_φ_prime ltac:(unfold iB_φ_prime, ODE_LEN; lia)) as L7.
  pose proof (L iη_O ltac:(unfold iη_O, ODE_LEN; lia)) as LO. pose proof (L iη_A ltac:(unfold iη_A, ODE_LEN; lia)) as LA.
  pose proof (L iη_H ltac:(unfold iη_H, ODE_LEN; lia)) as LH. clear L.
  assert (CT : cont a b (fun t => t * s)).
  { intros t Ht. apply (continuity_pt_mult id (fun _ => s)); [apply derivable_continuous_pt, derivable_pt_id|apply continuity_pt_const; intros u v; reflexivity]. }
  assert (Hc : forall t, a <= t <= b -> cos (t * s) <> 0) by (intros t Ht; apply (Hy t Ht)).
  assert (Cc : cont a b (fun t => cos (t * s))) by (intros t Ht; apply (continuity_pt_comp (fun t => t * s) cos); [apply CT, Ht|apply continuity_cos]).
  assert (Csn : cont a b (fun t => sin (t * s))) by (intros t Ht; apply (continuity_pt_comp (fun t => t * s) sin); [apply CT, Ht|apply continuity_sin]).
  assert (Lθ : close a b S (fun t => t * s) (fun t => t * s)) by (apply close_same; exact CT).
  assert (Ltan : close a b S (fun t => tan (t * s)) (fun t => tan (t * s))).
  { apply close_same. intros t Ht. apply (continuity_pt_div (fun t => sin (t * s)) (fun t => cos (t * s))); auto. }
  assert (Lsec : close a b S (fun t => sec (t * s)) (fun t => sec (t * s))).
  { apply close_same. intros t Ht. apply (continuity_pt_div (fun _ => 1) (fun t => cos (t * s))); auto. apply continuity_pt_const. intros u v. reflexivity. }
  clear Cc Csn CT.
  assert (Reg : forall w, hydro_solves h w a b -> forall t, a <= t <= b -> 0 < w t iρ /\ w t iv_φ <> 0 /\
    0 < discriminant h (t * s) (w t) /\ determinant h (t * s) (w t) <> 0 /\ coefficient h (t * s) (w t) <> 0).
  { intros w Hw t Ht. destruct (Hw t Ht) as (_ & _ & _ & H1 & _ & H2 & H3 & H4 & H5). repeat split; assumption. }
  (* the unit field *)
  assert (Lm : close a b S (fun t => sqrt (y t iB_r ^ 2 + y t iB_φ ^ 2 + y t iB_θ ^ 2)) (fun t => sqrt (z t iB_r ^ 2 + z t iB_φ ^ 2 + z t iB_θ ^ 2))).
  { apply (close_sqrt a b Hab S (fun t => y t iB_r ^ 2 + y t iB_φ ^ 2 + y t iB_θ ^ 2) (fun t => z t iB_r ^ 2 + z t iB_φ ^ 2 + z t iB_θ ^ 2));
      [repeat cl|intros t Ht; apply (Hy t Ht)|intros t Ht; apply (Hz t Ht)]. }
  assert (m0 : forall w, hydro_solves h w a b -> forall t, a <= t <= b -> sqrt (w t iB_r ^ 2 + w t iB_φ ^ 2 + w t iB_θ ^ 2) <> 0)
    by (intros w Hw t Ht; apply Rgt_not_eq, sqrt_lt_R0; apply (Hw t Ht)).
  assert (Lbr : close a b S (fun t => unit (y t) iB_r) (fun t => unit (z t) iB_r)) by (unfold unit; repeat cl; auto).
  assert (Lbf : close a b S (fun t => unit (y t) iB_φ) (fun t => unit (z t) iB_φ)) by (unfold unit; repeat cl; auto).
  assert (Lbt : close a b S (fun t => unit (y t) iB_θ) (fun t => unit (z t) iB_θ)) by (unfold unit; repeat cl; auto).
  (* the denominators *)
  assert (d1 : forall w, hydro_solves h w a b -> forall t, a <= t <= b -> w t iη_O + w t iη_A * (1 - unit (w t) iB_φ ^ 2) <> 0)
    by (intros w Hw t Ht; apply (Hw t Ht)).
  assert (d1' : forall w, hydro_solves h w a b -> forall t, a <= t <= b -> (w t iη_O + w t iη_A * (1 - unit (w t) iB_φ ^ 2)) ^ 2 <> 0)
    by (intros w Hw t Ht; apply pow_nonzero, (d1 w Hw t Ht)).
  assert (d2 : forall w, hydro_solves h w a b -> forall t, a <= t <= b -> w t iη_O + w t iη_A * (1 - unit (w t) iB_φ) * (1 + unit (w t) iB_φ) <> 0)
    by (intros w Hw t Ht; replace (w t iη_O + w t iη_A * (1 - unit (w t) iB_φ) * (1 + unit (w t) iB_φ)) with (w t iη_O + w t iη_A * (1 - unit (w t) iB_φ ^ 2)) by ring; exact (d1 w Hw t Ht)).
  assert (r0 : forall w, hydro_solves h w a b -> forall t, a <= t <= b -> w t iρ <> 0)
    by (intros w Hw t Ht; apply Rgt_not_eq; apply (Reg w Hw t Ht)).
  assert (r2 : forall w, hydro_solves h w a b -> forall t, a <= t <= b -> w t iρ ^ 2 <> 0)
    by (intros w Hw t Ht; apply pow_nonzero, (r0 w Hw t Ht)).
  assert (vr : forall w, hydro_solves h w a b -> forall t, a <= t <= b -> w t iv_φ * w t iρ <> 0)
    by (intros w Hw t Ht; apply Rmult_integral_contrapositive_currified; [apply (Reg w Hw t Ht)|exact (r0 w Hw t Ht)]).
  assert (rd : forall w, hydro_solves h w a b -> forall t, a <= t <= b -> w t iρ * (w t iη_O + w t iη_A * (1 - unit (w t) iB_φ ^ 2)) <> 0)
    by (intros w Hw t Ht; apply Rmult_integral_contrapositive_currified; [exact (r0 w Hw t Ht)|exact (d1 w Hw t Ht)]).
  assert (sq : forall w, hydro_solves h w a b -> forall t, a <= t <= b -> sqrt (the_b (w t) ^ 2 - 4 * the_c h (t * s) (w t)) <> 0)
    by (intros w Hw t Ht; apply Rgt_not_eq, sqrt_lt_R0; apply (Reg w Hw t Ht)).
  assert (de : forall w, hydro_solves h w a b -> forall t, a <= t <= b -> w t iv_φ ^ 2 * w t iρ + 2 * ha_a_0 h * the_Z_3 h (t * s) (w t) * the_Z_4 (t * s) (w t) <> 0)
    by (intros w Hw t Ht; apply (Reg w Hw t Ht)).
  assert (co : forall w, hydro_solves h w a b -> forall t, a <= t <= b -> coefficient h (t * s) (w t) <> 0)
    by (intros w Hw t Ht; apply (Reg w Hw t Ht)).
  assert (PX : N (fun θ p => the_X p)) by (unfold N, the_X, X_func; repeat cl; auto).
  assert (Pb : N (fun θ p => the_b p)) by (unfold N, the_b, b_func in *; repeat cl; first [two|auto]).
  assert (Pc : N (the_c h)) by (unfold N, the_c, c_func in *; repeat cl; first [two|auto]).
  assert (PC : N (fun θ p => the_C p)) by (unfold N, the_C, C_func in *; repeat cl; first [two|auto]).
  assert (Ps : N (fun θ p => sqrt (the_b p ^ 2 - 4 * the_c h θ p))).
  { unfold N in *. apply (close_sqrt a b Hab S (fun t => the_b (y t) ^ 2 - 4 * the_c h (t * s) (y t)) (fun t => the_b (z t) ^ 2 - 4 * the_c h (t * s) (z t)));
      [repeat cl|intros t Ht; apply (Reg y Hy t Ht)|intros t Ht; apply (Reg z Hz t Ht)]. }
  assert (P3 : N (the_Z_3 h)) by (unfold N, the_Z_3, Z_3_func in *; repeat cl; first [two|auto]).
  assert (P4 : N the_Z_4) by (unfold N, the_Z_4, Z_4_func in *; repeat cl; first [two|auto]).
  assert (P5 : N (fun θ p => the_Z_5 p)) by (unfold N, the_Z_5, Z_5_func in *; repeat cl; first [two|auto]).
  assert (P6 : N (coefficient h)) by (unfold N, coefficient, Z_6_func in *; repeat cl; first [two|auto]).
  assert (QBt : N q_dBt) by (unfold N, q_dBt in *; repeat cl; first [two|auto]).
  assert (QBr : N q_dBr) by (unfold N, q_dBr in *; repeat cl; first [two|auto]).
  assert (Qρ : N (q_dρ h)) by (unfold N, q_dρ in *; repeat cl; first [two|auto]).
  assert (Qs : N (q_sc h)) by (unfold N, q_sc, deriv_η_skw_func in *; cbv zeta; repeat cl; first [two|auto]).
  assert (Qη : forall i, N (fun θ p => q_dη h θ p i)) by (intros i; unfold N, q_dη in *; destruct (ha_η_derivs h); repeat cl).
  pose proof (Qη iη_O) as QO. pose proof (Qη iη_A) as QA. pose proof (Qη iη_H) as QH.
  assert (Qbr : N q_dbr) by (unfold N, q_dbr, q_db, B_unit_deriv_1 in *; cbv zeta; repeat cl; first [two|auto]).
  assert (Qbf : N q_dbf) by (unfold N, q_dbf, q_db, B_unit_deriv_1 in *; cbv zeta; repeat cl; first [two|auto]).
  assert (Qbt : N q_dbt) by (unfold N, q_dbt, q_db, B_unit_deriv_1 in *; cbv zeta; repeat cl; first [two|auto]).
  assert (QAf : N (q_A h)) by (unfold N, q_A, A_func in *; repeat cl; first [two|auto]).
  assert (QX : N (q_Xd h)) by (unfold N, q_Xd, X_dash_func in *; repeat cl; first [two|auto]).
  assert (Q1 : N (q_Z1 h)) by (unfold N, q_Z1, Z_1_func in *; repeat cl; first [two|auto]).
  assert (Q2 : N (q_Z2 h)) by (unfold N, q_Z2, Z_2_func in *; repeat cl; first [two|auto]).
  assert (Q7 : N (q_Z7 h)) by (unfold N, q_Z7, Z_7_func in *; repeat cl; first [two|auto]).
  assert (Qd : N (q_dd h)) by (unfold N, q_dd, dderiv_B_φ_func in *; repeat cl; first [two|auto]).
  assert (Qvr : N (q_dvr h)) by (unfold N, q_dvr, deriv_v_r_func in *; repeat cl; first [two|auto]).
  assert (Qvf : N (q_dvf h)) by (unfold N, q_dvf, deriv_v_φ_func in *; repeat cl; first [two|auto]).
  intros i Hl. unfold ODE_LEN in Hl. unfold N, q_d in *.
  do 11 (destruct i as [|i]; [try destruct (ha_no_v_deriv h); first [assumption|exact (Qη iη_O)|exact (Qη iη_A)|exact (Qη iη_H)|exact (close_const a b S 0)]|]). lia.
Qed.

Lemma hydro_stays_close : exists K, 0 <= K /\ forall s t, a <= s <= b -> a <= t <= b ->
  dist_sq (y t) (z t) <= dist_sq (y s) (z s) * exp (K * Rabs (t - s)).
Proof.
  exact (rates_stay_close y z (fun t => q_d h (t * s) (y t)) (fun t => q_d h (t * s) (z t)) a b
    (fun t i Ht Hl => hydro_derivs y Hy t i Ht Hl) (fun t i Ht Hl => hydro_derivs z Hz t i Ht Hl) hydro_close).
Qed.
End Two.

(** Near a regular state every piece satisfies a Lipschitz condition. *)
Ltac ll := cbv beta; match goal with
  | |- lip ?n ?x ?p (fun _ _ => ?c) => exact (lip_const n x p c)
  | H : lip ?n ?x ?p ?f |- lip ?n ?x ?p ?f => exact H
  | |- lip ?n ?x ?p (fun t q => @?f t q + @?g t q) => refine (lip_plus n x p f g _ _)
  | |- lip ?n ?x ?p (fun t q => @?f t q - @?g t q) => refine (lip_minus n x p f g _ _)
  | |- lip ?n ?x ?p (fun t q => @?f t q * @?g t q) => refine (lip_mult n x p f g _ _)
  | |- lip ?n ?x ?p (fun t q => @?f t q / @?g t q) => refine (lip_div n x p f g _ _ _)
  | |- lip ?n ?x ?p (fun t q => @?f t q ^ 2) => refine (lip_sq n x p f _)
  | |- lip ?n ?x ?p (fun t q => - @?f t q) => refine (lip_opp n x p f _)
  end.
Section Near.
Variables (h : hydro_args) (x0 : R) (p0 : vec).
Hypothesis Hr : hydro_regular h x0 p0.
Let s := ha_θ_scale h.
Let N (g : R -> vec -> R) : Prop := lip ODE_LEN x0 p0 (fun t p => g (t * s) p).

Lemma hydro_lip : (forall i, (i < ODE_LEN)%nat -> N (fun θ p => q_d h θ p i)) /\
  N (fun θ _ => cos θ) /\ N (fun _ p => p iB_r ^ 2 + p iB_φ ^ 2 + p iB_θ ^ 2) /\ N (fun _ p => p iη_O + p iη_A * (1 - unit p iB_φ ^ 2)) /\
  N (discriminant h) /\ N (determinant h) /\ N (coefficient h).
Proof.
  destruct Hr as (G1 & G2 & G3 & G4 & G5 & G6 & G7 & G8). fold s in G1, G6, G7, G8. unfold N.
  assert (L : forall i, (i < ODE_LEN)%nat -> lip ODE_LEN x0 p0 (fun _ p => p i)) by (intros i Hi; exact (lip_slot ODE_LEN x0 p0 i Hi)).
  pose proof (L iB_r ltac:(unfold iB_r, ODE_LEN; lia)) as LBr. pose proof (L iB_φ ltac:(unfold iB_φ, ODE_LEN; lia)) as LBf.
  pose proof (L iB_θ ltac:(unfold iB_θ, ODE_LEN; lia)) as LBt. pose proof (L iv_r ltac:(unfold iv_r, ODE_LEN; lia)) as Lvr.
  pose proof (L iv_φ ltac:(unfold iv_φ, ODE_LEN; lia)) as Lvf.
  pose proof (L iρ ltac:(unfold iρ, ODE_LEN; lia)) as Lr. pose proof (L iB_φ_prime ltac:(unfold iB_φ_prime, ODE_LEN; lia)) as L7.
  pose proof (L iη_O ltac:(unfold iη_O, ODE_LEN; lia)) as LO. pose proof (L iη_A ltac:(unfold iη_A, ODE_LEN; lia)) as LA.
  pose proof (L iη_H ltac:(unfold iη_H, ODE_LEN; lia)) as LH. clear L.
  pose proof (lip_cos ODE_LEN x0 p0 _ (lip_angle ODE_LEN x0 p0 s)) as Lc. pose proof (lip_sin ODE_LEN x0 p0 _ (lip_angle ODE_LEN x0 p0 s)) as Ls.
  assert (Ltan : lip ODE_LEN x0 p0 (fun t _ => tan (t * s))) by (exact (lip_div ODE_LEN x0 p0 _ _ Ls Lc G1)).
  assert (Lsec : lip ODE_LEN x0 p0 (fun t _ => sec (t * s))) by (exact (lip_div ODE_LEN x0 p0 _ _ (lip_const ODE_LEN x0 p0 1) Lc G1)).
  assert (LB : lip ODE_LEN x0 p0 (fun _ p => p iB_r ^ 2 + p iB_φ ^ 2 + p iB_θ ^ 2)) by repeat ll.
  assert (Lm : lip ODE_LEN x0 p0 (fun _ p => sqrt (p iB_r ^ 2 + p iB_φ ^ 2 + p iB_θ ^ 2))) by (exact (lip_sqrt ODE_LEN x0 p0 _ LB G2)).
  assert (m0 : sqrt (p0 iB_r ^ 2 + p0 iB_φ ^ 2 + p0 iB_θ ^ 2) <> 0) by (apply Rgt_not_eq, sqrt_lt_R0, G2).
  assert (Lbr : lip ODE_LEN x0 p0 (fun _ p => unit p iB_r)) by (unfold unit; repeat ll; exact m0).
  assert (Lbf : lip ODE_LEN x0 p0 (fun _ p => unit p iB_φ)) by (unfold unit; repeat ll; exact m0).
  assert (Lbt : lip ODE_LEN x0 p0 (fun _ p => unit p iB_θ)) by (unfold unit; repeat ll; exact m0).
  assert (d1' : (p0 iη_O + p0 iη_A * (1 - unit p0 iB_φ ^ 2)) ^ 2 <> 0) by (apply pow_nonzero, G4).
  assert (d2 : p0 iη_O + p0 iη_A * (1 - unit p0 iB_φ) * (1 + unit p0 iB_φ) <> 0)
    by (replace (p0 iη_O + p0 iη_A * (1 - unit p0 iB_φ) * (1 + unit p0 iB_φ)) with (p0 iη_O + p0 iη_A * (1 - unit p0 iB_φ ^ 2)) by ring; exact G4).
  assert (r0 : p0 iρ <> 0) by lra. assert (r2 : p0 iρ ^ 2 <> 0) by (apply pow_nonzero, r0).
  assert (vr : p0 iv_φ * p0 iρ <> 0) by (apply Rmult_integral_contrapositive_currified; assumption).
  assert (rd : p0 iρ * (p0 iη_O + p0 iη_A * (1 - unit p0 iB_φ ^ 2)) <> 0) by (apply Rmult_integral_contrapositive_currified; assumption).
  assert (sq : sqrt (the_b p0 ^ 2 - 4 * the_c h (x0 * s) p0) <> 0) by (apply Rgt_not_eq, sqrt_lt_R0; exact G6).
  Ltac fin := repeat ll; first [assumption|apply Rgt_not_eq; lra].
  assert (PX : lip ODE_LEN x0 p0 (fun _ p => the_X p)) by (unfold the_X, X_func; fin).
  assert (Pb : lip ODE_LEN x0 p0 (fun _ p => the_b p)) by (unfold the_b, b_func; fin).
  assert (Pc : lip ODE_LEN x0 p0 (fun t p => the_c h (t * s) p)) by (unfold the_c, c_func; fin).
  assert (PC : lip ODE_LEN x0 p0 (fun _ p => the_C p)) by (unfold the_C, C_func; fin).
  assert (Pd : lip ODE_LEN x0 p0 (fun t p => the_b p ^ 2 - 4 * the_c h (t * s) p)) by repeat ll.
  assert (Ps : lip ODE_LEN x0 p0 (fun t p => sqrt (the_b p ^ 2 - 4 * the_c h (t * s) p))) by (exact (lip_sqrt ODE_LEN x0 p0 _ Pd G6)).
  assert (P3 : lip ODE_LEN x0 p0 (fun t p => the_Z_3 h (t * s) p)) by (unfold the_Z_3, Z_3_func; fin).
  assert (P4 : lip ODE_LEN x0 p0 (fun t p => the_Z_4 (t * s) p)) by (unfold the_Z_4, Z_4_func; fin).
  assert (P5 : lip ODE_LEN x0 p0 (fun _ p => the_Z_5 p)) by (unfold the_Z_5, Z_5_func; repeat ll).
  assert (PD : lip ODE_LEN x0 p0 (fun t p => p iv_φ ^ 2 * p iρ + 2 * ha_a_0 h * the_Z_3 h (t * s) p * the_Z_4 (t * s) p)) by repeat ll.
  assert (P6 : lip ODE_LEN x0 p0 (fun t p => coefficient h (t * s) p)) by (unfold coefficient, Z_6_func; repeat ll; exact G7).
  assert (QBt : lip ODE_LEN x0 p0 (fun t p => q_dBt (t * s) p)) by (unfold q_dBt; fin).
  assert (QBr : lip ODE_LEN x0 p0 (fun t p => q_dBr (t * s) p)) by (unfold q_dBr; fin).
  assert (Qρ : lip ODE_LEN x0 p0 (fun t p => q_dρ h (t * s) p)) by (unfold q_dρ; fin).
  assert (Qs : lip ODE_LEN x0 p0 (fun t p => q_sc h (t * s) p)) by (unfold q_sc, deriv_η_skw_func; cbv zeta; fin).
  assert (Qη : forall i, lip ODE_LEN x0 p0 (fun t p => q_dη h (t * s) p i)) by (intros i; unfold q_dη; destruct (ha_η_derivs h); repeat ll).
  pose proof (Qη iη_O) as QO. pose proof (Qη iη_A) as QA. pose proof (Qη iη_H) as QH.
  assert (Qbr : lip ODE_LEN x0 p0 (fun t p => q_dbr (t * s) p)) by (unfold q_dbr, q_db, B_unit_deriv_1; cbv zeta; fin).
  assert (Qbf : lip ODE_LEN x0 p0 (fun t p => q_dbf (t * s) p)) by (unfold q_dbf, q_db, B_unit_deriv_1; cbv zeta; fin).
  assert (Qbt : lip ODE_LEN x0 p0 (fun t p => q_dbt (t * s) p)) by (unfold q_dbt, q_db, B_unit_deriv_1; cbv zeta; fin).
  assert (QAf : lip ODE_LEN x0 p0 (fun t p => q_A h (t * s) p)) by (unfold q_A, A_func; fin).
  assert (QX : lip ODE_LEN x0 p0 (fun t p => q_Xd h (t * s) p)) by (unfold q_Xd, X_dash_func; fin).
  assert (Q1 : lip ODE_LEN x0 p0 (fun t p => q_Z1 h (t * s) p)) by (unfold q_Z1, Z_1_func; fin).
  assert (Q2 : lip ODE_LEN x0 p0 (fun t p => q_Z2 h (t * s) p)) by (unfold q_Z2, Z_2_func; fin).
  assert (Q7 : lip ODE_LEN x0 p0 (fun t p => q_Z7 h (t * s) p)) by (unfold q_Z7, Z_7_func; repeat ll; exact G7).
  assert (Qd : lip ODE_LEN x0 p0 (fun t p => q_dd h (t * s) p)) by (unfold q_dd, dderiv_B_φ_func; fin).
  assert (Qvr : lip ODE_LEN x0 p0 (fun t p => q_dvr h (t * s) p)) by (unfold q_dvr, deriv_v_r_func; repeat ll; exact G7).
  assert (Qvf : lip ODE_LEN x0 p0 (fun t p => q_dvf h (t * s) p)) by (unfold q_dvf, deriv_v_φ_func; repeat ll).
  split.
  { intros i Hl. unfold ODE_LEN in Hl. unfold q_d.
    do 11 (destruct i as [|i]; [try destruct (ha_no_v_deriv h); first [assumption|exact (lip_const ODE_LEN x0 p0 0)]|]). lia. }
  split; [exact Lc|]. split; [exact LB|]. split; [repeat ll|]. split; [exact Pd|]. split; [exact PD|exact P6].
Qed.

(** So the states near it are regular, and the code answers with the derivatives. *)
Lemma regular_near : exists r, 0 < r /\ forall t p, near ODE_LEN x0 p0 r t p -> hydro_regular h t p.
Proof.
  destruct hydro_lip as (_ & H1 & H2 & H3 & H4 & H5 & H6). pose proof Hr as (G1 & G2 & G3 & G4 & G5 & G6 & G7 & G8). unfold N, s in *.
  destruct (lip_keeps _ _ _ _ H1 G1) as (r1 & P1 & K1). destruct (lip_keeps _ _ _ _ H2 (Rgt_not_eq _ _ G2)) as (r2 & P2 & K2).
  destruct (lip_keeps _ _ _ _ H3 G4) as (r3 & P3 & K3). destruct (lip_keeps _ _ _ _ H4 (Rgt_not_eq _ _ G6)) as (r4 & P4 & K4).
  destruct (lip_keeps _ _ _ _ H5 G7) as (r5 & P5 & K5). destruct (lip_keeps _ _ _ _ H6 G8) as (r6 & P6 & K6).
  destruct (lip_keeps _ _ _ _ (lip_slot ODE_LEN x0 p0 iρ ltac:(unfold iρ, ODE_LEN; lia)) (Rgt_not_eq _ _ G3)) as (r7 & P7 & K7).
  destruct (lip_keeps _ _ _ _ (lip_slot ODE_LEN x0 p0 iv_φ ltac:(unfold iv_φ, ODE_LEN; lia)) G5) as (r8 & P8 & K8).
  exists (Rmin (Rmin (Rmin r1 r2) (Rmin r3 r4)) (Rmin (Rmin r5 r6) (Rmin r7 r8))). split; [repeat apply Rmin_pos; assumption|].
  intros t p Hn. set (r := Rmin (Rmin (Rmin r1 r2) (Rmin r3 r4)) (Rmin (Rmin r5 r6) (Rmin r7 r8))) in *.
  assert (A : r <= Rmin (Rmin r1 r2) (Rmin r3 r4)) by apply Rmin_l. assert (B : r <= Rmin (Rmin r5 r6) (Rmin r7 r8)) by apply Rmin_r.
  pose proof (Rmin_l (Rmin r1 r2) (Rmin r3 r4)). pose proof (Rmin_r (Rmin r1 r2) (Rmin r3 r4)).
  pose proof (Rmin_l (Rmin r5 r6) (Rmin r7 r8)). pose proof (Rmin_r (Rmin r5 r6) (Rmin r7 r8)).
  pose proof (Rmin_l r1 r2). pose proof (Rmin_r r1 r2). pose proof (Rmin_l r3 r4). pose proof (Rmin_r r3 r4).
  pose proof (Rmin_l r5 r6). pose proof (Rmin_r r5 r6). pose proof (Rmin_l r7 r8). pose proof (Rmin_r r7 r8).
  assert (Q : forall ρ, r <= ρ -> near ODE_LEN x0 p0 ρ t p) by (intros ρ L; exact (near_le _ _ _ _ _ _ _ L Hn)).
  assert (Z : forall u v : R, u <> 0 -> Rabs u / 2 <= Rabs v -> v <> 0).
  { intros u v U L V. rewrite V, Rabs_R0 in L. apply Rabs_pos_lt in U. lra. }
  specialize (K1 t p (Q r1 ltac:(lra))). specialize (K2 t p (Q r2 ltac:(lra))). specialize (K3 t p (Q r3 ltac:(lra))). specialize (K4 t p (Q r4 ltac:(lra))).
  specialize (K5 t p (Q r5 ltac:(lra))). specialize (K6 t p (Q r6 ltac:(lra))). specialize (K7 t p (Q r7 ltac:(lra))). specialize (K8 t p (Q r8 ltac:(lra))).
  cbv beta in *. split; [exact (Z _ _ G1 (proj1 K1))|]. split; [pose proof (proj2 K2 G2) as X; red in G2; red; lra|].
  split; [pose proof (proj2 K7 G3); lra|]. split; [exact (Z _ _ G4 (proj1 K3))|]. split; [exact (Z _ _ G5 (proj1 K8))|].
  split; [pose proof (proj2 K4 G6); lra|]. split; [exact (Z _ _ G7 (proj1 K5))|exact (Z _ _ G8 (proj1 K6))].
Qed.
End Near.

Lemma regular_answers : forall h t p, hydro_regular h t p -> exists d θ, hydro_rhs h t p = Hy_ok d θ.
Proof.
  intros h t p (_ & _ & G3 & _ & _ & G6 & _). unfold hydro_rhs, B_unit_derivs. cbv beta iota zeta.
  destruct (Rlt_dec (p iρ) 0) as [L|_]; [exfalso; lra|].
  match goal with |- exists _ _, (if Rlt_dec ?q 0 then _ else _) = _ => change q with (discriminant h (t * ha_θ_scale h) p) end.
  destruct (Rlt_dec (discriminant h (t * ha_θ_scale h) p) 0) as [L|_]; [lra|]. eexists. eexists. reflexivity.
Qed.
