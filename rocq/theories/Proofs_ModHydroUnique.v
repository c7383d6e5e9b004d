(** Proof of C140: the right-hand side of the modified hydrostatic method without E_r, piece by piece, changes along two regular
    solutions by at most a multiple of the distance between them, and satisfies a Lipschitz condition near a regular state. *)
From Coq Require Import Reals Lra Lia FunctionalExtensionality.
From Verif Require Import Model_Index Model_Deriv Model_Midplane Model_Ode Model_Hydro Model_ModHydro Lib_Deriv Lib_Gronwall Lib_LocalLip Spec_MHD Spec_Ode Spec_Unique
  Spec_HydroUnique Spec_ModHydroUnique Proofs_Ode Proofs_Unique Proofs_HydroUnique.
Open Scope R_scope.

(** The right-hand side in pieces, each in terms of the earlier ones.  Those that the hydrostatic method has too are named as there. *)
Definition as_hydro (m : mod_hydro_args) : hydro_args :=
  mk_hydro_args (ma_a_0 m) (ma_norm_kepler_sq m) (ma_init_con m) (ma_θ_scale m) (ma_η_derivs m) (ma_store_internal m) false.
Section Pieces.
Variables (m : mod_hydro_args) (θ : R) (p : vec).
Let a_0 := ma_a_0 m.
Let h := as_hydro m.
Let k := kepler m.
Definition m_Z2 : R := Model_ModHydro.Z_2_func θ a_0 (the_X p) (p iv_r) (p iB_φ) (p iB_θ) (p iρ) (p iη_A) (p iη_O) (p iη_H) (unit p iB_φ) (unit p iB_r) (unit p iB_θ)
  (q_Xd h θ p) (p iB_φ_prime) (q_dBt θ p) (q_dbt θ p) (q_dbf θ p) (q_dbr θ p) (q_dη h θ p iη_O) (q_dη h θ p iη_A) (q_dη h θ p iη_H) (q_dρ h θ p) k.
Definition m_Z7 : R := Model_ModHydro.Z_7_func a_0 (the_X p) (p iv_r) (p iB_θ) (p iρ) (the_Z_5 p) k (the_C p) (p iv_φ) (the_Z_4 θ p).
Definition m_dd : R := dderiv_B_φ_func (q_A h θ p) (unit p iB_r) (unit p iB_θ) (p iB_θ) (unit p iB_φ) (p iB_φ) (the_C p) (q_dbr θ p) (q_dBr θ p) (q_dbt θ p) (q_dBt θ p)
  (q_dbf θ p) (p iB_φ_prime) (q_dη h θ p iη_A) (q_dη h θ p iη_H) (q_dη h θ p iη_O) (p iv_r) (p iv_φ) (mod_coefficient m θ p) m_Z7 (p iη_A) (p iη_H) (p iη_O) θ.
Definition m_dvr : R := Model_ModHydro.deriv_v_r_func (q_Z1 h θ p) m_Z2 (the_Z_4 θ p) (p iv_φ) (p iρ) a_0 m_dd (p iB_θ) k (the_X p) (p iv_r).
Definition m_dvf : R := Model_ModHydro.deriv_v_φ_func m_Z2 m_dvr m_dd k (p iv_r) (the_X p) (p iB_θ).
(** The derivative of each slot. *)
Definition m_d (i : nat) : R := match i with
  | 0%nat => q_dBr θ p | 1%nat => p iB_φ_prime | 2%nat => q_dBt θ p | 3%nat => m_dvr | 4%nat => m_dvf | 5%nat => 0
  | 6%nat => q_dρ h θ p | 7%nat => m_dd | 8%nat => q_dη h θ p iη_O | 9%nat => q_dη h θ p iη_A | 10%nat => q_dη h θ p iη_H | _ => 0 end.
End Pieces.

Lemma mod_pieces : forall sr m root x p d q r θ, ma_use_E_r m = false -> mod_hydro_rhs sr m root x p = Mh_ok d q r θ ->
  forall i, (i < ODE_LEN)%nat -> d i = m_d m (x * ma_θ_scale m) p i.
Proof.
  intros sr m root x p d q r θ NE. unfold mod_hydro_rhs. cbv zeta. rewrite NE. destruct (Rlt_dec (p iρ) 0); [discriminate|].
  unfold B_unit_derivs. cbv beta iota zeta.
  intros E i Hl. match type of E with Mh_ok ?D _ _ _ = _ => assert (E1 : D = d) by congruence end. clear E. subst d.
  unfold ODE_LEN in Hl. do 11 (destruct i as [|i]; [reflexivity|]); lia.
Qed.

Section Two.
Variables (m : mod_hydro_args) (y z : R -> vec) (a b : R).
Hypothesis Hab : a <= b.
Hypothesis NE : ma_use_E_r m = false.
Hypothesis Hy : mod_solves m y a b.
Hypothesis Hz : mod_solves m z a b.
Let s := ma_θ_scale m.
Let S (t : R) : R := sqrt (dist_sq (y t) (z t)).

Lemma mod_derivs : forall w, mod_solves m w a b -> forall t i, a <= t <= b -> (i < ODE_LEN)%nat ->
  derivable_pt_lim (fun x => w x i) t (m_d m (t * s) (w t) i).
Proof.
  intros w Hw t i Ht Hl. destruct (Hw t Ht) as (W & _). destruct (W (fun r _ _ _ _ => r) 0) as (d & q & r & e & E & D).
  unfold s. rewrite <- (mod_pieces _ _ _ _ _ _ _ _ _ NE E i Hl). apply D. exact Hl.
Qed.
Lemma mod_slot : forall i, (i < ODE_LEN)%nat -> close a b S (fun t => y t i) (fun t => z t i).
Proof.
  assert (C : forall w, mod_solves m w a b -> forall i, (i < ODE_LEN)%nat -> cont a b (fun t => w t i)).
  { intros w Hw i Hl t Ht. apply derivable_continuous_pt. exists (m_d m (t * s) (w t) i). apply (mod_derivs w Hw t i Ht Hl). }
  intros i Hl. split; [exact (C y Hy i Hl)|]. split; [exact (C z Hz i Hl)|].
  exists 1. split; [lra|]. intros t Ht. rewrite Rmult_1_l. unfold S.
  rewrite <- sqrt_Rsqr_abs. apply sqrt_le_1_alt. rewrite Rsqr_pow2. apply slot_le. exact Hl.
Qed.

Let N (g : R -> vec -> R) : Prop := close a b S (fun t => g (t * s) (y t)) (fun t => g (t * s) (z t)).

Lemma mod_close : forall i, (i < ODE_LEN)%nat -> N (fun θ p => m_d m θ p i).
Proof.
  assert (HS : forall x, a <= x <= b -> 0 <= S x) by (intros x _; apply sqrt_pos).
  assert (L : forall i, (i < ODE_LEN)%nat -> close a b S (fun t => y t i) (fun t => z t i)) by exact mod_slot.
  pose proof (L iB_r ltac:(unfold iB_r, ODE_LEN; lia)) as LBr. pose proof (L iB_φ ltac:(unfold iB_φ, ODE_LEN; lia)) as LBf.
  pose proof (L iB_θ ltac:(unfold iB_θ, ODE_LEN; lia)) as LBt. pose proof (L iv_r ltac:(unfold iv_r, ODE_LEN; lia)) as Lvr.
  pose proof (L iv_φ ltac:(unfold iv_φ, ODE_LEN; lia)) as Lvf.
  pose proof (L iρ ltac:(unfold iρ, ODE_LEN; lia)) as Lr. pose proof (L iB_φ_prime ltac:(unfold iB_φ_prime, ODE_LEN; lia)) as L7.
  pose proof (L iη_O ltac:(unfold iη_O, ODE_LEN; lia)) as LO. pose proof (L iη_A ltac:(unfold iη_A, ODE_LEN; lia)) as LA.
  pose proof (L iη_H ltac:(unfold iη_H, ODE_LEN; lia)) as LH. clear L.
  assert (CT : cont a b (fun t => t * s)).
  { intros t Ht. apply (continuity_pt_mult id (fun _ => s)); [apply derivable_continuous_pt, derivable_pt_id|apply continuity_pt_const; intros u v; reflexivity]. }
  assert (Hc : forall t, a <= t <= b -> cos (t * s) <> 0) by (intros t Ht; apply (Hy t Ht)).
  assert (Cc : cont a b (fun t => cos (t * s))) by (intros t Ht; apply (continuity_pt_comp (fun t => t * s) cos); [apply CT, Ht|apply continuity_cos]).
  assert (Csn : cont a b (fun t => sin (t * s))) by (intros t Ht; apply (continuity_pt_comp (fun t => t * s) sin); [apply CT, Ht|apply continuity_sin]).
  assert (Lθ : close a b S (fun t => t * s) (fun t => t * s)) by (apply close_same; exact CT).
  assert (Ltan : close a b S (fun t => tan (t * s)) (fun t => tan (t * s))).
  { apply close_same. intros t Ht. apply (continuity_pt_div (fun t => sin (t * s)) (fun t => cos (t * s))); auto. }
  assert (Lsec : close a b S (fun t => sec (t * s)) (fun t => sec (t * s))).
  { apply close_same. intros t Ht. apply (continuity_pt_div (fun _ => 1) (fun t => cos (t * s))); auto. apply continuity_pt_const. intros u v. reflexivity. }
  clear Cc Csn CT.
  pose (h := as_hydro m).
  assert (Reg : forall w, mod_solves m w a b -> forall t, a <= t <= b -> 0 < w t iρ /\ w t iv_φ <> 0 /\
    mod_determinant m (t * s) (w t) <> 0 /\ mod_denominator m (t * s) (w t) <> 0 /\ mod_coefficient m (t * s) (w t) <> 0).
  { intros w Hw t Ht. destruct (Hw t Ht) as (_ & _ & _ & H1 & _ & _ & H0 & H2 & H3 & H4). repeat split; assumption. }
  assert (k0 : kepler m <> 0) by (apply Rgt_not_eq, sqrt_lt_R0; destruct (Hy a ltac:(lra)) as (_ & _ & _ & _ & _ & H & _); exact H).
  assert (k1 : forall t, a <= t <= b -> kepler m <> 0) by (intros t _; exact k0).
  assert (k2 : forall t, a <= t <= b -> 2 * kepler m <> 0) by (intros t _; apply Rmult_integral_contrapositive_currified; [lra|exact k0]).
  (* the unit field *)
  assert (Lm : close a b S (fun t => sqrt (y t iB_r ^ 2 + y t iB_φ ^ 2 + y t iB_θ ^ 2)) (fun t => sqrt (z t iB_r ^ 2 + z t iB_φ ^ 2 + z t iB_θ ^ 2))).
  { apply (close_sqrt a b Hab S (fun t => y t iB_r ^ 2 + y t iB_φ ^ 2 + y t iB_θ ^ 2) (fun t => z t iB_r ^ 2 + z t iB_φ ^ 2 + z t iB_θ ^ 2));
      [repeat cl|intros t Ht; apply (Hy t Ht)|intros t Ht; apply (Hz t Ht)]. }
  assert (m0 : forall w, mod_solves m w a b -> forall t, a <= t <= b -> sqrt (w t iB_r ^ 2 + w t iB_φ ^ 2 + w t iB_θ ^ 2) <> 0)
    by (intros w Hw t Ht; apply Rgt_not_eq, sqrt_lt_R0; apply (Hw t Ht)).
  assert (Lbr : close a b S (fun t => unit (y t) iB_r) (fun t => unit (z t) iB_r)) by (unfold unit; repeat cl; auto).
  assert (Lbf : close a b S (fun t => unit (y t) iB_φ) (fun t => unit (z t) iB_φ)) by (unfold unit; repeat cl; auto).
  assert (Lbt : close a b S (fun t => unit (y t) iB_θ) (fun t => unit (z t) iB_θ)) by (unfold unit; repeat cl; auto).
  (* the denominators *)
  assert (d1 : forall w, mod_solves m w a b -> forall t, a <= t <= b -> w t iη_O + w t iη_A * (1 - unit (w t) iB_φ ^ 2) <> 0)
    by (intros w Hw t Ht; apply (Hw t Ht)).
  assert (d1' : forall w, mod_solves m w a b -> forall t, a <= t <= b -> (w t iη_O + w t iη_A * (1 - unit (w t) iB_φ ^ 2)) ^ 2 <> 0)
    by (intros w Hw t Ht; apply pow_nonzero, (d1 w Hw t Ht)).
  assert (d2 : forall w, mod_solves m w a b -> forall t, a <= t <= b -> w t iη_O + w t iη_A * (1 - unit (w t) iB_φ) * (1 + unit (w t) iB_φ) <> 0)
    by (intros w Hw t Ht; replace (w t iη_O + w t iη_A * (1 - unit (w t) iB_φ) * (1 + unit (w t) iB_φ)) with (w t iη_O + w t iη_A * (1 - unit (w t) iB_φ ^ 2)) by ring; exact (d1 w Hw t Ht)).
  assert (r0 : forall w, mod_solves m w a b -> forall t, a <= t <= b -> w t iρ <> 0)
    by (intros w Hw t Ht; apply Rgt_not_eq; apply (Reg w Hw t Ht)).
  assert (r2 : forall w, mod_solves m w a b -> forall t, a <= t <= b -> w t iρ ^ 2 <> 0)
    by (intros w Hw t Ht; apply pow_nonzero, (r0 w Hw t Ht)).
  assert (vr : forall w, mod_solves m w a b -> forall t, a <= t <= b -> w t iv_φ * w t iρ <> 0)
    by (intros w Hw t Ht; apply Rmult_integral_contrapositive_currified; [apply (Reg w Hw t Ht)|exact (r0 w Hw t Ht)]).
  assert (rd : forall w, mod_solves m w a b -> forall t, a <= t <= b -> w t iρ * (w t iη_O + w t iη_A * (1 - unit (w t) iB_φ ^ 2)) <> 0)
    by (intros w Hw t Ht; apply Rmult_integral_contrapositive_currified; [exact (r0 w Hw t Ht)|exact (d1 w Hw t Ht)]).
  assert (de : forall w, mod_solves m w a b -> forall t, a <= t <= b -> w t iv_φ ^ 2 * w t iρ * kepler m - the_Z_4 (t * s) (w t) * ma_a_0 m * w t iv_r <> 0)
    by (intros w Hw t Ht; apply (Reg w Hw t Ht)).
  assert (dn : forall w, mod_solves m w a b -> forall t, a <= t <= b -> w t iv_φ ^ 2 * w t iρ - mod_Z_3 m (w t) * the_Z_4 (t * s) (w t) * ma_a_0 m * w t iv_r <> 0)
    by (intros w Hw t Ht; apply (Reg w Hw t Ht)).
  assert (co : forall w, mod_solves m w a b -> forall t, a <= t <= b -> mod_coefficient m (t * s) (w t) <> 0)
    by (intros w Hw t Ht; apply (Reg w Hw t Ht)).
  assert (PX : N (fun θ p => the_X p)) by (unfold N, the_X, X_func; repeat cl; auto).
  assert (PC : N (fun θ p => the_C p)) by (unfold N, the_C, C_func in *; repeat cl; first [two|auto]).
  assert (P3 : N (fun _ p => mod_Z_3 m p)) by (unfold N, mod_Z_3, Model_ModHydro.Z_3_func in *; repeat cl; first [two|auto]).
  assert (P4 : N the_Z_4) by (unfold N, the_Z_4, Z_4_func in *; repeat cl; first [two|auto]).
  assert (P5 : N (fun θ p => the_Z_5 p)) by (unfold N, the_Z_5, Z_5_func in *; repeat cl; first [two|auto]).
  assert (P6 : N (mod_coefficient m)) by (unfold N, mod_coefficient, Model_ModHydro.Z_6_func in *; repeat cl; first [two|auto]).
  assert (QBt : N q_dBt) by (unfold N, q_dBt in *; repeat cl; first [two|auto]).
  assert (QBr : N q_dBr) by (unfold N, q_dBr in *; repeat cl; first [two|auto]).
  assert (Qρ : N (q_dρ h)) by (unfold N, q_dρ in *; repeat cl; first [two|auto]).
  assert (Qs : N (q_sc h)) by (unfold N, q_sc, deriv_η_skw_func in *; cbv zeta; repeat cl; first [two|auto]).
  assert (Qη : forall i, N (fun θ p => q_dη h θ p i)) by (intros i; unfold N, q_dη in *; destruct (ha_η_derivs h); repeat cl).
  pose proof (Qη iη_O) as QO. pose proof (Qη iη_A) as QA. pose proof (Qη iη_H) as QH.
  assert (Qbr : N q_dbr) by (unfold N, q_dbr, q_db, B_unit_deriv_1 in *; cbv zeta; repeat cl; first [two|auto]).
  assert (Qbf : N q_dbf) by (unfold N, q_dbf, q_db, B_unit_deriv_1 in *; cbv zeta; repeat cl; first [two|auto]).
  assert (Qbt : N q_dbt) by (unfold N, q_dbt, q_db, B_unit_deriv_1 in *; cbv zeta; repeat cl; first [two|auto]).
  assert (QAf : N (q_A h)) by (unfold N, q_A, A_func in *; repeat cl; first [two|auto]).
  assert (QX : N (q_Xd h)) by (unfold N, q_Xd, X_dash_func in *; repeat cl; first [two|auto]).
  assert (Q1 : N (q_Z1 h)) by (unfold N, q_Z1, Z_1_func in *; repeat cl; first [two|auto]).
  assert (Q2 : N (m_Z2 m)) by (unfold N, m_Z2, Model_ModHydro.Z_2_func in *; fold h; repeat cl; first [two|auto]).
  assert (Q7 : N (m_Z7 m)) by (unfold N, m_Z7, Model_ModHydro.Z_7_func in *; repeat cl; first [two|auto]).
  assert (Qd : N (m_dd m)) by (unfold N, m_dd, dderiv_B_φ_func in *; fold h; repeat cl; first [two|auto]).
  assert (Qvr : N (m_dvr m)) by (unfold N, m_dvr, Model_ModHydro.deriv_v_r_func in *; fold h; repeat cl; first [two|auto]).
  assert (Qvf : N (m_dvf m)) by (unfold N, m_dvf, Model_ModHydro.deriv_v_φ_func in *; repeat cl; first [two|auto]).
  intros i Hl. unfold ODE_LEN in Hl. unfold N, m_d in *. fold h.
  do 11 (destruct i as [|i]; [first [assumption|exact (Qη iη_O)|exact (Qη iη_A)|exact (Qη iη_H)|exact (close_const a b S 0)]|]). lia.
Qed.

Lemma mod_stays_close : exists K, 0 <= K /\ forall s t, a <= s <= b -> a <= t <= b ->
  dist_sq (y t) (z t) <= dist_sq (y s) (z s) * exp (K * Rabs (t - s)).
Proof.
  exact (rates_stay_close y z (fun t => m_d m (t * s) (y t)) (fun t => m_d m (t * s) (z t)) a b
    (fun t i Ht Hl => mod_derivs y Hy t i Ht Hl) (fun t i Ht Hl => mod_derivs z Hz t i Ht Hl) mod_close).
Qed.
End Two.


(** Near a regular state every piece satisfies a Lipschitz condition. *)
Ltac fin := repeat ll; first [assumption|apply Rgt_not_eq; lra].
Section Near.
Variables (m : mod_hydro_args) (x0 : R) (p0 : vec).
Hypothesis Hr : mod_regular m x0 p0.
Let s := ma_θ_scale m.
Let N (g : R -> vec -> R) : Prop := lip ODE_LEN x0 p0 (fun t p => g (t * s) p).

Lemma mod_lip : (forall i, (i < ODE_LEN)%nat -> N (fun θ p => m_d m θ p i)) /\
  N (fun θ _ => cos θ) /\ N (fun _ p => p iB_r ^ 2 + p iB_φ ^ 2 + p iB_θ ^ 2) /\ N (fun _ p => p iη_O + p iη_A * (1 - unit p iB_φ ^ 2)) /\
  N (mod_determinant m) /\ N (mod_denominator m) /\ N (mod_coefficient m).
Proof.
  destruct Hr as (G1 & G2 & G3 & G4 & G5 & Gv & G6 & G7 & G8). fold s in G1, G6, G7, G8. unfold N. pose (h := as_hydro m).
  assert (k0 : kepler m <> 0) by (apply Rgt_not_eq, sqrt_lt_R0; exact G5). assert (k2 : 2 * kepler m <> 0) by (apply Rmult_integral_contrapositive_currified; [lra|exact k0]).
  assert (L : forall i, (i < ODE_LEN)%nat -> lip ODE_LEN x0 p0 (fun _ p => p i)) by (intros i Hi; exact (lip_slot ODE_LEN x0 p0 i Hi)).
  pose proof (L iB_r ltac:(unfold iB_r, ODE_LEN; lia)) as LBr. pose proof (L iB_φ ltac:(unfold iB_φ, ODE_LEN; lia)) as LBf.
  pose proof (L iB_θ ltac:(unfold iB_θ, ODE_LEN; lia)) as LBt. pose proof (L iv_r ltac:(unfold iv_r, ODE_LEN; lia)) as Lvr.
  pose proof (L iv_φ ltac:(unfold iv_φ, ODE_LEN; lia)) as Lvf.
  pose proof (L iρ ltac:(unfold iρ, ODE_LEN; lia)) as Lr. pose proof (L iB_φ_prime ltac:(unfold iB_φ_prime, ODE_LEN; lia)) as L7.
  pose proof (L iη_O ltac:(unfold iη_O, ODE_LEN; lia)) as LO. pose proof (L iη_A ltac:(unfold iη_A, ODE_LEN; lia)) as LA.
  pose proof (L iη_H ltac:(unfold iη_H, ODE_LEN; lia)) as LH. clear L.
  pose proof (lip_cos ODE_LEN x0 p0 _ (lip_angle ODE_LEN x0 p0 s)) as Lc. pose proof (lip_sin ODE_LEN x0 p0 _ (lip_angle ODE_LEN x0 p0 s)) as Ls.
  assert (Ltan : lip ODE_LEN x0 p0 (fun t _ => tan (t * s))) by (exact (lip_div ODE_LEN x0 p0 _ _ Ls Lc G1)).
  assert (Lsec : lip ODE_LEN x0 p0 (fun t _ => sec (t * s))) by (exact (lip_div ODE_LEN x0 p0 _ _ (lip_const ODE_LEN x0 p0 1) Lc G1)).
  assert (LB : lip ODE_LEN x0 p0 (fun _ p => p iB_r ^ 2 + p iB_φ ^ 2 + p iB_θ ^ 2)) by repeat ll.
  assert (Lm : lip ODE_LEN x0 p0 (fun _ p => sqrt (p iB_r ^ 2 + p iB_φ ^ 2 + p iB_θ ^ 2))) by (exact (lip_sqrt ODE_LEN x0 p0 _ LB G2)).
  assert (m0 : sqrt (p0 iB_r ^ 2 + p0 iB_φ ^ 2 + p0 iB_θ ^ 2) <> 0) by (apply Rgt_not_eq, sqrt_lt_R0, G2).
  assert (Lbr : lip ODE_LEN x0 p0 (fun _ p => unit p iB_r)) by (unfold unit; repeat ll; exact m0).
  assert (Lbf : lip ODE_LEN x0 p0 (fun _ p => unit p iB_φ)) by (unfold unit; repeat ll; exact m0).
  assert (Lbt : lip ODE_LEN x0 p0 (fun _ p => unit p iB_θ)) by (unfold unit; repeat ll; exact m0).
  assert (d1' : (p0 iη_O + p0 iη_A * (1 - unit p0 iB_φ ^ 2)) ^ 2 <> 0) by (apply pow_nonzero, G4).
  assert (d2 : p0 iη_O + p0 iη_A * (1 - unit p0 iB_φ) * (1 + unit p0 iB_φ) <> 0)
    by (replace (p0 iη_O + p0 iη_A * (1 - unit p0 iB_φ) * (1 + unit p0 iB_φ)) with (p0 iη_O + p0 iη_A * (1 - unit p0 iB_φ ^ 2)) by ring; exact G4).
  assert (r0 : p0 iρ <> 0) by lra. assert (r2 : p0 iρ ^ 2 <> 0) by (apply pow_nonzero, r0).
  assert (vr : p0 iv_φ * p0 iρ <> 0) by (apply Rmult_integral_contrapositive_currified; assumption).
  assert (rd : p0 iρ * (p0 iη_O + p0 iη_A * (1 - unit p0 iB_φ ^ 2)) <> 0) by (apply Rmult_integral_contrapositive_currified; assumption).
  assert (PX : lip ODE_LEN x0 p0 (fun _ p => the_X p)) by (unfold the_X, X_func; fin).
  assert (PC : lip ODE_LEN x0 p0 (fun _ p => the_C p)) by (unfold the_C, C_func; fin).
  assert (P3 : lip ODE_LEN x0 p0 (fun _ p => mod_Z_3 m p)) by (unfold mod_Z_3, Model_ModHydro.Z_3_func; fin).
  assert (P4 : lip ODE_LEN x0 p0 (fun t p => the_Z_4 (t * s) p)) by (unfold the_Z_4, Z_4_func; fin).
  assert (P5 : lip ODE_LEN x0 p0 (fun _ p => the_Z_5 p)) by (unfold the_Z_5, Z_5_func; repeat ll).
  assert (PD : lip ODE_LEN x0 p0 (fun t p => mod_determinant m (t * s) p)) by (unfold mod_determinant; repeat ll).
  assert (Pn : lip ODE_LEN x0 p0 (fun t p => mod_denominator m (t * s) p)) by (unfold mod_denominator; repeat ll).
  assert (P6 : lip ODE_LEN x0 p0 (fun t p => mod_coefficient m (t * s) p)) by (unfold mod_coefficient, Model_ModHydro.Z_6_func; repeat ll; first [exact G7|assumption]).
  assert (QBt : lip ODE_LEN x0 p0 (fun t p => q_dBt (t * s) p)) by (unfold q_dBt; fin).
  assert (QBr : lip ODE_LEN x0 p0 (fun t p => q_dBr (t * s) p)) by (unfold q_dBr; fin).
  assert (Qρ : lip ODE_LEN x0 p0 (fun t p => q_dρ h (t * s) p)) by (unfold q_dρ; fin).
  assert (Qs : lip ODE_LEN x0 p0 (fun t p => q_sc h (t * s) p)) by (unfold q_sc, deriv_η_skw_func; cbv zeta; fin).
  assert (Qη : forall i, lip ODE_LEN x0 p0 (fun t p => q_dη h (t * s) p i)) by (intros i; unfold q_dη; destruct (ha_η_derivs h); repeat ll).
  pose proof (Qη iη_O) as QO. pose proof (Qη iη_A) as QA. pose proof (Qη iη_H) as QH.
  assert (Qbr : lip ODE_LEN x0 p0 (fun t p => q_dbr (t * s) p)) by (unfold q_dbr, q_db, B_unit_deriv_1; cbv zeta; fin).
  assert (Qbf : lip ODE_LEN x0 p0 (fun t p => q_dbf (t * s) p)) by (unfold q_dbf, q_db, B_unit_deriv_1; cbv zeta; fin).
  assert (Qbt : lip ODE_LEN x0 p0 (fun t p => q_dbt (t * s) p)) by (unfold q_dbt, q_db, B_unit_deriv_1; cbv zeta; fin).
  assert (QAf : lip ODE_LEN x0 p0 (fun t p => q_A h (t * s) p)) by (unfold q_A, A_func; fin).
  assert (QX : lip ODE_LEN x0 p0 (fun t p => q_Xd h (t * s) p)) by (unfold q_Xd, X_dash_func; fin).
  assert (Q1 : lip ODE_LEN x0 p0 (fun t p => q_Z1 h (t * s) p)) by (unfold q_Z1, Z_1_func; fin).
  assert (Q2 : lip ODE_LEN x0 p0 (fun t p => m_Z2 m (t * s) p)) by (unfold m_Z2, Model_ModHydro.Z_2_func; fold h; fin).
  assert (Q7 : lip ODE_LEN x0 p0 (fun t p => m_Z7 m (t * s) p)) by (unfold m_Z7, Model_ModHydro.Z_7_func; repeat ll; first [exact G6|assumption]).
  assert (Qd : lip ODE_LEN x0 p0 (fun t p => m_dd m (t * s) p)) by (unfold m_dd, dderiv_B_φ_func; fold h; fin).
  assert (Qvr : lip ODE_LEN x0 p0 (fun t p => m_dvr m (t * s) p)) by (unfold m_dvr, Model_ModHydro.deriv_v_r_func; fold h; repeat ll; exact G6).
  assert (Qvf : lip ODE_LEN x0 p0 (fun t p => m_dvf m (t * s) p)) by (unfold m_dvf, Model_ModHydro.deriv_v_φ_func; fin).
  split.
  { intros i Hl. unfold ODE_LEN in Hl. unfold m_d. fold h.
    do 11 (destruct i as [|i]; [first [assumption|exact (lip_const ODE_LEN x0 p0 0)]|]). lia. }
  split; [exact Lc|]. split; [exact LB|]. split; [repeat ll|]. split; [exact PD|]. split; [exact Pn|exact P6].
Qed.

(** So the states near it are regular, and the code answers with the derivatives. *)
Lemma mod_regular_near : exists r, 0 < r /\ forall t p, near ODE_LEN x0 p0 r t p -> mod_regular m t p.
Proof.
  destruct mod_lip as (_ & H1 & H2 & H3 & H4 & H5 & H6). pose proof Hr as (G1 & G2 & G3 & G4 & G5 & Gv & G6 & G7 & G8). unfold N, s in *.
  destruct (lip_keeps _ _ _ _ H1 G1) as (r1 & P1 & K1). destruct (lip_keeps _ _ _ _ H2 (Rgt_not_eq _ _ G2)) as (r2 & P2 & K2).
  destruct (lip_keeps _ _ _ _ H3 G4) as (r3 & P3 & K3). destruct (lip_keeps _ _ _ _ H4 G6) as (r4 & P4 & K4).
  destruct (lip_keeps _ _ _ _ H5 G7) as (r5 & P5 & K5). destruct (lip_keeps _ _ _ _ H6 G8) as (r6 & P6 & K6).
  destruct (lip_keeps _ _ _ _ (lip_slot ODE_LEN x0 p0 iρ ltac:(unfold iρ, ODE_LEN; lia)) (Rgt_not_eq _ _ G3)) as (r7 & P7 & K7).
  destruct (lip_keeps _ _ _ _ (lip_slot ODE_LEN x0 p0 iv_φ ltac:(unfold iv_φ, ODE_LEN; lia)) Gv) as (r8 & P8 & K8).
  exists (Rmin (Rmin (Rmin r1 r2) (Rmin r3 r4)) (Rmin (Rmin r5 r6) (Rmin r7 r8))). split; [repeat apply Rmin_pos; assumption|].
  intros t p Hn. set (r := Rmin (Rmin (Rmin r1 r2) (Rmin r3 r4)) (Rmin (Rmin r5 r6) (Rmin r7 r8))) in *.
  assert (A : r <= Rmin (Rmin r1 r2) (Rmin r3 r4)) by apply Rmin_l. assert (B : r <= Rmin (Rmin r5 r6) (Rmin r7 r8)) by apply Rmin_r.
  pose proof (Rmin_l (Rmin r1 r2) (Rmin r3 r4)). pose proof (Rmin_r (Rmin r1 r2) (Rmin r3 r4)).
  pose proof (Rmin_l (Rmin r5 r6) (Rmin r7 r8)). pose proof (Rmin_r (Rmin r5 r6) (Rmin r7 r8)). pose proof (Rmin_l r7 r8). pose proof (Rmin_r r7 r8).
  pose proof (Rmin_l r1 r2). pose proof (Rmin_r r1 r2). pose proof (Rmin_l r3 r4). pose proof (Rmin_r r3 r4).
  pose proof (Rmin_l r5 r6). pose proof (Rmin_r r5 r6). 
  assert (Q : forall ρ, r <= ρ -> near ODE_LEN x0 p0 ρ t p) by (intros ρ L; exact (near_le _ _ _ _ _ _ _ L Hn)).
  assert (Z : forall u v : R, u <> 0 -> Rabs u / 2 <= Rabs v -> v <> 0).
  { intros u v U L V. rewrite V, Rabs_R0 in L. apply Rabs_pos_lt in U. lra. }
  specialize (K1 t p (Q r1 ltac:(lra))). specialize (K2 t p (Q r2 ltac:(lra))). specialize (K3 t p (Q r3 ltac:(lra))). specialize (K4 t p (Q r4 ltac:(lra))).
  specialize (K5 t p (Q r5 ltac:(lra))). specialize (K6 t p (Q r6 ltac:(lra))). specialize (K7 t p (Q r7 ltac:(lra))). specialize (K8 t p (Q r8 ltac:(lra))).
  cbv beta in *. split; [exact (Z _ _ G1 (proj1 K1))|]. split; [pose proof (proj2 K2 G2) as X; red in G2; red; lra|].
  split; [pose proof (proj2 K7 G3); lra|]. split; [exact (Z _ _ G4 (proj1 K3))|]. split; [exact G5|]. split; [exact (Z _ _ Gv (proj1 K8))|].
  split; [exact (Z _ _ G6 (proj1 K4))|]. split; [exact (Z _ _ G7 (proj1 K5))|exact (Z _ _ G8 (proj1 K6))].
Qed.
End Near.

Lemma mod_regular_answers : forall sr m root t p, ma_use_E_r m = false -> mod_regular m t p -> exists d q r θ, mod_hydro_rhs sr m root t p = Mh_ok d q r θ.
Proof.
  intros sr m root t p NE (_ & _ & G3 & _). unfold mod_hydro_rhs, B_unit_derivs. cbv beta iota zeta. rewrite NE.
  destruct (Rlt_dec (p iρ) 0) as [L|_]; [exfalso; lra|]. do 4 eexists. reflexivity.
Qed.
