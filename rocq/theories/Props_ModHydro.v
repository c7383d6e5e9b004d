(** C63: the modified hydrostatic method. *)
From Coq Require Import Reals Lra Lia List Bool.
From Verif Require Import Lib_Deriv Model_Index Model_Deriv Model_Midplane Model_Ode Model_Hydro Model_ModHydro
  Spec_MHD Spec_Ode Proofs_Ode Proofs_MHD Proofs_SelfSimilar Props_Hydro.
Import ListNotations.
Open Scope R_scope.

(** ** Specification: the radial momentum equation with v_φ² replaced by its linearisation 2 v_k v_φ - v_k² about the Keplerian
    speed v_k² = K / r. *)
Definition momentum_r_linear (K a_0 : R) (F : fluid) (r θ : R) : Prop :=
  exists a_r a_φ a_θ g_r g_θ j_r j_φ j_θ,
    advection_is (f_v_r F) (f_v_φ F) (f_v_θ F) r θ a_r a_φ a_θ /\
    gradient_is (pressure F) r θ g_r g_θ /\
    curl_is (f_B_r F) (f_B_φ F) (f_B_θ F) r θ j_r j_φ j_θ /\
    let v_k := sqrt (K / r) in
    f_ρ F r θ * (a_r + f_v_φ F r θ ^ 2 / r - (2 * v_k * f_v_φ F r θ - v_k ^ 2) / r) = - g_r - f_ρ F r θ * K / r ^ 2
      + a_0 * cross_r j_r j_φ j_θ (f_B_r F r θ) (f_B_φ F r θ) (f_B_θ F r θ).
(** It is the radial momentum equation where v_φ is the Keplerian speed. *)
Lemma momentum_r_linear_kepler : forall K a_0 F r θ, f_v_φ F r θ = sqrt (K / r) -> (momentum_r_linear K a_0 F r θ <-> momentum_r K a_0 F r θ).
Proof.
  intros K a_0 F r θ H. unfold momentum_r_linear, momentum_r. cbv zeta. rewrite H.
  split; intros (ar & ap & at_ & gr & gt & jr & jp & jt & Ha & Hg & Hj & E);
    exists ar, ap, at_, gr, gt, jr, jp, jt; (split; [exact Ha|split; [exact Hg|split; [exact Hj|]]]).
  - rewrite <- E. unfold Rdiv. ring.
  - rewrite <- E. unfold Rdiv. ring.
Qed.

Lemma momentum_r_linear_iff : forall γ y d θ r K a_0,
  (forall i, (i < ODE_LEN)%nat -> derivable_pt_lim (fun t => y t i) θ (d i)) -> cos θ <> 0 -> 0 < r -> 0 <= K ->
  let p := y θ in
  momentum_r_linear K a_0 (fluid_of γ y) r θ <->
  p iρ * (- p iv_r ^ 2 / 2 + p iv_θ * d iv_r - (p iv_θ ^ 2 + (2 * sqrt K * p iv_φ - K))) =
  - (2 * γ - 5 / 2) * p iρ - p iρ * K + a_0 * ((d iB_r + (1 / 4 - γ) * p iB_θ) * p iB_θ - - (1 / 4 - γ) * p iB_φ * p iB_φ).
Proof.
  intros γ y d θ r K a_0 Hd Hcos Hr HK p.
  pose proof (curve_curl γ y d θ r Hd Hcos Hr) as Cc. pose proof (curve_adv γ y d θ r Hd Hr) as Ca.
  pose proof (curve_grad γ y d θ r Hd Hr) as Cg. pose proof (curve_scale γ r Hr) as Hs.
  assert (Hk : sqrt (K / r) = sqrt K * Rpower r (-1 / 2)).
  { unfold Rdiv at 1. rewrite sqrt_mult by (try assumption; left; apply Rinv_0_lt_compat; assumption). f_equal.
    rewrite <- (Rpower_half_sq r Hr). apply sqrt_pow2. left. apply Rpower_pos. }
  assert (HKr : sqrt (K / r) ^ 2 = K / r).
  { apply pow2_sqrt. unfold Rdiv. apply Rmult_le_pos; [exact HK|]. left. apply Rinv_0_lt_compat. exact Hr. }
  fold p in Cc, Ca, Cg.
  match goal with |- _ <-> ?l = ?m => set (l0 := l); set (m0 := m) end.
  match type of Cc with curl_is _ _ _ _ _ ?c1 ?c2 ?c3 => match type of Ca with advection_is _ _ _ _ _ ?b1 ?b2 ?b3 => match type of Cg with gradient_is _ _ _ ?g1 ?g2 =>
    assert (X : f_ρ (fluid_of γ y) r θ * (b1 + f_v_φ (fluid_of γ y) r θ ^ 2 / r - (2 * sqrt (K / r) * f_v_φ (fluid_of γ y) r θ - sqrt (K / r) ^ 2) / r)
      - (- g1 - f_ρ (fluid_of γ y) r θ * K / r ^ 2 + a_0 * cross_r c1 c2 c3 (f_B_r (fluid_of γ y) r θ) (f_B_φ (fluid_of γ y) r θ) (f_B_θ (fluid_of γ y) r θ))
      = Rpower r (2 * γ - 3 / 2) / r ^ 2 * (l0 - m0)) end end end.
  { rewrite HKr, Hk. unfold l0, m0, fluid_of, self_similar_fluid, self_similar. simpl. fold p. unfold cross_r.
    rewrite (Pρ_eq γ r Hr). pose proof (Rpower_half_sq r Hr) as Hh. set (P2 := Rpower r (-1 / 2)) in *.
    assert (Hh' : P2 * P2 = / r) by (rewrite <- Hh; ring).
    match goal with |- ?a = _ => replace a with (Rpower r (γ - 5 / 4) ^ 2 * r * p iρ *
      (/ r / r * (- p iv_r ^ 2 / 2 + p iv_θ * d iv_r - (p iv_θ ^ 2 + p iv_φ ^ 2)) + P2 * P2 * p iv_φ ^ 2 / r
        - (2 * sqrt K * (P2 * P2) * p iv_φ - K / r) / r) -
      (- ((2 * γ - 5 / 2) * (Rpower r (γ - 5 / 4) ^ 2 * r) / r ^ 2 * p iρ) - Rpower r (γ - 5 / 4) ^ 2 * r * p iρ * K / r ^ 2 +
       a_0 * (Rpower r (γ - 5 / 4) / r * (d iB_r + (1 / 4 - γ) * p iB_θ) * (Rpower r (γ - 5 / 4) * p iB_θ) -
              Rpower r (γ - 5 / 4) / r * (- (1 / 4 - γ) * p iB_φ) * (Rpower r (γ - 5 / 4) * p iB_φ)))) by (field; lra) end.
    rewrite Hh'. field. lra. }
  rewrite <- (scale_iff _ _ _ _ _ Hs X). unfold momentum_r_linear. cbv zeta. split.
  - intros (ar & ap & at_ & gr & gt & jr & jp & jt & Ha & Hg & Hj & E).
    destruct (advection_unique _ _ _ _ _ _ _ _ _ _ _ Ha Ca) as (E1 & _ & _).
    destruct (gradient_unique _ _ _ _ _ _ _ Hg Cg) as (E2 & _).
    destruct (curl_unique _ _ _ _ _ _ _ _ _ _ _ Hj Cc) as (E3 & E4 & E5). subst. exact E.
  - intros E. do 8 eexists. split; [exact Ca|]. split; [exact Cg|]. split; [exact Cc|]. exact E.
Qed.

(** ** The cubic *)
(** A tracker that finds a root of every cubic. *)
Definition answers_root (solve_root : cubic_tracker) : Prop :=
  forall root a_3 a_2 a_1 a_0, a_3 <> 0 -> let x := solve_root root a_3 a_2 a_1 a_0 in a_3 * x ^ 3 + a_2 * x ^ 2 + a_1 * x + a_0 = 0.

(** The cubic is the linearised radial equation, with B_r' and B_φ' eliminated, times the denominator of v_φ over 2 v_k. *)
Lemma cubic_eq : forall θ a_0 k ρ Z_5 Z_8 B_r B_θ B_φ b_r b_θ b_φ η_O η_A η_H C X v,
  a_0 <> 0 -> k <> 0 -> ρ <> 0 -> Z_5 <> 0 -> η_O + η_A * (1 - b_φ ^ 2) <> 0 -> B_θ ^ 2 / Z_5 + v * ρ / (2 * a_0) <> 0 ->
  let '(a_3, a_2, a_1, a_0') := v_r_coefficients θ a_0 k ρ Z_5 Z_8 B_r B_θ B_φ b_r b_θ b_φ η_O η_A η_H C X in
  let v_φ := v_φ_func θ a_0 ρ Z_5 Z_8 v B_r B_θ B_φ C in
  let B_φ' := deriv_B_φ_func Z_5 Z_8 v v_φ B_θ C in
  let D := η_O + η_A * (1 - b_φ ^ 2) in
  ρ * v * v_φ / 2 = a_0 * (B_θ * B_φ' - B_r * B_φ / 4 - B_θ * B_φ * tan θ) /\
  a_3 * v ^ 3 + a_2 * v ^ 2 + a_1 * v + a_0' =
  (B_θ ^ 2 / Z_5 + v * ρ / (2 * a_0)) / (2 * k) *
  (v ^ 2 / 2 + 5 / 2 + 2 * k * v_φ - 2 * k ^ 2 + a_0 / ρ * (B_φ ^ 2 / 4 + B_θ / D * (B_φ * (η_A * b_φ * (b_r * tan θ - b_θ / 4) + η_H * (b_r / 4 + b_θ * tan θ))
    - B_φ' * (X * D) - v * B_θ))).
Proof.
  intros θ a_0 k ρ Z_5 Z_8 B_r B_θ B_φ b_r b_θ b_φ η_O η_A η_H C X v Ha Hk Hρ HZ HD HM.
  unfold v_r_coefficients. cbv zeta. unfold deriv_B_φ_func, v_φ_func. set (T := tan θ). set (D := η_O + η_A * (1 - b_φ ^ 2)) in *.
  assert (HM' : B_θ ^ 2 * (2 * a_0) + v * ρ * Z_5 <> 0).
  { intro E. apply HM. replace (B_θ ^ 2 / Z_5 + v * ρ / (2 * a_0)) with ((B_θ ^ 2 * (2 * a_0) + v * ρ * Z_5) / (Z_5 * (2 * a_0))) by (field; split; assumption).
    rewrite E. unfold Rdiv. ring. }
  split.
  - field. repeat split; try assumption; intro E; apply HM'; lra.
  - clearbody D T. field. repeat split; try assumption; intro E; apply HM'; lra.
Qed.

(** The state's unit field, C, X, Z_5 and Z_8, as the code computes them. *)
Definition mh_C (p : vec) : R :=
  let m := sqrt (p iB_r ^ 2 + p iB_φ ^ 2 + p iB_θ ^ 2) in C_func (p iη_O) (p iη_A) (p iη_H) (p iB_θ / m) (p iB_r / m) (p iB_φ / m).
Definition mh_Z_5 (p : vec) : R :=
  let m := sqrt (p iB_r ^ 2 + p iB_φ ^ 2 + p iB_θ ^ 2) in Z_5_func (p iη_O) (p iη_A) (p iη_H) (p iB_r / m) (p iB_θ / m) (p iB_φ / m) (mh_C p).
Definition mh_Z_8 (θ : R) (p : vec) : R :=
  let m := sqrt (p iB_r ^ 2 + p iB_φ ^ 2 + p iB_θ ^ 2) in
  Z_8_func θ (p iB_r / m) (p iB_θ / m) (p iB_φ / m) (p iB_φ) (p iη_O) (p iη_A) (p iη_H) (p iE_r) (mh_Z_5 p) (mh_C p).
Definition mh_coefficients (a_0 k θ : R) (p : vec) : R * R * R * R :=
  let m := sqrt (p iB_r ^ 2 + p iB_φ ^ 2 + p iB_θ ^ 2) in
  v_r_coefficients θ a_0 k (p iρ) (mh_Z_5 p) (mh_Z_8 θ p) (p iB_r) (p iB_θ) (p iB_φ) (p iB_r / m) (p iB_θ / m) (p iB_φ / m)
    (p iη_O) (p iη_A) (p iη_H) (mh_C p) (hydro_X p).
(** Only the velocity slots of a state are not read. *)
Definition same_but_v (p q : vec) : Prop := forall i, i <> iv_r -> i <> iv_φ -> p i = q i.

Lemma single_solve_eq : forall solve_root a_0 k root p θ,
  single_solve solve_root a_0 k root p θ =
  let '(a3, a2, a1, a0) := mh_coefficients a_0 k θ p in
  let v := solve_root root a3 a2 a1 a0 in
  (upd iv_φ (v_φ_func θ a_0 (p iρ) (mh_Z_5 p) (mh_Z_8 θ p) v (p iB_r) (p iB_θ) (p iB_φ) (mh_C p)) (upd iv_r v p), v).
Proof. reflexivity. Qed.

Lemma mod_ok_inv : forall solve_root m root x p d p' root' θ, mod_hydro_rhs solve_root m root x p = Mh_ok d p' root' θ -> ma_use_E_r m = true ->
  let k := sqrt (ma_norm_kepler_sq m) in
  θ = scaled_to_rad_num x (ma_θ_scale m) /\ 0 <= p iρ /\ single_solve solve_root (ma_a_0 m) k root p θ = (p', root') /\
  d iB_φ = deriv_B_φ_func (mh_Z_5 p) (mh_Z_8 θ p) (p' iv_r) (p' iv_φ) (p iB_θ) (mh_C p) /\
  d iB_θ = p iB_θ * tan θ - 3 / 4 * p iB_r /\ d iv_r = 0 /\ d iv_φ = 0 /\ d iv_θ = 0 /\
  (let n := sqrt (p iB_r ^ 2 + p iB_φ ^ 2 + p iB_θ ^ 2) in
   let b_r := p iB_r / n in let b_φ := p iB_φ / n in let b_θ := p iB_θ / n in
   d iB_r = (p iB_φ * (p iη_A * b_φ * (b_r * tan θ - b_θ / 4) + p iη_H * (b_r / 4 + b_θ * tan θ))
     - d iB_φ * (p iη_H * b_θ + p iη_A * b_r * b_φ) - p' iv_r * p iB_θ) / (p iη_O + p iη_A * (1 - b_φ) * (1 + b_φ)) - p iB_θ / 4) /\
  d iρ = - p iρ * p' iv_φ ^ 2 * tan θ - ma_a_0 m * (p iB_θ * p iB_r / 4 + p iB_r * d iB_r + p iB_φ * d iB_φ - p iB_φ ^ 2 * tan θ).
Proof.
  intros solve_root m root x p d p' root' θ H HE. revert H. unfold mod_hydro_rhs. rewrite HE. cbv zeta.
  destruct (Rlt_dec (p iρ) 0) as [|Hρ]; [discriminate|]. apply Rnot_lt_le in Hρ.
  unfold v_r_func. rewrite single_solve_eq.
  change (v_r_coefficients _ _ _ _ _ _ _ _ _ _ _ _ _ _ _ _ _) with
    (mh_coefficients (ma_a_0 m) (sqrt (ma_norm_kepler_sq m)) (scaled_to_rad_num x (ma_θ_scale m)) p).
  destruct (mh_coefficients (ma_a_0 m) (sqrt (ma_norm_kepler_sq m)) (scaled_to_rad_num x (ma_θ_scale m)) p) as [[[a3 a2] a1] a0] eqn:Ec.
  intros E.
  match type of E with Mh_ok ?D ?P ?Rt ?t = _ => assert (E1 : D = d) by congruence; assert (E2 : t = θ) by congruence;
    assert (E3 : P = p') by congruence; assert (E4 : Rt = root') by congruence end.
  clear E. subst θ p' root'. rewrite Ec.
  split; [reflexivity|]. split; [exact Hρ|]. split; [reflexivity|]. subst d. repeat split; reflexivity.
Qed.

Lemma same_v : forall a b p, same_but_v (upd iv_φ a (upd iv_r b p)) p.
Proof.
  intros a b p i H1 H2. unfold upd. destruct (Nat.eqb_spec i iv_φ); [contradiction|]. destruct (Nat.eqb_spec i iv_r); [contradiction|]. reflexivity.
Qed.

Section Linear.
Variables (solve_root : cubic_tracker) (m : mod_hydro_args) (root : R) (y : R -> vec) (d p p' : vec) (θ r root' : R).
Hypothesis Hroot : answers_root solve_root.
Hypotheses (HE : ma_use_E_r m = true) (Hscale : ma_θ_scale m = 1) (HK : 0 < ma_norm_kepler_sq m) (Ha : ma_a_0 m <> 0).
Hypothesis Hrhs : mod_hydro_rhs solve_root m root θ p = Mh_ok d p' root' θ.
(** A curve through the state as the call leaves it, with the field's and the density's derivatives it returned. *)
Hypothesis Hy : y θ = p'.
Variable d_v : vec.
Hypothesis Hd : forall i, (i < ODE_LEN)%nat -> derivable_pt_lim (fun t => y t i) θ (d_v i).
Hypothesis Hdv : forall i, i = iB_r \/ i = iB_φ \/ i = iB_θ \/ i = iρ -> d_v i = d i.
Hypotheses (Hcos : cos θ <> 0) (Hr : 0 < r) (Hρ : 0 < p iρ) (Hv_θ : p iv_θ = 0) (HB : B_nonzero p) (HD : diffusive p).
Hypotheses (HZ : mh_Z_5 p <> 0) (HM : p iB_θ ^ 2 / mh_Z_5 p + p' iv_r * p iρ / (2 * ma_a_0 m) <> 0).
Let F := fluid_of 0 y.

(** C63: with the fields' derivatives of the call, the velocities it writes into the state satisfy the azimuthal momentum equation and the linearised
    radial one; the other equations but the induction equation for B_φ hold too. *)
Theorem C63_velocities : momentum_φ (ma_a_0 m) F r θ /\ momentum_r_linear (ma_norm_kepler_sq m) (ma_a_0 m) F r θ /\
  E_φ_vanishes F r θ /\ solenoidal F r θ /\ momentum_θ (ma_a_0 m) F r θ.
Proof.
  destruct (mod_ok_inv _ _ _ _ _ _ _ _ _ Hrhs HE) as (_ & _ & Es & E1 & E2 & _ & _ & _ & E3 & E4). cbv zeta in E3.
  rewrite single_solve_eq in Es.
  destruct (mh_coefficients (ma_a_0 m) (sqrt (ma_norm_kepler_sq m)) θ p) as [[[a3 a2] a1] a0] eqn:Ec.
  cbv zeta in Es.
  assert (Hk : sqrt (ma_norm_kepler_sq m) <> 0) by (apply Rgt_not_eq, sqrt_lt_R0; exact HK).
  assert (Ha3 : a3 <> 0).
  { unfold mh_coefficients, v_r_coefficients in Ec. cbv zeta in Ec. injection Ec as <- _ _ _. intro Z. apply (Rgt_not_eq _ _ Hρ).
    rewrite <- (div_cancel (p iρ) (8 * sqrt (ma_norm_kepler_sq m) * ma_a_0 m)); [rewrite Z; ring|].
    apply Rmult_integral_contrapositive_currified; [apply Rmult_integral_contrapositive_currified; [apply Rgt_not_eq; lra | exact Hk] | exact Ha]. }
  set (v := solve_root root a3 a2 a1 a0) in *.
  assert (Hc : a3 * v ^ 3 + a2 * v ^ 2 + a1 * v + a0 = 0) by (apply (Hroot root a3 a2 a1 a0); exact Ha3).
  set (vp := v_φ_func θ (ma_a_0 m) (p iρ) (mh_Z_5 p) (mh_Z_8 θ p) v (p iB_r) (p iB_θ) (p iB_φ) (mh_C p)) in *.
  assert (Ep' : upd iv_φ vp (upd iv_r v p) = p') by congruence. clear Es.
  assert (Ev : p' iv_r = v) by (rewrite <- Ep'; reflexivity). assert (Evp : p' iv_φ = vp) by (rewrite <- Ep'; reflexivity).
  assert (S : same_but_v p' p) by (rewrite <- Ep'; apply same_v).
  assert (S1 : p' iB_r = p iB_r) by (apply S; discriminate). assert (S2 : p' iB_φ = p iB_φ) by (apply S; discriminate).
  assert (S3 : p' iB_θ = p iB_θ) by (apply S; discriminate). assert (S4 : p' iρ = p iρ) by (apply S; discriminate).
  assert (S5 : p' iη_O = p iη_O) by (apply S; discriminate). assert (S6 : p' iη_A = p iη_A) by (apply S; discriminate).
  assert (S7 : p' iη_H = p iη_H) by (apply S; discriminate). assert (S8 : p' iv_θ = 0) by (rewrite <- Hv_θ; apply S; discriminate).
  clear S Ep'. rewrite Ev in *. rewrite Evp in *.
  set (k := sqrt (ma_norm_kepler_sq m)) in *.
  assert (Hk2 : k ^ 2 = ma_norm_kepler_sq m) by (apply pow2_sqrt; lra).
  destruct (hydro_unit p HB) as (Hm & Hu & Hn). specialize (Hn HD).
  assert (Hρ0 : p iρ <> 0) by (apply Rgt_not_eq; exact Hρ).
  pose proof (cubic_eq θ (ma_a_0 m) k (p iρ) (mh_Z_5 p) (mh_Z_8 θ p) (p iB_r) (p iB_θ) (p iB_φ)
    (p iB_r / sqrt (p iB_r ^ 2 + p iB_φ ^ 2 + p iB_θ ^ 2)) (p iB_θ / sqrt (p iB_r ^ 2 + p iB_φ ^ 2 + p iB_θ ^ 2))
    (p iB_φ / sqrt (p iB_r ^ 2 + p iB_φ ^ 2 + p iB_θ ^ 2)) (p iη_O) (p iη_A) (p iη_H) (mh_C p) (hydro_X p) v Ha Hk Hρ0 HZ Hn HM) as Q.
  unfold mh_coefficients in Ec. cbv zeta in Ec. rewrite Ec in Q. cbv zeta in Q. fold vp in Q. rewrite <- E1 in Q.
  destruct Q as (Q1 & Q2). rewrite Hc in Q2. symmetry in Q2. apply Rmult_integral in Q2.
  assert (NZ : (p iB_θ ^ 2 / mh_Z_5 p + v * p iρ / (2 * ma_a_0 m)) / (2 * k) <> 0).
  { unfold Rdiv at 1. apply Rmult_integral_contrapositive. split; [exact HM|]. apply Rinv_neq_0_compat. apply Rmult_integral_contrapositive. split; [discrR|exact Hk]. }
  destruct Q2 as [Q2|Q2]; [contradiction|].
  assert (D1 : d_v iB_φ = d iB_φ) by (apply Hdv; auto). assert (D2 : d_v iB_r = d iB_r) by (apply Hdv; auto).
  assert (D3 : d_v iB_θ = d iB_θ) by (apply Hdv; auto). assert (D4 : d_v iρ = d iρ) by (apply Hdv; auto 6).
  assert (HX : p iη_H * (p iB_θ / sqrt (p iB_r ^ 2 + p iB_φ ^ 2 + p iB_θ ^ 2)) + p iη_A * (p iB_r / sqrt (p iB_r ^ 2 + p iB_φ ^ 2 + p iB_θ ^ 2)) *
     (p iB_φ / sqrt (p iB_r ^ 2 + p iB_φ ^ 2 + p iB_θ ^ 2)) = hydro_X p * (p iη_O + p iη_A * (1 - (p iB_φ / sqrt (p iB_r ^ 2 + p iB_φ ^ 2 + p iB_θ ^ 2)) ^ 2))).
  { unfold hydro_X, X_func. rewrite div_cancel by exact Hn. reflexivity. }
  assert (HB' : B_nonzero (y θ)) by (rewrite Hy; unfold B_nonzero; rewrite S1, S2, S3; exact HB).
  assert (HD' : diffusive (y θ)) by (rewrite Hy; unfold diffusive; rewrite S1, S2, S3, S5, S6; exact HD).
  assert (Hv' : y θ iv_θ = 0) by (rewrite Hy; exact S8).
  refine (conj _ (conj _ (conj _ (conj _ _)))).
  - apply (momentum_φ_iff 0 y d_v θ r Hd Hcos Hr). rewrite Hy, S1, S2, S3, S4, S8, Ev, Evp, D1.
    match goal with |- _ = ?e => replace e with (ma_a_0 m * (p iB_θ * d iB_φ - p iB_r * p iB_φ / 4 - p iB_θ * p iB_φ * tan θ)) by field end.
    rewrite <- Q1. field.
  - apply (momentum_r_linear_iff 0 y d_v θ r _ _ Hd Hcos Hr); [lra|]. cbv zeta. rewrite Hy, S2, S3, S4, S8, Ev, Evp, D2, E3, HX. fold k. rewrite <- Hk2.
    set (Dn := p iη_O + p iη_A * (1 - (p iB_φ / sqrt (p iB_r ^ 2 + p iB_φ ^ 2 + p iB_θ ^ 2)) ^ 2)) in *.
    match goal with |- context [_ / ?e - p iB_θ / 4 + _] => replace e with Dn by (unfold Dn; ring) end.
    match type of Q2 with ?q = 0 => match goal with |- ?l = ?rr => assert (Z : l = rr - p iρ * q) end end.
    { assert (Hm0 : sqrt (p iB_r ^ 2 + p iB_φ ^ 2 + p iB_θ ^ 2) <> 0) by lra. clear - Hn Hρ0 Hm0. clearbody Dn. field. repeat split; assumption. }
    rewrite Z, Q2. ring.
  - apply (E_φ_B_r y d_v θ r Hd Hcos Hr Hv' HB' HD'). rewrite Hy, S1, S2, S3, S5, S6, S7, Ev, D1, D2, E3.
    match goal with |- _ / ?a - _ = _ / ?b - _ => replace a with b by ring end. reflexivity.
  - apply (solenoidal_iff 0 y d_v θ r Hd Hcos Hr). rewrite Hy, S1, S3, D3, E2. ring.
  - apply (momentum_θ_iff 0 y d_v θ r Hd Hcos Hr). rewrite Hy, S1, S2, S3, S4, S8, Evp, D1, D2, D4, E4. field.
Qed.
End Linear.
Print Assumptions C63_velocities.

(** C63: such trackers exist: this one keeps the root it holds when it can. *)
Section Tracker.
Variables (a3 a2 a1 a0 : R).
Hypothesis H3 : a3 <> 0.
Let f := fun x => a3 * x ^ 3 + a2 * x ^ 2 + a1 * x + a0.
Let M := 1 + (Rabs a2 + Rabs a1 + Rabs a0) / Rabs a3.
Lemma cubic_cont : continuity f.
Proof. unfold f. apply derivable_continuous. reg. Qed.
Lemma cubic_M : 1 <= M.
Proof.
  unfold M. assert (0 <= (Rabs a2 + Rabs a1 + Rabs a0) / Rabs a3); [|lra].
  apply Rmult_le_pos; [|left; apply Rinv_0_lt_compat, Rabs_pos_lt; exact H3].
  pose proof (Rabs_pos a2). pose proof (Rabs_pos a1). pose proof (Rabs_pos a0). lra.
Qed.
Lemma cubic_sign : f (- M) * f M <= 0.
Proof.
  pose proof cubic_M as HM. pose proof (Rabs_pos_lt _ H3) as H0.
  assert (E : Rabs a3 * M = Rabs a3 + (Rabs a2 + Rabs a1 + Rabs a0)) by (unfold M; field; lra).
  assert (HM1 : 0 < M) by lra. clearbody M.
  (* f(±M) = ±a3 M³ + small, small <= |a3| M³ *)
  set (u := a3 * M ^ 3 + a1 * M). set (w := a2 * M ^ 2 + a0).
  replace (f (- M) * f M) with (w ^ 2 - u ^ 2) by (unfold f, u, w; ring).
  assert (Hw : Rabs w <= Rabs u).
  { assert (B1 : Rabs w <= Rabs a2 * M ^ 2 + Rabs a0).
    { unfold w. eapply Rle_trans; [apply Rabs_triang|]. rewrite Rabs_mult, (Rabs_right (M ^ 2)); [lra|]. apply Rle_ge, pow_le; lra. }
    assert (B2 : Rabs a3 * M ^ 3 - Rabs a1 * M <= Rabs u).
    { unfold u. pose proof (Rabs_triang_inv (a3 * M ^ 3) (- (a1 * M))) as T. rewrite Rabs_Ropp, !Rabs_mult in T.
      rewrite (Rabs_right M) in T by lra. rewrite (Rabs_right (M ^ 3)) in T by (apply Rle_ge, pow_le; lra).
      replace (a3 * M ^ 3 - - (a1 * M)) with (a3 * M ^ 3 + a1 * M) in T by ring. exact T. }
    assert (M2 : 1 <= M ^ 2) by (simpl; nra). assert (MM : M <= M ^ 2) by (simpl; nra).
    assert (B3 : Rabs a3 * M ^ 3 = (Rabs a3 + (Rabs a2 + Rabs a1 + Rabs a0)) * M ^ 2) by (rewrite <- E; ring).
    pose proof (Rabs_pos a2). pose proof (Rabs_pos a1). pose proof (Rabs_pos a0).
    assert (Rabs a1 * M <= Rabs a1 * M ^ 2) by (apply Rmult_le_compat_l; assumption).
    assert (Rabs a0 <= Rabs a0 * M ^ 2) by nra. assert (0 <= Rabs a3 * M ^ 2) by nra. nra. }
  pose proof (Rsqr_le_abs_1 _ _ Hw) as S. unfold Rsqr in S. simpl. lra.
Qed.
Definition cubic_root : {x | f x = 0}.
Proof.
  destruct (IVT_cor f (- M) M cubic_cont) as (x & _ & Hx).
  - pose proof cubic_M. lra.
  - exact cubic_sign.
  - exists x. exact Hx.
Defined.
End Tracker.
Definition a_tracker : cubic_tracker := fun root a3 a2 a1 a0 =>
  if Req_EM_T (a3 * root ^ 3 + a2 * root ^ 2 + a1 * root + a0) 0 then root
  else match Req_EM_T a3 0 with left _ => root | right H => proj1_sig (cubic_root a3 a2 a1 a0 H) end.
Example C63_tracker : answers_root a_tracker.
Proof.
  intros root a3 a2 a1 a0 H3. cbv zeta. unfold a_tracker.
  destruct (Req_EM_T (a3 * root ^ 3 + a2 * root ^ 2 + a1 * root + a0) 0) as [H|_]; [exact H|].
  destruct (Req_EM_T a3 0) as [H|H]; [contradiction|]. exact (proj2_sig (cubic_root a3 a2 a1 a0 H)).
Qed.
Print Assumptions C63_tracker.

(** C63: the starting state's radial velocity is a root of the cubic there, and its azimuthal velocity the one computed from it: a tracker that keeps the root
    it starts with leaves the starting state as it is. *)
Theorem C63_initial : forall inp solve_root m, in_use_E_r inp = true -> let c := mod_hydro_define_conditions inp in let p := c_init_con c in
  (forall root a3 a2 a1 a0, a3 * root ^ 3 + a2 * root ^ 2 + a1 * root + a0 = 0 -> solve_root root a3 a2 a1 a0 = root) ->
  ma_use_E_r m = true -> ma_θ_scale m = 1 -> ma_a_0 m = c_a_0 c -> ma_norm_kepler_sq m = c_norm_kepler_sq c ->
  in_v_a_on_c_s inp <> 0 -> in_c_s_on_v_k inp <> 0 -> in_η_O inp + in_η_A inp <> 0 ->
  4 * sqrt (c_norm_kepler_sq c) * (in_η_O inp + in_η_A inp) - p iv_r * in_η_H inp <> 0 ->
  2 * c_a_0 c * (in_η_O inp + in_η_A inp) + p iv_r * ((in_η_O inp + in_η_A inp) ^ 2 + in_η_H inp ^ 2) <> 0 ->
  (in_η_O inp + in_η_A inp) ^ 2 + in_η_H inp ^ 2 <> 0 ->
  exists d, mod_hydro_rhs solve_root m (p iv_r) 0 p = Mh_ok d p (p iv_r) 0 /\ d iB_φ = p iv_r * p iv_φ / (2 * c_a_0 c).
Proof.
  intros inp solve_root m HiE c p Hkeep HE Hsc Hma HmK Hva Hcs HP Hden HM HN.
  assert (HKpos : 0 < c_norm_kepler_sq c).
  { change (c_norm_kepler_sq c) with (1 / in_c_s_on_v_k inp ^ 2). apply Rdiv_lt_0_compat; [lra|].
    pose proof (Rsqr_pos_lt _ Hcs) as Q. unfold Rsqr in Q. simpl. lra. }
  set (K := c_norm_kepler_sq c) in *. set (k := sqrt K) in *.
  assert (Hk : 0 < k) by (apply sqrt_lt_R0; exact HKpos). assert (Hkk : k * k = K) by (apply sqrt_sqrt; lra).
  assert (Ha : c_a_0 c <> 0) by (change (c_a_0 c) with (in_v_a_on_c_s inp ^ 2); apply pow_nonzero; exact Hva).
  assert (Hv : p iv_r = - in_v_rin_on_c_s inp) by (unfold p, c, mod_hydro_define_conditions; cbn [c_init_con]; rewrite HiE; reflexivity).
  rewrite Hv in Hden, HM. rewrite Hv.
  set (a := c_a_0 c) in *. set (v := - in_v_rin_on_c_s inp) in *.
  set (P := in_η_O inp + in_η_A inp) in *. set (H := in_η_H inp) in *. set (N := P ^ 2 + H ^ 2) in *.
  set (w := (2 * K - 5 / 2 + v * (a / P - v / 2)) / (2 * k - v * H / (2 * P))).
  assert (Hd2 : 2 * k - v * H / (2 * P) <> 0).
  { intro Z. apply Hden. replace (4 * k * P - v * H) with (2 * P * (2 * k - v * H / (2 * P))) by (field; exact HP). rewrite Z. ring. }
  set (E := E_r_boundary_func v w P H N a).
  assert (Q : p iB_r = 0 /\ p iB_φ = 0 /\ p iB_θ = 1 /\ p iv_φ = w /\ p iρ = 1 /\ p iE_r = E /\
    p iη_O = in_η_O inp /\ p iη_A = in_η_A inp /\ p iη_H = H).
  { unfold p, c, mod_hydro_define_conditions. cbn [c_init_con]. rewrite HiE. repeat split; reflexivity. }
  destruct Q as (q1 & q2 & q3 & q4 & q5 & q6 & q7 & q8 & q9).
  assert (S1 : sqrt (0 ^ 2 + 0 ^ 2 + 1 ^ 2) = 1) by (replace (0 ^ 2 + 0 ^ 2 + 1 ^ 2) with 1 by ring; apply sqrt_1).
  assert (HX : hydro_X p = H / P) by (unfold hydro_X, X_func; rewrite q1, q2, q3, q7, q8, q9, S1; unfold P; field; exact HP).
  assert (HC : mh_C p = H / P) by (unfold mh_C, C_func; rewrite q1, q2, q3, q7, q8, q9, S1; unfold P; field; exact HP).
  assert (H5 : mh_Z_5 p = N / P) by (unfold mh_Z_5, Z_5_func; rewrite HC, q1, q2, q3, q7, q8, q9, S1; unfold N, P; field; exact HP).
  assert (H5n : N / P <> 0) by (unfold Rdiv; apply Rmult_integral_contrapositive_currified; [exact HN | apply Rinv_neq_0_compat; exact HP]).
  assert (H8 : mh_Z_8 0 p = - E / (N / P)).
  { unfold mh_Z_8, Z_8_func. rewrite H5, HC, q1, q2, q3, q6, q7, q8, q9, tan_0. cbv zeta. rewrite S1. field. repeat split; assumption. }
  assert (Hvp : v_φ_func 0 a 1 (N / P) (- E / (N / P)) v 0 1 0 (H / P) = w).
  { unfold v_φ_func. rewrite tan_0. unfold E, E_r_boundary_func. clearbody w. field. repeat split; try assumption.
    intro Z. apply HM. rewrite <- Z. ring. }
  assert (HM1 : 1 ^ 2 / (N / P) + v * 1 / (2 * a) <> 0).
  { intro Z. apply HM. replace (2 * a * P + v * N) with (2 * a * N * (1 ^ 2 / (N / P) + v * 1 / (2 * a))) by (field; repeat split; assumption).
    rewrite Z. ring. }
  assert (HB' : deriv_B_φ_func (N / P) (- E / (N / P)) v w 1 (H / P) = v * w / (2 * a)).
  { unfold deriv_B_φ_func, E, E_r_boundary_func. clearbody w. field. repeat split; assumption. }
  assert (HDn : in_η_O inp + in_η_A inp * (1 - (0 / 1) ^ 2) <> 0) by (replace (in_η_O inp + in_η_A inp * (1 - (0 / 1) ^ 2)) with P by (unfold P; field); exact HP).
  assert (Hcoef : let '(a3, a2, a1, a0) := mh_coefficients a k 0 p in a3 * v ^ 3 + a2 * v ^ 2 + a1 * v + a0 = 0).
  { unfold mh_coefficients. cbv zeta. rewrite HX, HC, H5, H8, q1, q2, q3, q5, q7, q8, q9, S1.
    assert (R1 : 1 <> 0) by lra. assert (Rk : k <> 0) by lra.
    pose proof (cubic_eq 0 a k 1 (N / P) (- E / (N / P)) 0 1 0 (0 / 1) (1 / 1) (0 / 1) (in_η_O inp) (in_η_A inp) H (H / P) (H / P) v Ha Rk R1 H5n HDn HM1) as Q.
    destruct (v_r_coefficients 0 a k 1 (N / P) (- E / (N / P)) 0 1 0 (0 / 1) (1 / 1) (0 / 1) (in_η_O inp) (in_η_A inp) H (H / P) (H / P)) as [[[a3 a2] a1] a0].
    cbv zeta in Q. destruct Q as (_ & Q). rewrite Q, Hvp, HB', tan_0.
    replace (in_η_O inp + in_η_A inp * (1 - (0 / 1) ^ 2)) with P by (unfold P; field).
    match goal with |- ?x * ?z = 0 => assert (Hz : z = w * (2 * k - v * H / (2 * P)) - (2 * (k * k) - 5 / 2 + v * (a / P - v / 2))) end.
    { clearbody w P. field. repeat split; assumption. }
    rewrite Hz, Hkk. unfold w. rewrite div_cancel by exact Hd2. ring. }
  assert (Hupd : upd iv_φ w (upd iv_r v p) = p).
  { apply FunctionalExtensionality.functional_extensionality. intros i. unfold upd.
    destruct (Nat.eqb_spec i iv_φ) as [->|_]; [symmetry; exact q4|]. destruct (Nat.eqb_spec i iv_r) as [->|_]; [symmetry; exact Hv | reflexivity]. }
  cut (single_solve solve_root a k v p 0 = (p, v)).
  2:{ rewrite single_solve_eq. destruct (mh_coefficients a k 0 p) as [[[a3 a2] a1] a0]. cbv zeta. rewrite (Hkeep _ _ _ _ _ Hcoef).
      rewrite HC, H5, H8, q1, q2, q3, q5, Hvp, Hupd. reflexivity. }
  intros Hss.
  assert (Hrhs : exists d p' v', mod_hydro_rhs solve_root m v 0 p = Mh_ok d p' v' 0).
  { unfold mod_hydro_rhs. rewrite HE. cbv zeta. rewrite q5. destruct (Rlt_dec 1 0) as [Z|_]; [exfalso; lra|].
    unfold v_r_func, scaled_to_rad_num. rewrite Hsc. replace (0 * 1) with 0 by ring.
    match goal with |- context [v_r_coefficients ?x1 ?x2 ?x3 ?x4 ?x5 ?x6 ?x7 ?x8 ?x9 ?y1 ?y2 ?y3 ?y4 ?y5 ?y6 ?y7 ?y8] =>
      destruct (v_r_coefficients x1 x2 x3 x4 x5 x6 x7 x8 x9 y1 y2 y3 y4 y5 y6 y7 y8) as [[[a3 a2] a1] a0] end.
    do 3 eexists. reflexivity. }
  destruct Hrhs as (d & p' & v' & Hrhs). exists d.
  destruct (mod_ok_inv _ _ _ _ _ _ _ _ _ Hrhs HE) as (_ & _ & Es & E1 & _). rewrite Hma, HmK in Es. fold k in Es.
  rewrite Hss in Es. assert (Ep : p' = p) by congruence. assert (Ev : v' = v) by congruence. subst p' v'.
  split; [exact Hrhs|]. rewrite E1, Hv, HC, H5, H8, q3, q4. exact HB'.
Qed.
Print Assumptions C63_initial.

(** C63: a magnetised, Ohmic disc with v_rin = v_a = c_s = v_k / 10 meets the hypotheses of [C63_initial] and, with it, of [C63_velocities]. *)
Definition mh_inp (use_E_r : bool) : cond_input := mk_cond_input 1 1 (1 / 10) 0 1 0 0 use_E_r 0 5 10.
Lemma mh_kepler : forall b, sqrt (c_norm_kepler_sq (mod_hydro_define_conditions (mh_inp b))) = 10.
Proof.
  intros b. change (c_norm_kepler_sq _) with (1 / (1 / 10) ^ 2). replace (1 / (1 / 10) ^ 2) with (10 ^ 2) by field. apply sqrt_pow2. lra.
Qed.
Definition mh_args (b : bool) : mod_hydro_args :=
  let c := mod_hydro_define_conditions (mh_inp b) in mk_mod_hydro_args (c_a_0 c) (c_norm_kepler_sq c) (c_init_con c) 1 true false b.
Example C63_nonvacuous : let c := mod_hydro_define_conditions (mh_inp true) in let p := c_init_con c in
  answers_root a_tracker /\ 0 < p iρ /\ p iv_θ = 0 /\ B_nonzero p /\ diffusive p /\ mh_Z_5 p <> 0 /\
  exists d, mod_hydro_rhs a_tracker (mh_args true) (p iv_r) 0 p = Mh_ok d p (p iv_r) 0 /\ d iB_φ <> 0 /\
  p iB_θ ^ 2 / mh_Z_5 p + p iv_r * p iρ / (2 * ma_a_0 (mh_args true)) <> 0.
Proof.
  intros c p.
  assert (S1 : sqrt (0 ^ 2 + 0 ^ 2 + 1 ^ 2) = 1) by (replace (0 ^ 2 + 0 ^ 2 + 1 ^ 2) with 1 by ring; apply sqrt_1).
  assert (Z5 : mh_Z_5 p = 1).
  { unfold mh_Z_5, Z_5_func, mh_C, C_func.
    change (p iB_r) with 0. change (p iB_φ) with 0. change (p iB_θ) with 1. change (p iη_O) with 1. change (p iη_A) with 0. change (p iη_H) with 0.
    cbv zeta. rewrite S1. field. }
  assert (Ea : c_a_0 c = 1) by (change (c_a_0 c) with (1 ^ 2); ring).
  split; [exact C63_tracker|]. split; [change (p iρ) with 1; lra|]. split; [reflexivity|].
  split; [unfold B_nonzero; change (p iB_r) with 0; change (p iB_φ) with 0; change (p iB_θ) with 1; lra|].
  split; [unfold diffusive; change (p iB_r) with 0; change (p iB_φ) with 0; change (p iB_θ) with 1; change (p iη_O) with 1; change (p iη_A) with 0; lra|].
  split; [rewrite Z5; lra|].
  destruct (C63_initial (mh_inp true) a_tracker (mh_args true)) as (d & Hd & Hb); try reflexivity.
  - intros root a3 a2 a1 a0 Hr. unfold a_tracker. destruct (Req_EM_T _ 0) as [_|N]; [reflexivity | contradiction].
  - cbn. lra.
  - cbn. lra.
  - cbn. lra.
  - rewrite mh_kepler. cbn. lra.
  - cbn. lra.
  - cbn. lra.
  - exists d. split; [exact Hd|]. fold c in Hb. fold p in Hb. split.
    + rewrite Hb, Ea. change (p iv_r) with (-1).
      assert (W : p iv_φ = 49 / 5).
      { change (p iv_φ) with ((2 * (1 / (1 / 10) ^ 2) - 5 / 2 + -1 * (1 ^ 2 / (1 + 0) - -1 / 2)) /
          (2 * sqrt (c_norm_kepler_sq (mod_hydro_define_conditions (mh_inp true))) - -1 * 0 / (2 * (1 + 0)))).
        rewrite mh_kepler. field. }
      rewrite W. lra.
    + rewrite Z5. change (ma_a_0 (mh_args true)) with (c_a_0 c). rewrite Ea. change (p iB_θ) with 1. change (p iv_r) with (-1). change (p iρ) with 1. lra.
Qed.
Print Assumptions C63_nonvacuous.

(** ** The stored solution *)
(** C63: with E_r the stored states are the integrator's with, at every angle, the velocities recomputed from a root of that angle's cubic; without it they
    are the integrator's. *)
Theorem C63_stored : forall solve_root m t y, length t = length y -> answers_root solve_root ->
  (ma_use_E_r m = false -> fix_solution solve_root m t y = y) /\
  (ma_use_E_r m = true -> length (fix_solution solve_root m t y) = length y /\
   forall i θ p q, nth_error t i = Some θ -> nth_error y i = Some p -> nth_error (fix_solution solve_root m t y) i = Some q ->
     same_but_v q p /\
     let x := scaled_to_rad_num θ (ma_θ_scale m) in
     (let '(a3, a2, a1, a0) := mh_coefficients (ma_a_0 m) (sqrt (ma_norm_kepler_sq m)) x p in
      a3 <> 0 -> a3 * q iv_r ^ 3 + a2 * q iv_r ^ 2 + a1 * q iv_r + a0 = 0) /\
     q iv_φ = v_φ_func x (ma_a_0 m) (p iρ) (mh_Z_5 p) (mh_Z_8 x p) (q iv_r) (p iB_r) (p iB_θ) (p iB_φ) (mh_C p)).
Proof.
  intros solve_root m t y Hlen Hroot. unfold fix_solution. split; intros HE; rewrite HE; [reflexivity|].
  set (a := ma_a_0 m). set (k := sqrt (ma_norm_kepler_sq m)). generalize (ma_init_con m iv_r) as root. intros root.
  rewrite Hlen, skipn_all, app_nil_r. revert y Hlen root. induction t as [|θ0 t IH]; intros [|p0 y] Hlen root; simpl in Hlen; try discriminate.
  - split; [reflexivity|]. intros [|i] θ p q Ht; discriminate.
  - injection Hlen as Hlen. cbn [map combine fix_rows]. rewrite single_solve_eq.
    destruct (mh_coefficients a k (scaled_to_rad_num θ0 (ma_θ_scale m)) p0) as [[[a3 a2] a1] a0] eqn:Ec. cbv zeta.
    destruct (IH y Hlen (solve_root root a3 a2 a1 a0)) as (L & F). split; [cbn [length]; rewrite L; reflexivity|].
    intros [|i] θ p q Ht Hp Hq; cbn [nth_error] in Ht, Hp, Hq.
    + assert (θ0 = θ) by congruence. assert (p0 = p) by congruence. subst θ0 p0. injection Hq as <-.
      split; [apply same_v|]. rewrite Ec. split.
      * intros N. apply (Hroot root a3 a2 a1 a0 N).
      * reflexivity.
    + apply (F i θ p q Ht Hp Hq).
Qed.
Print Assumptions C63_stored.

Lemma even_deriv_0 : forall (f : R -> R) l, (forall t, f (- t) = f t) -> derivable_pt_lim f 0 l -> l = 0.
Proof.
  intros f l Hf Hl. assert (Hm : derivable_pt_lim (fun t => f (- t)) 0 (- l)).
  { pose proof (derivable_pt_lim_comp (fun t => - t) f 0 (-1) l) as Hc.
    replace (- l) with (l * -1) by ring. apply Hc; [|rewrite Ropp_0; exact Hl].
    eapply dpl_eq; [dlim|]. ring. }
  assert (Hm' : derivable_pt_lim f 0 (- l)) by (apply (dpl_ext _ _ _ _ (fun t => Hf t) Hm)).
  pose proof (uniqueness_limite _ _ _ _ Hl Hm'). lra.
Qed.

(** C63 fails for the variant without E_r, whose velocities are integrated: at the first point of that run the derivative of B_φ', which is even in
    a solution symmetric about the midplane, is not zero. *)
Theorem C63_midplane_refuted : let c := mod_hydro_define_conditions (mh_inp false) in let p := c_init_con c in
  forall solve_root root, exists d, mod_hydro_rhs solve_root (mh_args false) root 0 p = Mh_ok d p root 0 /\ d iB_φ_prime <> 0 /\
  forall y : R -> vec, (forall t, y (- t) iB_φ_prime = y t iB_φ_prime) -> ~ derivable_pt_lim (fun t => y t iB_φ_prime) 0 (d iB_φ_prime).
Proof.
  intros c p solve_root root.
  cut (exists d, mod_hydro_rhs solve_root (mh_args false) root 0 p = Mh_ok d p root 0 /\ d iB_φ_prime <> 0).
  { intros (d & Hd & N). exists d. split; [exact Hd|]. split; [exact N|]. intros y Hy Hder. apply N. exact (even_deriv_0 _ _ Hy Hder). }
  set (s := p iv_φ).
  assert (Hs : s = 49 / 5).
  { unfold s. change (p iv_φ) with ((2 * (1 / (1 / 10) ^ 2) - 5 / 2 + -1 * (1 ^ 2 / (1 + 0) - -1 / 2)) /
      (2 * sqrt (c_norm_kepler_sq (mod_hydro_define_conditions (mh_inp false))) - -1 * 0 / (2 * (1 + 0)))).
    rewrite mh_kepler. field. }
  assert (Ea : ma_a_0 (mh_args false) = 1) by (change (ma_a_0 (mh_args false)) with (1 ^ 2); ring).
  set (q := p iB_φ_prime).
  assert (Hq : q = - (49 / 10)).
  { unfold q. change (p iB_φ_prime) with (B_φ_prime_boundary_func (-1) s (1 ^ 2)). unfold B_φ_prime_boundary_func. rewrite Hs. field. }
  assert (Es1 : sqrt (0 ^ 2 + 0 ^ 2 + 1 ^ 2) = 1) by (replace (0 ^ 2 + 0 ^ 2 + 1 ^ 2) with 1 by ring; apply sqrt_1).
  unfold mod_hydro_rhs. change (ma_use_E_r (mh_args false)) with false. cbv zeta iota.
  change (ma_norm_kepler_sq (mh_args false)) with (c_norm_kepler_sq (mod_hydro_define_conditions (mh_inp false))). rewrite mh_kepler, Ea.
  change (ma_η_derivs (mh_args false)) with true. change (ma_θ_scale (mh_args false)) with 1. change (ma_init_con (mh_args false)) with p.
  fold s q. change (p iB_r) with 0. change (p iB_φ) with 0. change (p iB_θ) with 1. change (p iv_r) with (-1). change (p iρ) with 1.
  change (p iη_O) with 1. change (p iη_A) with 0. change (p iη_H) with 0. unfold scaled_to_rad_num. cbv iota.
  destruct (Rlt_dec 1 0) as [N|_]; [exfalso; lra|].
  rewrite Es1. replace (0 * 1) with 0 by ring. rewrite tan_0.
  assert (HX : X_func 1 0 0 (1 / 1) (0 / 1) (0 / 1) = 0) by (unfold X_func; field). rewrite HX.
  replace (0 / 1) with 0 by field. replace (1 / 1) with 1 by field.
  set (k := (0 * (0 * 0 * (0 * 0 - 1 / 4) + 0 * (0 / 4 + 1 * 0)) - q * (0 * 1 + 0 * 0 * 0) - -1 * 1) / (1 + 0 * (1 - 0) * (1 + 0)) - 1 / 4).
  replace (1 * 0 - 3 / 4 * 0) with 0 by field.
  replace (- (1) * s ^ 2 * 0 - 1 * (1 * 0 / 4 + 0 * k + 0 * q - 0 ^ 2 * 0)) with 0 by field.
  assert (Hskw : deriv_η_skw_func 1 0 0 1 0 k q 0 = 0) by (unfold deriv_η_skw_func; field). rewrite Hskw.
  replace (0 * 1) with 0 by ring. replace (0 * 0) with 0 by ring.
  assert (Hun : B_unit_derivs 0 0 1 k q 0 0 0 1 = (k, q, 0)).
  { unfold B_unit_derivs, B_unit_deriv_1. rewrite Es1. f_equal; [f_equal|]; field. }
  rewrite Hun. cbv iota.
  assert (HA : A_func 1 0 0 1 0 0 0 0 0 0 k q = 0) by (unfold A_func; field).
  assert (HC : C_func 1 0 0 1 0 0 = 0) by (unfold C_func; field).
  assert (HXd : X_dash_func 1 0 0 1 0 0 0 0 0 0 k q = 0) by (unfold X_dash_func; field).
  assert (HZ4 : Z_4_func 1 0 0 q 0 = q) by (unfold Z_4_func; field).
  assert (HZ5 : Z_5_func 1 0 0 0 1 0 0 = 1) by (unfold Z_5_func; ring).
  rewrite HA, HC, HXd, HZ4, HZ5.
  eexists. split; [reflexivity|].
  change (upd iB_φ_prime ?z ?g iB_φ_prime) with z.
  unfold dderiv_B_φ_func, Z_6_func, Z_7_func, Z_3_func. rewrite tan_0, Hs, Hq.
  match goal with |- ?n / ?d <> 0 => assert (En : n = 49 / 10 - (1 + 98 / 9555)) by field; assert (Ed : d = 1 + 20580 / 90895) by field; rewrite En, Ed end.
  intro Z. apply (f_equal (fun z => z * (1 + 20580 / 90895))) in Z. rewrite Rmult_0_l, div_cancel in Z; [lra|].
  apply Rgt_not_eq. lra.
Qed.
Print Assumptions C63_midplane_refuted.
