(** C89: Jacobians of stored solutions and the coefficients computed from them. *)
From Coq Require Import Reals List Bool ZArith Arith Lra Lia.
From Verif Require Import Lib_Deriv Model_Index Model_Array Model_Deriv Model_Ode Model_Critical Model_Jacobian Spec_Ode Proofs_Ode.
Import ListNotations.
Open Scope R_scope.

(** ** Central differences *)
Lemma central_difference : forall f x l, derivable_pt_lim f x l ->
  forall δ, 0 < δ -> exists e, 0 < e /\ forall h, h <> 0 -> Rabs h < e -> Rabs ((f (x + h) - f (x - h)) / (2 * h) - l) < δ.
Proof.
  intros f x l H δ Hδ. destruct (H δ Hδ) as [e He]. exists e. split; [apply cond_pos|]. intros h Hh Hlt.
  assert (H1 := He h Hh Hlt). assert (Hh' : - h <> 0) by (intro K; apply Hh; lra).
  assert (H2 := He (- h) Hh' ltac:(rewrite Rabs_Ropp; exact Hlt)).
  replace ((f (x + h) - f (x - h)) / (2 * h) - l)
    with (/ 2 * (((f (x + h) - f x) / h - l) + ((f (x + - h) - f x) / - h - l))) by (unfold Rminus; field; exact Hh).
  rewrite Rabs_mult, (Rabs_right (/ 2)) by lra.
  apply Rle_lt_trans with (/ 2 * (Rabs ((f (x + h) - f x) / h - l) + Rabs ((f (x + - h) - f x) / - h - l))); [|lra].
  apply Rmult_le_compat_l; [lra|]. apply Rabs_triang.
Qed.

(** ** Differentiability of the right-hand side in the state *)
Definition der (f : R -> R) (x : R) : Prop := exists l, derivable_pt_lim f x l.
Lemma der_const : forall c x, der (fun _ => c) x. Proof. intros; eexists; apply dpl_const. Qed.
Lemma der_plus : forall f g x, der f x -> der g x -> der (fun t => f t + g t) x.
Proof. intros f g x [a Ha] [b Hb]. eexists. apply dpl_plus; eassumption. Qed.
Lemma der_minus : forall f g x, der f x -> der g x -> der (fun t => f t - g t) x.
Proof. intros f g x [a Ha] [b Hb]. eexists. apply dpl_minus; eassumption. Qed.
Lemma der_opp : forall f x, der f x -> der (fun t => - f t) x.
Proof. intros f x [a Ha]. eexists. apply dpl_opp; eassumption. Qed.
Lemma der_mult : forall f g x, der f x -> der g x -> der (fun t => f t * g t) x.
Proof. intros f g x [a Ha] [b Hb]. eexists. apply dpl_mult; eassumption. Qed.
Lemma der_div : forall f g x, g x <> 0 -> der f x -> der g x -> der (fun t => f t / g t) x.
Proof. intros f g x Hg [a Ha] [b Hb]. eexists. apply dpl_div; eassumption. Qed.
Lemma der_pow : forall f n x, der f x -> der (fun t => f t ^ n) x.
Proof. intros f n x [a Ha]. eexists. apply dpl_pow; eassumption. Qed.
Lemma der_sqrt : forall f x, 0 < f x -> der f x -> der (fun t => sqrt (f t)) x.
Proof. intros f x Hf [a Ha]. eexists. apply dpl_sqrt; eassumption. Qed.
Lemma der_ext : forall f g x, (forall t, f t = g t) -> der f x -> der g x.
Proof. intros f g x He [a Ha]. exists a. exact (dpl_ext f g x a He Ha). Qed.
Ltac ders := repeat (match goal with
  | H : der ?f ?x |- der ?f ?x => exact H
  | |- der (fun _ => ?c) _ => apply der_const
  | |- der (fun t => _ + _) _ => apply der_plus
  | |- der (fun t => _ - _) _ => apply der_minus
  | |- der (fun t => - _) _ => apply der_opp
  | |- der (fun t => _ * _) _ => apply der_mult
  | |- der (fun t => _ / _) _ => apply der_div
  | |- der (fun t => _ ^ _) _ => apply der_pow
  | |- der (fun t => sqrt _) _ => apply der_sqrt
  end; cbv beta).

(** A state at which the right-hand side is regular. *)
Definition regular_state (y : vec) : Prop :=
  B_nonzero y /\ y iρ <> 0 /\ y iv_θ <> 0 /\ y iv_θ <> 1 /\ y iv_θ <> - 1 /\ 0 < y iη_O /\ 0 <= y iη_A.

Lemma unit_sum : forall y, B_nonzero y -> let m := sqrt (y iB_r ^ 2 + y iB_φ ^ 2 + y iB_θ ^ 2) in
  0 < m /\ (y iB_r / m) ^ 2 + (y iB_φ / m) ^ 2 + (y iB_θ / m) ^ 2 = 1.
Proof.
  intros y H m. unfold B_nonzero in H. assert (Hm : 0 < m) by (apply sqrt_lt_R0; exact H). split; [exact Hm|].
  assert (E : m ^ 2 = y iB_r ^ 2 + y iB_φ ^ 2 + y iB_θ ^ 2) by (unfold m; rewrite <- Rsqr_pow2; apply Rsqr_sqrt; lra).
  replace ((y iB_r / m) ^ 2 + (y iB_φ / m) ^ 2 + (y iB_θ / m) ^ 2) with ((y iB_r ^ 2 + y iB_φ ^ 2 + y iB_θ ^ 2) / m ^ 2) by (field; lra).
  rewrite <- E. field. lra.
Qed.
(** The three denominators of the formulas do not vanish. *)
Lemma denominators : forall a b c η_O η_A η_H, a ^ 2 + b ^ 2 + c ^ 2 = 1 -> 0 < η_O -> 0 <= η_A ->
  0 < η_O + η_A * (1 - b ^ 2) /\
  0 < η_O + η_A * (1 - a ^ 2) + C_func η_O η_A η_H c a b * (η_H * c - η_A * a * b) /\
  0 < η_O + η_A * (1 - a ^ 2) + C_func η_O η_A η_H c a b * (η_H * c + η_A * a * b).
Proof.
  intros a b c η_O η_A η_H E HO HA.
  assert (D : 0 < η_O + η_A * (1 - b ^ 2)) by nra. split; [exact D|]. unfold C_func.
  set (d := η_O + η_A * (1 - b ^ 2)) in *.
  assert (A : 0 <= η_A * (1 - a ^ 2)) by nra. split.
  - assert (0 <= (η_H * c - η_A * a * b) / d * (η_H * c - η_A * a * b)).
    { replace ((η_H * c - η_A * a * b) / d * (η_H * c - η_A * a * b)) with ((η_H * c - η_A * a * b) ^ 2 * / d) by (field; lra).
      apply Rmult_le_pos; [apply pow2_ge_0 | left; apply Rinv_0_lt_compat, D]. }
    lra.
  - apply (Rmult_lt_reg_r d); [exact D|]. rewrite Rmult_0_l.
    replace ((η_O + η_A * (1 - a ^ 2) + (η_H * c - η_A * a * b) / d * (η_H * c + η_A * a * b)) * d)
      with ((η_O + η_A * (1 - a ^ 2)) * d + (η_H * c) ^ 2 - (η_A * a * b) ^ 2) by (field; lra).
    unfold d.
    replace ((η_O + η_A * (1 - a ^ 2)) * (η_O + η_A * (1 - b ^ 2)) + (η_H * c) ^ 2 - (η_A * a * b) ^ 2)
      with (η_O ^ 2 + η_O * (η_A * (1 - a ^ 2)) + η_O * (η_A * (1 - b ^ 2)) + (η_H * c) ^ 2 + η_A ^ 2 * (1 - a ^ 2 - b ^ 2)) by ring.
    assert (0 < η_O ^ 2) by (apply pow_lt; exact HO).
    assert (0 <= η_O * (η_A * (1 - a ^ 2))) by (apply Rmult_le_pos; lra).
    assert (0 <= η_O * (η_A * (1 - b ^ 2))) by (apply Rmult_le_pos; [lra | apply Rmult_le_pos; nra]).
    assert (0 <= (η_H * c) ^ 2) by apply pow2_ge_0.
    assert (0 <= η_A ^ 2 * (1 - a ^ 2 - b ^ 2)) by (apply Rmult_le_pos; [apply pow2_ge_0 | nra]).
    lra.
Qed.

Section Smooth.
Variables (o : ode_args) (θ : R) (p : R -> vec) (s : R).
Hypothesis Ht : oa_with_taylor o = false.
Hypothesis Hf : oa_deriv_v_θ_func o = None.
Hypothesis Hreg : regular_state (p s).
Hypothesis Hp : forall i, der (fun t => p t i) s.
Let d t := fst (rhs_derivs o θ (p t)).
Let m t := sqrt (p t iB_r ^ 2 + p t iB_φ ^ 2 + p t iB_θ ^ 2).

(** Along any differentiable curve of states all derivatives the code computes are differentiable. *)
Lemma rhs_der : forall j, (j < 11)%nat -> der (fun t => d t j) s.
Proof.
  destruct Hreg as (HB & Hρ & H0 & H1 & H1' & HO & HA).
  destruct (unit_sum (p s) HB) as [Hm Hu]. fold (m s) in Hm, Hu.
  destruct (denominators _ _ _ (p s iη_O) (p s iη_A) (p s iη_H) Hu HO HA) as (D1 & D2 & D3).
  assert (Pr := Hp iB_r). assert (Pf := Hp iB_φ). assert (Pt := Hp iB_θ). assert (Qr := Hp iv_r). assert (Qf := Hp iv_φ). assert (Qt := Hp iv_θ).
  assert (Pρ := Hp iρ). assert (P7 := Hp iB_φ_prime). assert (PO := Hp iη_O). assert (PA := Hp iη_A). assert (PH := Hp iη_H).
  assert (P7' : der (fun t => p t iE_r) s) by exact P7.
  assert (Dm : der m s) by (unfold m; ders; exact HB).
  assert (Dbr : der (fun t => p t iB_r / m t) s) by (ders; try exact Dm; lra).
  assert (Dbf : der (fun t => p t iB_φ / m t) s) by (ders; try exact Dm; lra).
  assert (Dbt : der (fun t => p t iB_θ / m t) s) by (ders; try exact Dm; lra).
  set (br := fun t => p t iB_r / m t) in *. set (bf := fun t => p t iB_φ / m t) in *. set (bt := fun t => p t iB_θ / m t) in *.
  change (p s iB_r / m s) with (br s) in *. change (p s iB_φ / m s) with (bf s) in *. change (p s iB_θ / m s) with (bt s) in *.
  assert (Ebr : forall t, p t iB_r / m t = br t) by reflexivity. assert (Ebf : forall t, p t iB_φ / m t = bf t) by reflexivity.
  assert (Ebt : forall t, p t iB_θ / m t = bt t) by reflexivity. clearbody br bf bt.
  assert (Tr : der (fun t => br t) s) by exact Dbr. assert (Tf : der (fun t => bf t) s) by exact Dbf. assert (Tt : der (fun t => bt t) s) by exact Dbt.
  set (C := fun t => C_func (p t iη_O) (p t iη_A) (p t iη_H) (bt t) (br t) (bf t)).
  assert (DC : der (fun t => C t) s) by (unfold C, C_func; ders; lra).
  change (C_func (p s iη_O) (p s iη_A) (p s iη_H) (bt s) (br s) (bf s)) with (C s) in D2, D3.
  assert (EC : forall t, C_func (p t iη_O) (p t iη_A) (p t iη_H) (bt t) (br t) (bf t) = C t) by reflexivity. clearbody C.
  assert (d1 : der (fun t => d t iB_φ) s).
  { eapply der_ext; [intro t; symmetry; exact (rhs_B_φ o θ (p t))|]. cbv zeta.
    destruct (oa_use_E_r o); [|exact P7].
    eapply der_ext; [intro t; symmetry; fold (m t); rewrite Ebr, Ebf, Ebt, EC; reflexivity|].
    unfold deriv_B_φ_func, Z_5_func. ders. lra. }
  assert (d0 : der (fun t => d t iB_r) s).
  { eapply der_ext; [intro t; symmetry; exact (rhs_B_r o θ (p t))|].
    eapply der_ext; [intro t; symmetry; fold (m t); fold (d t); rewrite Ebr, Ebf, Ebt; reflexivity|].
    unfold deriv_B_r_func. ders. nra. }
  assert (d2 : der (fun t => d t iB_θ) s).
  { eapply der_ext; [intro t; symmetry; exact (rhs_B_θ o θ (p t))|]. ders. }
  assert (d3 : der (fun t => d t iv_r) s).
  { eapply der_ext; [intro t; symmetry; exact (rhs_v_r o θ (p t) Ht)|]. eapply der_ext; [intro t; symmetry; fold (d t); reflexivity|].
    unfold deriv_v_r_normal_expr. ders; lra. }
  assert (d4 : der (fun t => d t iv_φ) s).
  { eapply der_ext; [intro t; symmetry; exact (rhs_v_φ o θ (p t) Ht)|]. eapply der_ext; [intro t; symmetry; fold (d t); reflexivity|].
    unfold deriv_v_φ_normal_expr. ders; lra. }
  assert (d5 : der (fun t => d t iv_θ) s).
  { eapply der_ext; [intro t; symmetry; exact (rhs_v_θ o θ (p t) Hf)|]. eapply der_ext; [intro t; symmetry; fold (d t); reflexivity|].
    unfold deriv_v_θ_expr. ders; try lra. apply Rmult_integral_contrapositive_currified; lra. }
  assert (d6 : der (fun t => d t iρ) s).
  { eapply der_ext; [intro t; symmetry; exact (rhs_ρ o θ (p t) Ht)|]. eapply der_ext; [intro t; symmetry; fold (d t); reflexivity|].
    unfold deriv_ρ_normal_expr. ders; lra. }
  assert (dη : forall k, der (fun t => if oa_η_derivs o then deriv_η_skw_func (p t iρ) (p t iB_r) (p t iB_φ) (p t iB_θ)
      (d t iρ) (d t iB_r) (d t iB_φ) (d t iB_θ) * oa_init_con o k else 0) s).
  { intro k. destruct (oa_η_derivs o); [|ders]. unfold deriv_η_skw_func. ders; lra. }
  assert (d8 : der (fun t => d t iη_O) s).
  { eapply der_ext; [intro t; symmetry; exact (proj1 (rhs_η o θ (p t)))|]. exact (dη iη_O). }
  assert (d9 : der (fun t => d t iη_A) s).
  { eapply der_ext; [intro t; symmetry; exact (proj1 (proj2 (rhs_η o θ (p t))))|]. exact (dη iη_A). }
  assert (d10 : der (fun t => d t iη_H) s).
  { eapply der_ext; [intro t; symmetry; exact (proj2 (proj2 (rhs_η o θ (p t))))|]. exact (dη iη_H). }
  assert (d7 : der (fun t => d t iB_φ_prime) s).
  { destruct (oa_use_E_r o) eqn:EE.
    - change iB_φ_prime with iE_r. eapply der_ext; [intro t; symmetry; exact (rhs_E_r o θ (p t) EE)|].
      eapply der_ext; [intro t; symmetry; fold (m t); fold (d t); rewrite Ebr, Ebf, Ebt; reflexivity|].
      unfold deriv_E_r_func, E_θ_func, J_r_func, J_θ_func, J_φ_func. ders.
    - eapply der_ext; [intro t; symmetry; exact (rhs_B_φ_prime o θ (p t) EE)|]. cbv beta iota zeta delta [B_unit_derivs B_unit_deriv_1].
      eapply der_ext; [intro t; symmetry; fold (m t); fold (d t); rewrite Ebr, Ebf, Ebt, EC; reflexivity|].
      assert (Mm : der (fun t => m t) s) by exact Dm. clearbody d m.
      unfold dderiv_B_φ_soln, A_func. ders; try lra; try (apply pow_nonzero; lra). }
  intros j Hj. do 11 (destruct j as [|j]; [assumption|]). lia.
Qed.
End Smooth.

(** ** C89 *)
Lemma row_derivs : forall γ a_0 nk ic sc ηd er x y,
  rhs_row (jacobian_system γ a_0 nk ic sc ηd er) x y = fst (rhs_derivs (jacobian_system γ a_0 nk ic sc ηd er) (x * sc) y).
Proof.
  intros. unfold rhs_row, rhs_equation, scaled_to_rad_num. cbn [oa_derivs_post_solution oa_θ_scale jacobian_system negb andb].
  destruct (rhs_derivs _ _ _). reflexivity.
Qed.
(** The system of a stored solution, as the integrator was given it (no Taylor start, no interpolated v_θ'). *)
Definition integrated (γ a_0 nk : R) (ic : vec) (sc : R) (ηd store er : bool) : ode_args :=
  mk_ode_args γ a_0 nk ic sc false ηd store er None false.
Lemma derivs_same : forall γ a_0 nk ic sc ηd store er θ y,
  fst (rhs_derivs (integrated γ a_0 nk ic sc ηd store er) θ y) = fst (rhs_derivs (jacobian_system γ a_0 nk ic sc ηd er) θ y).
Proof. reflexivity. Qed.

(** C89: at every state with positive density and velocity off the sonic speed, a magnetic field, Ohmic and no negative
    ambipolar diffusion, the right-hand side the integrator is given is differentiable in every variable, and the matrix computed with
    step eps tends to its matrix of partial derivatives as eps tends to 0. *)
Theorem C89_jacobian : forall γ a_0 nk ic sc ηd store er x y i j, (i < 11)%nat -> (j < 11)%nat ->
  B_nonzero y -> 0 < y iρ -> 0 < y iv_θ -> y iv_θ <> 1 -> 0 < y iη_O -> 0 <= y iη_A ->
  exists D, derivable_pt_lim (fun v => rhs_row (integrated γ a_0 nk ic sc ηd store er) x (upd i v y) j) (y i) D /\
    forall δ, 0 < δ -> exists e, 0 < e /\ forall eps, eps <> 0 -> Rabs eps < e ->
      Rabs (jacobian_row (jacobian_system γ a_0 nk ic sc ηd er) eps x y j i - D) < δ.
Proof.
  intros γ a_0 nk ic sc ηd store er x y i j Hi Hj HB Hρ Hv H1 HO HA.
  set (o := jacobian_system γ a_0 nk ic sc ηd er). set (q := fun v => upd i v y).
  assert (Eq : forall k, q (y i) k = y k).
  { intro k. unfold q, upd. destruct (Nat.eqb k i) eqn:E; [apply Nat.eqb_eq in E; subst; reflexivity | reflexivity]. }
  assert (Hreg : regular_state (q (y i))).
  { unfold regular_state, B_nonzero. rewrite !Eq. unfold B_nonzero in HB. repeat split; try assumption; lra. }
  assert (Hq : forall k, der (fun v => q v k) (y i)).
  { intro k. unfold q, upd. destruct (Nat.eqb k i); [eexists; apply dpl_id | apply der_const]. }
  destruct (rhs_der o (x * sc) q (y i) eq_refl eq_refl Hreg Hq j Hj) as [D HD]. exists D. split.
  - set (e := Rmin (y iρ) (y iv_θ)). assert (He : 0 < e) by (apply Rmin_pos; assumption).
    apply (dpl_ext_loc (fun v => fst (rhs_derivs o (x * sc) (q v)) j) _ _ _ e He); [|exact HD].
    intros v Hlt. cbv beta. fold (q v). unfold rhs_row, rhs_equation, scaled_to_rad_num. cbn [oa_derivs_post_solution oa_θ_scale integrated negb andb].
    assert (Hb : - e < v - y i < e) by (unfold Rabs in Hlt; destruct (Rcase_abs (v - y i)); lra).
    assert (e <= y iρ) by apply Rmin_l. assert (e <= y iv_θ) by apply Rmin_r.
    assert (Kρ : 0 < q v iρ).
    { unfold q, upd. destruct (Nat.eqb iρ i) eqn:E; [apply Nat.eqb_eq in E; subst i; lra | exact Hρ]. }
    assert (Kv : 0 < q v iv_θ).
    { unfold q, upd. destruct (Nat.eqb iv_θ i) eqn:E; [apply Nat.eqb_eq in E; subst i; lra | exact Hv]. }
    destruct (Rlt_dec (q v iρ) 0); [lra|]. destruct (Rlt_dec (q v iv_θ) 0); [lra|].
    rewrite <- (derivs_same γ a_0 nk ic sc ηd store er : forall θ y, _ = fst (rhs_derivs o θ y)).
    unfold integrated. destruct (rhs_derivs _ _ _). reflexivity.
  - intros δ Hδ. destruct (central_difference _ _ _ HD δ Hδ) as (e & He & K). exists e. split; [exact He|]. intros eps Hne Hlt.
    specialize (K eps Hne Hlt). unfold jacobian_row. unfold o. rewrite !row_derivs. exact K.
Qed.
Print Assumptions C89_jacobian.
Example C89_nonvacuous : let y := state 1 2 3 4 5 2 1 0 1 1 1 in
  B_nonzero y /\ 0 < y iρ /\ 0 < y iv_θ /\ y iv_θ <> 1 /\ 0 < y iη_O /\ 0 <= y iη_A.
Proof. unfold B_nonzero; cbn; lra. Qed.

(** The rows of B_θ' and, without E_r, of B_φ' are exact for every step. *)
Theorem C89_linear_rows : forall γ a_0 nk ic sc ηd er x y i eps, eps <> 0 ->
  let J := jacobian_row (jacobian_system γ a_0 nk ic sc ηd er) eps x y in
  J iB_θ i = (if Nat.eqb i iB_θ then tan (x * sc) else if Nat.eqb i iB_r then - (γ + 3 / 4) else 0) /\
  (er = false -> J iB_φ i = if Nat.eqb i iB_φ_prime then 1 else 0).
Proof.
  intros γ a_0 nk ic sc ηd er x y i eps He J. unfold J, jacobian_row. rewrite !row_derivs. split.
  - rewrite !rhs_B_θ. cbn [oa_γ jacobian_system]. unfold upd.
    destruct i as [|[|[|i]]]; cbn; field; exact He.
  - intros ->. rewrite !rhs_B_φ. cbn [oa_use_E_r jacobian_system]. unfold upd.
    destruct (Nat.eqb i iB_φ_prime) eqn:E; [apply Nat.eqb_eq in E; subst i; cbn; field; exact He|].
    rewrite Nat.eqb_sym in E. rewrite E. field. exact He.
Qed.
Print Assumptions C89_linear_rows.

Lemma zslice_one : forall A (l : list A) k, zslice l (Z.of_nat k) (Z.of_nat k + 1) = firstn 1 (skipn k l).
Proof.
  intros A l k. unfold zslice, adjust.
  replace (Z.of_nat k <? 0)%Z with false by (symmetry; apply Z.ltb_ge; lia).
  replace (Z.of_nat k + 1 <? 0)%Z with false by (symmetry; apply Z.ltb_ge; lia).
  destruct (le_lt_dec (length l) k) as [H|H].
  - rewrite (skipn_all2 l H), !Z.min_r by lia. rewrite skipn_all2 by lia. rewrite !firstn_nil. reflexivity.
  - rewrite !Z.min_l by lia. replace (Z.to_nat (Z.of_nat k + 1 - Z.of_nat k)) with 1%nat by lia. rewrite Nat2Z.id. reflexivity.
Qed.
Lemma skipn_nth : forall A (l : list A) k, firstn 1 (skipn k l) = match nth_error l k with Some a => [a] | None => [] end.
Proof. induction l as [|a l IH]; intros [|k]; cbn; try reflexivity. apply IH. Qed.
Lemma zindex_nat : forall A (l : list A) k, zindex l (Z.of_nat k) = match nth_error l k with Some a => Ret a | None => IndexError end.
Proof.
  intros A l k. unfold zindex. replace (Z.of_nat k <? 0)%Z with false by (symmetry; apply Z.ltb_ge; lia).
  replace (Z.of_nat k <? 0)%Z with false by (symmetry; apply Z.ltb_ge; lia). rewrite Nat2Z.id. reflexivity.
Qed.
Lemma at_index : forall o eps soln k, compute_jacobian_at_index o eps soln (Z.of_nat k) =
  match nth_error soln k with Some p => Ret (jacobian_row o eps (fst p) (snd p)) | None => IndexError end.
Proof.
  intros o eps soln k. unfold compute_jacobian_at_index. rewrite zslice_one, skipn_nth. destruct (nth_error soln k); reflexivity.
Qed.
(** The matrix at a row index is the one of that row among all, and each depends on its own row alone. *)
Theorem C89_rows : forall o eps soln k, 
  compute_jacobian_at_index o eps soln (Z.of_nat k) =
    match nth_error (compute_jacobian o eps soln) k with Some J => Ret J | None => IndexError end /\
  List.length (compute_jacobian o eps soln) = List.length soln /\
  (forall x y, nth_error soln k = Some (x, y) -> nth_error (compute_jacobian o eps soln) k = Some (jacobian_row o eps x y)).
Proof.
  intros o eps soln k. rewrite at_index. split.
  { unfold compute_jacobian. rewrite nth_error_map. destruct (nth_error soln k); reflexivity. }
  split; [apply map_length|]. intros x y H. unfold compute_jacobian. rewrite nth_error_map, H. reflexivity.
Qed.
Print Assumptions C89_rows.

Section Coefs.
Variables eigvecs inv : mat -> mat.
(** [inv] inverts the eigenvector matrices (the code divides by nothing else). *)
Definition inverts : Prop := forall J v i, (i < 11)%nat -> dot (eigvecs J) (dot (inv (eigvecs J)) v) i = v i.

Lemma zindex_last : forall A (l : list A) a, zindex (l ++ [a]) (-1) = Ret a.
Proof.
  intros A l a. unfold zindex. cbn [Z.ltb Z.compare]. rewrite app_length. cbn [List.length].
  replace (-1 + Z.of_nat (List.length l + 1))%Z with (Z.of_nat (List.length l)) by lia.
  replace (Z.of_nat (List.length l) <? 0)%Z with false by (symmetry; apply Z.ltb_ge; lia).
  rewrite Nat2Z.id, nth_error_app2, Nat.sub_diag by lia. reflexivity.
Qed.
Lemma combine_map_nth : forall A B C (f : A -> B) (g : A -> C) l k, nth_error (combine (map f l) (map g l)) k =
  match nth_error l k with Some a => Some (f a, g a) | None => None end.
Proof. induction l as [|a l IH]; intros [|k]; cbn; try reflexivity. apply IH. Qed.

(** The rows are the critical row plus the combination of the eigenvectors with the coefficients answered. *)
Definition reconstructs (soln : list (R * vec)) (J : R * vec -> mat) (critical : vec) (coefs : list vec) : Prop :=
  List.length coefs = List.length soln /\
  forall k x y, nth_error soln k = Some (x, y) -> exists c, nth_error coefs k = Some c /\
    forall i, (i < 11)%nat -> critical i + dot (eigvecs (J (x, y))) c i = y i.
Theorem C89_coefs : forall o eps soln, inverts ->
  (forall k x y, nth_error soln k = Some (x, y) ->
     (exists cs, coefs_around eigvecs inv o eps soln (Some k) true = Ret cs /\
        reconstructs soln (fun p => jacobian_row o eps (fst p) (snd p)) y cs) /\
     (exists cs, coefs_around eigvecs inv o eps soln (Some k) false = Ret cs /\
        reconstructs soln (fun _ => jacobian_row o eps x y) y cs)) /\
  (forall soln' x y, soln = soln' ++ [(x, y)] -> exists cs, coefs_around eigvecs inv o eps soln None true = Ret cs /\
        reconstructs soln (fun p => jacobian_row o eps (fst p) (snd p)) y cs).
Proof.
  intros o eps soln Hinv.
  assert (L : forall y, reconstructs soln (fun p => jacobian_row o eps (fst p) (snd p)) y
     (map (fun p => dot (fst p) (snd p)) (combine (map (fun j => inv (eigvecs j)) (compute_jacobian o eps soln))
        (map (fun p => vminus (snd p) y) soln)))).
  { intro y. unfold compute_jacobian. rewrite map_map. split.
    - rewrite map_length, combine_length, !map_length. lia.
    - intros k x z Hk. rewrite nth_error_map, combine_map_nth, Hk. cbn [option_map fst snd]. eexists. split; [reflexivity|].
      intros i Hi. rewrite (Hinv _ _ i Hi). unfold vminus. ring. }
  split.
  - intros k x y Hk. unfold coefs_around, eigenvector_coefs, chosen_index. rewrite zindex_nat, Hk. cbn [pybind snd]. split.
    + eexists. split; [reflexivity | apply L].
    + rewrite at_index, Hk. cbn [pybind fst snd]. eexists. split; [reflexivity|]. split; [rewrite !map_length; reflexivity|].
      intros n x' z Hn. rewrite map_map, nth_error_map, Hn. cbn [option_map snd]. eexists. split; [reflexivity|].
      intros i Hi. rewrite (Hinv _ _ i Hi). unfold vminus. ring.
  - intros soln' x y ->. unfold coefs_around, eigenvector_coefs, chosen_index. rewrite zindex_last. cbn [pybind snd].
    eexists. split; [reflexivity | apply L].
Qed.
(** Without a critical point the command announces that it uses the last value, but with the eigenvectors at that point it always fails. *)
Theorem C89_fallback_refuted : forall o eps soln, coefs_around eigvecs inv o eps soln None false = IndexError.
Proof.
  intros o eps soln. unfold coefs_around, eigenvector_coefs, chosen_index. destruct (zindex soln (-1)) eqn:E; try reflexivity; cbn [pybind].
  - assert (K : zslice soln (-1) (-1 + 1) = []).
    { unfold zslice, adjust. change (-1 + 1)%Z with 0%Z. change (0 <? 0)%Z with false. change (-1 <? 0)%Z with true. cbv iota.
      replace (Z.min 0 (Z.of_nat (length soln))) with 0%Z by lia.
      match goal with |- firstn ?n _ = _ => assert (E0 : n = 0%nat) by lia; rewrite E0; reflexivity end. }
    unfold compute_jacobian_at_index. rewrite K. reflexivity.
  - exfalso. unfold zindex in E. destruct (_ <? 0)%Z in E; [discriminate|]. destruct (nth_error _ _) in E; discriminate.
  - exfalso. unfold zindex in E. destruct (_ <? 0)%Z in E; [discriminate|]. destruct (nth_error _ _) in E; discriminate.
Qed.
End Coefs.
Print Assumptions C89_coefs.
Print Assumptions C89_fallback_refuted.
Example C89_inverts_nonvacuous : inverts (fun _ j i => if Nat.eqb j i then 2 else 0) (fun _ j i => if Nat.eqb j i then / 2 else 0).
Proof. intros J v i Hi. do 11 (destruct i as [|i]; [unfold dot; cbn; field|]). lia. Qed.
