(** Lemmas for shocks, waves, rescaling and coordinate changes. *)
From Coq Require Import Reals List Lra Lia Psatz.
From Verif Require Import Model_Index Model_Waves Spec_Waves.
Open Scope R_scope.

Lemma post_v_θ : forall p, post_jump_values p iv_θ = / p iv_θ.
Proof. intros; unfold post_jump_values, get_v_θ_post, upd; simpl. unfold Rdiv; ring. Qed.
Lemma post_ρ : forall p, post_jump_values p iρ = p iρ * p iv_θ ^ 2.
Proof. reflexivity. Qed.
Lemma post_other : forall p i, i <> iv_θ -> i <> iρ -> post_jump_values p i = p i.
Proof.
  intros p i H1 H2. unfold post_jump_values, upd.
  apply Nat.eqb_neq in H1, H2. rewrite H1, H2. reflexivity.
Qed.
Lemma jump_ok : forall a_0 p, p iv_θ <> 0 -> jump_conditions a_0 p (post_jump_values p).
Proof.
  intros a_0 p Hv. unfold jump_conditions, mass_flux, momentum_flux_θ, momentum_flux_r, momentum_flux_φ.
  rewrite post_v_θ, post_ρ, !post_other by (intro H; discriminate H).
  repeat split; field; assumption.
Qed.
Lemma jump_unique : forall a_0 p q, 0 < p iρ -> p iv_θ <> 0 -> jump_conditions a_0 p q ->
  q iv_θ <> p iv_θ -> q iv_θ = post_jump_values p iv_θ /\ q iρ = post_jump_values p iρ /\
  q iv_r = post_jump_values p iv_r /\ q iv_φ = post_jump_values p iv_φ.
Proof.
  intros a_0 p q Hρ Hv (H1 & H2 & H3 & H4 & H5 & H6 & H7) Hne.
  unfold mass_flux, momentum_flux_θ, momentum_flux_r, momentum_flux_φ in *.
  rewrite <- H5, <- H6, <- H7 in *.
  rewrite post_v_θ, post_ρ, !post_other by (intro H; discriminate H).
  set (v := p iv_θ) in *; set (w := q iv_θ) in *; set (r := p iρ) in *; set (s := q iρ) in *.
  assert (Hm : s * w <> 0) by (rewrite <- H1; apply Rmult_integral_contrapositive_currified; lra).
  assert (Hw : w <> 0) by (intro E; apply Hm; rewrite E; ring).
  assert (E : (v - w) * (v * w - 1) = 0).
  { apply Rmult_eq_reg_l with r; [|lra]. rewrite Rmult_0_r.
    assert (E1 : r * v ^ 2 + r = s * w ^ 2 + s) by lra.
    replace (r * ((v - w) * (v * w - 1))) with (w * (r * v ^ 2 + r) - (w ^ 2 + 1) * (r * v)) by ring.
    rewrite E1, H1. ring. }
  assert (E2 : v * w = 1).
  { apply Rmult_integral in E. destruct E as [E|E]; [exfalso; apply Hne; lra | lra]. }
  assert (Ew : w = / v) by (apply Rmult_eq_reg_l with v; [rewrite E2; field; exact Hv | exact Hv]).
  split; [exact Ew|]. split.
  - apply Rmult_eq_reg_r with w; [|exact Hw]. rewrite <- H1, Ew. field; exact Hv.
  - split.
    + apply Rmult_eq_reg_l with (s * w); [|exact Hm]. rewrite <- H1 at 2. lra.
    + apply Rmult_eq_reg_l with (s * w); [|exact Hm]. rewrite <- H1 at 2. lra.
Qed.

(** Waves. *)
Definition disc (V c x : R) : R := (V + c ^ 2) ^ 2 - 4 * V * c ^ 2 * x.
Lemma disc_pos : forall V c x, 0 <= V -> x <= 1 -> 0 <= disc V c x.
Proof.
  intros V c x HV Hx. unfold disc.
  assert (0 <= V * c ^ 2) by (apply Rmult_le_pos; [assumption | apply pow2_ge_0]).
  assert (0 <= (V - c ^ 2) ^ 2) by apply pow2_ge_0. nra.
Qed.
(** Squared speeds in the abstract: s, f are the two roots. *)
Section Speeds.
Variables V c x : R.
Hypothesis HV : 0 <= V.
Hypothesis Hx : 0 <= x <= 1.
Let s := 1 / 2 * (V + c ^ 2 - sqrt (disc V c x)).
Let f := 1 / 2 * (V + c ^ 2 + sqrt (disc V c x)).
Lemma sp_sum : s + f = V + c ^ 2. Proof. unfold s, f; field. Qed.
Lemma sp_sq : sqrt (disc V c x) ^ 2 = disc V c x.
Proof. rewrite <- Rsqr_pow2. apply Rsqr_sqrt, disc_pos; lra. Qed.
Lemma sp_prod : s * f = V * c ^ 2 * x.
Proof.
  unfold s, f. replace (1 / 2 * (V + c ^ 2 - sqrt (disc V c x)) * (1 / 2 * (V + c ^ 2 + sqrt (disc V c x))))
    with (1 / 4 * ((V + c ^ 2) ^ 2 - sqrt (disc V c x) ^ 2)) by field.
  rewrite sp_sq. unfold disc. field.
Qed.
Lemma sp_le : s <= f.
Proof. unfold s, f. pose proof (sqrt_pos (disc V c x)). lra. Qed.
Lemma sp_c2 : 0 <= c ^ 2. Proof. apply pow2_ge_0. Qed.
Lemma sp_root_between : forall y, y ^ 2 - (V + c ^ 2) * y + V * c ^ 2 * x <= 0 -> s <= y <= f.
Proof.
  intros y Hy. assert (E : (y - s) * (y - f) <= 0).
  { replace ((y - s) * (y - f)) with (y ^ 2 - (s + f) * y + s * f) by ring. rewrite sp_sum, sp_prod. exact Hy. }
  pose proof sp_le. split.
  - destruct (Rle_or_lt s y) as [|Hlt]; [assumption|]. exfalso.
    assert (0 < (y - s) * (y - f)) by (replace ((y - s) * (y - f)) with ((s - y) * (f - y)) by ring; apply Rmult_lt_0_compat; lra). lra.
  - destruct (Rle_or_lt y f) as [|Hlt]; [assumption|]. exfalso.
    assert (0 < (y - s) * (y - f)) by (apply Rmult_lt_0_compat; lra). lra.
Qed.
Lemma sp_alfven : s <= V * x <= f.
Proof.
  apply sp_root_between. pose proof sp_c2.
  replace ((V * x) ^ 2 - (V + c ^ 2) * (V * x) + V * c ^ 2 * x) with (- (V * V * (x * (1 - x)))) by ring.
  assert (0 <= V * V * (x * (1 - x))) by (apply Rmult_le_pos; apply Rmult_le_pos; lra). lra.
Qed.
Lemma sp_sound : s <= c ^ 2 <= f.
Proof.
  apply sp_root_between. pose proof sp_c2.
  replace ((c ^ 2) ^ 2 - (V + c ^ 2) * c ^ 2 + V * c ^ 2 * x) with (- (V * c ^ 2 * (1 - x))) by ring.
  assert (0 <= V * c ^ 2 * (1 - x)) by (apply Rmult_le_pos; [apply Rmult_le_pos|]; lra). lra.
Qed.
Lemma sp_slow_nonneg : 0 <= s.
Proof.
  unfold s. assert (sqrt (disc V c x) <= V + c ^ 2); [|lra].
  pose proof sp_c2. rewrite <- (sqrt_pow2 (V + c ^ 2)) by lra. apply sqrt_le_1.
  - apply disc_pos; lra.
  - apply pow2_ge_0.
  - unfold disc. assert (0 <= V * c ^ 2 * x) by (apply Rmult_le_pos; [apply Rmult_le_pos|]; lra). lra.
Qed.
Lemma sp_slow_pos : 0 < V -> c <> 0 -> 0 < x -> 0 < s.
Proof.
  intros H1 H2 H3. pose proof sp_prod as Hp. pose proof sp_slow_nonneg.
  assert (0 < c ^ 2) by (rewrite <- Rsqr_pow2; apply Rlt_0_sqr; assumption).
  assert (0 < s * f) by (rewrite Hp; apply Rmult_lt_0_compat; [apply Rmult_lt_0_compat|]; assumption).
  destruct (Rle_lt_or_eq_dec 0 s) as [|E]; try assumption. rewrite <- E in *. lra.
Qed.
Lemma sp_roots : forall w, w ^ 2 - (V + c ^ 2) * w + V * c ^ 2 * x = 0 <-> w = s \/ w = f.
Proof.
  intro w. assert (E : w ^ 2 - (V + c ^ 2) * w + V * c ^ 2 * x = (w - s) * (w - f)).
  { rewrite <- sp_sum, <- sp_prod. ring. }
  rewrite E. split.
  - intro H. apply Rmult_integral in H. destruct H; [left|right]; lra.
  - intros [H|H]; rewrite H; ring.
Qed.
End Speeds.

(** The wave speeds of the model in those terms. *)
Lemma B_sq_pos : forall p, p iB_θ <> 0 -> 0 < p iB_r ^ 2 + p iB_φ ^ 2 + p iB_θ ^ 2.
Proof.
  intros p H. pose proof (pow2_ge_0 (p iB_r)). pose proof (pow2_ge_0 (p iB_φ)).
  assert (0 < p iB_θ ^ 2) by (rewrite <- Rsqr_pow2; apply Rlt_0_sqr; assumption). lra.
Qed.
Lemma cos_sq_bounds : forall a b d, 0 < a ^ 2 + b ^ 2 + d ^ 2 -> 0 <= d ^ 2 / (a ^ 2 + b ^ 2 + d ^ 2) <= 1.
Proof.
  intros a b d H. pose proof (pow2_ge_0 a). pose proof (pow2_ge_0 b). pose proof (pow2_ge_0 d). split.
  - apply Rmult_le_pos; [assumption | left; apply Rinv_0_lt_compat; assumption].
  - apply Rmult_le_reg_r with (a ^ 2 + b ^ 2 + d ^ 2); [assumption|]. unfold Rdiv. rewrite Rmult_assoc, Rinv_l by lra. lra.
Qed.
Lemma v_a_sq_nonneg : forall m ρ, 0 < m -> 0 < ρ -> 0 < m / (4 * PI * ρ).
Proof.
  intros m ρ Hm Hρ. apply Rmult_lt_0_compat; [assumption|]. apply Rinv_0_lt_compat.
  apply Rmult_lt_0_compat; [|assumption]. pose proof PI_RGT_0. lra.
Qed.

(** Which phase speeds are possible. *)
Lemma wave_iff : forall a c p u, 0 < a -> c <> 0 -> 0 < p iρ -> p iB_θ <> 0 ->
  let m := p iB_r ^ 2 + p iB_φ ^ 2 + p iB_θ ^ 2 in
  wave_speed a c p u <->
  (u ^ 2 = a * p iB_θ ^ 2 / p iρ \/
   (u ^ 2) ^ 2 - (a * m / p iρ + c ^ 2) * u ^ 2 + a * m / p iρ * c ^ 2 * (p iB_θ ^ 2 / m) = 0).
Proof.
  intros a c p u Ha Hc Hρ HB m. pose proof (B_sq_pos p HB) as Hm. fold m in Hm.
  set (ρ := p iρ) in *. set (X := p iB_r) in *. set (Y := p iB_φ) in *. set (Z := p iB_θ) in *.
  assert (HZ : 0 < Z ^ 2) by (rewrite <- Rsqr_pow2; apply Rlt_0_sqr; assumption).
  assert (Hc2 : 0 < c ^ 2) by (rewrite <- Rsqr_pow2; apply Rlt_0_sqr; assumption).
  assert (Hdisp : (u ^ 2) ^ 2 - (a * m / ρ + c ^ 2) * u ^ 2 + a * m / ρ * c ^ 2 * (Z ^ 2 / m) = 0 <->
                  (u ^ 2 - c ^ 2) * (u ^ 2 * ρ - a * Z ^ 2) = a * u ^ 2 * (X ^ 2 + Y ^ 2)).
  { assert (E : ρ * ((u ^ 2) ^ 2 - (a * m / ρ + c ^ 2) * u ^ 2 + a * m / ρ * c ^ 2 * (Z ^ 2 / m)) =
                (u ^ 2 - c ^ 2) * (u ^ 2 * ρ - a * Z ^ 2) - a * u ^ 2 * (X ^ 2 + Y ^ 2)).
    { transitivity (ρ * (u ^ 2) ^ 2 - (a * m + ρ * c ^ 2) * u ^ 2 + a * c ^ 2 * Z ^ 2); [field; lra|].
      unfold m. ring. }
    split; intro H.
    - rewrite H, Rmult_0_r in E. lra.
    - apply Rmult_eq_reg_l with ρ; [|lra]. rewrite E, Rmult_0_r. lra. }
  rewrite Hdisp. split.
  - intros (dr & vx & vy & vz & bx & by_ & Hnz & H1 & H2 & H3 & H4 & H5 & H6).
    fold ρ X Y Z in H1, H2, H3, H4, H5, H6.
    assert (Ex : (u ^ 2 * ρ - a * Z ^ 2) * bx = u ^ 2 * X * dr).
    { replace (u ^ 2 * X * dr) with (u * X * (u * dr)) by ring.
      replace (u * dr) with (ρ * vz) by lra.
      replace ((u ^ 2 * ρ - a * Z ^ 2) * bx) with (- u * ρ * (- u * bx) - Z * (a * Z * bx)) by ring.
      rewrite H5, <- H2. ring. }
    assert (Ey : (u ^ 2 * ρ - a * Z ^ 2) * by_ = u ^ 2 * Y * dr).
    { replace (u ^ 2 * Y * dr) with (u * Y * (u * dr)) by ring.
      replace (u * dr) with (ρ * vz) by lra.
      replace ((u ^ 2 * ρ - a * Z ^ 2) * by_) with (- u * ρ * (- u * by_) - Z * (a * Z * by_)) by ring.
      rewrite H6, <- H3. ring. }
    assert (Ed : (u ^ 2 - c ^ 2) * dr = a * (X * bx + Y * by_)).
    { replace ((u ^ 2 - c ^ 2) * dr) with (u * (u * dr) - c ^ 2 * dr) by ring.
      replace (u * dr) with (ρ * vz) by lra. lra. }
    destruct (Req_dec dr 0) as [E0|N0].
    + subst dr. rewrite !Rmult_0_r in *.
      assert (vz = 0) by (apply Rmult_eq_reg_l with ρ; lra). subst vz. rewrite !Rmult_0_r in *.
      destruct (Req_dec (u ^ 2 * ρ - a * Z ^ 2) 0) as [Ea|Na].
      * left. apply Rmult_eq_reg_r with ρ; [|lra]. transitivity (a * Z ^ 2); [lra | field; lra].
      * exfalso. apply Rmult_integral in Ex, Ey.
        destruct Ex as [|Ex]; [contradiction|]. destruct Ey as [|Ey]; [contradiction|]. subst bx by_.
        assert (vx = 0) by (apply Rmult_eq_reg_l with Z; [lra | assumption]).
        assert (vy = 0) by (apply Rmult_eq_reg_l with Z; [lra | assumption]).
        destruct Hnz as [K|[K|[K|[K|[K|K]]]]]; apply K; lra || assumption.
    + right. apply Rmult_eq_reg_r with dr; [|assumption].
      replace ((u ^ 2 - c ^ 2) * (u ^ 2 * ρ - a * Z ^ 2) * dr)
        with ((u ^ 2 - c ^ 2) * dr * (u ^ 2 * ρ - a * Z ^ 2)) by ring.
      rewrite Ed.
      replace (a * (X * bx + Y * by_) * (u ^ 2 * ρ - a * Z ^ 2))
        with (a * (X * ((u ^ 2 * ρ - a * Z ^ 2) * bx) + Y * ((u ^ 2 * ρ - a * Z ^ 2) * by_))) by ring.
      rewrite Ex, Ey. ring.
  - assert (Hal : u ^ 2 = a * Z ^ 2 / ρ -> wave_speed a c p u).
    { intro Hu. assert (Hup : 0 < u ^ 2).
      { rewrite Hu. apply Rmult_lt_0_compat; [apply Rmult_lt_0_compat; assumption | apply Rinv_0_lt_compat; assumption]. }
      assert (Hu0 : u <> 0) by (intro E; rewrite E in Hup; simpl in Hup; lra).
      assert (Hu2 : u ^ 2 * ρ = a * Z ^ 2) by (rewrite Hu; field; lra).
      destruct (Req_dec (X ^ 2 + Y ^ 2) 0) as [E|N].
      - assert (X = 0) by (pose proof (pow2_ge_0 X); pose proof (pow2_ge_0 Y); apply Rsqr_0_uniq; rewrite Rsqr_pow2; lra).
        assert (Y = 0) by (pose proof (pow2_ge_0 X); pose proof (pow2_ge_0 Y); apply Rsqr_0_uniq; rewrite Rsqr_pow2; lra).
        exists 0, (- a * Z / (u * ρ)), 0, 0, 1, 0. split; [right; right; right; right; left; lra|].
        unfold wave. fold ρ X Y Z. rewrite H, H0. repeat split; try ring; try (field; split; lra).
        apply Rmult_eq_reg_r with (u * ρ); [|apply Rmult_integral_contrapositive_currified; lra].
        transitivity (- (u ^ 2 * ρ)); [ring|]. rewrite Hu2. field. split; lra.
      - exists 0, (a * Z * Y / (u * ρ)), (- a * Z * X / (u * ρ)), 0, (- Y), X.
        split.
        { destruct (Req_dec X 0) as [EX|]; [|right; right; right; right; right; assumption].
          right; right; right; right; left. intro E. apply N. rewrite EX. replace Y with 0 by lra. ring. }
        unfold wave. fold ρ X Y Z. repeat split; try ring; try (field; split; lra).
        + apply Rmult_eq_reg_r with (u * ρ); [|apply Rmult_integral_contrapositive_currified; lra].
          transitivity (Y * (u ^ 2 * ρ)); [ring|]. rewrite Hu2. field. split; lra.
        + apply Rmult_eq_reg_r with (u * ρ); [|apply Rmult_integral_contrapositive_currified; lra].
          transitivity (- X * (u ^ 2 * ρ)); [ring|]. rewrite Hu2. field. split; lra. }
    intros [Hu|Hd]; [exact (Hal Hu)|].
    assert (Hu0 : u <> 0).
    { intro E. rewrite E in Hd. ring_simplify in Hd.
      assert (0 < c ^ 2 * (a * Z ^ 2)) by (apply Rmult_lt_0_compat; [|apply Rmult_lt_0_compat]; assumption). lra. }
    assert (Hup : 0 < u ^ 2) by (rewrite <- Rsqr_pow2; apply Rlt_0_sqr; assumption).
    destruct (Req_dec (X ^ 2 + Y ^ 2) 0) as [E|N].
    + assert (X = 0) by (pose proof (pow2_ge_0 X); pose proof (pow2_ge_0 Y); apply Rsqr_0_uniq; rewrite Rsqr_pow2; lra).
      assert (Y = 0) by (pose proof (pow2_ge_0 X); pose proof (pow2_ge_0 Y); apply Rsqr_0_uniq; rewrite Rsqr_pow2; lra).
      rewrite E, Rmult_0_r in Hd. apply Rmult_integral in Hd. destruct Hd as [Hd|Hd].
      * exists 1, 0, 0, (u / ρ), 0, 0. split; [left; lra|]. unfold wave. fold ρ X Y Z. rewrite H, H0.
        repeat split; try ring; try (field; lra).
        transitivity (- u ^ 2); [field; lra|]. lra.
      * apply Hal. apply Rmult_eq_reg_r with ρ; [|lra]. transitivity (a * Z ^ 2); [lra | field; lra].
    + exists (u ^ 2 * ρ - a * Z ^ 2), (- a * Z * u * X / ρ), (- a * Z * u * Y / ρ),
        (u * (u ^ 2 * ρ - a * Z ^ 2) / ρ), (u ^ 2 * X), (u ^ 2 * Y). split.
      { destruct (Req_dec X 0) as [EX|NX].
        - right; right; right; right; right. apply Rmult_integral_contrapositive_currified; [lra|].
          intro E. apply N. rewrite EX, E. ring.
        - right; right; right; right; left. apply Rmult_integral_contrapositive_currified; lra. }
      unfold wave. fold ρ X Y Z. repeat split; try (field; lra).
      transitivity (- (u ^ 2 * (u ^ 2 * ρ - a * Z ^ 2))); [field; lra|].
      replace (u ^ 2 * (u ^ 2 * ρ - a * Z ^ 2)) with
        ((u ^ 2 - c ^ 2) * (u ^ 2 * ρ - a * Z ^ 2) + c ^ 2 * (u ^ 2 * ρ - a * Z ^ 2)) by ring.
      rewrite Hd. ring.
Qed.

(** Real powers. *)
Lemma sqrt_Rpower : forall r, 0 < r -> sqrt r = Rpower r (1 / 2).
Proof. intros r Hr. replace (1 / 2) with (/ 2) by field. rewrite Rpower_sqrt; auto. Qed.
Lemma inv_sqrt_Rpower : forall r, 0 < r -> 1 / sqrt r = Rpower r (- 1 / 2).
Proof.
  intros r Hr. replace (- 1 / 2) with (- / 2) by field. rewrite Rpower_Ropp, Rpower_sqrt by assumption.
  unfold Rdiv. ring.
Qed.
Lemma Rpower_1' : forall y, Rpower 1 y = 1.
Proof. intro y. unfold Rpower. rewrite ln_1, Rmult_0_r. apply exp_0. Qed.

(** The exponent of each slot. *)
Definition slot_exponent (γ : R) (i : nat) : R :=
  match i with
  | 0%nat | 1%nat | 2%nat | 7%nat => γ - 5 / 4 | 3%nat | 4%nat | 5%nat => - 1 / 2
  | 6%nat => 2 * γ - 3 / 2 | _ => 1 / 2 end.
Lemma scale_slots : forall soln r γ, 0 < r ->
  exists s, scale_solution_to_radii soln r γ false = Conv_ok s /\
    forall i, (i < ODE_LEN)%nat -> s i = Some (Rpower r (slot_exponent γ i) * soln i).
Proof.
  intros soln r γ Hr. eexists. split; [reflexivity|]. intros i Hi.
  rewrite (inv_sqrt_Rpower r Hr), (sqrt_Rpower r Hr).
  unfold ODE_LEN in Hi.
  do 11 (destruct i as [|i]; [reflexivity|]). lia.
Qed.

Lemma triple_eq : forall (a b c d e f : R), (a, b, c) = (d, e, f) -> a = d /\ b = e /\ c = f.
Proof. intros a b c d e f H. inversion H. auto. Qed.
Lemma quad_eq : forall (a b c g d e f h : R), (a, b, c, g) = (d, e, f, h) -> a = d /\ b = e /\ c = f /\ g = h.
Proof. intros a b c g d e f h H. inversion H. auto. Qed.
