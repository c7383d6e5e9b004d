(** Two curves that stay as close as a quantity [S]: arithmetic of differences, and Grönwall's lemma. *)
From Coq Require Import Reals Lra.
Open Scope R_scope.

Section Close.
Variables (a b : R).
Hypothesis Hab : a <= b.
Variable S : R -> R.
Hypothesis HS : forall t, a <= t <= b -> 0 <= S t.

Definition cont (f : R -> R) : Prop := forall t, a <= t <= b -> continuity_pt f t.
(** [f] and [g] are continuous on [a, b] and differ by at most a multiple of [S]. *)
Definition close (f g : R -> R) : Prop :=
  cont f /\ cont g /\ exists K, 0 <= K /\ forall t, a <= t <= b -> Rabs (f t - g t) <= K * S t.

Lemma cont_bounded : forall f, cont f -> exists M, 0 <= M /\ forall t, a <= t <= b -> Rabs (f t) <= M.
Proof.
  intros f H. destruct (continuity_ab_maj (fun t => Rabs (f t)) a b Hab) as (m & Hm & Hi).
  - intros t Ht. apply (continuity_pt_comp f Rabs); [exact (H t Ht)|apply Rcontinuity_abs].
  - exists (Rabs (f m)). split; [apply Rabs_pos|exact Hm].
Qed.

Lemma close_same : forall f, cont f -> close f f.
Proof.
  intros f H. split; [exact H|]. split; [exact H|]. exists 0. split; [lra|]. intros t _.
  rewrite Rminus_diag_eq by reflexivity. rewrite Rabs_R0. lra.
Qed.
Lemma close_const : forall c, close (fun _ => c) (fun _ => c).
Proof. intros c. apply close_same. intros t _. apply continuity_pt_const. intros x y. reflexivity. Qed.
Lemma close_plus : forall f1 g1 f2 g2, close f1 g1 -> close f2 g2 ->
  close (fun t => f1 t + f2 t) (fun t => g1 t + g2 t).
Proof.
  intros f1 g1 f2 g2 (A1 & B1 & K1 & P1 & H1) (A2 & B2 & K2 & P2 & H2).
  split; [intros t Ht; apply (continuity_pt_plus f1 f2); auto|].
  split; [intros t Ht; apply (continuity_pt_plus g1 g2); auto|].
  exists (K1 + K2). split; [lra|]. intros t Ht. specialize (H1 t Ht). specialize (H2 t Ht).
  replace (f1 t + f2 t - (g1 t + g2 t)) with ((f1 t - g1 t) + (f2 t - g2 t)) by ring.
  eapply Rle_trans; [apply Rabs_triang|]. lra.
Qed.
Lemma close_mult : forall f1 g1 f2 g2, close f1 g1 -> close f2 g2 ->
  close (fun t => f1 t * f2 t) (fun t => g1 t * g2 t).
Proof.
  intros f1 g1 f2 g2 (A1 & B1 & K1 & P1 & H1) (A2 & B2 & K2 & P2 & H2).
  split; [intros t Ht; apply (continuity_pt_mult f1 f2); auto|].
  split; [intros t Ht; apply (continuity_pt_mult g1 g2); auto|].
  destruct (cont_bounded f2 A2) as (M2 & Q2 & N2). destruct (cont_bounded g1 B1) as (M1 & Q1 & N1).
  exists (K1 * M2 + M1 * K2). split; [apply Rplus_le_le_0_compat; apply Rmult_le_pos; assumption|].
  intros t Ht. specialize (H1 t Ht). specialize (H2 t Ht). specialize (N1 t Ht). specialize (N2 t Ht). pose proof (HS t Ht) as P.
  replace (f1 t * f2 t - g1 t * g2 t) with ((f1 t - g1 t) * f2 t + g1 t * (f2 t - g2 t)) by ring.
  eapply Rle_trans; [apply Rabs_triang|]. rewrite !Rabs_mult.
  assert (Rabs (f1 t - g1 t) * Rabs (f2 t) <= (K1 * S t) * M2) by (apply Rmult_le_compat; auto using Rabs_pos).
  assert (Rabs (g1 t) * Rabs (f2 t - g2 t) <= M1 * (K2 * S t)) by (apply Rmult_le_compat; auto using Rabs_pos).
  lra.
Qed.
Lemma close_opp : forall f g, close f g -> close (fun t => - f t) (fun t => - g t).
Proof.
  intros f g (A & B & K & P & H). split; [intros t Ht; apply (continuity_pt_opp f); auto|].
  split; [intros t Ht; apply (continuity_pt_opp g); auto|]. exists K. split; [exact P|]. intros t Ht.
  replace (- f t - - g t) with (- (f t - g t)) by ring. rewrite Rabs_Ropp. auto.
Qed.
Lemma close_minus : forall f1 g1 f2 g2, close f1 g1 -> close f2 g2 ->
  close (fun t => f1 t - f2 t) (fun t => g1 t - g2 t).
Proof. intros f1 g1 f2 g2 H1 H2. unfold Rminus. apply (close_plus f1 g1 _ _ H1 (close_opp f2 g2 H2)). Qed.
Lemma close_inv : forall f g, close f g ->
  (forall t, a <= t <= b -> f t <> 0) -> (forall t, a <= t <= b -> g t <> 0) ->
  close (fun t => / f t) (fun t => / g t).
Proof.
  intros f g (A & B & K & P & H) Zf Zg.
  assert (CF : cont (fun t => / f t)) by (intros t Ht; apply (continuity_pt_inv f); auto).
  assert (CG : cont (fun t => / g t)) by (intros t Ht; apply (continuity_pt_inv g); auto).
  split; [exact CF|]. split; [exact CG|].
  destruct (cont_bounded _ CF) as (M1 & Q1 & N1). destruct (cont_bounded _ CG) as (M2 & Q2 & N2).
  exists (M1 * M2 * K). split; [apply Rmult_le_pos; [apply Rmult_le_pos; assumption|exact P]|].
  intros t Ht. specialize (H t Ht). specialize (N1 t Ht). specialize (N2 t Ht). cbv beta in N1, N2.
  replace (/ f t - / g t) with ((/ f t * / g t) * - (f t - g t)) by (field; split; auto).
  rewrite Rabs_mult, Rabs_Ropp, Rabs_mult.
  replace (M1 * M2 * K * S t) with ((M1 * M2) * (K * S t)) by ring.
  apply Rmult_le_compat; [apply Rmult_le_pos; apply Rabs_pos|apply Rabs_pos| |exact H].
  apply Rmult_le_compat; auto using Rabs_pos.
Qed.
Lemma close_div : forall f1 g1 f2 g2, close f1 g1 -> close f2 g2 ->
  (forall t, a <= t <= b -> f2 t <> 0) -> (forall t, a <= t <= b -> g2 t <> 0) ->
  close (fun t => f1 t / f2 t) (fun t => g1 t / g2 t).
Proof. intros f1 g1 f2 g2 H1 H2 Z1 Z2. unfold Rdiv. apply (close_mult f1 g1 _ _ H1 (close_inv f2 g2 H2 Z1 Z2)). Qed.
Lemma close_sq : forall f g, close f g -> close (fun t => f t ^ 2) (fun t => g t ^ 2).
Proof.
  intros f g H. cut (close (fun t => f t * (f t * 1)) (fun t => g t * (g t * 1))); [exact (fun x => x)|].
  apply (close_mult f g _ _ H). apply (close_mult f g _ _ H (close_const 1)).
Qed.
Lemma close_sqrt : forall f g, close f g ->
  (forall t, a <= t <= b -> 0 < f t) -> (forall t, a <= t <= b -> 0 < g t) ->
  close (fun t => sqrt (f t)) (fun t => sqrt (g t)).
Proof.
  intros f g (A & B & K & P & H) Zf Zg.
  assert (CF : cont (fun t => sqrt (f t)))
    by (intros t Ht; apply (continuity_pt_comp f sqrt); [auto|apply continuity_pt_sqrt; apply Rlt_le; auto]).
  assert (CG : cont (fun t => sqrt (g t)))
    by (intros t Ht; apply (continuity_pt_comp g sqrt); [auto|apply continuity_pt_sqrt; apply Rlt_le; auto]).
  split; [exact CF|]. split; [exact CG|].
  assert (CI : cont (fun t => / (sqrt (f t) + sqrt (g t)))).
  { intros t Ht. apply (continuity_pt_inv (fun t => sqrt (f t) + sqrt (g t))).
    - apply (continuity_pt_plus (fun t => sqrt (f t)) (fun t => sqrt (g t))); auto.
    - pose proof (sqrt_lt_R0 _ (Zf t Ht)). pose proof (sqrt_lt_R0 _ (Zg t Ht)). lra. }
  destruct (cont_bounded _ CI) as (M & Q & N).
  exists (M * K). split; [apply Rmult_le_pos; assumption|].
  intros t Ht. specialize (H t Ht). specialize (N t Ht). cbv beta in N.
  pose proof (sqrt_lt_R0 _ (Zf t Ht)) as L1. pose proof (sqrt_lt_R0 _ (Zg t Ht)) as L2.
  replace (sqrt (f t) - sqrt (g t)) with (/ (sqrt (f t) + sqrt (g t)) * (f t - g t)).
  - rewrite Rabs_mult, Rmult_assoc. apply Rmult_le_compat; auto using Rabs_pos.
  - pose proof (sqrt_sqrt (f t) (Rlt_le _ _ (Zf t Ht))) as E1. pose proof (sqrt_sqrt (g t) (Rlt_le _ _ (Zg t Ht))) as E2.
    replace (f t - g t) with ((sqrt (f t) - sqrt (g t)) * (sqrt (f t) + sqrt (g t))) by lra. field. lra.
Qed.
End Close.

(** A function whose derivative never exceeds K times itself in size grows at most like exp(K t). *)
Lemma gronwall : forall a b (E E' : R -> R) K, 
  (forall t, a <= t <= b -> derivable_pt_lim E t (E' t)) ->
  (forall t, a <= t <= b -> Rabs (E' t) <= K * E t) ->
  forall s t, a <= s <= b -> a <= t <= b -> E t <= E s * exp (K * Rabs (t - s)).
Proof.
  intros a b E E' K HD HE.
  assert (mono : forall (F F' : R -> R) s t, a <= s -> s <= t -> t <= b ->
    (forall u, a <= u <= b -> derivable_pt_lim F u (F' u)) -> (forall u, a <= u <= b -> 0 <= F' u) -> F s <= F t).
  { intros F F' s t A L B D P. destruct L as [L| ->]; [|apply Rle_refl].
    destruct (MVT_cor2 F F' s t L) as (c & Hc & Hi); [intros c Hc; apply D; lra|].
    assert (0 <= F' c * (t - s)) by (apply Rmult_le_pos; [apply P|]; lra). lra. }
  assert (dexp : forall k u, derivable_pt_lim (fun t => exp (k * t)) u (k * exp (k * u))).
  { intros k u. replace (k * exp (k * u)) with (exp (k * u) * k) by ring.
    apply (derivable_pt_lim_comp (fun t => k * t) exp); [|apply derivable_pt_lim_exp].
    pose proof (derivable_pt_lim_scal id k u 1 (derivable_pt_lim_id u)) as D. rewrite Rmult_1_r in D. exact D. }
  assert (dprod : forall k u, a <= u <= b ->
    derivable_pt_lim (fun t => E t * exp (k * t)) u (E' u * exp (k * u) + E u * (k * exp (k * u)))).
  { intros k u Hu. apply (derivable_pt_lim_mult E (fun t => exp (k * t))); [apply HD; exact Hu|apply dexp]. }
  intros s t Hs Ht. destruct (Rle_lt_dec s t) as [L|L].
  - rewrite Rabs_right by lra.
    assert (M : - (E s * exp (- K * s)) <= - (E t * exp (- K * t))).
    { apply (mono (fun u => - (E u * exp (- K * u))) (fun u => - (E' u * exp (- K * u) + E u * (- K * exp (- K * u)))) s t); try lra.
      - intros u Hu. apply (derivable_pt_lim_opp (fun u => E u * exp (- K * u))). apply dprod. exact Hu.
      - intros u Hu. pose proof (exp_pos (- K * u)). pose proof (HE u Hu). pose proof (Rle_abs (E' u)).
        replace (- (E' u * exp (- K * u) + E u * (- K * exp (- K * u)))) with ((K * E u - E' u) * exp (- K * u)) by ring.
        apply Rmult_le_pos; lra. }
    replace (K * (t - s)) with (- K * s + K * t) by ring. rewrite exp_plus.
    assert (X : exp (- K * t) * exp (K * t) = 1) by (rewrite <- exp_plus; replace (- K * t + K * t) with 0 by ring; apply exp_0).
    pose proof (exp_pos (K * t)) as Q.
    assert (E t * exp (- K * t) * exp (K * t) <= E s * exp (- K * s) * exp (K * t)) by (apply Rmult_le_compat_r; lra).
    replace (E t) with (E t * (exp (- K * t) * exp (K * t))) by (rewrite X; ring). lra.
  - rewrite Rabs_left by lra.
    assert (M : E t * exp (K * t) <= E s * exp (K * s)).
    { apply (mono (fun u => E u * exp (K * u)) (fun u => E' u * exp (K * u) + E u * (K * exp (K * u))) t s); try lra.
      - intros u Hu. apply dprod. exact Hu.
      - intros u Hu. pose proof (exp_pos (K * u)). pose proof (HE u Hu). pose proof (Rle_abs (- E' u)). rewrite Rabs_Ropp in H1.
        replace (E' u * exp (K * u) + E u * (K * exp (K * u))) with ((K * E u + E' u) * exp (K * u)) by ring.
        apply Rmult_le_pos; lra. }
    replace (K * - (t - s)) with (K * s + - K * t) by ring. rewrite exp_plus.
    assert (X : exp (K * t) * exp (- K * t) = 1) by (rewrite <- exp_plus; replace (K * t + - K * t) with 0 by ring; apply exp_0).
    pose proof (exp_pos (- K * t)) as Q.
    assert (E t * exp (K * t) * exp (- K * t) <= E s * exp (K * s) * exp (- K * t)) by (apply Rmult_le_compat_r; lra).
    replace (E t) with (E t * (exp (K * t) * exp (- K * t))) by (rewrite X; ring). lra.
Qed.
