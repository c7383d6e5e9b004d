(** Two functions on a set that are bounded and differ by at most a multiple of [S]: arithmetic with constants that hold on the whole set. *)
From Coq Require Import Reals Lra.
Open Scope R_scope.

Section Near.
Context {X : Type}.
Variable P : X -> Prop.
Variable S : X -> R.
Hypothesis HS : forall x, P x -> 0 <= S x.

Definition bounded (f : X -> R) : Prop := exists M, 0 <= M /\ forall x, P x -> Rabs (f x) <= M.
Definition away (f : X -> R) : Prop := exists m, 0 < m /\ forall x, P x -> m <= Rabs (f x).
Definition near (f g : X -> R) : Prop :=
  bounded f /\ bounded g /\ exists K, 0 <= K /\ forall x, P x -> Rabs (f x - g x) <= K * S x.

Lemma bounded_plus : forall f g, bounded f -> bounded g -> bounded (fun x => f x + g x).
Proof.
  intros f g (M1 & P1 & H1) (M2 & P2 & H2). exists (M1 + M2). split; [lra|]. intros x Hx.
  specialize (H1 x Hx). specialize (H2 x Hx). eapply Rle_trans; [apply Rabs_triang|]. lra.
Qed.
Lemma bounded_mult : forall f g, bounded f -> bounded g -> bounded (fun x => f x * g x).
Proof.
  intros f g (M1 & P1 & H1) (M2 & P2 & H2). exists (M1 * M2). split; [apply Rmult_le_pos; assumption|]. intros x Hx.
  rewrite Rabs_mult. apply Rmult_le_compat; auto using Rabs_pos.
Qed.
Lemma bounded_inv : forall f, away f -> bounded (fun x => / f x).
Proof.
  intros f (m & Pm & H). exists (/ m). split; [apply Rlt_le, Rinv_0_lt_compat, Pm|]. intros x Hx. specialize (H x Hx).
  assert (f x <> 0) by (intros Z; rewrite Z, Rabs_R0 in H; lra).
  rewrite Rabs_inv. apply Rinv_le_contravar; assumption.
Qed.

Lemma near_same : forall f, bounded f -> near f f.
Proof.
  intros f H. split; [exact H|]. split; [exact H|]. exists 0. split; [lra|]. intros x _. rewrite Rminus_diag_eq by reflexivity. rewrite Rabs_R0. lra.
Qed.
Lemma near_const : forall c, near (fun _ => c) (fun _ => c).
Proof. intros c. apply near_same. exists (Rabs c). split; [apply Rabs_pos|]. intros x _. apply Rle_refl. Qed.
Lemma near_plus : forall f1 g1 f2 g2, near f1 g1 -> near f2 g2 -> near (fun x => f1 x + f2 x) (fun x => g1 x + g2 x).
Proof.
  intros f1 g1 f2 g2 (A1 & B1 & K1 & P1 & H1) (A2 & B2 & K2 & P2 & H2).
  split; [apply bounded_plus; assumption|]. split; [apply bounded_plus; assumption|].
  exists (K1 + K2). split; [lra|]. intros x Hx. specialize (H1 x Hx). specialize (H2 x Hx).
  replace (f1 x + f2 x - (g1 x + g2 x)) with ((f1 x - g1 x) + (f2 x - g2 x)) by ring.
  eapply Rle_trans; [apply Rabs_triang|]. lra.
Qed.
Lemma near_mult : forall f1 g1 f2 g2, near f1 g1 -> near f2 g2 -> near (fun x => f1 x * f2 x) (fun x => g1 x * g2 x).
Proof.
  intros f1 g1 f2 g2 (A1 & B1 & K1 & P1 & H1) (A2 & B2 & K2 & P2 & H2).
  split; [apply bounded_mult; assumption|]. split; [apply bounded_mult; assumption|].
  destruct A2 as (M2 & Q2 & N2). destruct B1 as (M1 & Q1 & N1).
  exists (K1 * M2 + M1 * K2). split; [apply Rplus_le_le_0_compat; apply Rmult_le_pos; assumption|].
  intros t Ht. specialize (H1 t Ht). specialize (H2 t Ht). specialize (N1 t Ht). specialize (N2 t Ht). pose proof (HS t Ht) as Q.
  replace (f1 t * f2 t - g1 t * g2 t) with ((f1 t - g1 t) * f2 t + g1 t * (f2 t - g2 t)) by ring.
  eapply Rle_trans; [apply Rabs_triang|]. rewrite !Rabs_mult.
  assert (Rabs (f1 t - g1 t) * Rabs (f2 t) <= (K1 * S t) * M2) by (apply Rmult_le_compat; auto using Rabs_pos).
  assert (Rabs (g1 t) * Rabs (f2 t - g2 t) <= M1 * (K2 * S t)) by (apply Rmult_le_compat; auto using Rabs_pos).
  lra.
Qed.
Lemma near_opp : forall f g, near f g -> near (fun x => - f x) (fun x => - g x).
Proof.
  intros f g ((M1 & P1 & H1) & (M2 & P2 & H2) & K & PK & H).
  split; [exists M1; split; [exact P1|]; intros x Hx; rewrite Rabs_Ropp; auto|].
  split; [exists M2; split; [exact P2|]; intros x Hx; rewrite Rabs_Ropp; auto|].
  exists K. split; [exact PK|]. intros x Hx. replace (- f x - - g x) with (- (f x - g x)) by ring. rewrite Rabs_Ropp. auto.
Qed.
Lemma near_minus : forall f1 g1 f2 g2, near f1 g1 -> near f2 g2 -> near (fun x => f1 x - f2 x) (fun x => g1 x - g2 x).
Proof. intros f1 g1 f2 g2 H1 H2. unfold Rminus. apply (near_plus f1 g1 _ _ H1 (near_opp f2 g2 H2)). Qed.
Lemma near_inv : forall f g, near f g -> away f -> away g -> near (fun x => / f x) (fun x => / g x).
Proof.
  intros f g (A & B & K & PK & H) Zf Zg. pose proof (bounded_inv f Zf) as (M1 & Q1 & N1). pose proof (bounded_inv g Zg) as (M2 & Q2 & N2).
  split; [apply bounded_inv, Zf|]. split; [apply bounded_inv, Zg|].
  exists (M1 * M2 * K). split; [apply Rmult_le_pos; [apply Rmult_le_pos; assumption|exact PK]|].
  intros t Ht. specialize (H t Ht). specialize (N1 t Ht). specialize (N2 t Ht). cbv beta in N1, N2.
  destruct Zf as (m1 & Pm1 & Z1). destruct Zg as (m2 & Pm2 & Z2). specialize (Z1 t Ht). specialize (Z2 t Ht).
  assert (f t <> 0) by (intros Z; rewrite Z, Rabs_R0 in Z1; lra). assert (g t <> 0) by (intros Z; rewrite Z, Rabs_R0 in Z2; lra).
  replace (/ f t - / g t) with ((/ f t * / g t) * - (f t - g t)) by (field; split; auto).
  rewrite Rabs_mult, Rabs_Ropp, Rabs_mult.
  replace (M1 * M2 * K * S t) with ((M1 * M2) * (K * S t)) by ring.
  apply Rmult_le_compat; [apply Rmult_le_pos; apply Rabs_pos|apply Rabs_pos| |exact H].
  apply Rmult_le_compat; auto using Rabs_pos.
Qed.
Lemma near_div : forall f1 g1 f2 g2, near f1 g1 -> near f2 g2 -> away f2 -> away g2 -> near (fun x => f1 x / f2 x) (fun x => g1 x / g2 x).
Proof. intros f1 g1 f2 g2 H1 H2 Z1 Z2. unfold Rdiv. apply (near_mult f1 g1 _ _ H1 (near_inv f2 g2 H2 Z1 Z2)). Qed.
Lemma near_sq : forall f g, near f g -> near (fun x => f x ^ 2) (fun x => g x ^ 2).
Proof.
  intros f g H. cut (near (fun t => f t * (f t * 1)) (fun t => g t * (g t * 1))); [exact (fun x => x)|].
  apply (near_mult f g _ _ H). apply (near_mult f g _ _ H (near_const 1)).
Qed.
Lemma near_sqrt : forall m f g, 0 < m -> near f g -> (forall x, P x -> m <= f x) -> (forall x, P x -> m <= g x) ->
  near (fun x => sqrt (f x)) (fun x => sqrt (g x)).
Proof.
  intros m f g Pm (A & B & K & PK & H) Zf Zg.
  assert (bs : forall h, bounded h -> (forall x, P x -> m <= h x) -> bounded (fun x => sqrt (h x))).
  { intros h (M & PM & HM) Zh. exists (sqrt M). split; [apply sqrt_pos|]. intros x Hx. rewrite Rabs_right by (apply Rle_ge, sqrt_pos).
    apply sqrt_le_1_alt. specialize (HM x Hx). pose proof (Rle_abs (h x)). lra. }
  split; [apply bs; assumption|]. split; [apply bs; assumption|].
  pose proof (sqrt_lt_R0 m Pm) as Q. exists (/ sqrt m * K). split; [apply Rmult_le_pos; [apply Rlt_le, Rinv_0_lt_compat, Q|exact PK]|].
  intros t Ht. specialize (H t Ht). specialize (Zf t Ht). specialize (Zg t Ht).
  pose proof (sqrt_le_1_alt _ _ Zf) as L1. pose proof (sqrt_le_1_alt _ _ Zg) as L2.
  replace (sqrt (f t) - sqrt (g t)) with (/ (sqrt (f t) + sqrt (g t)) * (f t - g t)).
  - rewrite Rabs_mult, Rmult_assoc. apply Rmult_le_compat; auto using Rabs_pos.
    rewrite Rabs_inv. rewrite Rabs_right by lra. apply Rinv_le_contravar; lra.
  - pose proof (sqrt_sqrt (f t) ltac:(lra)) as E1. pose proof (sqrt_sqrt (g t) ltac:(lra)) as E2.
    replace (f t - g t) with ((sqrt (f t) - sqrt (g t)) * (sqrt (f t) + sqrt (g t))) by lra. field. lra.
Qed.
Lemma away_const : forall c, c <> 0 -> away (fun _ => c).
Proof. intros c H. exists (Rabs c). split; [apply Rabs_pos_lt, H|]. intros x _. apply Rle_refl. Qed.
Lemma away_ge : forall m f, 0 < m -> (forall x, P x -> m <= f x) -> away f.
Proof. intros m f Pm H. exists m. split; [exact Pm|]. intros x Hx. eapply Rle_trans; [apply H, Hx|apply Rle_abs]. Qed.
Lemma away_sq : forall f, away f -> away (fun x => f x ^ 2).
Proof.
  intros f (m & Pm & H). exists (m * m). split; [apply Rmult_lt_0_compat; assumption|]. intros x Hx. specialize (H x Hx).
  replace (f x ^ 2) with (f x * f x) by ring. rewrite Rabs_mult. apply Rmult_le_compat; lra.
Qed.
End Near.
