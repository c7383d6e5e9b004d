(** Functions of an angle and a state that satisfy a Lipschitz condition near a point: closed under the operations that the
    right-hand sides are made of, and enough for a solution through the point to exist. *)
From Coq Require Import Reals Lra Lia.
From Verif Require Import Model_Index Lib_Deriv Lib_Gronwall Lib_Picard.
Open Scope R_scope.

Lemma abs_between : forall x c, Rabs x <= c -> - c <= x <= c.
Proof. intros x c H. unfold Rabs in H. destruct Rcase_abs; lra. Qed.

Section Local.
Variables (n : nat) (x0 : R) (p0 : nat -> R).

(** Within [r] of the point; within [d] of each other. *)
Definition near (r t : R) (p : nat -> R) : Prop := Rabs (t - x0) <= r /\ forall j, (j < n)%nat -> Rabs (p j - p0 j) <= r.
Definition apart (d t u : R) (p q : nat -> R) : Prop := Rabs (t - u) <= d /\ forall j, (j < n)%nat -> Rabs (p j - q j) <= d.
Definition lip (g : R -> (nat -> R) -> R) : Prop := exists r K, 0 < r /\ 0 <= K /\
  forall t u p q d, near r t p -> near r u q -> apart d t u p q -> Rabs (g t p - g u q) <= K * d.

Lemma near_le : forall r r' t p, r <= r' -> near r t p -> near r' t p.
Proof. intros r r' t p L (A & B). split; [lra|]. intros j Hj. specialize (B j Hj). lra. Qed.
Lemma near_point : forall r, 0 < r -> near r x0 p0.
Proof. intros r Hr. split; [|intros j _]; rewrite Rminus_diag_eq by reflexivity; rewrite Rabs_R0; lra. Qed.
Lemma apart_pos : forall d t u p q, apart d t u p q -> 0 <= d.
Proof. intros d t u p q (A & _). pose proof (Rabs_pos (t - u)). lra. Qed.
Lemma near_apart : forall r t p, near r t p -> apart r t x0 p p0.
Proof. intros r t p H. exact H. Qed.

Lemma lip_bounded : forall g, lip g -> exists r C, 0 < r /\ 0 <= C /\ forall t p, near r t p -> Rabs (g t p) <= C.
Proof.
  intros g (r & K & Pr & PK & H). exists r, (Rabs (g x0 p0) + K * r). split; [exact Pr|].
  assert (0 <= K * r) by (apply Rmult_le_pos; lra). pose proof (Rabs_pos (g x0 p0)). split; [lra|].
  intros t p Hn. pose proof (H t x0 p p0 r Hn (near_point r Pr) (near_apart r t p Hn)) as L.
  replace (g t p) with ((g t p - g x0 p0) + g x0 p0) by ring. pose proof (Rabs_triang (g t p - g x0 p0) (g x0 p0)). lra.
Qed.
(** What is not zero at the point stays away from zero near it, on the same side. *)
Lemma lip_keeps : forall g, lip g -> g x0 p0 <> 0 -> exists r, 0 < r /\ forall t p, near r t p ->
  Rabs (g x0 p0) / 2 <= Rabs (g t p) /\ (0 < g x0 p0 -> g x0 p0 / 2 <= g t p).
Proof.
  intros g (r & K & Pr & PK & H) Z. assert (P : 0 < Rabs (g x0 p0)) by (apply Rabs_pos_lt, Z).
  set (e := Rabs (g x0 p0) / 2 / (K + 1)). assert (Pe : 0 < e) by (unfold e; apply Rdiv_lt_0_compat; lra).
  assert (Ee : e * (K + 1) = Rabs (g x0 p0) / 2) by (unfold e; field; lra).
  assert (Kp : K * Rmin r e <= Rabs (g x0 p0) / 2).
  { apply Rle_trans with (K * e); [apply Rmult_le_compat_l; [exact PK|apply Rmin_r]|]. lra. }
  exists (Rmin r e). split; [apply Rmin_pos; assumption|]. intros t p Hn.
  pose proof (H t x0 p p0 (Rmin r e) (near_le _ _ _ _ (Rmin_l r e) Hn) (near_point r Pr) Hn) as L.
  split; [|intros Q]; unfold Rabs in *; repeat destruct Rcase_abs; lra.
Qed.

Lemma lip_const : forall c, lip (fun _ _ => c).
Proof.
  intros c. exists 1, 0. split; [lra|]. split; [lra|]. intros t u p q d _ _ _. rewrite Rminus_diag_eq by reflexivity. rewrite Rabs_R0. lra.
Qed.
Lemma lip_slot : forall i, (i < n)%nat -> lip (fun _ p => p i).
Proof. intros i Hi. exists 1, 1. split; [lra|]. split; [lra|]. intros t u p q d _ _ (_ & A). specialize (A i Hi). lra. Qed.
Lemma lip_plus : forall f g, lip f -> lip g -> lip (fun t p => f t p + g t p).
Proof.
  intros f g (r1 & K1 & P1 & Q1 & H1) (r2 & K2 & P2 & Q2 & H2). exists (Rmin r1 r2), (K1 + K2).
  split; [apply Rmin_pos; assumption|]. split; [lra|]. intros t u p q d N1 N2 A.
  pose proof (H1 t u p q d (near_le _ _ _ _ (Rmin_l r1 r2) N1) (near_le _ _ _ _ (Rmin_l r1 r2) N2) A) as L1.
  pose proof (H2 t u p q d (near_le _ _ _ _ (Rmin_r r1 r2) N1) (near_le _ _ _ _ (Rmin_r r1 r2) N2) A) as L2.
  replace (f t p + g t p - (f u q + g u q)) with ((f t p - f u q) + (g t p - g u q)) by ring.
  pose proof (Rabs_triang (f t p - f u q) (g t p - g u q)). lra.
Qed.
Lemma lip_opp : forall f, lip f -> lip (fun t p => - f t p).
Proof.
  intros f (r & K & P & Q & H). exists r, K. split; [exact P|]. split; [exact Q|]. intros t u p q d N1 N2 A.
  replace (- f t p - - f u q) with (- (f t p - f u q)) by ring. rewrite Rabs_Ropp. apply H; assumption.
Qed.
Lemma lip_minus : forall f g, lip f -> lip g -> lip (fun t p => f t p - g t p).
Proof. intros f g Hf Hg. exact (lip_plus f _ Hf (lip_opp g Hg)). Qed.
Lemma lip_mult : forall f g, lip f -> lip g -> lip (fun t p => f t p * g t p).
Proof.
  intros f g Hf Hg. destruct (lip_bounded f Hf) as (s1 & C1 & Ps1 & PC1 & B1). destruct (lip_bounded g Hg) as (s2 & C2 & Ps2 & PC2 & B2).
  destruct Hf as (r1 & K1 & P1 & Q1 & H1). destruct Hg as (r2 & K2 & P2 & Q2 & H2).
  set (r := Rmin (Rmin s1 s2) (Rmin r1 r2)).
  assert (L1 : r <= s1) by (eapply Rle_trans; [apply Rmin_l|apply Rmin_l]). assert (L2 : r <= s2) by (eapply Rle_trans; [apply Rmin_l|apply Rmin_r]).
  assert (L3 : r <= r1) by (eapply Rle_trans; [apply Rmin_r|apply Rmin_l]). assert (L4 : r <= r2) by (eapply Rle_trans; [apply Rmin_r|apply Rmin_r]).
  assert (Pr : 0 < r) by (repeat apply Rmin_pos; assumption).
  exists r, (C1 * K2 + C2 * K1). split; [exact Pr|].
  split; [apply Rplus_le_le_0_compat; apply Rmult_le_pos; assumption|]. intros t u p q d N1 N2 A. pose proof (apart_pos _ _ _ _ _ A) as Pd.
  pose proof (H1 t u p q d (near_le _ _ _ _ L3 N1) (near_le _ _ _ _ L3 N2) A) as E1.
  pose proof (H2 t u p q d (near_le _ _ _ _ L4 N1) (near_le _ _ _ _ L4 N2) A) as E2.
  pose proof (B1 t p (near_le _ _ _ _ L1 N1)) as F1. pose proof (B2 u q (near_le _ _ _ _ L2 N2)) as F2.
  replace (f t p * g t p - f u q * g u q) with (f t p * (g t p - g u q) + g u q * (f t p - f u q)) by ring.
  eapply Rle_trans; [apply Rabs_triang|]. rewrite !Rabs_mult.
  assert (Rabs (f t p) * Rabs (g t p - g u q) <= C1 * (K2 * d)) by (apply Rmult_le_compat; auto using Rabs_pos).
  assert (Rabs (g u q) * Rabs (f t p - f u q) <= C2 * (K1 * d)) by (apply Rmult_le_compat; auto using Rabs_pos). lra.
Qed.
Lemma lip_sq : forall f, lip f -> lip (fun t p => f t p ^ 2).
Proof.
  intros f H. cut (lip (fun t p => f t p * (f t p * 1))); [exact (fun x => x)|].
  apply (lip_mult f _ H). exact (lip_mult f _ H (lip_const 1)).
Qed.
Lemma lip_inv : forall f, lip f -> f x0 p0 <> 0 -> lip (fun t p => / f t p).
Proof.
  intros f Hf Z. destruct (lip_keeps f Hf Z) as (s & Ps & B). destruct Hf as (r & K & P & Q & H).
  set (c := Rabs (f x0 p0) / 2) in *. assert (Pc : 0 < c) by (unfold c; pose proof (Rabs_pos_lt _ Z); lra).
  exists (Rmin r s), (K / (c * c)). split; [apply Rmin_pos; assumption|]. assert (Pcc : 0 < c * c) by (apply Rmult_lt_0_compat; exact Pc).
  split; [apply Rmult_le_pos; [exact Q|apply Rlt_le, Rinv_0_lt_compat, Pcc]|]. intros t u p q d N1 N2 A.
  pose proof (H t u p q d (near_le _ _ _ _ (Rmin_l r s) N1) (near_le _ _ _ _ (Rmin_l r s) N2) A) as E.
  pose proof (proj1 (B t p (near_le _ _ _ _ (Rmin_r r s) N1))) as F1. pose proof (proj1 (B u q (near_le _ _ _ _ (Rmin_r r s) N2))) as F2.
  assert (Z1 : f t p <> 0) by (intros X; rewrite X, Rabs_R0 in F1; lra). assert (Z2 : f u q <> 0) by (intros X; rewrite X, Rabs_R0 in F2; lra).
  replace (/ f t p - / f u q) with (- (f t p - f u q) * / (f t p * f u q)) by (field; split; assumption).
  rewrite Rabs_mult, Rabs_Ropp, Rabs_inv, Rabs_mult.
  assert (G : / (Rabs (f t p) * Rabs (f u q)) <= / (c * c)) by (apply Rinv_le_contravar; [exact Pcc|apply Rmult_le_compat; lra]).
  assert (Pf : 0 < / (Rabs (f t p) * Rabs (f u q))) by (apply Rinv_0_lt_compat, Rmult_lt_0_compat; lra).
  replace (K / (c * c) * d) with (K * d * / (c * c)) by (field; lra).
  apply Rmult_le_compat; [apply Rabs_pos|lra|exact E|exact G].
Qed.
Lemma lip_div : forall f g, lip f -> lip g -> g x0 p0 <> 0 -> lip (fun t p => f t p / g t p).
Proof. intros f g Hf Hg Z. exact (lip_mult f _ Hf (lip_inv g Hg Z)). Qed.
Lemma lip_sqrt : forall f, lip f -> 0 < f x0 p0 -> lip (fun t p => sqrt (f t p)).
Proof.
  intros f Hf Z. destruct (lip_keeps f Hf ltac:(lra)) as (s & Ps & B). destruct Hf as (r & K & P & Q & H).
  set (c := sqrt (f x0 p0 / 2)). assert (Pc : 0 < c) by (apply sqrt_lt_R0; lra).
  exists (Rmin r s), (K / c). split; [apply Rmin_pos; assumption|].
  split; [apply Rmult_le_pos; [exact Q|apply Rlt_le, Rinv_0_lt_compat, Pc]|]. intros t u p q d N1 N2 A.
  pose proof (H t u p q d (near_le _ _ _ _ (Rmin_l r s) N1) (near_le _ _ _ _ (Rmin_l r s) N2) A) as E.
  pose proof (proj2 (B t p (near_le _ _ _ _ (Rmin_r r s) N1)) Z) as F1. pose proof (proj2 (B u q (near_le _ _ _ _ (Rmin_r r s) N2)) Z) as F2.
  assert (G1 : c <= sqrt (f t p)) by (apply sqrt_le_1_alt, F1). assert (G2 : c <= sqrt (f u q)) by (apply sqrt_le_1_alt, F2).
  assert (S1 : sqrt (f t p) * sqrt (f t p) = f t p) by (apply sqrt_sqrt; lra). assert (S2 : sqrt (f u q) * sqrt (f u q) = f u q) by (apply sqrt_sqrt; lra).
  apply (Rmult_le_reg_r c); [exact Pc|]. replace (K / c * d * c) with (K * d) by (field; lra).
  eapply Rle_trans; [|exact E]. 
  replace (f t p - f u q) with ((sqrt (f t p) - sqrt (f u q)) * (sqrt (f t p) + sqrt (f u q))) by (transitivity (sqrt (f t p) * sqrt (f t p) - sqrt (f u q) * sqrt (f u q)); [ring|lra]).
  rewrite Rabs_mult. apply Rmult_le_compat_l; [apply Rabs_pos|]. rewrite Rabs_right; lra.
Qed.

(** Functions of the angle alone. *)
Lemma lip_angle : forall s, lip (fun t _ => t * s).
Proof.
  intros s. exists 1, (Rabs s). split; [lra|]. split; [apply Rabs_pos|]. intros t u p q d _ _ (A & _).
  replace (t * s - u * s) with (s * (t - u)) by ring. rewrite Rabs_mult. apply Rmult_le_compat_l; [apply Rabs_pos|exact A].
Qed.
Lemma lip_comp1 : forall (F F' : R -> R) g, (forall x, derivable_pt_lim F x (F' x)) -> (forall x, Rabs (F' x) <= 1) -> lip g -> lip (fun t p => F (g t p)).
Proof.
  intros F F' g DF BF (r & K & P & Q & H). exists r, K. split; [exact P|]. split; [exact Q|]. intros t u p q d N1 N2 A.
  eapply Rle_trans; [|exact (H t u p q d N1 N2 A)].
  assert (G : forall v w, v < w -> Rabs (F w - F v) <= Rabs (w - v)).
  { intros v w L. destruct (MVT_cor2 F F' v w L) as (c & E & _); [intros c _; apply DF|].
    rewrite E, Rabs_mult. rewrite <- (Rmult_1_l (Rabs (w - v))) at 2. apply Rmult_le_compat_r; [apply Rabs_pos|apply BF]. }
  destruct (Rtotal_order (g u q) (g t p)) as [L|[L|L]].
  - apply G, L.
  - rewrite L, !Rminus_diag_eq by reflexivity. lra.
  - rewrite (Rabs_minus_sym (F _)), (Rabs_minus_sym (g t p)). apply G, L.
Qed.
Lemma lip_sin : forall g, lip g -> lip (fun t p => sin (g t p)).
Proof.
  intros g. apply (lip_comp1 sin cos); [exact derivable_pt_lim_sin|]. intros x. apply Rabs_le. pose proof (COS_bound x). lra.
Qed.
Lemma lip_cos : forall g, lip g -> lip (fun t p => cos (g t p)).
Proof.
  intros g. apply (lip_comp1 cos (fun x => - sin x)); [exact derivable_pt_lim_cos|]. intros x. apply Rabs_le. pose proof (SIN_bound x). lra.
Qed.

(** One radius, one Lipschitz constant and one bound for a whole system. *)
Lemma lip_all : forall (G : R -> (nat -> R) -> nat -> R), (forall i, (i < n)%nat -> lip (fun t p => G t p i)) ->
  exists r K C, 0 < r /\ 0 <= K /\ 0 <= C /\ forall i, (i < n)%nat ->
    (forall t p, near r t p -> Rabs (G t p i) <= C) /\
    forall t u p q d, near r t p -> near r u q -> apart d t u p q -> Rabs (G t p i - G u q i) <= K * d.
Proof.
  intros G HG.
  assert (U : forall k, (k <= n)%nat -> exists r K C, 0 < r /\ 0 <= K /\ 0 <= C /\ forall i, (i < k)%nat ->
    (forall t p, near r t p -> Rabs (G t p i) <= C) /\
    forall t u p q d, near r t p -> near r u q -> apart d t u p q -> Rabs (G t p i - G u q i) <= K * d).
  { induction k as [|k IH]; intros Hk; [exists 1, 0, 0; repeat split; try lra; lia|].
    destruct IH as (r & K & C & P1 & P2 & P3 & H); [lia|]. destruct (lip_bounded _ (HG k Hk)) as (r1 & C1 & Q1 & Q2 & H1).
    destruct (HG k Hk) as (r2 & K2 & Q3 & Q4 & H2). set (ρ := Rmin r (Rmin r1 r2)).
    assert (L1 : ρ <= r) by apply Rmin_l. assert (L2 : ρ <= r1) by (eapply Rle_trans; [apply Rmin_r|apply Rmin_l]).
    assert (L3 : ρ <= r2) by (eapply Rle_trans; [apply Rmin_r|apply Rmin_r]). assert (Pρ : 0 < ρ) by (repeat apply Rmin_pos; assumption).
    exists ρ, (K + K2), (C + C1). split; [exact Pρ|]. split; [lra|]. split; [lra|]. intros i Hi. destruct (Nat.eq_dec i k) as [-> |Ne].
    - split; [intros t p Hn; specialize (H1 t p (near_le _ _ _ _ L2 Hn)); cbv beta in H1; lra|]. intros t u p q d N1 N2 A.
      specialize (H2 t u p q d (near_le _ _ _ _ L3 N1) (near_le _ _ _ _ L3 N2) A). cbv beta in H2. pose proof (apart_pos _ _ _ _ _ A) as Pd.
      assert (0 <= K * d) by (apply Rmult_le_pos; assumption). lra.
    - destruct (H i ltac:(lia)) as (B & L). split; [intros t p Hn; specialize (B t p (near_le _ _ _ _ L1 Hn)); lra|]. intros t u p q d N1 N2 A.
      specialize (L t u p q d (near_le _ _ _ _ L1 N1) (near_le _ _ _ _ L1 N2) A). pose proof (apart_pos _ _ _ _ _ A) as Pd.
      assert (0 <= K2 * d) by (apply Rmult_le_pos; assumption). lra. }
  exact (U n (le_n _)).
Qed.

(** A system of such functions has a solution through the point, that stays as near as asked. *)
Theorem local_solution : forall (G : R -> (nat -> R) -> nat -> R), (forall i, (i < n)%nat -> lip (fun t p => G t p i)) ->
  forall e, 0 < e -> exists h (u : R -> nat -> R), 0 < h /\ (forall i, (i < n)%nat -> u x0 i = p0 i) /\
  forall t, Rabs (t - x0) < h -> near e t (u t) /\ forall i, (i < n)%nat -> derivable_pt_lim (fun s => u s i) t (G t (u t) i).
Proof.
  intros G HG e Pe.
  destruct (lip_all G HG) as (r' & K & C & P1 & P2 & P3 & H').
  set (r := Rmin r' e). assert (Pr : 0 < r) by (apply Rmin_pos; assumption). assert (Lr : r <= r') by apply Rmin_l. assert (Le : r <= e) by apply Rmin_r.
  assert (B : forall t p i, (i < n)%nat -> near r t p -> Rabs (G t p i) <= C) by (intros t p i Hi Hn; apply (H' i Hi), (near_le _ _ _ _ Lr Hn)).
  assert (L : forall t u p q d i, (i < n)%nat -> near r t p -> near r u q -> apart d t u p q -> Rabs (G t p i - G u q i) <= K * d).
  { intros t u p q d i Hi N1 N2 A. apply (H' i Hi); [exact (near_le _ _ _ _ Lr N1)|exact (near_le _ _ _ _ Lr N2)|exact A]. }
  clear H'.
  set (ct := clamp (x0 - r) (x0 + r)). set (cp := fun (p : nat -> R) j => clamp (p0 j - r) (p0 j + r) (p j)).
  assert (Nc : forall t p, near r (ct t) (cp p)).
  { intros t p. split; [|intros j _]; apply Rabs_le; unfold ct, cp.
    - pose proof (clamp_in (x0 - r) (x0 + r) t ltac:(lra)). lra.
    - pose proof (clamp_in (p0 j - r) (p0 j + r) (p j) ltac:(lra)). lra. }
  assert (Ac : forall d t u p q, apart d t u p q -> apart d (ct t) (ct u) (cp p) (cp q)).
  { intros d t u p q (A1 & A2). split; [|intros j Hj]; unfold ct, cp.
    - eapply Rle_trans; [apply clamp_near; lra|exact A1].
    - eapply Rle_trans; [apply clamp_near; lra|exact (A2 j Hj)]. }
  set (h := Rmin (1 / (2 * (K + 1))) (Rmin r (r / (C + 1)))).
  assert (Ph : 0 < h) by (repeat apply Rmin_pos; try assumption; apply Rdiv_lt_0_compat; lra).
  assert (h1 : h <= 1 / (2 * (K + 1))) by apply Rmin_l. assert (h2 : h <= r) by (eapply Rle_trans; [apply Rmin_r|apply Rmin_l]).
  assert (h3 : h <= r / (C + 1)) by (eapply Rle_trans; [apply Rmin_r|apply Rmin_r]).
  assert (Ch : C * h <= r).
  { apply Rle_trans with (C * (r / (C + 1))); [apply Rmult_le_compat_l; assumption|].
    apply (Rmult_le_reg_r (C + 1)); [lra|]. replace (C * (r / (C + 1)) * (C + 1)) with (C * r) by (field; lra). lra. }
  assert (Kh : K * h <= 1 / 2).
  { apply Rle_trans with (K * (1 / (2 * (K + 1)))); [apply Rmult_le_compat_l; assumption|].
    apply (Rmult_le_reg_r (2 * (K + 1))); [lra|]. replace (K * (1 / (2 * (K + 1))) * (2 * (K + 1))) with K by (field; lra). lra. }
  destruct (picard_std n (fun t p i => G (ct t) (cp p) i) x0 h K C p0 Ph P2 P3) as (u & U0 & U1).
  - intros t p i Hi. apply B; [exact Hi|apply Nc].
  - intros t p q i d Hi Hd. apply L; [exact Hi|apply Nc|apply Nc|]. apply Ac. split; [|exact Hd].
    rewrite Rminus_diag_eq by reflexivity. rewrite Rabs_R0. specialize (Hd i Hi). pose proof (Rabs_pos (p i - q i)). lra.
  - intros u Cu i t Hi.
    (* the slots are all within a bound near t *)
    assert (V : forall ε, 0 < ε -> exists δ, 0 < δ /\ forall t', Rabs (t' - t) < δ -> apart ε t' t (u t') (u t)).
    { intros ε Pε. assert (W : forall k, (k <= n)%nat -> exists δ, 0 < δ /\ forall t', Rabs (t' - t) < δ -> forall j, (j < k)%nat -> Rabs (u t' j - u t j) <= ε).
      { induction k as [|k IH]; intros Hk; [exists 1; split; [lra|intros; lia]|]. destruct IH as (δ & Pδ & Hδ); [lia|].
        destruct (Cu k t Hk ε Pε) as (δ' & Pδ' & Hδ'). exists (Rmin δ δ'). split; [apply Rmin_pos; assumption|]. intros t' Ht' j Hj.
        destruct (Nat.eq_dec j k) as [-> |Ne].
        - destruct (Req_dec t' t) as [-> |Nt]; [rewrite Rminus_diag_eq by reflexivity; rewrite Rabs_R0; lra|].
          apply Rlt_le. apply (Hδ' t'). split; [split; [exact I|intros X; apply Nt; symmetry; exact X]|].
          cbn. unfold R_dist. eapply Rlt_le_trans; [exact Ht'|apply Rmin_r].
        - apply Hδ; [eapply Rlt_le_trans; [exact Ht'|apply Rmin_l]|lia]. }
      destruct (W n (le_n _)) as (δ & Pδ & Hδ). exists (Rmin δ ε). split; [apply Rmin_pos; assumption|]. intros t' Ht'. split.
      - apply Rlt_le. eapply Rlt_le_trans; [exact Ht'|apply Rmin_r].
      - apply Hδ. eapply Rlt_le_trans; [exact Ht'|apply Rmin_l]. }
    intros ε Pε. destruct (V (ε / (2 * (K + 1)))) as (δ & Pδ & Hδ); [apply Rdiv_lt_0_compat; lra|].
    exists δ. split; [exact Pδ|]. intros t' (_ & Ht'). cbn in Ht' |- *. unfold R_dist in *.
    eapply Rle_lt_trans; [apply (L _ _ _ _ (ε / (2 * (K + 1))) i Hi (Nc _ _) (Nc _ _)), Ac, Hδ, Ht'|].
    apply (Rmult_lt_reg_r (2 * (K + 1))); [lra|]. replace (K * (ε / (2 * (K + 1))) * (2 * (K + 1))) with (K * ε) by (field; lra).
    assert (0 <= K * ε) by (apply Rmult_le_pos; lra). lra.
  - exact Kh.
  - exists h, u. split; [exact Ph|]. split; [exact U0|]. intros t Ht.
    assert (Nt : near r t (u t)).
    { split; [lra|]. intros j Hj. destruct (U1 t j Hj Ht) as (_ & Q). eapply Rle_trans; [exact Q|].
      apply Rle_trans with (C * h); [apply Rmult_le_compat_l; lra|exact Ch]. }
    split; [exact (near_le _ _ _ _ Le Nt)|]. intros i Hi. destruct (U1 t i Hi Ht) as (D & _). cbv beta in D.
    assert (Ec : ct t = t) by (unfold ct; apply clamp_id; destruct Nt as (Q & _); apply abs_between in Q; lra).
    assert (Lz : Rabs (G (ct t) (cp (u t)) i - G t (u t) i) <= K * 0).
    { apply L; [exact Hi|apply Nc|exact Nt|]. rewrite Ec. split; [rewrite Rminus_diag_eq by reflexivity; rewrite Rabs_R0; lra|].
      intros j Hj. unfold cp. destruct Nt as (_ & Q). specialize (Q j Hj). apply abs_between in Q. rewrite clamp_id by lra.
      rewrite Rminus_diag_eq by reflexivity. rewrite Rabs_R0. lra. }
    rewrite Rmult_0_r in Lz. replace (G t (u t) i) with (G (ct t) (cp (u t)) i); [exact D|].
    apply Rminus_diag_uniq. destruct (Req_dec (G (ct t) (cp (u t)) i - G t (u t) i) 0) as [Z|Z]; [exact Z|].
    apply Rabs_pos_lt in Z. lra.
Qed.

(** The squared distance of two states. *)
Fixpoint esum (p q : nat -> R) (k : nat) : R := match k with O => 0 | S k => esum p q k + (p k - q k) ^ 2 end.
Lemma esum_pos : forall p q k, 0 <= esum p q k.
Proof. intros p q. induction k as [|k IH]; cbn [esum]; [lra|]. pose proof (pow2_ge_0 (p k - q k)). lra. Qed.
Lemma esum_slot : forall p q k j, (j < k)%nat -> (p j - q j) ^ 2 <= esum p q k.
Proof.
  intros p q. induction k as [|k IH]; intros j Hj; [lia|]. cbn [esum]. pose proof (pow2_ge_0 (p k - q k)). pose proof (esum_pos p q k).
  destruct (Nat.eq_dec j k) as [-> |Ne]; [lra|]. specialize (IH j ltac:(lia)). lra.
Qed.
Lemma esum_le : forall p q e k, (k <= n)%nat -> (forall j, (j < k)%nat -> Rabs (p j - q j) <= e) -> esum p q k <= INR k * e ^ 2.
Proof.
  intros p q e. induction k as [|k IH]; intros Hk H; [cbn; lra|]. cbn [esum]. rewrite S_INR. specialize (IH ltac:(lia) ltac:(intros j Hj; apply H; lia)).
  assert ((p k - q k) ^ 2 <= e ^ 2) by (rewrite <- (pow2_abs (p k - q k)); apply pow_incr; split; [apply Rabs_pos|apply H; lia]). lra.
Qed.

(** Two solutions that both run into the point from the left are the same near it. *)
Lemma same_from_left : forall (G : R -> (nat -> R) -> nat -> R), (forall i, (i < n)%nat -> lip (fun t p => G t p i)) ->
  forall (y u : R -> nat -> R) w, 0 < w ->
  (forall t i, x0 - w < t < x0 -> (i < n)%nat -> derivable_pt_lim (fun s => y s i) t (G t (y t) i)) ->
  (forall t i, x0 - w < t < x0 -> (i < n)%nat -> derivable_pt_lim (fun s => u s i) t (G t (u t) i)) ->
  (forall e, 0 < e -> exists d, 0 < d /\ forall t, x0 - d < t < x0 -> near e t (y t) /\ near e t (u t)) ->
  exists d, 0 < d /\ forall t i, x0 - d < t < x0 -> (i < n)%nat -> y t i = u t i.
Proof.
  intros G HG y u w Pw Dy Du Lim. destruct (lip_all G HG) as (r & K & C & Pr & PK & _ & H).
  destruct (Lim r Pr) as (d0 & Pd0 & N0). set (d := Rmin w d0). assert (Pd : 0 < d) by (apply Rmin_pos; assumption).
  assert (dw : d <= w) by apply Rmin_l. assert (dd : d <= d0) by apply Rmin_r.
  exists d. split; [exact Pd|]. intros t i Ht Hi.
  assert (Z : esum (y t) (u t) n <= 0).
  { set (X := exp (2 * INR n * K * w)). assert (PX : 0 < X) by apply exp_pos.
    assert (PnK : 0 <= 2 * INR n * K) by (repeat apply Rmult_le_pos; try lra; apply pos_INR).
    (* bounded by the distance at any later angle *)
    assert (B : forall t', t <= t' < x0 -> esum (y t) (u t) n <= esum (y t') (u t') n * X).
    { intros t' Ht'.
      assert (Gr : esum (y t) (u t) n <= esum (y t') (u t') n * exp (2 * INR n * K * Rabs (t - t'))).
      { apply (gronwall t t' (fun s => esum (y s) (u s) n)
          (fun s => (fix g k := match k with O => 0 | S k => g k + 2 * (y s k - u s k) * (G s (y s) k - G s (u s) k) end) n) (2 * INR n * K)); try lra.
        - intros s Hs. assert (W : forall k, (k <= n)%nat -> derivable_pt_lim (fun s => esum (y s) (u s) k) s
            ((fix g k := match k with O => 0 | S k => g k + 2 * (y s k - u s k) * (G s (y s) k - G s (u s) k) end) k)).
          { induction k as [|k IH]; intros Hk; [exact (derivable_pt_lim_const 0 s)|]. cbn [esum].
            apply (derivable_pt_lim_plus (fun s => esum (y s) (u s) k) (fun s => (y s k - u s k) ^ 2)); [apply IH; lia|].
            pose proof (derivable_pt_lim_minus _ _ _ _ _ (Dy s k ltac:(lra) Hk) (Du s k ltac:(lra) Hk)) as D3.
            pose proof (derivable_pt_lim_comp _ (fun v => v ^ 2) s _ _ D3 (derivable_pt_lim_pow _ 2)) as D4.
            cbv beta in D4. unfold comp, minus_fct in D4. cbn [INR pred] in D4. eapply dpl_eq; [exact D4|]. ring. }
          exact (W n (le_n _)).
        - intros s Hs. destruct (N0 s ltac:(lra)) as (Ny & Nu). set (e := sqrt (esum (y s) (u s) n)).
          assert (Ee : e * e = esum (y s) (u s) n) by (apply sqrt_sqrt, esum_pos). assert (Pe : 0 <= e) by apply sqrt_pos.
          assert (Sl : forall j, (j < n)%nat -> Rabs (y s j - u s j) <= e).
          { intros j Hj. rewrite <- sqrt_Rsqr_abs. apply sqrt_le_1_alt. rewrite Rsqr_pow2. apply esum_slot, Hj. }
          assert (Ap : apart e s s (y s) (u s)) by (split; [rewrite Rminus_diag_eq by reflexivity; rewrite Rabs_R0; exact Pe|exact Sl]).
          assert (W : forall k, (k <= n)%nat -> Rabs ((fix g k := match k with O => 0 | S k => g k + 2 * (y s k - u s k) * (G s (y s) k - G s (u s) k) end) k)
            <= INR k * (2 * K * (e * e))).
          { induction k as [|k IH]; intros Hk; [rewrite Rabs_R0; cbn; lra|]. eapply Rle_trans; [apply Rabs_triang|]. rewrite S_INR. specialize (IH ltac:(lia)).
            assert (Q : Rabs (2 * (y s k - u s k) * (G s (y s) k - G s (u s) k)) <= 2 * K * (e * e)).
            { rewrite !Rabs_mult, (Rabs_right 2) by lra. pose proof (proj2 (H k Hk) s s (y s) (u s) e Ny Nu Ap) as Lk.
              assert (Rabs (y s k - u s k) * Rabs (G s (y s) k - G s (u s) k) <= e * (K * e)) by (apply Rmult_le_compat; auto using Rabs_pos). lra. }
            lra. }
          rewrite <- Ee. eapply Rle_trans; [apply (W n (le_n _))|]. lra. }
      eapply Rle_trans; [exact Gr|]. apply Rmult_le_compat_l; [apply esum_pos|]. unfold X.
      assert (L : 2 * INR n * K * Rabs (t - t') <= 2 * INR n * K * w) by (apply Rmult_le_compat_l; [exact PnK|]; apply Rabs_le; lra).
      destruct L as [L|L]; [apply Rlt_le, exp_increasing, L|rewrite L; lra]. }
    apply Rnot_lt_le. intros Pos.
    set (q := esum (y t) (u t) n) in *. set (e := Rmin 1 (q / (8 * (INR n + 1) * X))).
    assert (Pn : 0 <= INR n) by apply pos_INR. assert (Pm : 0 < 8 * (INR n + 1) * X) by (apply Rmult_lt_0_compat; lra).
    assert (Pe : 0 < e) by (apply Rmin_pos; [lra|apply Rdiv_lt_0_compat; assumption]). assert (e1 : e <= 1) by apply Rmin_l.
    assert (e2 : e * (8 * (INR n + 1) * X) <= q).
    { apply Rle_trans with (q / (8 * (INR n + 1) * X) * (8 * (INR n + 1) * X)); [apply Rmult_le_compat_r; [lra|apply Rmin_r]|]. right. field. split; lra. }
    destruct (Lim e Pe) as (d1 & Pd1 & N1). set (t' := Rmax t (x0 - d1 / 2)).
    assert (T1 : t <= t' < x0) by (split; [apply Rmax_l|apply Rmax_lub_lt; lra]).
    assert (T2 : x0 - d1 < t') by (apply Rlt_le_trans with (x0 - d1 / 2); [lra|apply Rmax_r]).
    destruct (N1 t' ltac:(lra)) as (Ny & Nu).
    assert (Q : esum (y t') (u t') n <= INR n * (2 * e) ^ 2).
    { apply esum_le; [lia|]. intros j Hj. replace (y t' j - u t' j) with ((y t' j - p0 j) + - (u t' j - p0 j)) by ring.
      eapply Rle_trans; [apply Rabs_triang|]. rewrite Rabs_Ropp. pose proof (proj2 Ny j Hj). pose proof (proj2 Nu j Hj). lra. }
    specialize (B t' T1).
    assert (Q2 : INR n * (2 * e) ^ 2 <= 4 * (INR n + 1) * e).
    { replace (INR n * (2 * e) ^ 2) with (4 * INR n * (e * e)) by ring.
      assert (e * e <= e) by (rewrite <- (Rmult_1_r e) at 3; apply Rmult_le_compat_l; lra).
      assert (4 * INR n * (e * e) <= 4 * INR n * e) by (apply Rmult_le_compat_l; lra). lra. }
    assert (Q3 : esum (y t') (u t') n * X <= 4 * (INR n + 1) * e * X) by (apply Rmult_le_compat_r; lra). lra. }
  pose proof (esum_slot (y t) (u t) n i Hi) as S1. assert (S2 : (y t i - u t i) ^ 2 = 0) by (apply Rle_antisym; [lra|apply pow2_ge_0]).
  apply Rminus_diag_uniq. destruct (Req_dec (y t i - u t i) 0) as [|Ne]; [assumption|]. exfalso. exact (pow_nonzero _ 2 Ne S2).
Qed.

(** A solution that runs into the point from the left goes on beyond it. *)
Theorem local_continuation : forall (G : R -> (nat -> R) -> nat -> R), (forall i, (i < n)%nat -> lip (fun t p => G t p i)) ->
  forall (y : R -> nat -> R) w, 0 < w ->
  (forall t i, x0 - w < t < x0 -> (i < n)%nat -> derivable_pt_lim (fun s => y s i) t (G t (y t) i)) ->
  (forall e, 0 < e -> exists d, 0 < d /\ forall t, x0 - d < t < x0 -> near e t (y t)) ->
  forall e, 0 < e -> exists h (z : R -> nat -> R), 0 < h /\ (forall t i, t < x0 -> z t i = y t i) /\ (forall i, (i < n)%nat -> z x0 i = p0 i) /\
  forall t, x0 <= t < x0 + h -> near e t (z t) /\ forall i, (i < n)%nat -> derivable_pt_lim (fun s => z s i) t (G t (z t) i).
Proof.
  intros G HG y w Pw Dy Lim e Pe. destruct (local_solution G HG e Pe) as (h & u & Ph & U0 & U1).
  assert (Uc : forall ε, 0 < ε -> exists d, 0 < d /\ forall t, Rabs (t - x0) < d -> near ε t (u t)).
  { intros ε Pε. assert (V : forall k, (k <= n)%nat -> exists d, 0 < d /\ forall t, Rabs (t - x0) < d -> forall j, (j < k)%nat -> Rabs (u t j - p0 j) <= ε).
    { induction k as [|k IH]; intros Hk; [exists 1; split; [lra|intros; lia]|]. destruct IH as (d & Pd & Hd); [lia|].
      assert (Cu : continuity_pt (fun s => u s k) x0).
      { apply derivable_continuous_pt. exists (G x0 (u x0) k). apply (U1 x0); [rewrite Rminus_diag_eq by reflexivity; rewrite Rabs_R0; exact Ph|exact Hk]. }
      destruct (Cu ε Pε) as (d' & Pd' & Hd'). exists (Rmin d d'). split; [apply Rmin_pos; assumption|]. intros t Ht j Hj.
      destruct (Nat.eq_dec j k) as [-> |Ne].
      - rewrite <- (U0 k Hk). destruct (Req_dec t x0) as [-> |Nt]; [rewrite Rminus_diag_eq by reflexivity; rewrite Rabs_R0; lra|].
        apply Rlt_le. apply (Hd' t). split; [split; [exact I|intros X; apply Nt; symmetry; exact X]|]. cbn. unfold R_dist. eapply Rlt_le_trans; [exact Ht|apply Rmin_r].
      - apply Hd; [eapply Rlt_le_trans; [exact Ht|apply Rmin_l]|lia]. }
    destruct (V n (le_n _)) as (d & Pd & Hd). exists (Rmin d ε). split; [apply Rmin_pos; assumption|]. intros t Ht. split.
    - apply Rlt_le. eapply Rlt_le_trans; [exact Ht|apply Rmin_r].
    - apply Hd. eapply Rlt_le_trans; [exact Ht|apply Rmin_l]. }
  destruct (same_from_left G HG y u (Rmin w h)) as (d & Pd & E).
  - apply Rmin_pos; assumption.
  - intros t i Ht Hi. apply Dy; [|exact Hi]. pose proof (Rmin_l w h). lra.
  - intros t i Ht Hi. apply U1; [|exact Hi]. pose proof (Rmin_r w h). apply Rabs_def1; lra.
  - intros ε Pε. destruct (Lim ε Pε) as (d1 & P1 & H1). destruct (Uc ε Pε) as (d2 & P2 & H2). exists (Rmin d1 d2).
    split; [apply Rmin_pos; assumption|]. intros t Ht. pose proof (Rmin_l d1 d2). pose proof (Rmin_r d1 d2). split; [apply H1; lra|apply H2, Rabs_def1; lra].
  - exists h, (fun t => if Rlt_dec t x0 then y t else u t). split; [exact Ph|]. split; [|split].
    + intros t i Ht. destruct (Rlt_dec t x0); [reflexivity|lra].
    + intros i Hi. destruct (Rlt_dec x0 x0); [lra|]. exact (U0 i Hi).
    + intros t Ht. destruct (Rlt_dec t x0); [lra|]. destruct (U1 t ltac:(apply Rabs_def1; lra)) as (N1 & D1). split; [exact N1|]. intros i Hi.
      apply (dpl_ext_loc (fun s => u s i) _ t _ d Pd); [|exact (D1 i Hi)]. intros s Hs. apply Rabs_def2 in Hs.
      destruct (Rlt_dec s x0); [symmetry; apply E; [lra|exact Hi]|reflexivity].
Qed.
End Local.
