(** Picard iteration: a bounded system that is Lipschitz in the state has a solution through every state on a short interval. *)
From Coq Require Import Reals Lra Lia FunctionalExtensionality.
From Coquelicot Require Import Coquelicot.
Open Scope R_scope.

(** The point of [lo, hi] next to [t]. *)
Definition clamp (lo hi t : R) : R := Rmax lo (Rmin hi t).
Lemma clamp_in : forall lo hi t, lo <= hi -> lo <= clamp lo hi t <= hi.
Proof. intros lo hi t H. unfold clamp. split; [apply Rmax_l|apply Rmax_lub; [exact H|apply Rmin_l]]. Qed.
Lemma clamp_id : forall lo hi t, lo <= t <= hi -> clamp lo hi t = t.
Proof. intros lo hi t H. unfold clamp. rewrite Rmin_right by lra. apply Rmax_right. lra. Qed.
Lemma clamp_near : forall lo hi t u, lo <= hi -> Rabs (clamp lo hi t - clamp lo hi u) <= Rabs (t - u).
Proof.
  assert (E : forall lo hi t, lo <= hi -> (t <= lo /\ clamp lo hi t = lo) \/ (lo <= t <= hi /\ clamp lo hi t = t) \/ (hi <= t /\ clamp lo hi t = hi)).
  { intros lo hi t H. unfold clamp. destruct (Rle_dec hi t) as [A|A].
    - right. right. split; [exact A|]. rewrite Rmin_left by exact A. apply Rmax_right, H.
    - rewrite Rmin_right by lra. destruct (Rle_dec lo t) as [B|B].
      + right. left. split; [lra|]. apply Rmax_right, B.
      + left. split; [lra|]. apply Rmax_left. lra. }
  intros lo hi t u H. destruct (E lo hi t H) as [(A & ->)|[(A & ->)|(A & ->)]]; destruct (E lo hi u H) as [(B & ->)|[(B & ->)|(B & ->)]];
    unfold Rabs; repeat destruct Rcase_abs; lra.
Qed.
Lemma lip_continuous : forall f C, (forall t u, Rabs (f t - f u) <= C * Rabs (t - u)) -> forall t, continuous f t.
Proof.
  intros f C H t. apply continuity_pt_filterlim. intros e He. exists (e / (Rabs C + 1)). assert (Q := Rabs_pos C).
  split; [apply Rdiv_lt_0_compat; lra|]. intros x (_ & Hx). cbn in *. unfold R_dist in *.
  eapply Rle_lt_trans; [apply H|]. assert (C <= Rabs C) by apply Rle_abs. assert (P := Rabs_pos (x - t)).
  apply (Rmult_lt_compat_l (Rabs C + 1)) in Hx; [|lra]. replace ((Rabs C + 1) * (e / (Rabs C + 1))) with e in Hx by (field; lra).
  assert (C * Rabs (x - t) <= Rabs C * Rabs (x - t)) by (apply Rmult_le_compat_r; lra). lra.
Qed.
Lemma RInt_bound : forall f a t M, (forall x, continuous f x) -> (forall x, Rmin a t <= x <= Rmax a t -> Rabs (f x) <= M) ->
  Rabs (RInt f a t) <= Rabs (t - a) * M.
Proof.
  intros f a t M Cf H. assert (E : forall x y, ex_RInt (V := R_CompleteNormedModule) f x y) by (intros; apply ex_RInt_continuous; intros; apply Cf).
  destruct (Rle_dec a t) as [L|L].
  - rewrite (Rabs_right (t - a)) by lra. apply abs_RInt_le_const; [exact L|apply E|]. intros x Hx. apply H. rewrite Rmin_left, Rmax_right by lra. exact Hx.
  - rewrite <- (opp_RInt_swap (V := R_CompleteNormedModule) f t a (E _ _)). change (Rabs (- RInt f t a) <= Rabs (t - a) * M). rewrite Rabs_Ropp.
    rewrite (Rabs_left (t - a)) by lra. replace (- (t - a)) with (a - t) by ring.
    apply abs_RInt_le_const; [lra|apply E|]. intros x Hx. apply H. rewrite Rmin_right, Rmax_left by lra. exact Hx.
Qed.

Lemma lim_le : forall u v (l m : R), (forall k, u k <= v k) -> is_lim_seq u l -> is_lim_seq v m -> l <= m.
Proof. intros u v l m H A B. exact (is_lim_seq_le u v l m H A B). Qed.

Section Picard.
Variables (n : nat) (G : R -> (nat -> R) -> nat -> R) (x0 h K C : R) (p0 : nat -> R).
Hypothesis Ph : 0 < h.
Hypothesis PK : 0 <= K.
Hypothesis PC : 0 <= C.
Hypothesis HB : forall t p i, (i < n)%nat -> Rabs (G t p i) <= C.
Hypothesis HL : forall t p q i d, (i < n)%nat -> (forall j, (j < n)%nat -> Rabs (p j - q j) <= d) -> Rabs (G t p i - G t q i) <= K * d.
Hypothesis HC : forall u : R -> nat -> R, (forall j t, (j < n)%nat -> continuous (fun t => u t j) t) ->
  forall i t, (i < n)%nat -> continuous (fun t => G t (u t) i) t.
Hypothesis Hh : K * h <= 1 / 2.

Fixpoint iter (k : nat) (t : R) : nat -> R :=
  match k with
  | O => p0
  | S k => fun i => p0 i + RInt (fun s => G s (iter k s) i) x0 t
  end.

Lemma iter_lip : forall k i t u, (i < n)%nat -> Rabs (iter k t i - iter k u i) <= C * Rabs (t - u).
Proof.
  induction k as [|k IH]; intros i t u Hi.
  - cbn. rewrite Rminus_diag_eq by reflexivity. rewrite Rabs_R0. apply Rmult_le_pos; [exact PC|apply Rabs_pos].
  - cbn [iter]. assert (Cf : forall x, continuous (fun s => G s (iter k s) i) x).
    { intros x. apply HC; [|exact Hi]. intros j y Hj. apply (lip_continuous _ C). intros. apply IH, Hj. }
    assert (E : forall x y, ex_RInt (V := R_CompleteNormedModule) (fun s => G s (iter k s) i) x y) by (intros; apply ex_RInt_continuous; intros; apply Cf).
    pose proof (RInt_Chasles (V := R_CompleteNormedModule) _ x0 u t (E _ _) (E _ _)) as Ch. change plus with Rplus in Ch.
    replace (p0 i + RInt (fun s => G s (iter k s) i) x0 t - (p0 i + RInt (fun s => G s (iter k s) i) x0 u)) with (RInt (fun s => G s (iter k s) i) u t : R) by lra.
    rewrite Rmult_comm. apply RInt_bound; [exact Cf|]. intros x _. apply HB, Hi.
Qed.
Lemma iter_cont : forall k i t, (i < n)%nat -> continuous (fun s => iter k s i) t.
Proof. intros k i t Hi. apply (lip_continuous _ C). intros. apply iter_lip, Hi. Qed.
Lemma field_cont : forall k i t, (i < n)%nat -> continuous (fun s => G s (iter k s) i) t.
Proof. intros k i t Hi. apply HC; [|exact Hi]. intros j u Hj. apply iter_cont, Hj. Qed.

Lemma between : forall t x, Rabs (t - x0) <= h -> Rmin x0 t <= x <= Rmax x0 t -> Rabs (x - x0) <= h.
Proof. intros t x Ht Hx. unfold Rmin, Rmax in Hx. destruct (Rle_dec x0 t); unfold Rabs in *; repeat destruct Rcase_abs; lra. Qed.

(** The integral of the difference of two fields along curves that differ by at most [d]. *)
Lemma contract : forall (u w : R -> nat -> R) d, (forall j t, (j < n)%nat -> continuous (fun t => u t j) t) ->
  (forall j t, (j < n)%nat -> continuous (fun t => w t j) t) ->
  (forall t j, (j < n)%nat -> Rabs (t - x0) <= h -> Rabs (u t j - w t j) <= d) -> 0 <= d ->
  forall i t, (i < n)%nat -> Rabs (t - x0) <= h -> Rabs (RInt (fun s => G s (u s) i) x0 t - RInt (fun s => G s (w s) i) x0 t) <= d / 2.
Proof.
  intros u w d Cu Cw H Pd i t Hi Ht.
  assert (E1 : ex_RInt (V := R_CompleteNormedModule) (fun s => G s (u s) i) x0 t) by (apply ex_RInt_continuous; intros; apply HC; assumption).
  assert (E2 : ex_RInt (V := R_CompleteNormedModule) (fun s => G s (w s) i) x0 t) by (apply ex_RInt_continuous; intros; apply HC; assumption).
  pose proof (RInt_minus (V := R_CompleteNormedModule) _ _ x0 t E1 E2) as M.
  change (RInt (fun s => G s (u s) i - G s (w s) i) x0 t = RInt (fun s => G s (u s) i) x0 t - RInt (fun s => G s (w s) i) x0 t) in M.
  rewrite <- M. eapply Rle_trans; [apply (RInt_bound _ x0 t (K * d))|].
  - intros x. apply (continuous_minus (V := R_NormedModule) (fun s => G s (u s) i) (fun s => G s (w s) i)); apply HC; assumption.
  - intros x Hx. apply (HL x (u x) (w x) i d Hi). intros j Hj. apply H; [exact Hj|]. apply (between t); assumption.
  - assert (A : Rabs (t - x0) * (K * d) <= h * (K * d)) by (apply Rmult_le_compat_r; [apply Rmult_le_pos; assumption|exact Ht]).
    assert (B : K * h * d <= 1 / 2 * d) by (apply Rmult_le_compat_r; assumption). lra.
Qed.

Lemma step : forall k i t, (i < n)%nat -> Rabs (t - x0) <= h -> Rabs (iter (S k) t i - iter k t i) <= C * h * (1 / 2) ^ k.
Proof.
  induction k as [|k IH]; intros i t Hi Ht.
  - cbn [iter pow]. rewrite Rmult_1_r. assert (E : forall v w : R, v + w - v = w) by (intros; ring). rewrite E.
    eapply Rle_trans; [apply (RInt_bound _ x0 t C)|].
    + intros x. exact (field_cont 0 i x Hi).
    + intros x _. apply HB, Hi.
    + assert (Rabs (t - x0) * C <= h * C) by (apply Rmult_le_compat_r; assumption). lra.
  - change (iter (S (S k)) t i) with (p0 i + RInt (fun s => G s (iter (S k) s) i) x0 t). change (iter (S k) t i) with (p0 i + RInt (fun s => G s (iter k s) i) x0 t).
    assert (E : forall v w x : R, v + w - (v + x) = w - x) by (intros; ring). rewrite E.
    replace (C * h * (1 / 2) ^ S k) with (C * h * (1 / 2) ^ k / 2) by (cbn [pow]; field).
    apply contract; [intros; apply iter_cont; assumption|intros; apply iter_cont; assumption|intros; apply IH; assumption| |exact Hi|exact Ht].
    apply Rmult_le_pos; [apply Rmult_le_pos; lra|apply pow_le; lra].
Qed.
Lemma later : forall m k i t, (i < n)%nat -> Rabs (t - x0) <= h -> Rabs (iter (m + k) t i - iter k t i) <= 2 * (C * h) * (1 / 2) ^ k * (1 - (1 / 2) ^ m).
Proof.
  induction m as [|m IH]; intros k i t Hi Ht.
  - cbn [Nat.add pow]. rewrite Rminus_diag_eq by reflexivity. rewrite Rabs_R0. lra.
  - change (S m + k)%nat with (S (m + k)).
    replace (iter (S (m + k)) t i - iter k t i) with ((iter (S (m + k)) t i - iter (m + k) t i) + (iter (m + k) t i - iter k t i)) by ring.
    eapply Rle_trans; [apply Rabs_triang|]. pose proof (step (m + k) i t Hi Ht) as A. pose proof (IH k i t Hi Ht) as B.
    rewrite pow_add in A. cbn [pow]. lra.
Qed.

Definition limit (t : R) (i : nat) : R := real (Lim_seq (fun k => iter k (clamp (x0 - h) (x0 + h) t) i)).

Lemma clamped : forall t, Rabs (clamp (x0 - h) (x0 + h) t - x0) <= h.
Proof. intros t. pose proof (clamp_in (x0 - h) (x0 + h) t ltac:(lra)). apply Rabs_le. lra. Qed.
Lemma converges : forall i t, (i < n)%nat -> Rabs (t - x0) <= h -> is_lim_seq (fun k => iter k t i) (limit t i).
Proof.
  intros i t Hi Ht. unfold limit. rewrite clamp_id by (apply Rabs_le_between in Ht; lra).
  apply Lim_seq_correct', ex_lim_seq_cauchy_corr. intros e.
  assert (Z : is_lim_seq (fun k => 2 * (C * h) * (1 / 2) ^ k) 0).
  { replace (Finite 0) with (Rbar_mult (2 * (C * h)) 0) by (cbn; f_equal; ring). apply is_lim_seq_scal_l, is_lim_seq_geom. rewrite Rabs_right; lra. }
  apply is_lim_seq_spec in Z. destruct (Z (pos_div_2 e)) as (N & HN). cbn in HN. exists N. intros k m Hk Hm.
  assert (one : forall q, (N <= q)%nat -> Rabs (iter q t i - iter N t i) < e / 2).
  { intros q Hq. replace q with ((q - N) + N)%nat by lia. eapply Rle_lt_trans; [apply later; assumption|].
    specialize (HN N (le_n N)). rewrite Rminus_0_r in HN.
    assert (X : 0 <= 2 * (C * h) * (1 / 2) ^ N) by (apply Rmult_le_pos; [|apply pow_le; lra]; apply Rmult_le_pos; [lra|apply Rmult_le_pos; lra]).
    rewrite Rabs_right in HN by lra. assert (Y : 0 <= (1 / 2) ^ (q - N)) by (apply pow_le; lra).
    apply Rle_lt_trans with (2 * (C * h) * (1 / 2) ^ N); [|exact HN].
    rewrite <- (Rmult_1_r (2 * (C * h) * (1 / 2) ^ N)) at 2. apply Rmult_le_compat_l; lra. }
  replace (iter k t i - iter m t i) with ((iter k t i - iter N t i) + - (iter m t i - iter N t i)) by ring.
  eapply Rle_lt_trans; [apply Rabs_triang|]. rewrite Rabs_Ropp. pose proof (one k Hk). pose proof (one m Hm). lra.
Qed.
Lemma limit_near : forall k i t, (i < n)%nat -> Rabs (t - x0) <= h -> Rabs (limit t i - iter k t i) <= 2 * (C * h) * (1 / 2) ^ k.
Proof.
  intros k i t Hi Ht. pose proof (converges i t Hi Ht) as L. apply (is_lim_seq_incr_n _ k) in L.
  assert (A : is_lim_seq (fun m => Rabs (iter (m + k) t i - iter k t i)) (Rabs (limit t i - iter k t i))).
  { apply (is_lim_seq_abs (fun m => iter (m + k) t i - iter k t i) (limit t i - iter k t i)).
    apply (is_lim_seq_minus' (fun m => iter (m + k) t i) (fun _ => iter k t i)); [exact L|apply is_lim_seq_const]. }
  apply (lim_le (fun m => Rabs (iter (m + k) t i - iter k t i)) (fun _ => 2 * (C * h) * (1 / 2) ^ k)); [|exact A|apply is_lim_seq_const].
  intros m. eapply Rle_trans; [apply later; assumption|].
  assert (X : 0 <= 2 * (C * h) * (1 / 2) ^ k) by (apply Rmult_le_pos; [|apply pow_le; lra]; apply Rmult_le_pos; [lra|apply Rmult_le_pos; lra]).
  assert (Y : 0 <= (1 / 2) ^ m) by (apply pow_le; lra).
  rewrite <- (Rmult_1_r (2 * (C * h) * (1 / 2) ^ k)) at 2. apply Rmult_le_compat_l; lra.
Qed.
Lemma limit_clamp : forall t, limit t = limit (clamp (x0 - h) (x0 + h) t).
Proof. intros t. unfold limit. rewrite (clamp_id _ _ (clamp _ _ t)); [reflexivity|]. apply clamp_in. lra. Qed.
Lemma limit_lip : forall i t u, (i < n)%nat -> Rabs (limit t i - limit u i) <= C * Rabs (t - u).
Proof.
  intros i t u Hi. rewrite (limit_clamp t), (limit_clamp u).
  apply Rle_trans with (C * Rabs (clamp (x0 - h) (x0 + h) t - clamp (x0 - h) (x0 + h) u)); [|apply Rmult_le_compat_l; [exact PC|apply clamp_near; lra]].
  pose proof (clamped t) as Ht. pose proof (clamped u) as Hu. set (t' := clamp _ _ t) in *. set (u' := clamp _ _ u) in *.
  apply (lim_le (fun k => Rabs (iter k t' i - iter k u' i)) (fun _ => C * Rabs (t' - u')) (Rabs (limit t' i - limit u' i)) (C * Rabs (t' - u'))).
  - intros k. apply iter_lip, Hi.
  - apply (is_lim_seq_abs (fun k => iter k t' i - iter k u' i) (limit t' i - limit u' i)).
    apply (is_lim_seq_minus' (fun k => iter k t' i) (fun k => iter k u' i)); apply converges; assumption.
  - apply is_lim_seq_const.
Qed.
Lemma limit_cont : forall i t, (i < n)%nat -> continuous (fun s => limit s i) t.
Proof. intros i t Hi. apply (lip_continuous _ C). intros. apply limit_lip, Hi. Qed.
Lemma limit_integral : forall i t, (i < n)%nat -> Rabs (t - x0) <= h -> limit t i = p0 i + RInt (fun s => G s (limit s) i) x0 t.
Proof.
  intros i t Hi Ht. apply Rminus_diag_uniq.
  assert (B : forall k, Rabs (limit t i - (p0 i + RInt (fun s => G s (limit s) i) x0 t)) <= 2 * (C * h) * (1 / 2) ^ k).
  { intros k. replace (limit t i - (p0 i + RInt (fun s => G s (limit s) i) x0 t)) with ((limit t i - iter (S k) t i) +
      - (RInt (fun s => G s (limit s) i) x0 t - RInt (fun s => G s (iter k s) i) x0 t)) by (change (iter (S k) t i) with (p0 i + RInt (fun s => G s (iter k s) i) x0 t); lra).
    eapply Rle_trans; [apply Rabs_triang|]. rewrite Rabs_Ropp. pose proof (limit_near (S k) i t Hi Ht) as A.
    pose proof (contract limit (iter k) (2 * (C * h) * (1 / 2) ^ k) (fun j t Hj => limit_cont j t Hj) (fun j t Hj => iter_cont k j t Hj)
      (fun t j Hj Ht => limit_near k j t Hj Ht)) as D.
    assert (X : 0 <= 2 * (C * h) * (1 / 2) ^ k) by (apply Rmult_le_pos; [|apply pow_le; lra]; apply Rmult_le_pos; [lra|apply Rmult_le_pos; lra]).
    specialize (D X i t Hi Ht). cbn [pow] in A. lra. }
  assert (Z : is_lim_seq (fun k => 2 * (C * h) * (1 / 2) ^ k) 0).
  { replace (Finite 0) with (Rbar_mult (2 * (C * h)) 0) by (cbn; f_equal; ring). apply is_lim_seq_scal_l, is_lim_seq_geom. rewrite Rabs_right; lra. }
  assert (Q : Rabs (limit t i - (p0 i + RInt (fun s => G s (limit s) i) x0 t)) <= 0).
  { apply (lim_le (fun _ => Rabs (limit t i - (p0 i + RInt (fun s => G s (limit s) i) x0 t))) _ (Rabs (limit t i - (p0 i + RInt (fun s => G s (limit s) i) x0 t))) 0 B);
      [apply is_lim_seq_const|exact Z]. }
  destruct (Req_dec (limit t i - (p0 i + RInt (fun s => G s (limit s) i) x0 t)) 0) as [E|E]; [exact E|]. apply Rabs_pos_lt in E. lra.
Qed.

Theorem picard : exists u : R -> nat -> R, (forall i, (i < n)%nat -> u x0 i = p0 i) /\
  forall t i, (i < n)%nat -> Rabs (t - x0) < h -> derivable_pt_lim (fun s => u s i) t (G t (u t) i) /\ Rabs (u t i - p0 i) <= C * Rabs (t - x0).
Proof.
  exists limit. assert (I : forall i, (i < n)%nat -> limit x0 i = p0 i).
  { intros i Hi. rewrite limit_integral by (try exact Hi; rewrite Rminus_diag_eq by reflexivity; rewrite Rabs_R0; lra).
    rewrite (RInt_point (V := R_CompleteNormedModule)). change zero with 0. ring. }
  split; [exact I|]. intros t i Hi Ht. split; [|rewrite <- (I i Hi); apply limit_lip, Hi].
  assert (Cf : forall x, continuous (fun s => G s (limit s) i) x) by (intros x; apply HC; [|exact Hi]; intros j y Hj; apply limit_cont, Hj).
  apply is_derive_Reals.
  apply (is_derive_ext_loc (fun s => p0 i + RInt (fun r => G r (limit r) i) x0 s)).
  - assert (Pd : 0 < h - Rabs (t - x0)) by lra. exists (mkposreal _ Pd). intros s Hs. symmetry. apply limit_integral; [exact Hi|].
    change (Rabs (s - t) < h - Rabs (t - x0)) in Hs. replace (s - x0) with ((s - t) + (t - x0)) by ring. eapply Rle_trans; [apply Rabs_triang|]. lra.
  - assert (D : is_derive (fun s => RInt (fun r => G r (limit r) i) x0 s) t (G t (limit t) i)).
    { apply (is_derive_RInt (V := R_NormedModule) (fun r => G r (limit r) i) _ x0 t).
      - exists (mkposreal 1 Rlt_0_1). intros s _. apply (RInt_correct (V := R_CompleteNormedModule)). apply (ex_RInt_continuous (V := R_CompleteNormedModule)). intros. apply Cf.
      - apply Cf. }
    replace (G t (limit t) i) with (0 + G t (limit t) i) by ring.
    apply (is_derive_plus (K := R_AbsRing) (V := R_NormedModule) (fun _ => p0 i)); [exact (is_derive_const (K := R_AbsRing) (V := R_NormedModule) (p0 i) t)|exact D].
Qed.
End Picard.

(** The same in the vocabulary of the standard library. *)
Theorem picard_std : forall n (G : R -> (nat -> R) -> nat -> R) x0 h K C p0, 0 < h -> 0 <= K -> 0 <= C ->
  (forall t p i, (i < n)%nat -> Rabs (G t p i) <= C) ->
  (forall t p q i d, (i < n)%nat -> (forall j, (j < n)%nat -> Rabs (p j - q j) <= d) -> Rabs (G t p i - G t q i) <= K * d) ->
  (forall u : R -> nat -> R, (forall j t, (j < n)%nat -> continuity_pt (fun t => u t j) t) -> forall i t, (i < n)%nat -> continuity_pt (fun t => G t (u t) i) t) ->
  K * h <= 1 / 2 ->
  exists u : R -> nat -> R, (forall i, (i < n)%nat -> u x0 i = p0 i) /\
  forall t i, (i < n)%nat -> Rabs (t - x0) < h -> derivable_pt_lim (fun s => u s i) t (G t (u t) i) /\ Rabs (u t i - p0 i) <= C * Rabs (t - x0).
Proof.
  intros n G x0 h K C p0 Ph PK PC HB HL HC Hh. apply (picard n G x0 h K C p0 Ph PK PC HB HL); [|exact Hh].
  intros u Cu i t Hl. apply continuity_pt_filterlim. apply HC; [|exact Hl]. intros j x Hj. apply continuity_pt_filterlim. apply Cu, Hj.
Qed.
Lemma clamp_cont : forall lo hi t, lo <= hi -> continuity_pt (clamp lo hi) t.
Proof. intros lo hi t H. apply continuity_pt_filterlim. apply (lip_continuous _ 1). intros v w. rewrite Rmult_1_l. apply clamp_near, H. Qed.
