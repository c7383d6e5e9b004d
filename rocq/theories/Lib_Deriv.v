(** Differentiation helpers over the standard library's [derivable_pt_lim]: pointwise (eta-expanded) forms of
    the rules and a tactic that differentiates an expression syntactically.  Nothing here models the code. *)
From Coq Require Import Reals Lra.
Open Scope R_scope.

Lemma dpl_eq : forall f x l l', derivable_pt_lim f x l -> l = l' -> derivable_pt_lim f x l'.
Proof. intros; subst; assumption. Qed.

Lemma dpl_ext : forall f g x l, (forall t, f t = g t) -> derivable_pt_lim f x l -> derivable_pt_lim g x l.
Proof.
  intros f g x l He H eps Heps. destruct (H eps Heps) as [d Hd]. exists d.
  intros h Hh Hl. rewrite <- !He. apply Hd; assumption.
Qed.

(** A derivative only depends on the function near the point. *)
Lemma dpl_ext_loc : forall f g x l e, 0 < e -> (forall t, Rabs (t - x) < e -> f t = g t) ->
  derivable_pt_lim f x l -> derivable_pt_lim g x l.
Proof.
  intros f g x l e He Hfg H eps Heps. destruct (H eps Heps) as [d Hd].
  assert (Hm : 0 < Rmin d e) by (apply Rmin_pos; [apply cond_pos | assumption]).
  exists (mkposreal _ Hm). intros h Hh Hl. simpl in Hl.
  rewrite <- !Hfg.
  - apply Hd; [assumption|]. eapply Rlt_le_trans; [exact Hl | apply Rmin_l].
  - replace (x - x) with 0 by ring. rewrite Rabs_R0; assumption.
  - replace (x + h - x) with h by ring. eapply Rlt_le_trans; [exact Hl | apply Rmin_r].
Qed.

Lemma dpl_const : forall c x, derivable_pt_lim (fun _ => c) x 0.
Proof. intros; apply (derivable_pt_lim_const c x). Qed.
Lemma dpl_id : forall x, derivable_pt_lim (fun t => t) x 1.
Proof. intros; apply derivable_pt_lim_id. Qed.
Lemma dpl_plus : forall f g x a b, derivable_pt_lim f x a -> derivable_pt_lim g x b ->
  derivable_pt_lim (fun t => f t + g t) x (a + b).
Proof. intros; apply (derivable_pt_lim_plus f g); assumption. Qed.
Lemma dpl_minus : forall f g x a b, derivable_pt_lim f x a -> derivable_pt_lim g x b ->
  derivable_pt_lim (fun t => f t - g t) x (a - b).
Proof. intros; apply (derivable_pt_lim_minus f g); assumption. Qed.
Lemma dpl_opp : forall f x a, derivable_pt_lim f x a -> derivable_pt_lim (fun t => - f t) x (- a).
Proof. intros; apply (derivable_pt_lim_opp f); assumption. Qed.
Lemma dpl_mult : forall f g x a b, derivable_pt_lim f x a -> derivable_pt_lim g x b ->
  derivable_pt_lim (fun t => f t * g t) x (a * g x + f x * b).
Proof. intros; apply (derivable_pt_lim_mult f g); assumption. Qed.
Lemma dpl_div : forall f g x a b, g x <> 0 -> derivable_pt_lim f x a -> derivable_pt_lim g x b ->
  derivable_pt_lim (fun t => f t / g t) x ((a * g x - b * f x) / Rsqr (g x)).
Proof. intros; apply (derivable_pt_lim_div f g); assumption. Qed.
Lemma dpl_pow : forall f n x a, derivable_pt_lim f x a ->
  derivable_pt_lim (fun t => f t ^ n) x (INR n * f x ^ pred n * a).
Proof.
  intros f n x a H.
  apply (derivable_pt_lim_comp f (fun y => y ^ n)); [assumption | apply derivable_pt_lim_pow].
Qed.
Lemma dpl_sqrt : forall f x a, 0 < f x -> derivable_pt_lim f x a ->
  derivable_pt_lim (fun t => sqrt (f t)) x (/ (2 * sqrt (f x)) * a).
Proof.
  intros f x a Hp H.
  apply (derivable_pt_lim_comp f sqrt); [assumption | apply derivable_pt_lim_sqrt; assumption].
Qed.
Lemma dpl_cos : forall x, derivable_pt_lim (fun t => cos t) x (- sin x).
Proof. intros; apply derivable_pt_lim_cos. Qed.
Lemma dpl_sin : forall x, derivable_pt_lim (fun t => sin t) x (cos x).
Proof. intros; apply derivable_pt_lim_sin. Qed.
Lemma dpl_tan : forall x, cos x <> 0 -> derivable_pt_lim (fun t => tan t) x (1 + tan x ^ 2).
Proof.
  intros x Hc. unfold tan.
  eapply dpl_eq; [apply dpl_div; [assumption | apply dpl_sin | apply dpl_cos] | ].
  unfold Rsqr. field. assumption.
Qed.
Lemma dpl_Rpower : forall k r, 0 < r -> derivable_pt_lim (fun s => Rpower s k) r (k * (Rpower r k / r)).
Proof.
  intros k r Hr. eapply dpl_eq; [apply derivable_pt_lim_power; assumption | ].
  unfold Rminus. rewrite Rpower_plus, Rpower_Ropp, Rpower_1 by assumption. reflexivity.
Qed.
Lemma dpl_exp_comp : forall f x a, derivable_pt_lim f x a ->
  derivable_pt_lim (fun t => exp (f t)) x (exp (f x) * a).
Proof.
  intros f x a H. apply (derivable_pt_lim_comp f exp); [assumption | apply derivable_pt_lim_exp].
Qed.

(** Differentiate syntactically; leaves side conditions and unknown atoms. *)
Ltac dlim_step :=
  match goal with
  | H : derivable_pt_lim ?f ?x _ |- derivable_pt_lim ?f ?x _ => exact H
  | |- derivable_pt_lim (fun _ => ?c) _ _ => apply (dpl_const c)
  | |- derivable_pt_lim (fun t => t) _ _ => apply dpl_id
  | |- derivable_pt_lim (fun t => @?f t + @?g t) _ _ => apply (dpl_plus f g)
  | |- derivable_pt_lim (fun t => @?f t - @?g t) _ _ => apply (dpl_minus f g)
  | |- derivable_pt_lim (fun t => @?f t * @?g t) _ _ => apply (dpl_mult f g)
  | |- derivable_pt_lim (fun t => @?f t / @?g t) _ _ => apply (dpl_div f g)
  | |- derivable_pt_lim (fun t => - @?f t) _ _ => apply (dpl_opp f)
  | |- derivable_pt_lim (fun t => @?f t ^ ?n) _ _ => apply (dpl_pow f n)
  | |- derivable_pt_lim (fun t => sqrt (@?f t)) _ _ => apply (dpl_sqrt f)
  | |- derivable_pt_lim (fun t => cos t) _ _ => apply dpl_cos
  | |- derivable_pt_lim (fun t => sin t) _ _ => apply dpl_sin
  | |- derivable_pt_lim (fun t => tan t) _ _ => apply dpl_tan
  | |- derivable_pt_lim (fun t => Rpower t ?k) _ _ => apply (dpl_Rpower k)
  | |- derivable_pt_lim (fun t => exp (@?f t)) _ _ => apply (dpl_exp_comp f)
  | H : derivable_pt_lim ?f ?x _ |- derivable_pt_lim ?g ?x _ => exact H
  end.
Ltac dlim := repeat dlim_step.
(** Prove [derivable_pt_lim f x l] for a given [l], leaving the equation last. *)
Ltac dlim_to := eapply dpl_eq; [dlim | ].

(** A function with zero derivative on an interval is constant there. *)
Lemma zero_deriv_const : forall (f : R -> R) lo hi,
  (forall x, lo < x < hi -> derivable_pt_lim f x 0) ->
  forall a b, lo < a < hi -> lo < b < hi -> f a = f b.
Proof.
  intros f lo hi Hd.
  assert (Hlt : forall a b, lo < a < hi -> lo < b < hi -> a < b -> f a = f b).
  { intros a b Ha Hb Hab.
    destruct (MVT_cor2 f (fun _ => 0) a b Hab) as [c [Hc _]].
    - intros c Hc. apply Hd. lra.
    - lra. }
  intros a b Ha Hb. destruct (Rtotal_order a b) as [H | [H | H]].
  - apply Hlt; assumption.
  - subst; reflexivity.
  - symmetry; apply Hlt; assumption.
Qed.
