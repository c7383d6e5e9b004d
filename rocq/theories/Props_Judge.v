(** C134: what the answer of the automatic splitter says about the gas between the grid points. *)
From Coq Require Import Reals Ranalysis5 List Sorted Bool Lra Lia.
From Verif Require Import Lib_Py Model_Index Model_Array Proofs_Array Model_Stepper Model_Ode Spec_Ode Spec_Error Spec_Exist Spec_Edge Props_Edge Spec_Judge.
Import ListNotations.
Open Scope R_scope.

(** ** The samples *)
Lemma near_filter : forall c v L, filter (near_sonic c) (sampled v L) = sampled v (filter (fun θ => near_sonic c (Some (v θ))) L).
Proof. intros c v L. induction L as [|x t IH]; [reflexivity|]. unfold sampled in *. cbn [map filter]. rewrite IH. destruct (near_sonic c (Some (v x))); reflexivity. Qed.
Lemma near_iff : forall c x, near_sonic c (Some x) = true <-> c < x < 1.
Proof.
  intros c x. unfold near_sonic, nlt, cmp, Rltb. destruct (Rlt_dec c x), (Rlt_dec x 1); cbn; split; intros H; try discriminate H; try lra; reflexivity.
Qed.
Lemma le_iff : forall x y, nle (Some 0) (nsub (Some y) (Some x)) = true <-> x <= y.
Proof. intros x y. unfold nle, cmp, nsub, Rleb. destruct (Rle_dec 0 (y - x)); split; intros H; try discriminate H; try lra; reflexivity. Qed.
Lemma increasing_iff : forall v L, StronglySorted Rlt L ->
  is_monotonically_increasing (sampled v L) = true <-> (forall a b, In a L -> In b L -> a < b -> v a <= v b).
Proof.
  intros v L H. unfold is_monotonically_increasing. split.
  - induction H as [|x t S IH Fx]; [intros _ a b []|]. intros E.
    assert (Q : (forall y, In y t -> v x <= v y) /\ forallb (fun d => nle (Some 0) d) (diff (sampled v t)) = true).
    { destruct t as [|z u]; [split; [intros y []|reflexivity]|]. cbn [sampled map diff forallb] in E. apply andb_prop in E. destruct E as (E1 & E2). apply le_iff in E1.
      split; [|exact E2]. intros y [<- |Hy]; [exact E1|].
      apply Rle_trans with (v z); [exact E1|]. inversion S as [|z' u' S' Fz]; subst. rewrite Forall_forall in Fz.
      apply (IH E2 z y (or_introl eq_refl) (or_intror Hy) (Fz y Hy)). }
    destruct Q as (Q1 & Q2). rewrite Forall_forall in Fx. intros a b [<- |Ia] [<- |Ib] L'.
    + lra.
    + exact (Q1 b Ib).
    + specialize (Fx a Ia). lra.
    + exact (IH Q2 a b Ia Ib L').
  - induction H as [|x t S IH Fx]; [reflexivity|]. intros M. destruct t as [|z u]; [reflexivity|].
    cbn [sampled map diff forallb]. apply andb_true_intro. rewrite Forall_forall in Fx. split.
    + apply le_iff, M; [left; reflexivity|right; left; reflexivity|apply Fx; left; reflexivity].
    + apply IH. intros a b Ia Ib. apply M; right; assumption.
Qed.
Lemma sorted_filter : forall (f : R -> bool) L, StronglySorted Rlt L -> StronglySorted Rlt (filter f L).
Proof.
  intros f L H. induction H as [|x t S IH Fx]; [constructor|]. cbn [filter]. destruct (f x); [|exact IH]. constructor; [exact IH|].
  rewrite Forall_forall in *. intros y Hy. apply filter_In in Hy. apply Fx, Hy.
Qed.
Lemma increasing_dec : forall v L, StronglySorted Rlt L ->
  is_monotonically_increasing (sampled v L) = false -> exists a b, In a L /\ In b L /\ a < b /\ v b < v a.
Proof.
  intros v L H E. apply Classical_Prop.NNPP. intros N. enough (T : is_monotonically_increasing (sampled v L) = true) by congruence.
  apply (increasing_iff v L H). intros a b Ia Ib Lab. apply Rnot_lt_le. intros C. apply N. exists a, b. repeat split; assumption.
Qed.
Lemma near_samples : forall c v L, existsb (near_sonic c) (sampled v L) = true <-> comes_near c v (fun θ => In θ L).
Proof.
  intros c v L. rewrite existsb_exists. unfold sampled, comes_near. split.
  - intros (q & I & N). apply in_map_iff in I. destruct I as (x & <- & I). exists x. split; [exact I|apply near_iff, N].
  - intros (x & I & N). exists (Some (v x)). split; [apply in_map_iff; exists x; split; [reflexivity|exact I]|apply near_iff, N].
Qed.
Lemma above_samples : forall v L, existsb (fun w => nlt (Some 1) w) (sampled v L) = true <-> exceeds v (fun θ => In θ L).
Proof.
  intros v L. rewrite existsb_exists. unfold sampled, exceeds. split.
  - intros (q & I & N). apply in_map_iff in I. destruct I as (x & <- & I). exists x. split; [exact I|]. unfold nlt, cmp, Rltb in N. destruct (Rlt_dec 1 (v x)); [assumption|discriminate N].
  - intros (x & I & N). exists (Some (v x)). split; [apply in_map_iff; exists x; split; [reflexivity|exact I]|]. unfold nlt, cmp, Rltb. destruct (Rlt_dec 1 (v x)); [reflexivity|contradiction].
Qed.

(** ** The answer on a grid
    Without stored internal data the splitter answers "diverge" exactly if the samples come near to the sound speed and either one
    exceeds it or no later sample near the sound speed is smaller than an earlier one, and "sign flip" otherwise. *)
Theorem C134_answer : forall c v a b L, grid a b L ->
  let P := fun θ => In θ L in
  (v_θ_deriv_splitter c (sampled v L) None = Ok DIVERGE /\ comes_near c v P /\ (exceeds v P \/ ~ slows_near c v P)) \/
  (v_θ_deriv_splitter c (sampled v L) None = Ok SIGN_FLIP /\ (~ comes_near c v P \/ (~ exceeds v P /\ slows_near c v P))).
Proof.
  intros c v a b L (S & _) P. unfold v_θ_deriv_splitter.
  assert (N := near_samples c v L). destruct (existsb (near_sonic c) (sampled v L)); cbn [negb].
  2: { right. split; [reflexivity|]. left. intros H. apply N in H. discriminate H. }
  assert (N' : comes_near c v P) by (apply N; reflexivity). clear N.
  assert (A := above_samples v L). destruct (existsb (fun w => nlt (Some 1) w) (sampled v L)).
  { left. split; [reflexivity|]. split; [exact N'|]. left. apply A. reflexivity. }
  assert (A' : ~ exceeds v P) by (intros H; apply A in H; discriminate H). clear A.
  rewrite near_filter. set (K := filter (fun θ => near_sonic c (Some (v θ))) L). assert (SK : StronglySorted Rlt K) by apply sorted_filter, S.
  assert (IK : forall x, In x K <-> In x L /\ c < v x < 1) by (intros x; unfold K; rewrite filter_In, near_iff; tauto).
  destruct (is_monotonically_increasing (sampled v K)) eqn:E.
  - left. split; [reflexivity|]. split; [exact N'|]. right. intros (x1 & x2 & P1 & P2 & L12 & C & D & U).
    assert (Q : v x1 <= v x2); [|lra]. apply (proj1 (increasing_iff v K SK) E); [apply IK|apply IK|exact L12]; (split; [assumption|lra]).
  - right. split; [reflexivity|]. right. split; [exact A'|]. destruct (increasing_dec v K SK E) as (x1 & x2 & I1 & I2 & L12 & D).
    apply IK in I1, I2. exists x1, x2. unfold P. repeat split; try tauto; lra.
Qed.
Print Assumptions C134_answer.

(** ** Fine grids
    On every grid that is fine enough the splitter gives the answer that fits the curve itself, so refining the grid does not change
    it: "diverge" exactly if the gas comes near to the sound speed and either exceeds it or does not slow down while near to it. *)
Lemma near_point : forall v x ε, continuity_pt v x -> 0 < ε -> exists δ, 0 < δ /\ forall t, Rabs (t - x) < δ -> Rabs (v t - v x) < ε.
Proof.
  intros v x ε Hc Pε. destruct (Hc ε Pε) as (δ & Pδ & H). exists δ. split; [exact Pδ|]. intros t Ht. destruct (Req_dec t x) as [-> |Nq].
  - replace (v x - v x) with 0 by ring. rewrite Rabs_R0. exact Pε.
  - apply (H t). split; [split; [exact I|congruence]|exact Ht].
Qed.
Lemma fine_near : forall c v a b, (forall x, a <= x <= b -> continuity_pt v x) -> comes_near c v (between a b) ->
  exists δ, 0 < δ /\ forall L, as_fine_as δ a b L -> comes_near c v (fun θ => In θ L).
Proof.
  intros c v a b Hc (x & Px & N). destruct (near_point v x (Rmin (v x - c) (1 - v x)) (Hc x Px)) as (δ & Pδ & H).
  { apply Rmin_glb_lt; lra. } exists δ. split; [exact Pδ|]. intros L F. destruct (F x Px) as (t & It & Ht). exists t. split; [exact It|].
  specialize (H t Ht). apply Rabs_def2 in H. pose proof (Rmin_l (v x - c) (1 - v x)). pose proof (Rmin_r (v x - c) (1 - v x)). lra.
Qed.
Lemma fine_above : forall v a b, (forall x, a <= x <= b -> continuity_pt v x) -> exceeds v (between a b) ->
  exists δ, 0 < δ /\ forall L, as_fine_as δ a b L -> exceeds v (fun θ => In θ L).
Proof.
  intros v a b Hc (x & Px & N). destruct (near_point v x (v x - 1) (Hc x Px) ltac:(lra)) as (δ & Pδ & H).
  exists δ. split; [exact Pδ|]. intros L F. destruct (F x Px) as (t & It & Ht). exists t. split; [exact It|]. specialize (H t Ht). apply Rabs_def2 in H. lra.
Qed.
Lemma fine_slows : forall c v a b, (forall x, a <= x <= b -> continuity_pt v x) -> slows_near c v (between a b) ->
  exists δ, 0 < δ /\ forall L, as_fine_as δ a b L -> slows_near c v (fun θ => In θ L).
Proof.
  intros c v a b Hc (x1 & x2 & P1 & P2 & L12 & C & D & U).
  set (ε := Rmin (Rmin (v x2 - c) (1 - v x1)) ((v x1 - v x2) / 2)).
  assert (E1 : ε <= v x2 - c) by (unfold ε; eapply Rle_trans; [apply Rmin_l|apply Rmin_l]).
  assert (E2 : ε <= 1 - v x1) by (unfold ε; eapply Rle_trans; [apply Rmin_l|apply Rmin_r]).
  assert (E3 : ε <= (v x1 - v x2) / 2) by apply Rmin_r.
  assert (Pε : 0 < ε) by (unfold ε; repeat apply Rmin_glb_lt; lra).
  destruct (near_point v x1 ε (Hc x1 P1) Pε) as (δ1 & Q1 & H1). destruct (near_point v x2 ε (Hc x2 P2) Pε) as (δ2 & Q2 & H2).
  exists (Rmin (Rmin δ1 δ2) ((x2 - x1) / 2)). split; [repeat apply Rmin_glb_lt; lra|]. intros L F.
  destruct (F x1 P1) as (t1 & I1 & T1). destruct (F x2 P2) as (t2 & I2 & T2).
  pose proof (Rmin_l (Rmin δ1 δ2) ((x2 - x1) / 2)). pose proof (Rmin_r (Rmin δ1 δ2) ((x2 - x1) / 2)). pose proof (Rmin_l δ1 δ2). pose proof (Rmin_r δ1 δ2).
  specialize (H1 t1 ltac:(lra)). specialize (H2 t2 ltac:(lra)). apply Rabs_def2 in H1, H2, T1, T2.
  exists t1, t2. repeat split; try assumption; lra.
Qed.
Lemma sub_near : forall c v a b L, grid a b L -> comes_near c v (fun θ => In θ L) -> comes_near c v (between a b).
Proof. intros c v a b L (_ & F) (x & I & H). rewrite Forall_forall in F. exists x. split; [apply F, I|exact H]. Qed.
Lemma sub_above : forall v a b L, grid a b L -> exceeds v (fun θ => In θ L) -> exceeds v (between a b).
Proof. intros v a b L (_ & F) (x & I & H). rewrite Forall_forall in F. exists x. split; [apply F, I|exact H]. Qed.
Lemma sub_slows : forall c v a b L, grid a b L -> slows_near c v (fun θ => In θ L) -> slows_near c v (between a b).
Proof. intros c v a b L (_ & F) (x & z & I & J & H). rewrite Forall_forall in F. exists x, z. split; [apply F, I|]. split; [apply F, J|exact H]. Qed.
Theorem C134_fine : forall c v a b, (forall x, a <= x <= b -> continuity_pt v x) ->
  exists δ t, 0 < δ /\ (forall L, grid a b L -> as_fine_as δ a b L -> v_θ_deriv_splitter c (sampled v L) None = Ok t) /\
    ((t = DIVERGE /\ comes_near c v (between a b) /\ (exceeds v (between a b) \/ ~ slows_near c v (between a b))) \/
     (t = SIGN_FLIP /\ (~ comes_near c v (between a b) \/ (~ exceeds v (between a b) /\ slows_near c v (between a b))))).
Proof.
  intros c v a b Hc.
  destruct (Classical_Prop.classic (comes_near c v (between a b))) as [N|N].
  2: { exists 1, SIGN_FLIP. split; [lra|]. split; [|right; split; [reflexivity|left; exact N]]. intros L G _.
       destruct (C134_answer c v a b L G) as [(_ & Q & _)|(E & _)]; [exfalso; exact (N (sub_near c v a b L G Q))|exact E]. }
  destruct (fine_near c v a b Hc N) as (δ1 & Q1 & F1).
  destruct (Classical_Prop.classic (exceeds v (between a b))) as [A|A].
  { destruct (fine_above v a b Hc A) as (δ2 & Q2 & F2). exists (Rmin δ1 δ2), DIVERGE. split; [apply Rmin_glb_lt; assumption|]. split.
    - intros L G F. assert (N1 : comes_near c v (fun θ => In θ L)) by (apply F1; intros x Px; destruct (F x Px) as (t & It & Ht); exists t; split; [exact It|pose proof (Rmin_l δ1 δ2); lra]).
      assert (A1 : exceeds v (fun θ => In θ L)) by (apply F2; intros x Px; destruct (F x Px) as (t & It & Ht); exists t; split; [exact It|pose proof (Rmin_r δ1 δ2); lra]).
      destruct (C134_answer c v a b L G) as [(E & _)|(E & [Q|(Q & _)])]; [exact E|exfalso; exact (Q N1)|exfalso; exact (Q A1)].
    - left. split; [reflexivity|]. split; [exact N|left; exact A]. }
  destruct (Classical_Prop.classic (slows_near c v (between a b))) as [S|S].
  { destruct (fine_slows c v a b Hc S) as (δ2 & Q2 & F2). exists δ2, SIGN_FLIP. split; [exact Q2|]. split.
    - intros L G F. destruct (C134_answer c v a b L G) as [(_ & _ & [Q|Q])|(E & _)]; [exfalso; exact (A (sub_above v a b L G Q))|exfalso; exact (Q (F2 L F))|exact E].
    - right. split; [reflexivity|]. right. split; assumption. }
  exists δ1, DIVERGE. split; [exact Q1|]. split; [|left; split; [reflexivity|split; [exact N|right; exact S]]]. intros L G F.
  destruct (C134_answer c v a b L G) as [(E & _)|(_ & [Q|(_ & Q)])]; [exact E|exfalso; exact (Q (F1 L F))|exfalso; exact (S (sub_slows c v a b L G Q))].
Qed.
Print Assumptions C134_fine.

(** ** Solutions
    If the samples of a regular solution come near to the sound speed and the answer is "sign flip", the gas slows down in the sense
    of C131 and C132: the answer is never wrong in that direction, on any grid. *)
Theorem C134_solutions : forall o y c m M a b L, 0 < m -> grid a b L ->
  (forall x, a <= x <= b -> solves_at o y x /\ margin o m M x (y x) /\ ambipolar_from o m (y x)) ->
  comes_near c (fun θ => y θ iv_θ) (fun θ => In θ L) ->
  v_θ_deriv_splitter c (sampled (fun θ => y θ iv_θ) L) None = Ok SIGN_FLIP -> slows o (y a) a b.
Proof.
  intros o y c m M a b L Pm G Hs N E.
  destruct (C134_answer c (fun θ => y θ iv_θ) a b L G) as [(E' & _)|(_ & [Q|(_ & Q)])]; [congruence|contradiction|].
  destruct (sub_slows _ _ _ _ _ G Q) as (x1 & x2 & P1 & P2 & L12 & _ & D & _). unfold between in *.
  exists m, M, y, x1, x2. split; [exact Pm|]. split; [lra|]. split; [lra|]. split; [lra|]. split; [intros i _; reflexivity|].
  split; [intros x Hx; apply Hs; lra|exact D].
Qed.
Print Assumptions C134_solutions.

(** Not empty: gas that slows down after the speed 19/20; gas that slows down at lower speeds only is not noticed. *)
Example C134_nonvacuous : exists δ, 0 < δ /\ forall L, grid 0 2 L -> as_fine_as δ 0 2 L ->
  v_θ_deriv_splitter DEFAULT_SPLITTER_CUTOFF (sampled (fun θ => 19 / 20 - (θ - 1) * (θ - 1)) L) None = Ok SIGN_FLIP.
Proof.
  destruct (C134_fine DEFAULT_SPLITTER_CUTOFF (fun θ => 19 / 20 - (θ - 1) * (θ - 1)) 0 2) as (δ & t & Pδ & H & R).
  - intros x _. reg.
  - exists δ. split; [exact Pδ|]. replace (Ok SIGN_FLIP) with (Ok t); [exact H|]. f_equal. destruct R as [(_ & _ & [(x & _ & C)|C])|(E & _)]; [exfalso|exfalso|exact E].
    + pose proof (Rle_0_sqr (x - 1)) as Q. unfold Rsqr in Q. lra.
    + apply C. exists 1, (11 / 10). unfold between, DEFAULT_SPLITTER_CUTOFF. lra.
Qed.
Example C134_unseen : exists δ, 0 < δ /\ forall L, grid (-1) 1 L -> as_fine_as δ (-1) 1 L ->
  v_θ_deriv_splitter DEFAULT_SPLITTER_CUTOFF (sampled (fun θ => θ * θ * (1 + θ) / 2) L) None = Ok DIVERGE.
Proof.
  destruct (C134_fine DEFAULT_SPLITTER_CUTOFF (fun θ => θ * θ * (1 + θ) / 2) (-1) 1) as (δ & t & Pδ & H & R).
  - intros x _. reg.
  - exists δ. split; [exact Pδ|]. replace (Ok DIVERGE) with (Ok t); [exact H|]. f_equal.
    destruct R as [(E & _)|(_ & [C|(_ & (x1 & x2 & P1 & P2 & L12 & A & B & C))])]; [exact E|exfalso|exfalso].
    + apply C. exists (49 / 50). unfold between, DEFAULT_SPLITTER_CUTOFF. lra.
    + unfold between, DEFAULT_SPLITTER_CUTOFF in *. assert (Low : forall x, -1 <= x <= 1 -> 9 / 10 < x * x * (1 + x) / 2 -> 0 < x).
      { intros x Hx Q. apply Rnot_le_lt. intros N. assert (x * x <= 1) by nra. assert (x * x * (1 + x) <= 1 * (1 + x)) by (apply Rmult_le_compat_r; lra). lra. }
      assert (Q1 : 0 < x1) by (apply Low; lra). assert (Q2 : x1 * x1 < x2 * x2) by (apply Rmult_le_0_lt_compat; lra).
      assert (x1 * x1 * (1 + x1) < x2 * x2 * (1 + x2)) by (apply Rmult_le_0_lt_compat; try lra; apply Rle_0_sqr). lra.
Qed.
(** A solution of the system of C131 that slows down: its answer on a grid of two points. *)
Example C134_solutions_nonvacuous : exists y m M x1 x2, 0 < m /\ grid 0 x2 [x1; x2] /\
  (forall x, 0 <= x <= x2 -> solves_at (o_edge 0) y x /\ margin (o_edge 0) m M x (y x) /\ ambipolar_from (o_edge 0) m (y x)) /\
  comes_near 0 (fun θ => y θ iv_θ) (fun θ => In θ [x1; x2]) /\
  v_θ_deriv_splitter 0 (sampled (fun θ => y θ iv_θ) [x1; x2]) None = Ok SIGN_FLIP.
Proof.
  destruct (edge_start 0) as (F1 & F2 & F3).
  assert (S : slows (o_edge 0) p_edge 0 1).
  { apply (C131_falls_at_once (o_edge 0) 0 1 (1 / 4) 1 p_edge ltac:(lra) ltac:(lra)); try assumption; [intros f Ef; discriminate Ef|]. rewrite edge_slope. lra. }
  destruct S as (m & M & y & x1 & x2 & Pm & H1 & H12 & H2 & Y0 & Y & D).
  assert (Hl : (iv_θ < ODE_LEN)%nat) by (unfold iv_θ, ODE_LEN; lia).
  assert (Y00 : y 0 iv_θ = 1 / 2) by (rewrite (Y0 iv_θ Hl); reflexivity).
  assert (Cy : forall x, 0 <= x <= x2 -> continuity_pt (fun t => y t iv_θ) x).
  { intros x Hx. destruct (Y x Hx) as ((d & e & _ & Dy) & _). specialize (Dy iv_θ Hl). apply derivable_continuous_pt. exists (d iv_θ). exact Dy. }
  assert (In01 : forall x, 0 <= x <= x2 -> 0 < y x iv_θ < 1).
  { intros x Hx. destruct (Req_dec x 0) as [-> |N]; [lra|]. split; apply Rnot_le_lt; intros C.
    - destruct (Y x Hx) as (_ & Mx & _). destruct Mx as (_ & _ & _ & _ & _ & V & _). specialize (V eq_refl).
      destruct (Req_dec (y x iv_θ) 0) as [Z|Z]; [rewrite Z, Rabs_R0 in V; lra|].
      destruct (Ranalysis5.IVT_interv (fun t => - y t iv_θ) 0 x) as (z & Hz & Ez).
      + intros t Ht. apply continuity_pt_opp, Cy. lra.
      + lra.
      + cbn beta. lra.
      + cbn beta. lra.
      + destruct (Y z ltac:(lra)) as (_ & Mz & _). destruct Mz as (_ & _ & _ & _ & _ & W & _). specialize (W eq_refl). replace (y z iv_θ) with 0 in W by lra. rewrite Rabs_R0 in W. lra.
    - destruct (Y x Hx) as (_ & Mx & _). destruct Mx as (_ & _ & _ & _ & _ & _ & V & _). specialize (V eq_refl).
      destruct (Req_dec (y x iv_θ) 1) as [Z|Z]; [rewrite Z in V; replace (1 - 1 ^ 2) with 0 in V by ring; rewrite Rabs_R0 in V; lra|].
      destruct (Ranalysis5.IVT_interv (fun t => y t iv_θ - 1) 0 x) as (z & Hz & Ez).
      + intros t Ht. apply continuity_pt_minus; [apply Cy; lra|apply continuity_pt_const; intros p q; reflexivity].
      + lra.
      + cbn beta. lra.
      + cbn beta. lra.
      + destruct (Y z ltac:(lra)) as (_ & Mz & _). destruct Mz as (_ & _ & _ & _ & _ & _ & W & _). specialize (W eq_refl). replace (y z iv_θ) with 1 in W by lra.
        replace (1 - 1 ^ 2) with 0 in W by ring. rewrite Rabs_R0 in W. lra. }
  exists y, m, M, x1, x2. pose proof (In01 x1 ltac:(lra)) as I1. pose proof (In01 x2 ltac:(lra)) as I2.
  assert (G : grid 0 x2 [x1; x2]).
  { split.
    - apply SSorted_cons; [apply SSorted_cons; [apply SSorted_nil|apply Forall_nil]|apply Forall_cons; [exact H12|apply Forall_nil]].
    - apply Forall_cons; [lra|]. apply Forall_cons; [lra|apply Forall_nil]. }
  split; [exact Pm|]. split; [exact G|]. split; [exact Y|].
  assert (N : comes_near 0 (fun θ => y θ iv_θ) (fun θ => In θ [x1; x2])) by (exists x1; split; [left; reflexivity|exact I1]).
  split; [exact N|].
  destruct (C134_answer 0 (fun θ => y θ iv_θ) 0 x2 [x1; x2] G) as [(_ & _ & [(z & [<- |[<- |[]]] & C)|C])|(E & _)]; [lra|lra|exfalso|exact E].
  apply C. exists x1, x2. cbn [In]. repeat split; try tauto; lra.
Qed.
