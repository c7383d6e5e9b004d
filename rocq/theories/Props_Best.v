(** C135: what the acceptance of a stored solution says about the gas between the grid points. *)
From Coq Require Import Reals List Sorted Bool Arith ZArith Lra Lia.
From Verif Require Import Model_Array Proofs_Array Props_Array Model_Midplane Spec_Judge Props_Judge Spec_Best.
Import ListNotations.
Open Scope R_scope.

Lemma sampled_map : forall v L, sampled v L = map Some (map v L).
Proof. intros v L. unfold sampled. rewrite map_map. reflexivity. Qed.
Lemma sorted_nth : forall L, StronglySorted Rlt L -> forall i j d, (i < j)%nat -> (j < length L)%nat -> nth i L d < nth j L d.
Proof.
  intros L H. induction H as [|x t S IH F]; intros i j d Lij Lj; [cbn in Lj; lia|]. destruct j as [|j]; [lia|]. cbn [length] in Lj.
  destruct i as [|i]; cbn [nth]; [|apply IH; lia]. rewrite Forall_forall in F. apply F, nth_In. lia.
Qed.
Lemma valid_iff : forall v ρ L, StronglySorted Rlt L -> validate_solution 0 (sampled v L) (sampled ρ L) = true <->
  (forall x, In x L -> 0 <= v x) /\ (forall x, In x L -> 0 <= ρ x) /\ (forall x1 x2, In x1 L -> In x2 L -> x1 < x2 -> v x1 <= v x2).
Proof.
  intros v ρ L S. rewrite !sampled_map, C25_validate_partial. unfold physical. rewrite !Forall_forall.
  assert (P : forall f : R -> R, (forall x, In x (map f L) -> 0 <= x) <-> (forall x, In x L -> 0 <= f x)).
  { intros f. split; intros H x I; [apply H, in_map, I|]. apply in_map_iff in I. destruct I as (z & <- & I). exact (H z I). }
  rewrite !P. clear P.
  assert (M : nondecreasing (map v L) <-> (forall x1 x2, In x1 L -> In x2 L -> x1 < x2 -> v x1 <= v x2)).
  { unfold nondecreasing. rewrite map_length. split.
    - intros H x1 x2 I1 I2 L12. destruct (In_nth L x1 0 I1) as (i & Hi & <-). destruct (In_nth L x2 0 I2) as (j & Hj & <-).
      destruct (le_lt_dec i j) as [Lij|Lji].
      + specialize (H i j ltac:(lia)). rewrite !(nth_indep (map v L) 0 (v 0)) in H by (rewrite map_length; assumption). rewrite !map_nth in H. exact H.
      + pose proof (sorted_nth L S j i 0 Lji Hi). lra.
    - intros H i j Hij. rewrite !(nth_indep (map v L) 0 (v 0)) by (rewrite map_length; lia). rewrite !map_nth.
      destruct (Nat.eq_dec i j) as [-> |N]; [lra|]. apply H; [apply nth_In; lia|apply nth_In; lia|apply sorted_nth; [exact S|lia|lia]]. }
  rewrite M. tauto.
Qed.

(** ** Validation
    For a vertical speed and a density that change continuously, every grid that is fine enough gives the same verdict, and it is
    "valid" exactly if speed and density are never negative and the gas never slows down, at all angles, not only those of the grid. *)
Lemma fine_mono : forall δ δ' a b L, δ <= δ' -> as_fine_as δ a b L -> as_fine_as δ' a b L.
Proof. intros δ δ' a b L H F x Hx. destruct (F x Hx) as (t & I & D). exists t. split; [exact I|lra]. Qed.
Lemma fine_neg : forall f a b x, (forall x, a <= x <= b -> continuity_pt f x) -> a <= x <= b -> f x < 0 ->
  exists δ, 0 < δ /\ forall L, as_fine_as δ a b L -> exists t, In t L /\ f t < 0.
Proof.
  intros f a b x Hc Hx N. destruct (near_point f x (- f x) (Hc x Hx) ltac:(lra)) as (δ & P & H). exists δ. split; [exact P|].
  intros L F. destruct (F x Hx) as (t & I & D). exists t. split; [exact I|]. specialize (H t D). apply Rabs_def2 in H. lra.
Qed.
Lemma fine_falls : forall v a b x1 x2, (forall x, a <= x <= b -> continuity_pt v x) -> a <= x1 -> x1 < x2 -> x2 <= b -> v x2 < v x1 ->
  exists δ, 0 < δ /\ forall L, as_fine_as δ a b L -> exists t1 t2, In t1 L /\ In t2 L /\ t1 < t2 /\ v t2 < v t1.
Proof.
  intros v a b x1 x2 Hc H1 H12 H2 N. set (ε := (v x1 - v x2) / 2). assert (Pε : 0 < ε) by (unfold ε; lra).
  destruct (near_point v x1 ε (Hc x1 ltac:(lra)) Pε) as (δ1 & Q1 & D1). destruct (near_point v x2 ε (Hc x2 ltac:(lra)) Pε) as (δ2 & Q2 & D2).
  exists (Rmin (Rmin δ1 δ2) ((x2 - x1) / 2)). split; [repeat apply Rmin_glb_lt; lra|]. intros L F.
  destruct (F x1 ltac:(lra)) as (t1 & I1 & T1). destruct (F x2 ltac:(lra)) as (t2 & I2 & T2).
  pose proof (Rmin_l (Rmin δ1 δ2) ((x2 - x1) / 2)). pose proof (Rmin_r (Rmin δ1 δ2) ((x2 - x1) / 2)). pose proof (Rmin_l δ1 δ2). pose proof (Rmin_r δ1 δ2).
  specialize (D1 t1 ltac:(lra)). specialize (D2 t2 ltac:(lra)). apply Rabs_def2 in D1, D2, T1, T2. unfold ε in *.
  exists t1, t2. repeat split; try assumption; lra.
Qed.
Theorem C135_valid : forall v ρ a b, (forall x, a <= x <= b -> continuity_pt v x) -> (forall x, a <= x <= b -> continuity_pt ρ x) ->
  exists δ t, 0 < δ /\ (forall L, grid a b L -> as_fine_as δ a b L -> validate_solution 0 (sampled v L) (sampled ρ L) = t) /\
    (t = true <-> not_negative a b v /\ not_negative a b ρ /\ rises a b v).
Proof.
  intros v ρ a b Cv Cρ.
  destruct (Classical_Prop.classic (not_negative a b v /\ not_negative a b ρ /\ rises a b v)) as [Y|N].
  - exists 1, true. split; [lra|]. split; [|tauto]. intros L (S & G) _. apply (valid_iff v ρ L S). rewrite Forall_forall in G. destruct Y as (Y1 & Y2 & Y3).
    split; [intros x I; apply Y1, G, I|]. split; [intros x I; apply Y2, G, I|]. intros x1 x2 I1 I2 L12. apply Y3; [apply G, I1|exact L12|apply G, I2].
  - assert (W : exists δ, 0 < δ /\ forall L, StronglySorted Rlt L -> as_fine_as δ a b L -> validate_solution 0 (sampled v L) (sampled ρ L) <> true).
    { apply Classical_Prop.not_and_or in N. destruct N as [N|N].
      - apply Classical_Pred_Type.not_all_ex_not in N. destruct N as (x & N). apply Classical_Prop.imply_to_and in N. destruct N as (Hx & N).
        destruct (fine_neg v a b x Cv Hx ltac:(lra)) as (δ & P & F). exists δ. split; [exact P|]. intros L S Fi E. apply (valid_iff v ρ L S) in E.
        destruct E as (E & _). destruct (F L Fi) as (t & I & D). specialize (E t I). lra.
      - apply Classical_Prop.not_and_or in N. destruct N as [N|N].
        + apply Classical_Pred_Type.not_all_ex_not in N. destruct N as (x & N). apply Classical_Prop.imply_to_and in N. destruct N as (Hx & N).
          destruct (fine_neg ρ a b x Cρ Hx ltac:(lra)) as (δ & P & F). exists δ. split; [exact P|]. intros L S Fi E. apply (valid_iff v ρ L S) in E.
          destruct E as (_ & E & _). destruct (F L Fi) as (t & I & D). specialize (E t I). lra.
        + assert (M : exists x1 x2, a <= x1 /\ x1 < x2 /\ x2 <= b /\ v x2 < v x1).
          { apply Classical_Prop.NNPP. intros C. apply N. intros x1 x2 H1 H12 H2. apply Rnot_lt_le. intros D. apply C. exists x1, x2. tauto. }
          destruct M as (x1 & x2 & H1 & H12 & H2 & D). destruct (fine_falls v a b x1 x2 Cv H1 H12 H2 D) as (δ & P & F). exists δ. split; [exact P|].
          intros L S Fi E. apply (valid_iff v ρ L S) in E. destruct E as (_ & _ & E). destruct (F L Fi) as (t1 & t2 & I1 & I2 & T & D'). specialize (E t1 t2 I1 I2 T). lra. }
    destruct W as (δ & P & W). exists δ, false. split; [exact P|]. split; [|split; [discriminate|intros Y; contradiction]].
    intros L (S & _) F. specialize (W L S F). destruct (validate_solution 0 (sampled v L) (sampled ρ L)); [exfalso; apply W; reflexivity|reflexivity].
Qed.
Print Assumptions C135_valid.

(** ** The best solution *)
Lemma nth_seq_map : forall (s : nat -> R) n k, (k < n)%nat -> nth k (map s (seq 0 n)) 0 = s k.
Proof.
  intros s n k H. rewrite (nth_indep _ 0 (s 0%nat)) by (rewrite map_length, seq_length; exact H). rewrite (map_nth s). rewrite seq_nth by exact H. reflexivity.
Qed.
Lemma best_iff : forall (s r : nat -> R) n, is_solution_best 0 (map Some (map s (seq 0 n))) (map Some (map r (seq 0 n))) = true <->
  (forall k, (k < n)%nat -> 0 <= s k) /\ (forall k, (k < n)%nat -> 0 <= r k) /\ (forall i j, (i <= j < n)%nat -> s i <= s j) /\
  (exists k, (k < n)%nat /\ 9 / 10 < s k < 1) /\
  (forall k, (k + 2 < n)%nat -> 9 / 10 < s k -> s (k + 2)%nat < 1 -> s k + s (k + 2)%nat <= 2 * s (k + 1)%nat).
Proof.
  intros s r n. rewrite C25_best_block. set (l := map s (seq 0 n)).
  assert (Ll : length l = n) by (unfold l; rewrite map_length, seq_length; reflexivity).
  assert (Nl : forall k, (k < n)%nat -> nth k l 0 = s k) by (intros k Hk; apply nth_seq_map, Hk).
  assert (P : forall f : nat -> R, Forall (fun x => 0 <= x) (map f (seq 0 n)) <-> (forall k, (k < n)%nat -> 0 <= f k)).
  { intros f. rewrite Forall_forall. split.
    - intros H k Hk. apply H, in_map, in_seq. lia.
    - intros H x I. apply in_map_iff in I. destruct I as (k & <- & I). apply in_seq in I. apply H. lia. }
  assert (Mo : nondecreasing l <-> (forall i j, (i <= j < n)%nat -> s i <= s j)).
  { unfold nondecreasing. rewrite Ll. split; intros H i j Hij; specialize (H i j Hij); [rewrite !Nl in H by lia|rewrite !Nl by lia]; exact H. }
  unfold physical. fold l. unfold l at 1. rewrite !P, Mo. clear P.
  assert (Loc : forall pre mid post, l = pre ++ mid ++ post -> Forall (fun x => x <= 9 / 10) pre -> Forall (fun x => 1 <= x) post ->
    forall k, (k < n)%nat -> 9 / 10 < s k < 1 -> (length pre <= k < length pre + length mid)%nat).
  { intros pre mid post E Fp Fq k Hk Hs. rewrite <- (Nl k Hk), E in Hs. assert (Le := f_equal (@length R) E). rewrite Ll, !app_length in Le. rewrite Forall_forall in Fp, Fq.
    destruct (le_lt_dec (length pre) k) as [A|A].
    2: { rewrite app_nth1 in Hs by exact A. specialize (Fp _ (nth_In pre 0 A)). lra. }
    destruct (le_lt_dec (length pre + length mid) k) as [B|B]; [|lia].
    rewrite app_nth2 in Hs by exact A. rewrite app_nth2 in Hs by lia. assert (I : In (nth (k - length pre - length mid) post 0) post) by (apply nth_In; lia).
    specialize (Fq _ I). lra. }
  assert (Mid : forall pre mid post, l = pre ++ mid ++ post -> forall j, (j < length mid)%nat -> nth j mid 0 = s (length pre + j)%nat).
  { intros pre mid post E j Hj. assert (Le := f_equal (@length R) E). rewrite Ll, !app_length in Le. rewrite <- Nl by lia. rewrite E.
    rewrite app_nth2 by lia. replace (length pre + j - length pre)%nat with j by lia. rewrite app_nth1 by exact Hj. reflexivity. }
  split.
  - intros (_ & (A & B & C) & pre & mid & post & E & Ne & F1 & F2 & F3 & D). split; [exact A|]. split; [exact C|]. split; [exact B|].
    assert (Le := f_equal (@length R) E). rewrite Ll, !app_length in Le. rewrite Forall_forall in F2. split.
    + destruct mid as [|z mid]; [congruence|]. exists (length pre). cbn [length] in Le. split; [lia|].
      pose proof (Mid _ _ _ E 0%nat ltac:(cbn; lia)) as Q. cbn [nth] in Q. rewrite Nat.add_0_r in Q. rewrite <- Q. apply F2. left. reflexivity.
    + intros k Hk L1 L2. assert (s k <= s (k + 1)%nat) by (apply B; lia). assert (s (k + 1)%nat <= s (k + 2)%nat) by (apply B; lia).
      pose proof (Loc _ _ _ E F1 F3 k ltac:(lia) ltac:(lra)) as Q1. pose proof (Loc _ _ _ E F1 F3 (k + 2)%nat ltac:(lia) ltac:(lra)) as Q2.
      specialize (D (k - length pre)%nat ltac:(lia)). rewrite !(Mid _ _ _ E) in D by lia.
      replace (length pre + (k - length pre + 2))%nat with (k + 2)%nat in D by lia. replace (length pre + (k - length pre + 1))%nat with (k + 1)%nat in D by lia.
      replace (length pre + (k - length pre))%nat with k in D by lia. lra.
  - intros (A & C & B & (k0 & Hk0 & N0) & D). split; [reflexivity|]. split; [tauto|].
    destruct (split_sorted (9 / 10) 1 l ltac:(lra)) as (pre & post & E & F1 & F3).
    { intros i j Hij. rewrite Ll in Hij. rewrite !Nl by lia. apply B, Hij. }
    set (mid := filter (fun x => Rltb (9 / 10) x && Rltb x 1) l) in *.
    assert (F2 : Forall (fun x => 9 / 10 < x < 1) mid).
    { apply Forall_forall. intros x Hx. apply filter_In in Hx. destruct Hx as (_ & Hx). apply andb_true_iff in Hx. rewrite !Rltb_true in Hx. exact Hx. }
    exists pre, mid, post. split; [exact E|]. split.
    { intros Em. pose proof (Loc _ _ _ E F1 F3 k0 Hk0 N0) as Q. rewrite Em in Q. cbn [length] in Q. lia. }
    split; [exact F1|]. split; [exact F2|]. split; [exact F3|]. intros k Hk. rewrite !(Mid _ _ _ E) by lia. rewrite Forall_forall in F2.
    assert (Le := f_equal (@length R) E). rewrite Ll, !app_length in Le.
    assert (Q1 := F2 _ (nth_In mid 0 (n := k) ltac:(lia))). assert (Q2 := F2 _ (nth_In mid 0 (n := (k + 2)%nat) ltac:(lia))). rewrite (Mid _ _ _ E) in Q1, Q2 by lia.
    specialize (D (length pre + k)%nat ltac:(lia)). rewrite <- !Nat.add_assoc in D. specialize (D ltac:(lra) ltac:(lra)). lra.
Qed.
(** Values that bend down step by step bend down over all distances. *)
Lemma bend_steps : forall (s : nat -> R) i0 i1, (forall k, (i0 <= k)%nat -> (k + 2 <= i1)%nat -> s k + s (k + 2)%nat <= 2 * s (k + 1)%nat) ->
  forall m j, (i0 + m <= j)%nat -> (j + m <= i1)%nat -> s (j - m)%nat + s (j + m)%nat <= 2 * s j.
Proof.
  intros s i0 i1 H.
  assert (Inc : forall d k, (i0 <= k)%nat -> (k + d + 1 <= i1)%nat -> s (k + d + 1)%nat - s (k + d)%nat <= s (k + 1)%nat - s k).
  { induction d as [|d IH]; intros k H0 H1; [rewrite Nat.add_0_r; lra|]. specialize (IH k H0 ltac:(lia)). specialize (H (k + d)%nat ltac:(lia) ltac:(lia)).
    replace (k + S d + 1)%nat with (k + d + 2)%nat by lia. replace (k + S d)%nat with (k + d + 1)%nat by lia. lra. }
  induction m as [|m IH]; intros j H0 H1; [rewrite Nat.sub_0_r, Nat.add_0_r; lra|].
  specialize (IH j ltac:(lia) ltac:(lia)). specialize (Inc (2 * m + 1)%nat (j - S m)%nat ltac:(lia) ltac:(lia)).
  replace (j - S m + (2 * m + 1) + 1)%nat with (j + S m)%nat in Inc by lia. replace (j - S m + (2 * m + 1))%nat with (j + m)%nat in Inc by lia.
  replace (j - S m + 1)%nat with (j - m)%nat in Inc by lia. lra.
Qed.
Lemma floor_nat : forall x, 0 <= x -> exists k, INR k <= x < INR k + 1.
Proof.
  intros x Hx. destruct (archimed x) as (A & B). assert (P : (0 <= up x - 1)%Z) by (assert (0 < up x)%Z; [apply lt_IZR; lra|lia]).
  exists (Z.to_nat (up x - 1)). rewrite INR_IZR_INZ, Z2Nat.id by exact P. rewrite minus_IZR. lra.
Qed.
Definition node (a b : R) (n k : nat) : R := a + INR k * ((b - a) / INR (n - 1)).
Lemma lin_node : forall a b n, linspace a b n = map (node a b n) (seq 0 n). Proof. reflexivity. Qed.
Lemma sorted_seq_map : forall f len start, (forall i j, (i < j)%nat -> f i < f j) -> StronglySorted Rlt (map f (seq start len)).
Proof.
  intros f len. induction len as [|len IH]; intros start H; [apply SSorted_nil|]. cbn [seq map]. apply SSorted_cons; [apply IH, H|].
  apply Forall_forall. intros x I. apply in_map_iff in I. destruct I as (k & <- & I). apply in_seq in I. apply H. lia.
Qed.
Lemma lin_step : forall a b δ, a < b -> 0 < δ -> exists N, forall n, (N <= n)%nat -> (2 <= n)%nat /\ 0 < (b - a) / INR (n - 1) < δ /\ INR (n - 1) * ((b - a) / INR (n - 1)) = b - a.
Proof.
  intros a b δ Hab Pδ. destruct (floor_nat ((b - a) / δ)) as (k & Hk); [apply Rlt_le, Rdiv_lt_0_compat; lra|].
  exists (k + 2)%nat. intros n Hn. assert (Q : INR k + 1 <= INR (n - 1)) by (rewrite <- S_INR; apply le_INR; lia).
  assert (P0 := pos_INR k). assert (P : 0 < INR (n - 1)) by lra. split; [lia|]. split; [split|field; lra].
  - apply Rdiv_lt_0_compat; lra.
  - assert (b - a < δ * INR (n - 1)).
    { replace (b - a) with (δ * ((b - a) / δ)) by (field; lra). apply Rmult_lt_compat_l; lra. }
    apply Rmult_lt_reg_r with (INR (n - 1)); [exact P|]. unfold Rdiv. rewrite Rmult_assoc, Rinv_l by lra. lra.
Qed.
Lemma lin_fine : forall a b δ, a < b -> 0 < δ -> exists N, forall n, (N <= n)%nat -> grid a b (linspace a b n) /\ as_fine_as δ a b (linspace a b n).
Proof.
  intros a b δ Hab Pδ. destruct (lin_step a b δ Hab Pδ) as (N & H). exists N. intros n Hn. destruct (H n Hn) as (H2 & (E1 & E2) & E3). rewrite lin_node.
  set (e := (b - a) / INR (n - 1)) in *.
  assert (Nd : forall k, node a b n k = a + INR k * e) by reflexivity. split.
  - split.
    + apply sorted_seq_map. intros i j Lij. rewrite !Nd. apply lt_INR in Lij. assert (INR i * e < INR j * e) by (apply Rmult_lt_compat_r; assumption). lra.
    + apply Forall_forall. intros x I. apply in_map_iff in I. destruct I as (k & <- & I). apply in_seq in I. rewrite Nd. assert (0 <= INR k * e) by (apply Rmult_le_pos; [apply pos_INR|lra]).
      assert (INR k <= INR (n - 1)) by (apply le_INR; lia). assert (INR k * e <= INR (n - 1) * e) by (apply Rmult_le_compat_r; lra). lra.
  - intros x Hx. destruct (floor_nat ((x - a) / e)) as (k & K1 & K2); [apply Rle_mult_inv_pos; lra|].
    assert (Q1 : INR k * e <= x - a) by (replace (x - a) with ((x - a) / e * e) by (field; lra); apply Rmult_le_compat_r; lra).
    assert (Q2 : x - a < (INR k + 1) * e) by (replace (x - a) with ((x - a) / e * e) at 1 by (field; lra); apply Rmult_lt_compat_r; lra).
    exists (node a b n k). split.
    + apply in_map, in_seq. split; [lia|]. assert (INR k <= INR (n - 1)) by (apply Rmult_le_reg_r with e; lra). apply INR_le in H0. lia.
    + rewrite Nd. apply Rabs_def1; lra.
Qed.
Lemma best_valid : forall v ρ, is_solution_best 0 v ρ = true -> validate_solution 0 v ρ = true /\ existsb (near_sonic DEFAULT_SPLITTER_CUTOFF) v = true.
Proof.
  intros v ρ. unfold is_solution_best. destruct (validate_solution 0 v ρ); [|discriminate]. destruct (existsb (near_sonic DEFAULT_SPLITTER_CUTOFF) v); [|discriminate]. split; reflexivity.
Qed.
Lemma not_bent : forall v a b x h, a < b -> (forall x, a <= x <= b -> continuity_pt v x) -> 0 < h -> a <= x - h -> x + h <= b ->
  9 / 10 < v (x - h) -> v (x + h) < 1 -> 2 * v x < v (x - h) + v (x + h) ->
  exists N, forall n ρ, (N <= n)%nat -> is_solution_best 0 (sampled v (linspace a b n)) (sampled ρ (linspace a b n)) <> true.
Proof.
  intros v a b x h Hab Hc Ph Ha Hb L1 L2 D.
  set (ε := Rmin (Rmin (v (x - h) - 9 / 10) (1 - v (x + h))) ((v (x - h) + v (x + h) - 2 * v x) / 4)).
  assert (E1 : ε <= v (x - h) - 9 / 10) by (unfold ε; eapply Rle_trans; [apply Rmin_l|apply Rmin_l]).
  assert (E2 : ε <= 1 - v (x + h)) by (unfold ε; eapply Rle_trans; [apply Rmin_l|apply Rmin_r]).
  assert (E3 : ε <= (v (x - h) + v (x + h) - 2 * v x) / 4) by apply Rmin_r.
  assert (Pε : 0 < ε) by (unfold ε; repeat apply Rmin_glb_lt; lra).
  destruct (near_point v (x - h) ε (Hc (x - h) ltac:(lra)) Pε) as (δ1 & Q1 & N1). destruct (near_point v x ε (Hc x ltac:(lra)) Pε) as (δ2 & Q2 & N2).
  destruct (near_point v (x + h) ε (Hc (x + h) ltac:(lra)) Pε) as (δ3 & Q3 & N3).
  set (δ := Rmin (Rmin δ1 δ2) δ3). assert (Pδ : 0 < δ) by (unfold δ; repeat apply Rmin_glb_lt; assumption).
  assert (D1 : δ <= δ1) by (unfold δ; eapply Rle_trans; [apply Rmin_l|apply Rmin_l]). assert (D2 : δ <= δ2) by (unfold δ; eapply Rle_trans; [apply Rmin_l|apply Rmin_r]).
  assert (D3 : δ <= δ3) by apply Rmin_r.
  destruct (lin_step a b (δ / 2) Hab ltac:(lra)) as (N & H). exists N. intros n ρ Hn. destruct (H n Hn) as (H2 & (Pe & Le) & Ee).
  rewrite !sampled_map, lin_node, !map_map. intros B. rewrite <- (map_map (fun k => v (node a b n k)) Some), <- (map_map (fun k => ρ (node a b n k)) Some) in B.
  apply best_iff in B. destruct B as (_ & _ & Mo & _ & Bd). set (s := fun k => v (node a b n k)) in *.
  set (e := (b - a) / INR (n - 1)) in *. assert (Nd : forall k, node a b n k = a + INR k * e) by reflexivity.
  destruct (floor_nat ((x - a) / e)) as (j & J1 & J2); [apply Rle_mult_inv_pos; lra|]. destruct (floor_nat (h / e)) as (m & M1 & M2); [apply Rle_mult_inv_pos; lra|].
  assert (J1' : INR j * e <= x - a) by (replace (x - a) with ((x - a) / e * e) by (field; lra); apply Rmult_le_compat_r; lra).
  assert (J2' : x - a < (INR j + 1) * e) by (replace (x - a) with ((x - a) / e * e) at 1 by (field; lra); apply Rmult_lt_compat_r; lra).
  assert (M1' : INR m * e <= h) by (replace h with (h / e * e) by (field; lra); apply Rmult_le_compat_r; lra).
  assert (M2' : h < (INR m + 1) * e) by (replace h with (h / e * e) at 1 by (field; lra); apply Rmult_lt_compat_r; lra).
  assert (Lm : (m <= j)%nat).
  { apply Nat.lt_succ_r, INR_lt. rewrite S_INR. apply Rmult_lt_reg_r with e; lra. }
  assert (Ln : (j + m < n)%nat).
  { assert (Q : INR (j + m) <= INR (n - 1)) by (rewrite plus_INR; apply Rmult_le_reg_r with e; lra). apply INR_le in Q. lia. }
  assert (V1 : Rabs (s (j - m)%nat - v (x - h)) < ε) by (apply N1; rewrite Nd, minus_INR by exact Lm; apply Rabs_def1; lra).
  assert (V2 : Rabs (s j - v x) < ε) by (apply N2; rewrite Nd; apply Rabs_def1; lra).
  assert (V3 : Rabs (s (j + m)%nat - v (x + h)) < ε) by (apply N3; rewrite Nd, plus_INR; apply Rabs_def1; lra).
  apply Rabs_def2 in V1, V2, V3.
  assert (Q : s (j - m)%nat + s (j + m)%nat <= 2 * s j).
  { apply (bend_steps s (j - m) (j + m)); [|lia|lia]. intros k K1 K2. apply Bd; [lia| |].
    - assert (s (j - m)%nat <= s k) by (apply Mo; lia). change (9 / 10 < s k). lra.
    - change (s (k + 2)%nat < 1). assert (s (k + 2)%nat <= s (j + m)%nat) by (apply Mo; lia). lra. }
  lra.
Qed.
(** On evenly spaced grids with enough points, which is what the solver uses, the test for the best solution gives the same verdict,
    and it is "best" exactly if the solution is valid in the sense above, comes near to the sound speed, and bends down while near. *)
Theorem C135_best : forall v ρ a b, a < b -> (forall x, a <= x <= b -> continuity_pt v x) -> (forall x, a <= x <= b -> continuity_pt ρ x) ->
  exists N t, (forall n, (N <= n)%nat -> is_solution_best 0 (sampled v (linspace a b n)) (sampled ρ (linspace a b n)) = t) /\
    (t = true <-> not_negative a b v /\ not_negative a b ρ /\ rises a b v /\ comes_near (9 / 10) v (between a b) /\ bends_down (9 / 10) a b v).
Proof.
  intros v ρ a b Hab Cv Cρ.
  assert (Neg : forall N, (forall n, (N <= n)%nat -> is_solution_best 0 (sampled v (linspace a b n)) (sampled ρ (linspace a b n)) <> true) ->
    forall n, (N <= n)%nat -> is_solution_best 0 (sampled v (linspace a b n)) (sampled ρ (linspace a b n)) = false).
  { intros N H n Hn. specialize (H n Hn). destruct (is_solution_best 0 (sampled v (linspace a b n)) (sampled ρ (linspace a b n))); [exfalso; apply H; reflexivity|reflexivity]. }
  destruct (C135_valid v ρ a b Cv Cρ) as (δ & t & Pδ & HV & TV). destruct (lin_fine a b δ Hab Pδ) as (N0 & F0).
  destruct t.
  2: { exists N0, false. split; [|split; [discriminate|intros (A & B & C & _); apply TV; tauto]]. apply Neg. intros n Hn B. apply best_valid in B. destruct (F0 n Hn) as (G & F). rewrite (HV _ G F) in B. destruct B. discriminate. }
  destruct (proj1 TV eq_refl) as (Nv & Nρ & Ri). clear TV.
  destruct (Classical_Prop.classic (comes_near (9 / 10) v (between a b))) as [C|C].
  2: { exists N0, false. split; [|split; [discriminate|tauto]]. apply Neg. intros n Hn B. apply best_valid in B. destruct B as (_ & B). apply near_samples in B.
       destruct (F0 n Hn) as (G & _). exact (C (sub_near _ _ _ _ _ G B)). }
  destruct (Classical_Prop.classic (bends_down (9 / 10) a b v)) as [B|B].
  2: { assert (W : exists x h, 0 < h /\ a <= x - h /\ x + h <= b /\ 9 / 10 < v (x - h) /\ v (x + h) < 1 /\ 2 * v x < v (x - h) + v (x + h)).
       { apply Classical_Prop.NNPP. intros W. apply B. intros x h A1 A2 A3 A4 A5. apply Rnot_lt_le. intros A6. apply W. exists x, h. tauto. }
       destruct W as (x & h & A1 & A2 & A3 & A4 & A5 & A6). destruct (not_bent v a b x h Hab Cv A1 A2 A3 A4 A5 A6) as (N & H).
       exists N, false. split; [apply Neg; intros n Hn; apply H, Hn|split; [discriminate|tauto]]. }
  destruct (fine_near (9 / 10) v a b Cv C) as (δ' & Pδ' & FN). destruct (lin_fine a b δ' Hab Pδ') as (N1 & F1). destruct (lin_step a b 1 Hab ltac:(lra)) as (N2 & F2).
  exists (N0 + N1 + N2)%nat, true. split; [|tauto]. intros n Hn. destruct (F0 n ltac:(lia)) as (G & F). specialize (HV _ G F). apply (valid_iff v ρ _ (proj1 G)) in HV.
  specialize (FN _ (proj2 (F1 n ltac:(lia)))). destruct (F2 n ltac:(lia)) as (L2 & (Pe & _) & Ee). destruct G as (_ & G). rewrite Forall_forall in G.
  rewrite !sampled_map, lin_node in *. rewrite !map_map. rewrite <- (map_map (fun k => v (node a b n k)) Some), <- (map_map (fun k => ρ (node a b n k)) Some).
  assert (I : forall k, (k < n)%nat -> In (node a b n k) (map (node a b n) (seq 0 n))) by (intros k Hk; apply in_map, in_seq; lia).
  destruct HV as (V1 & V2 & V3). set (e := (b - a) / INR (n - 1)) in *. assert (Nd : forall k, node a b n k = a + INR k * e) by reflexivity.
  apply best_iff. split; [intros k Hk; apply V1, I, Hk|]. split; [intros k Hk; apply V2, I, Hk|]. split.
  { intros i j Hij. destruct (Nat.eq_dec i j) as [-> |Ne]; [lra|]. apply V3; [apply I; lia|apply I; lia|]. rewrite !Nd.
    assert (INR i < INR j) by (apply lt_INR; lia). assert (INR i * e < INR j * e) by (apply Rmult_lt_compat_r; assumption). lra. }
  split.
  { destruct FN as (x & Ix & Nx). apply in_map_iff in Ix. destruct Ix as (k & <- & Ix). apply in_seq in Ix. exists k. split; [lia|exact Nx]. }
  intros k Hk K1 K2. specialize (B (node a b n (k + 1)) e Pe).
  replace (node a b n (k + 1) - e) with (node a b n k) in B by (rewrite !Nd, plus_INR; cbn [INR]; ring).
  replace (node a b n (k + 1) + e) with (node a b n (k + 2)) in B by (rewrite !Nd, !plus_INR; cbn [INR]; ring).
  apply B; [apply G, I; lia|apply G, I; lia|exact K1|exact K2].
Qed.
Print Assumptions C135_best.

(** The same on the grids that inputs describe, given in degrees. *)
Lemma radians_linspace : forall a b n, map radians (linspace a b n) = linspace (radians a) (radians b) n.
Proof. intros a b n. unfold linspace. rewrite map_map. apply map_ext. intros k. unfold radians, Rdiv. ring. Qed.
Corollary C135_angles : forall v ρ start stop, start < stop ->
  (forall x, radians start <= x <= radians stop -> continuity_pt v x /\ continuity_pt ρ x) ->
  exists N t, (forall inp c, in_start inp = start -> in_stop inp = stop -> (N <= in_num_angles inp)%nat -> define_conditions inp = Some c ->
      is_solution_best 0 (sampled v (c_angles c)) (sampled ρ (c_angles c)) = t) /\
    (t = true <-> not_negative (radians start) (radians stop) v /\ not_negative (radians start) (radians stop) ρ /\ rises (radians start) (radians stop) v /\
      comes_near (9 / 10) v (between (radians start) (radians stop)) /\ bends_down (9 / 10) (radians start) (radians stop) v).
Proof.
  intros v ρ start stop L C. assert (L' : radians start < radians stop) by (unfold radians; pose proof PI_RGT_0; assert (start * PI < stop * PI) by (apply Rmult_lt_compat_r; lra); lra).
  destruct (C135_best v ρ (radians start) (radians stop) L') as (N & t & H & T).
  - intros x Hx. apply C, Hx.
  - intros x Hx. apply C, Hx.
  - exists N, t. split; [|exact T]. intros inp c <- <- Hn E. rewrite <- (H _ Hn), <- radians_linspace.
    unfold define_conditions in E. destruct (v_φ_boundary_func _ _ _ _ _ _); [|discriminate E]. injection E as <-. reflexivity.
Qed.
Print Assumptions C135_angles.

(** Not empty: a speed that rises and bends down is best on all large grids; one that bends up near the sound speed is not, although
    it is valid. *)
Example C135_nonvacuous : exists N, forall n, (N <= n)%nat ->
  is_solution_best 0 (sampled (fun θ => θ * (2 - θ) * (19 / 20)) (linspace 0 1 n)) (sampled (fun θ => 1 - θ / 2) (linspace 0 1 n)) = true.
Proof.
  destruct (C135_best (fun θ => θ * (2 - θ) * (19 / 20)) (fun θ => 1 - θ / 2) 0 1 ltac:(lra)) as (N & t & H & T).
  - intros x _. reg.
  - intros x _. reg.
  - exists N. intros n Hn. rewrite (H n Hn). apply T. split; [intros x Hx; nra|]. split; [intros x Hx; lra|]. split.
    { intros x1 x2 A B C. assert (0 <= (x2 - x1) * (2 - x1 - x2)) by (apply Rmult_le_pos; lra). nra. }
    split; [exists 1; unfold between; lra|]. intros x h Ph _ _ _ _. nra.
Qed.
Example C135_bent : exists N, forall n, (N <= n)%nat ->
  is_solution_best 0 (sampled (fun θ => 9 / 10 + θ * θ / 20) (linspace 0 1 n)) (sampled (fun _ => 1) (linspace 0 1 n)) = false.
Proof.
  destruct (C135_best (fun θ => 9 / 10 + θ * θ / 20) (fun _ => 1) 0 1 ltac:(lra)) as (N & t & H & T).
  - intros x _. reg.
  - intros x _. reg.
  - exists N. intros n Hn. rewrite (H n Hn). destruct t; [|reflexivity]. exfalso. destruct (proj1 T eq_refl) as (_ & _ & _ & _ & B).
    specialize (B (1 / 2) (1 / 4)). lra.
Qed.
