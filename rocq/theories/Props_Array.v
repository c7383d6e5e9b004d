(** C25-C29: validation of solutions, crossing search, interpolation, deduplication, closest value. *)
From Coq Require Import Reals List Bool Arith ZArith Lra Lia.
From Verif Require Import Model_Array Proofs_Array.
Import ListNotations.
Open Scope R_scope.

(** A physical solution: v_θ nonnegative and nondecreasing, ρ nonnegative, on the whole grid. *)
Definition nondecreasing (v : list R) : Prop := forall i j, (i <= j < length v)%nat -> nth i v 0 <= nth j v 0.
Definition physical (v ρ : list R) : Prop :=
  Forall (fun x => 0 <= x) v /\ nondecreasing v /\ Forall (fun x => 0 <= x) ρ.
(** The same for arrays that may contain NaN: a physical array has no NaN. *)
Definition physical_num (v ρ : list num) : Prop :=
  exists v' ρ', v = map Some v' /\ ρ = map Some ρ' /\ physical v' ρ'.

(** C25 holds for arrays without NaN... *)
Theorem C25_validate_partial : forall flag v ρ,
  validate_solution flag (map Some v) (map Some ρ) = true <-> flag = 0%Z /\ physical v ρ.
Proof.
  intros flag v ρ. unfold validate_solution, physical, nondecreasing.
  rewrite <- (nonneg_iff v), <- diff_nonneg_iff, <- (nonneg_iff ρ), <- Z.eqb_eq.
  destruct (Z.eqb flag 0); simpl negb; cbv iota; [|intuition discriminate].
  destruct (existsb (fun x => nlt x (Some 0)) (map Some v)); [intuition discriminate|].
  destruct (existsb (fun d => nlt d (Some 0)) (diff (map Some v))); [intuition discriminate|].
  destruct (existsb (fun x => nlt x (Some 0)) (map Some ρ)); intuition discriminate.
Qed.
Print Assumptions C25_validate_partial.
(** ... physical solutions are always accepted, but NaN goes through: *)
Theorem C25_physical_accepted : forall v ρ, physical_num v ρ -> validate_solution 0 v ρ = true.
Proof. intros v ρ (v' & ρ' & -> & -> & H). apply C25_validate_partial. auto. Qed.
Theorem C25_validate_refuted :
  validate_solution 0 [None; None] [None; None] = true /\ ~ physical_num [None; None] [None; None] /\
  validate_solution 0 [Some 2; None; Some 1] [Some 1; Some 1; Some 1] = true /\
  ~ physical_num [Some 2; None; Some 1] [Some 1; Some 1; Some 1].
Proof.
  split; [reflexivity|]. split.
  { intros (v' & ρ' & E & _). destruct v'; discriminate. }
  split.
  { unfold validate_solution. cbn. rdec. reflexivity. }
  intros (v' & ρ' & E & _). destruct v' as [|a [|b v']]; discriminate.
Qed.
Print Assumptions C25_validate_refuted.
(** Exactly what is accepted in general: no negative number, no number smaller than its immediate predecessor. *)
Theorem C25_validate_exact : forall flag v ρ, validate_solution flag v ρ = true <->
  flag = 0%Z /\ (forall x, In (Some x) v -> 0 <= x) /\ (forall x, In (Some x) ρ -> 0 <= x) /\
  (forall i a b, nth_error v i = Some (Some a) -> nth_error v (S i) = Some (Some b) -> a <= b).
Proof.
  intros flag v ρ.
  assert (Hneg : forall l, existsb (fun x => nlt x (Some 0)) l = false <-> forall x, In (Some x) l -> 0 <= x).
  { intro l. rewrite existsb_false. split.
    - intros H x Hx. specialize (H _ Hx). cbn in H. apply Rltb_false in H. exact H.
    - intros H [x|] Hx; [|reflexivity]. cbn. apply Rltb_false, H, Hx. }
  assert (Hdiff : forall l, existsb (fun d => nlt d (Some 0)) (diff l) = false <->
     (forall i a b, nth_error l i = Some (Some a) -> nth_error l (S i) = Some (Some b) -> a <= b)).
  { induction l as [|x [|y t] IH].
    - split; [intros _ [|i] a b H; discriminate H | reflexivity].
    - split; [|reflexivity]. intros _ [|i] a b H1 H2; [discriminate H2 | destruct i; discriminate H1].
    - rewrite diff_cons2. cbn [existsb]. rewrite orb_false_iff, IH. split.
      + intros [H1 H2] [|i] a b Ha Hb; [|exact (H2 i a b Ha Hb)].
        injection Ha as ->. injection Hb as ->. cbn in H1. apply Rltb_false in H1. lra.
      + intro H. split.
        * destruct x as [x|]; destruct y as [y|]; try reflexivity. cbn. apply Rltb_false.
          specialize (H 0%nat x y eq_refl eq_refl). lra.
        * intros i a b Ha Hb. exact (H (S i) a b Ha Hb). }
  unfold validate_solution. rewrite <- (Hneg v), <- (Hneg ρ), <- Hdiff, <- Z.eqb_eq.
  destruct (Z.eqb flag 0); simpl negb; cbv iota; [|intuition discriminate].
  destruct (existsb (fun x => nlt x (Some 0)) v); [intuition discriminate|].
  destruct (existsb (fun d => nlt d (Some 0)) (diff v)); [intuition discriminate|].
  destruct (existsb (fun x => nlt x (Some 0)) ρ); intuition discriminate.
Qed.
(** The "best solution" test, without NaN: physical, and the samples with 0.9 < v_θ < 1 form one nonempty block of
    the grid on which v_θ is concave. *)
Theorem C25_best_block : forall flag v ρ,
  is_solution_best flag (map Some v) (map Some ρ) = true <->
  flag = 0%Z /\ physical v ρ /\
  exists pre mid post, v = pre ++ mid ++ post /\ mid <> [] /\
    Forall (fun x => x <= 9 / 10) pre /\ Forall (fun x => 9 / 10 < x < 1) mid /\ Forall (fun x => 1 <= x) post /\
    forall k, (k + 2 < length mid)%nat -> nth (k + 2) mid 0 - nth (k + 1) mid 0 <= nth (k + 1) mid 0 - nth k mid 0.
Proof.
  intros flag v ρ. unfold is_solution_best.
  pose proof (C25_validate_partial flag v ρ) as HV.
  rewrite filter_near_map. unfold DEFAULT_SPLITTER_CUTOFF.
  set (m := filter (fun x => Rltb (9 / 10) x && Rltb x 1) v) in *.
  assert (Hex : existsb (near_sonic (9 / 10)) (map Some v) = true <-> m <> []).
  { split.
    - intros H E. apply existsb_exists in H. destruct H as (x & Hx & Hn). apply in_map_iff in Hx.
      destruct Hx as (z & <- & Hz). assert (K : In z m) by (apply filter_In; split; [exact Hz | exact Hn]).
      rewrite E in K. destruct K.
    - intro H. destruct m as [|z m'] eqn:E; [congruence|]. apply existsb_exists. exists (Some z).
      assert (K : In z (filter (fun x => Rltb (9 / 10) x && Rltb x 1) v)) by (fold m; rewrite E; left; reflexivity).
      apply filter_In in K. split; [apply in_map, K | apply K]. }
  split.
  - intro H. destruct (validate_solution flag (map Some v) (map Some ρ)); [|discriminate].
    destruct (proj1 HV eq_refl) as [Hf Hp]. split; [exact Hf|]. split; [exact Hp|]. cbn [negb] in H.
    destruct (existsb (near_sonic (9 / 10)) (map Some v)) eqn:E1; [|discriminate]. cbn [negb] in H.
    destruct (existsb (fun d => nlt (Some 0) d) (diff (diff (map Some m)))) eqn:E2; [discriminate|].
    destruct (split_sorted (9 / 10) 1 v) as (pre & post & E & K1 & K2); [lra | apply Hp|]. fold m in E.
    exists pre, m, post. split; [exact E|]. split; [apply Hex; reflexivity|]. split; [exact K1|]. split.
    { apply Forall_forall. intros x Hx. apply filter_In in Hx. destruct Hx as [_ Hx].
      apply andb_true_iff in Hx. rewrite !Rltb_true in Hx. exact Hx. }
    split; [exact K2|]. apply diff2_iff. exact E2.
  - intros (Hf & Hp & pre & mid & post & E & Hne & K1 & K2 & K3 & K4).
    rewrite (proj2 HV (conj Hf Hp)). cbn [negb].
    assert (Em : m = mid).
    { unfold m. rewrite E, !filter_app.
      assert (F1 : filter (fun x => Rltb (9 / 10) x && Rltb x 1) pre = []).
      { clear -K1. induction K1 as [|x l Hx _ IH]; [reflexivity|]. cbn [filter].
        replace (Rltb (9 / 10) x) with false by (symmetry; apply Rltb_false; lra). exact IH. }
      assert (F3 : filter (fun x => Rltb (9 / 10) x && Rltb x 1) post = []).
      { clear -K3. induction K3 as [|x l Hx _ IH]; [reflexivity|]. cbn [filter].
        replace (Rltb x 1) with false by (symmetry; apply Rltb_false; lra). rewrite andb_false_r. exact IH. }
      assert (F2 : filter (fun x => Rltb (9 / 10) x && Rltb x 1) mid = mid).
      { clear -K2. induction K2 as [|x l Hx _ IH]; [reflexivity|]. cbn [filter].
        replace (Rltb (9 / 10) x) with true by (symmetry; apply Rltb_true; lra).
        replace (Rltb x 1) with true by (symmetry; apply Rltb_true; lra). cbn. rewrite IH. reflexivity. }
      rewrite F1, F2, F3, app_nil_r. reflexivity. }
    rewrite (proj2 Hex) by (rewrite Em; exact Hne). cbn [negb].
    rewrite (proj2 (diff2_iff m)) by (rewrite Em; exact K4). reflexivity.
Qed.
Print Assumptions C25_best_block.
Example C25_nonvacuous : physical [0; 1 / 2; 95 / 100; 99 / 100] [1; 1; 1; 1].
Proof.
  split; [repeat constructor; lra|]. split; [|repeat constructor; lra].
  intros i j H. simpl in H. do 5 (destruct i as [|i]; [do 5 (destruct j as [|j]; [simpl; first [lra | exfalso; lia]|]); exfalso; lia|]).
  exfalso; lia.
Qed.

(** C26.  [reached x0 val x]: starting from x0, x is at or past val. *)
Definition reached (x0 val x : R) : Prop := (x0 <= val /\ val <= x) \/ (val <= x0 /\ x <= val).
(** Any array with some number is NaNs, then a first number, then the rest. *)
Theorem C26_first_index : forall k x0 t val, let a := repeat None k ++ Some x0 :: t in
  exists r, first_closest_index a (Some val) = Ret r /\
  match r with
  | Some i => (exists x, nth_error a i = Some (Some x) /\ reached x0 val x) /\
              forall j x, (j < i)%nat -> nth_error a j = Some (Some x) -> ~ reached x0 val x
  | None => forall j x, nth_error a j = Some (Some x) -> ~ reached x0 val x
  end.
Proof.
  intros k x0 t val a. unfold first_closest_index. assert (Hn : nth k a None = Some x0) by apply nth_prefix.
  assert (Ha : argmin_isnan a = Ret k) by apply argmin_prefix.
  assert (Hx0 : nth_error a k = Some (Some x0)).
  { unfold a. rewrite nth_error_app2; rewrite repeat_length; [|lia]. rewrite Nat.sub_diag. reflexivity. }
  assert (Hpre : forall j x, (j < k)%nat -> nth_error a j = Some (Some x) -> False).
  { intros j x Hj Hx. unfold a in Hx. rewrite nth_error_app1 in Hx by (rewrite repeat_length; exact Hj).
    apply nth_error_In, repeat_spec in Hx. discriminate. }
  clearbody a. rewrite Ha. change (@nth (option R) k a None = Some x0) with (@nth num k a None = Some x0) in Hn. rewrite Hn. cbn [nlt neq cmp].
  destruct (Rltb x0 val) eqn:E1; [|destruct (Rltb val x0) eqn:E2].
  - apply Rltb_true in E1.
    assert (Hr : forall x, nle (Some val) (Some x) = true <-> reached x0 val x).
    { intro x. cbn. rewrite Rleb_true. unfold reached. lra. }
    unfold nle in Hr.
    destruct (existsb (fun y => nle (Some val) y) a) eqn:E.
    + destruct (find_index_exists _ _ _ E) as [i Hi]. rewrite Hi. eexists; split; [reflexivity|].
      destruct (find_index_some _ _ _ _ Hi) as ([x|] & H1 & H2 & H3); [|discriminate].
      split; [exists x; split; [exact H1 | apply (proj1 (Hr x)); exact H2]|].
      intros j z Hj Hz Hre. specialize (H3 j _ Hj Hz). apply (proj2 (Hr z)) in Hre. unfold nle in H3. congruence.
    + eexists; split; [reflexivity|]. intros j z Hz Hre. apply Hr in Hre.
      rewrite existsb_false in E. specialize (E _ (nth_error_In _ _ Hz)). unfold nle in E. congruence.
  - apply Rltb_true in E2.
    assert (Hr : forall x, nle (Some x) (Some val) = true <-> reached x0 val x).
    { intro x. cbn. rewrite Rleb_true. unfold reached. lra. }
    unfold nle in Hr.
    destruct (existsb (fun y => nle y (Some val)) a) eqn:E.
    + destruct (find_index_exists _ _ _ E) as [i Hi]. rewrite Hi. eexists; split; [reflexivity|].
      destruct (find_index_some _ _ _ _ Hi) as ([x|] & H1 & H2 & H3); [|discriminate].
      split; [exists x; split; [exact H1 | apply (proj1 (Hr x)); exact H2]|].
      intros j z Hj Hz Hre. specialize (H3 j _ Hj Hz). apply (proj2 (Hr z)) in Hre. unfold nle in H3. congruence.
    + eexists; split; [reflexivity|]. intros j z Hz Hre. apply Hr in Hre.
      rewrite existsb_false in E. specialize (E _ (nth_error_In _ _ Hz)). unfold nle in E. congruence.
  - apply Rltb_false in E1. apply Rltb_false in E2. assert (x0 = val) by lra. subst val.
    replace (Reqb x0 x0) with true by (symmetry; apply Reqb_true; reflexivity).
    eexists; split; [reflexivity|]. split; [exists x0; split; [exact Hx0 | left; lra]|].
    intros j x Hj Hx. exfalso. exact (Hpre j x Hj Hx).
Qed.
Print Assumptions C26_first_index.
(** No number, no answer; an empty array is an error; a NaN target is never reached. *)
Theorem C26_no_number : forall k val, first_closest_index (repeat None (S k)) val = Ret None.
Proof.
  intros k val. unfold first_closest_index. change (argmin_isnan (repeat None (S k))) with
    (Ret (match find_index (fun x => negb (is_nan x)) (repeat None (S k)) with Some i => i | None => 0%nat end)).
  generalize (match find_index (fun x => negb (is_nan x)) (repeat None (S k)) with Some i => i | None => 0%nat end). intro i.
  assert (E : @nth num i (repeat None (S k)) None = None).
  { destruct (nth_in_or_default i (repeat (@None R) (S k)) None) as [H|H]; [exact (repeat_spec _ _ _ H) | exact H]. }
  rewrite E. destruct val; reflexivity.
Qed.
Theorem C26_empty : forall val, first_closest_index [] val = ValueError.
Proof. reflexivity. Qed.
Theorem C26_nan_target : forall x a, first_closest_index (x :: a) None = Ret None.
Proof.
  intros x a. unfold first_closest_index, argmin_isnan.
  destruct (nth _ (x :: a) None); reflexivity.
Qed.
Example C26_nonvacuous : first_closest_index [None; Some 0; Some 3; Some 1] (Some 2) = Ret (Some 2%nat).
Proof.
  unfold first_closest_index. cbn. rdec. cbn. unfold Rleb.
  destruct (Rle_dec 2 0); [lra|]. destruct (Rle_dec 2 3); [reflexivity | lra].
Qed.

(** C27.  The result is the linear interpolation on the interval of the first crossing provided the next sample
    does not turn back.  Rising crossing: *)
Theorem C27_rising_partial : forall xs1 xa xb xs2 ys1 a b ys2 y,
  length xs1 = length ys1 -> length xs2 = length ys2 ->
  (forall v, In v ys1 -> v < y) -> a < y -> y < b -> (forall c, hd_error ys2 = Some c -> b <= c) ->
  exists x, interp_for_value (xs1 ++ xa :: xb :: xs2) (map Some (ys1 ++ a :: b :: ys2)) y = Ret (Some x) /\
    x = xa + (y - a) / (b - a) * (xb - xa) /\ (xa <= xb -> xa <= x <= xb).
Proof.
  intros xs1 xa xb xs2 ys1 a b ys2 y L1 L2 Hpre Ha Hb Hc.
  exists (xa + (y - a) / (b - a) * (xb - xa)). split.
  - unfold interp_for_value.
    replace (ys1 ++ a :: b :: ys2) with ((ys1 ++ [a]) ++ b :: ys2) by (rewrite <- app_assoc; reflexivity).
    rewrite fci_rising;
      [|destruct ys1; discriminate | intros x Hx; apply in_app_or in Hx; destruct Hx as [Hx|[<-|[]]]; auto | lra].
    rewrite app_length. cbn [length].
    replace ((ys1 ++ [a]) ++ b :: ys2) with (ys1 ++ a :: b :: ys2) by (rewrite <- app_assoc; reflexivity).
    rewrite map_app. cbn [map]. rewrite <- (map_length Some ys1) at 1. rewrite nth_len. cbn [neq cmp].
    replace (Reqb b y) with false by (symmetry; apply Reqb_false; lra).
    replace (length ys1 + 1 - 1)%nat with (length ys1) by lia.
    replace (length ys1 + 1 + 2)%nat with (length ys1 + 3)%nat by lia.
    rewrite <- (map_length Some ys1) at 1 2. rewrite firstn_skip_len.
    rewrite <- L1. rewrite firstn_skip_len.
    destruct ys2 as [|c ys2]; destruct xs2 as [|xc xs2]; try discriminate; cbn [map firstn all_nums option_map combine].
    + rewrite interp2 by lra. f_equal. f_equal. field. lra.
    + rewrite interp3 by (try lra; apply Hc; reflexivity). f_equal. f_equal. field. lra.
  - split; [reflexivity|]. intro Hx.
    assert (0 <= (y - a) / (b - a) <= 1).
    { split; [apply Rmult_le_pos; [lra | left; apply Rinv_0_lt_compat; lra]|].
      apply Rmult_le_reg_r with (b - a); [lra|]. unfold Rdiv. rewrite Rmult_assoc, Rinv_l by lra. lra. }
    nra.
Qed.
Print Assumptions C27_rising_partial.
(** Falling crossing: *)
Theorem C27_falling_partial : forall xs1 xa xb xs2 ys1 a b ys2 y,
  length xs1 = length ys1 -> length xs2 = length ys2 ->
  (forall v, In v ys1 -> y < v) -> y < a -> b < y -> (forall c, hd_error ys2 = Some c -> c < b) ->
  exists x, interp_for_value (xs1 ++ xa :: xb :: xs2) (map Some (ys1 ++ a :: b :: ys2)) y = Ret (Some x) /\
    x = xa + (y - a) / (b - a) * (xb - xa) /\ (xa <= xb -> xa <= x <= xb).
Proof.
  intros xs1 xa xb xs2 ys1 a b ys2 y L1 L2 Hpre Ha Hb Hc.
  exists (xa + (y - a) / (b - a) * (xb - xa)). split.
  - unfold interp_for_value.
    replace (ys1 ++ a :: b :: ys2) with ((ys1 ++ [a]) ++ b :: ys2) by (rewrite <- app_assoc; reflexivity).
    rewrite fci_falling;
      [|destruct ys1; discriminate | intros x Hx; apply in_app_or in Hx; destruct Hx as [Hx|[<-|[]]]; auto | lra].
    rewrite app_length. cbn [length].
    replace ((ys1 ++ [a]) ++ b :: ys2) with (ys1 ++ a :: b :: ys2) by (rewrite <- app_assoc; reflexivity).
    rewrite map_app. cbn [map]. rewrite <- (map_length Some ys1) at 1. rewrite nth_len. cbn [neq cmp].
    replace (Reqb b y) with false by (symmetry; apply Reqb_false; lra).
    replace (length ys1 + 1 - 1)%nat with (length ys1) by lia.
    replace (length ys1 + 1 + 2)%nat with (length ys1 + 3)%nat by lia.
    rewrite <- (map_length Some ys1) at 1 2. rewrite firstn_skip_len.
    rewrite <- L1. rewrite firstn_skip_len.
    destruct ys2 as [|c ys2]; destruct xs2 as [|xc xs2]; try discriminate; cbn [map firstn all_nums option_map combine].
    + rewrite interp2' by lra. f_equal. f_equal. field. lra.
    + rewrite interp3' by (try lra; apply Hc; reflexivity). f_equal. f_equal. field. lra.
  - split; [reflexivity|]. intro Hx.
    assert (E : (y - a) / (b - a) = (a - y) / (a - b)) by (field; lra). rewrite E.
    assert (0 <= (a - y) / (a - b) <= 1).
    { split; [apply Rmult_le_pos; [lra | left; apply Rinv_0_lt_compat; lra]|].
      apply Rmult_le_reg_r with (a - b); [lra|]. unfold Rdiv. rewrite Rmult_assoc, Rinv_l by lra. lra. }
    nra.
Qed.
(** A sample exactly on the target is returned as it is. *)
Theorem C27_exact_hit : forall xs1 xb xs2 ys1 ys2 y, length xs1 = length ys1 ->
  ((forall v, In v ys1 -> v < y) \/ (forall v, In v ys1 -> y < v)) -> ys1 <> [] ->
  interp_for_value (xs1 ++ xb :: xs2) (map Some (ys1 ++ y :: ys2)) y = Ret (Some xb).
Proof.
  intros xs1 xb xs2 ys1 ys2 y L H Hne. unfold interp_for_value.
  assert (E : first_closest_index (map Some (ys1 ++ y :: ys2)) (Some y) = Ret (Some (length ys1))).
  { destruct H as [H|H]; [apply fci_rising | apply fci_falling]; auto; lra. }
  rewrite E. replace (@nth num (length ys1) (map Some (ys1 ++ y :: ys2)) None) with (Some y).
  - cbn [neq cmp]. replace (Reqb y y) with true by (symmetry; apply Reqb_true; reflexivity).
    rewrite <- L. f_equal. f_equal. rewrite app_nth2 by lia. rewrite Nat.sub_diag. reflexivity.
  - rewrite map_app, app_nth2; rewrite map_length; [|lia]. rewrite Nat.sub_diag. reflexivity.
Qed.
(** If the next sample turns back the interpolation uses it and leaves the crossing interval. *)
Theorem C27_bracket_refuted :
  exists x, interp_for_value [0; 1; 2] [Some 0; Some 2; Some (1 / 2)] 1 = Ret (Some x) /\ ~ (0 <= x <= 1).
Proof.
  exists (5 / 3). split; [|lra]. unfold interp_for_value.
  change [Some 0; Some 2; Some (1 / 2)] with (map Some ([0] ++ 2 :: [1 / 2])).
  rewrite fci_rising; [|discriminate | intros x [<-|[]]; lra | lra].
  cbn [length app map nth neq cmp]. replace (Reqb 2 1) with false by (symmetry; apply Reqb_false; lra).
  cbn [Nat.sub Nat.add pyslice skipn firstn all_nums option_map combine].
  unfold interp1d, sort_pts. cbn. rdec. cbn. rdec. cbn. rdec. cbn. rdec. f_equal. f_equal. field.
Qed.
Print Assumptions C27_bracket_refuted.
Example C27_nonvacuous : forall c, hd_error [3] = Some c -> 2 <= c.
Proof. intros c H. injection H as <-. lra. Qed.

(** C28.  [first_occurrences l]: the distinct elements of l in order of first appearance. *)
Theorem C28_dedup : forall x y out, dedup_points x y = Ret out ->
  map fst out = first_occurrences (map fst (combine x y)) /\ NoDup (map fst out) /\
  forall k m, In (k, m) out -> In (k, m) (combine x y) /\ forall v, In (k, v) (combine x y) -> v <= m.
Proof.
  intros x y out H. unfold dedup_points in H.
  pose proof (dict_fold (combine x y)) as (H1 & H2 & H3).
  set (d := fold_left (fun d p => dict_append (fst p) (snd p) d) (combine x y) []) in *.
  assert (E : out = map (fun p => (fst p, list_max (snd p))) d) by
    (destruct (map (fun p => (fst p, list_max (snd p))) d); [discriminate | injection H as <-; reflexivity]).
  subst out. clear H. rewrite map_map. cbn [fst]. fold (keys_of d).
  split; [exact H1|]. split; [exact H2|].
  intros k m Hin. apply in_map_iff in Hin. destruct Hin as ([k' l] & E & Hin). cbn in E. injection E as <- <-.
  destruct (H3 _ _ Hin) as [-> Hne]. split.
  - apply vals_for_in. apply list_max_in, Hne.
  - intros v Hv. apply list_max_ge. apply vals_for_in. exact Hv.
Qed.
Print Assumptions C28_dedup.
Theorem C28_first_occurrences_spec : forall l, NoDup (first_occurrences l) /\ (forall a, In a (first_occurrences l) <-> In a l) /\
  (forall l1 a l2, l = l1 ++ a :: l2 -> ~ In a l1 ->
     exists r, first_occurrences l = first_occurrences l1 ++ a :: r).
Proof.
  intro l. unfold first_occurrences. split; [apply NoDup_rev, NoDup_nodup|]. split.
  - intro a. rewrite <- in_rev, nodup_In, <- in_rev. reflexivity.
  - intros l1 a l2 -> Hn. fold (first_occurrences (l1 ++ a :: l2)). fold (first_occurrences l1).
    induction l2 as [|b l2 IH] using rev_ind.
    + rewrite first_occ_snoc. destruct (in_dec Req_EM_T a l1); [contradiction|]. exists []. reflexivity.
    + destruct IH as [r Hr]. replace (l1 ++ a :: l2 ++ [b]) with ((l1 ++ a :: l2) ++ [b]) by
        (rewrite <- app_assoc; reflexivity).
      rewrite first_occ_snoc. destruct (in_dec Req_EM_T b (l1 ++ a :: l2)).
      * exists r. exact Hr.
      * exists (r ++ [b]). rewrite Hr, <- app_assoc. reflexivity.
Qed.
Theorem C28_defined : forall x y, (exists out, dedup_points x y = Ret out) <-> x <> [] /\ y <> [].
Proof.
  intros x y. unfold dedup_points. pose proof (dict_fold (combine x y)) as (H1 & _ & _).
  set (d := fold_left (fun d p => dict_append (fst p) (snd p) d) (combine x y) []) in *.
  split.
  - intros [out H]. split; intro E; subst; [|destruct x]; cbn in H; discriminate.
  - intros [Hx Hy]. destruct x as [|x0 x]; [congruence|]. destruct y as [|y0 y]; [congruence|].
    destruct d as [|[k l] d'] eqn:Ed; [|eexists; reflexivity].
    exfalso. assert (K : In x0 (first_occurrences (map fst (combine (x0 :: x) (y0 :: y))))).
    { apply (C28_first_occurrences_spec _). left; reflexivity. }
    rewrite <- H1 in K. destruct K.
Qed.
Example C28_nonvacuous : exists out, dedup_points [1; 2; 1] [5; 6; 7] = Ret out.
Proof. apply C28_defined. split; discriminate. Qed.

(** C29.  For sorted abscissae the function returns the value at the least grid point not below x... *)
Theorem C29_lookup_exact : forall xs ys x, length ys = length xs ->
  (forall v, get_closest_value_sorted xs ys x = Ret v <->
     exists i, (i < length xs)%nat /\ v = nth i ys 0 /\ x <= nth i xs 0 /\ forall j, (j < i)%nat -> nth j xs 0 < x) /\
  (get_closest_value_sorted xs ys x = IndexError <-> forall j, (j < length xs)%nat -> nth j xs 0 < x).
Proof.
  intros xs ys x L. unfold get_closest_value_sorted.
  destruct (searchsorted_spec xs x) as (H1 & H2 & H3). set (i := searchsorted xs x) in *.
  destruct (Nat.eq_dec i (length xs)) as [E|N].
  - assert (En : nth_error ys i = None) by (apply nth_error_None; lia). rewrite En. split.
    + intro v. split; [discriminate|]. intros (k & Hk & _ & Hx & Hj). exfalso. specialize (H2 k). lra || (assert (nth k xs 0 < x) by (apply H2; lia); lra).
    + split; [|reflexivity]. intros _ j Hj. apply H2. lia.
  - assert (Hi : (i < length xs)%nat) by lia. specialize (H3 Hi).
    rewrite (nth_error_nth' ys 0) by lia. split.
    + intro v. split.
      * intro H. injection H as <-. exists i. auto.
      * intros (k & Hk & -> & Hx & Hj). f_equal. f_equal.
        destruct (lt_eq_lt_dec i k) as [[H|H]|H]; [|exact H|].
        -- specialize (Hj i H). lra.
        -- specialize (H2 k H). lra.
    + split; [discriminate|]. intro H. specialize (H i Hi). lra.
Qed.
Print Assumptions C29_lookup_exact.
(** ... which need not be the closest one, and a request beyond the last grid point is an IndexError. *)
Theorem C29_closest_refuted :
  get_closest_value_sorted [0; 1] [10; 20] (1 / 10) = Ret 20 /\ Rabs (0 - 1 / 10) < Rabs (1 - 1 / 10) /\
  get_closest_value_sorted [0; 1] [10; 20] 2 = IndexError.
Proof.
  unfold get_closest_value_sorted. cbn. rdec. cbn. split; [reflexivity|]. split; [|reflexivity].
  rewrite Rabs_left by lra. rewrite Rabs_right by lra. lra.
Qed.
Print Assumptions C29_closest_refuted.
(** On grid points it is right (first of equal abscissae). *)
Theorem C29_on_grid_partial : forall xs1 x xs2 ys1 v ys2, length ys1 = length xs1 -> length ys2 = length xs2 ->
  (forall z, In z xs1 -> z < x) -> get_closest_value_sorted (xs1 ++ x :: xs2) (ys1 ++ v :: ys2) x = Ret v.
Proof.
  intros xs1 x xs2 ys1 v ys2 L1 L2 H. apply C29_lookup_exact.
  - rewrite !app_length. cbn. lia.
  - exists (length xs1). split; [rewrite app_length; cbn; lia|]. split.
    + rewrite app_nth2 by lia. rewrite L1, Nat.sub_diag. reflexivity.
    + split.
      * rewrite app_nth2 by lia. rewrite Nat.sub_diag. cbn. lra.
      * intros j Hj. rewrite app_nth1 by lia. apply H, nth_In, Hj.
Qed.
Example C29_nonvacuous : forall z, In z [1; 2] -> z < 3. Proof. intros z [<-|[<-|[]]]; lra. Qed.
