(** C91, C92: statistics of solutions. *)
From Coq Require Import Reals List Bool Arith Lra Lia.
From Verif Require Import Lib_Deriv Model_Index Model_Array Model_Waves Model_Critical Model_Validate Model_Stats Spec_MHD Spec_Ode Proofs_Array Props_Array.
Import ListNotations.
Open Scope R_scope.

(** ** Greatest elements *)
Definition greatest (m : R) (l : list R) : Prop := In m l /\ forall x, In x l -> x <= m.
Lemma max_from_spec : forall l m, greatest (max_from m l) (m :: l).
Proof.
  induction l as [|x l IH]; intro m; cbn [max_from].
  - split; [left; reflexivity|]. intros y [<-|[]]. lra.
  - destruct (Rltb m x) eqn:E.
    + apply Rltb_true in E. destruct (IH x) as [H1 H2]. split; [right; exact H1|].
      intros y [<-|[<-|Hy]]; [apply Rle_trans with x; [lra | apply H2; left; reflexivity] | apply H2; left; reflexivity | apply H2; right; exact Hy].
    + apply Rltb_false in E. destruct (IH m) as [H1 H2]. split.
      * destruct H1 as [H1|H1]; [left; exact H1 | right; right; exact H1].
      * intros y [<-|[<-|Hy]]; [apply H2; left; reflexivity | apply Rle_trans with m; [exact E | apply H2; left; reflexivity] | apply H2; right; exact Hy].
Qed.
Lemma greatest_unique : forall m m' l, greatest m l -> greatest m' l -> m = m'.
Proof. intros m m' l [H1 H2] [H3 H4]. apply Rle_antisym; auto. Qed.
Lemma numbers_in : forall l x, In x (numbers l) <-> In (Some x) l.
Proof.
  induction l as [|[y|] l IH]; intro x; cbn [numbers In]; [tauto| |].
  - rewrite IH. split; (intros [H|H]; [left; congruence | right; exact H]).
  - rewrite IH. split; [intro H; right; exact H | intros [H|H]; [discriminate | exact H]].
Qed.

(** C91: the statistic of a Mach number is its greatest value among the rows where it is a number, with the angle of the first row that has it. *)
Theorem C91_max_mach : forall angles mach, List.length angles = List.length mach -> mach <> [] ->
  exists m a, max_mach angles mach = Ret (m, a) /\
  match m with
  | None => a = None /\ forall v, In v mach -> v = None
  | Some v => In (Some v) mach /\ (forall x, In (Some x) mach -> x <= v) /\
      exists i θ, nth_error mach i = Some (Some v) /\ (forall j, (j < i)%nat -> nth_error mach j <> Some (Some v)) /\
        nth_error angles i = Some θ /\ a = Some (θ * 180 / PI)
  end.
Proof.
  intros angles mach Hl Hne. unfold max_mach, nanmax, get_max_mach_degrees, nanargmax.
  destruct mach as [|m0 mach']; [congruence|]. set (mach := m0 :: mach') in *. clearbody mach.
  destruct (numbers mach) as [|x t] eqn:E.
  - exists None, None. split; [reflexivity|]. split; [reflexivity|]. intros [v|] Hv; [|reflexivity].
    apply numbers_in in Hv. rewrite E in Hv. destruct Hv.
  - destruct (max_from_spec t x) as [H1 H2]. set (v := max_from x t) in *. clearbody v. rewrite <- E in H1, H2.
    apply numbers_in in H1. destruct (In_nth_error _ _ H1) as [k Hk].
    destruct (find_index (fun w => neq w (Some v)) mach) as [i|] eqn:Ei.
    + assert (Hi : nth_error mach i = Some (Some v) /\ forall j, (j < i)%nat -> nth_error mach j <> Some (Some v)).
      { clear - Ei. revert i Ei. induction mach as [|w l IH]; intros i Ei; [discriminate|]. cbn [find_index] in Ei.
        destruct (neq w (Some v)) eqn:Ew.
        - injection Ei as <-. destruct w as [w|]; [|discriminate]. cbn in Ew. apply Reqb_true in Ew. subst w. split; [reflexivity|]. intros j Hj. lia.
        - destruct (find_index _ l) as [i'|]; [|discriminate]. cbn in Ei. injection Ei as <-. destruct (IH i' eq_refl) as [K1 K2].
          split; [exact K1|]. intros [|j] Hj; cbn; [|apply K2; lia]. intro K. injection K as ->. cbn in Ew. apply Reqb_false in Ew. congruence. }
      destruct Hi as [Hi1 Hi2].
      destruct (nth_error angles i) as [θ|] eqn:Ea.
      * exists (Some v), (Some (degrees θ)). split; [reflexivity|]. split; [exact H1|]. split; [intros y Hy; apply H2, numbers_in, Hy|].
        exists i, θ. repeat split; assumption.
      * exfalso. apply nth_error_None in Ea. assert (i < List.length mach)%nat by (apply nth_error_Some; congruence). lia.
    + exfalso. clear - Ei Hk. revert k Hk. induction mach as [|w l IH]; intros [|k] Hk; try discriminate; cbn [find_index nth_error] in *.
      * injection Hk as ->. cbn in Ei. replace (Reqb v v) with true in Ei by (symmetry; apply Reqb_true; reflexivity). discriminate.
      * destruct (neq w (Some v)); [discriminate|]. destruct (find_index _ l); [discriminate|]. apply (IH eq_refl k Hk).
Qed.
Print Assumptions C91_max_mach.
Example C91_max_mach_nonvacuous : max_mach [0; PI] [None; Some 2] = Ret (Some 2, Some 180).
Proof.
  unfold max_mach, nanmax, get_max_mach_degrees, nanargmax. cbn [numbers max_from pybind find_index neq cmp].
  replace (Reqb 2 2) with true by (symmetry; apply Reqb_true; reflexivity). cbn. unfold degrees. do 4 f_equal. field. apply PI_neq0.
Qed.

(** ** Flags *)
Lemma monotone_pairs : forall l, is_monotonically_increasing (map Some l) = true <->
  forall l1 a b l2, l = l1 ++ a :: b :: l2 -> a <= b.
Proof.
  unfold is_monotonically_increasing. induction l as [|x [|y l] IH]; cbn [map diff forallb].
  - split; [|reflexivity]. intros _ [|? [|? ?]] a b l2 E; discriminate.
  - split; [|reflexivity]. intros _ [|? [|? ?]] a b l2 E; discriminate.
  - cbn [map] in IH. cbn [nsub nle cmp]. rewrite andb_true_iff, IH, Rleb_true. split.
    + intros [H1 H2] [|z l1] a b l2 E; cbn in E; injection E; intros.
      * subst. lra.
      * subst z. apply (H2 l1 a b l2). assumption.
    + intro H. split; [pose proof (H [] x y l eq_refl); lra|]. intros l1 a b l2 E. apply (H (x :: l1) a b l2). cbn. rewrite E. reflexivity.
Qed.
(** The three flags say what their names say: v_θ does not fall between neighbouring rows up to twenty degrees; the last v_θ is at
    most ten; the greatest angle. *)
Theorem C91_flags : forall soln, soln <> [] ->
  (is_v_θ_monotonic soln = true <->
     forall l1 p q l2, filter (fun p => Rleb (fst p * 180 / PI) 20) soln = l1 ++ p :: q :: l2 -> snd p iv_θ <= snd q iv_θ) /\
  (forall s p, soln = s ++ [p] -> exists b, does_v_θ_end_low soln = Ret b /\ (b = true <-> snd p iv_θ <= 10)) /\
  (exists a, max_angle_reached soln = Ret (a * 180 / PI) /\ greatest a (map fst soln)).
Proof.
  intros soln Hne. split; [|split].
  - unfold is_v_θ_monotonic, degrees. set (f := filter (fun p : R * vec => Rleb (fst p * 180 / PI) 20) soln). clearbody f.
    pose proof (monotone_pairs (map (fun p : R * vec => snd p iv_θ) f)) as M. rewrite map_map in M. eapply iff_trans; [exact M|]. split.
    + intros H l1 p q l2 E. apply (H (map (fun p => snd p iv_θ) l1) _ _ (map (fun p => snd p iv_θ) l2)). rewrite E, map_app. reflexivity.
    + intros H l1 a b l2 E. apply map_eq_app in E. destruct E as (f1 & f2 & -> & _ & E2).
      destruct f2 as [|p [|q f2]]; try discriminate. cbn in E2. injection E2 as <- <- _. apply (H f1 p q f2 eq_refl).
  - intros s p ->. unfold does_v_θ_end_low. rewrite rev_app_distr. cbn. eexists. split; [reflexivity|]. apply Rleb_true.
  - unfold max_angle_reached, py_max. destruct soln as [|p s]; [congruence|]. cbn [map pybind]. eexists. split; [reflexivity|]. apply max_from_spec.
Qed.
Print Assumptions C91_flags.

(** ** Residuals: the entries called max_diff_… are greatest signed residuals. *)
Theorem C91_residuals_exact : forall res ic rows, rows <> [] ->
  exists m, max_difference res ic rows = Ret m /\
    greatest m (map (fun p => res ic (get_values ic (fst (fst p)) (snd (fst p)) (snd p))) rows).
Proof.
  intros res ic rows Hne. unfold max_difference, py_max. destruct rows as [|p rows]; [congruence|]. cbn [map]. eexists. split; [reflexivity|].
  apply max_from_spec.
Qed.
(** So a small value does not say that the equation holds: the continuity equation can fail by any amount while the entry is negative. *)
Theorem C91_residuals_refuted : forall K, 0 < K -> exists ic rows m, max_difference validate_continuity ic rows = Ret m /\ m < 0 /\
  exists p, In p rows /\ K <= Rabs (validate_continuity ic (get_values ic (fst (fst p)) (snd (fst p)) (snd p))).
Proof.
  intros K HK. set (p := (0, state 0 0 1 (- K) 0 0 1 0 1 0 0, state 0 0 0 0 0 0 0 0 0 0 0)).
  assert (E : validate_continuity (mk_ic 1 1 1) (get_values (mk_ic 1 1 1) 0 (state 0 0 1 (- K) 0 0 1 0 1 0 0) (state 0 0 0 0 0 0 0 0 0 0 0)) = - (2 * K)).
  { unfold validate_continuity, get_values, mk_ic. cbn. lra. }
  exists (mk_ic 1 1 1), [p], (- (2 * K)). split; [|split; [lra|]].
  - unfold max_difference, py_max, p. cbn [map max_from fst snd]. rewrite E. reflexivity.
  - exists p. split; [left; reflexivity|]. unfold p. cbn [fst snd]. rewrite E. rewrite Rabs_Ropp, Rabs_right; lra.
Qed.
Print Assumptions C91_residuals_refuted.
(** The ratio written under max_B_p_on_B_t is toroidal over poloidal field, so its maximum says nothing of the maximum of the ratio in its name. *)
Definition poloidal (row : vec) : R := sqrt (row iB_r ^ 2 + row iB_θ ^ 2).
Theorem C91_ratio_exact : forall row, poloidal row <> 0 -> row iB_φ <> 0 -> B_poloidal_vs_B_toroidal row = / (poloidal row / row iB_φ).
Proof. intros row H1 H2. unfold B_poloidal_vs_B_toroidal, poloidal in *. field. split; assumption. Qed.
Theorem C91_ratio_refuted : exists rows m, max_B_p_on_B_t rows = Ret m /\ ~ greatest m (map (fun row => poloidal row / row iB_φ) rows).
Proof.
  exists [state 0 2 1 0 0 0 1 0 0 0 0], 2. assert (S1 : sqrt (0 ^ 2 + 1 ^ 2) = 1) by (replace (0 ^ 2 + 1 ^ 2) with 1 by ring; apply sqrt_1).
  split.
  - unfold max_B_p_on_B_t, B_poloidal_vs_B_toroidal, py_max. cbn [map max_from]. f_equal.
    change (2 / sqrt (0 ^ 2 + 1 ^ 2) = 2). rewrite S1. field.
  - intros [[H|[]] _]. change (sqrt (0 ^ 2 + 1 ^ 2) / 2 = 2) in H. rewrite S1 in H. lra.
Qed.
Print Assumptions C91_ratio_refuted.
