(** C132: where the step search ends up, without any assumption about where solutions diverge. *)
From Coq Require Import List Bool Reals Lra Lia Arith ClassicalDedekindReals.
From Verif Require Import Lib_Py Model_Run Model_Stepper Spec_Stepper Spec_Limit Proofs_Run Proofs_Stepper.
From Verif Require Import Model_Index Model_Midplane Model_Ode Spec_Ode Spec_Midplane Spec_Unique Spec_Error Spec_Param Spec_Exist Spec_Edge Witness_Ode Props_Edge.
Open Scope R_scope.

Section Search.
Context {X : Type} (rest : X).
Variables (ty : R -> SplitterStatus) (mx : nat) (γ0 s0 : R).
Hypothesis T2 : two_answers ty.
Hypothesis Ps : 0 < s0.
Let tr (n : nat) := trajectory (fun _ => ty) mx n (initial_stepper R_arith (s0 : F R_arith), γ0) rest.

(** *** After the first change of the answer *)
Definition halving (st : stepper_state R_arith) (γ s : R) : Prop :=
  binary_started R_arith st = true /\ step_size R_arith st = s /\ 0 < s /\ ty (γ - s) = SIGN_FLIP /\ ty (γ + s) = DIVERGE.
Lemma halve_once : forall n st γ s, tr n = Some (st, γ) -> halving st γ s ->
  exists st' γ', tr (S n) = Some (st', γ') /\ halving st' γ' (s / 2) /\ γ - s <= γ' - s / 2 /\ γ' + s / 2 <= γ + s.
Proof.
  intros n st γ s E (B & Sz & P & L & H). unfold tr in *. cbn [trajectory]. rewrite E. unfold one_step, stepper_advance. rewrite B. cbn [negb].
  rewrite Sz. cbn [half R_arith]. rewrite step_exact by lra.
  destruct (T2 γ) as [A|A]; rewrite A; cbn [s_γ].
  - eexists _, (γ - s / 2). split; [reflexivity|]. split; [|lra]. split; [reflexivity|]. split; [reflexivity|]. split; [lra|].
    replace (γ - s / 2 - s / 2) with (γ - s) by field. replace (γ - s / 2 + s / 2) with γ by field. split; assumption.
  - eexists _, (γ + s / 2). split; [reflexivity|]. split; [|lra]. split; [reflexivity|]. split; [reflexivity|]. split; [lra|].
    replace (γ + s / 2 - s / 2) with γ by field. replace (γ + s / 2 + s / 2) with (γ + s) by field. split; assumption.
Qed.
Lemma halve_more : forall n st γ s, tr n = Some (st, γ) -> halving st γ s -> forall j,
  exists st' γ', tr (n + j)%nat = Some (st', γ') /\ halving st' γ' (s / 2 ^ j) /\ γ - s <= γ' - s / 2 ^ j /\ γ' + s / 2 ^ j <= γ + s.
Proof.
  intros n st γ s E H. induction j as [|j IH].
  - exists st, γ. rewrite Nat.add_0_r. replace (s / 2 ^ 0) with s by (cbn; field). split; [exact E|]. split; [exact H|]. lra.
  - destruct IH as (st1 & γ1 & E1 & H1 & B1). destruct (halve_once _ _ _ _ E1 H1) as (st2 & γ2 & E2 & H2 & B2).
    exists st2, γ2. rewrite Nat.add_succ_r. split; [exact E2|].
    replace (s / 2 ^ S j) with (s / 2 ^ j / 2) by (cbn [pow]; field; apply pow_nonzero; lra). split; [exact H2|]. lra.
Qed.

(** The nested intervals have a common point. *)
Lemma converge : forall n st γ s, tr n = Some (st, γ) -> halving st γ s -> exists γs, γ - s <= γs <= γ + s /\
  forall j, exists st' γ', tr (n + j)%nat = Some (st', γ') /\ halving st' γ' (s / 2 ^ j) /\ Rabs (γ' - γs) <= s / 2 ^ j.
Proof.
  intros n st γ s E H.
  set (at_ := fun j => match tr (n + j)%nat with Some (_, g) => g | None => 0 end).
  assert (G : forall j, exists st', tr (n + j)%nat = Some (st', at_ j) /\ halving st' (at_ j) (s / 2 ^ j)).
  { intros j. destruct (halve_more n st γ s E H j) as (st' & γ' & E' & H' & _). exists st'. unfold at_. rewrite E'. auto. }
  assert (Nest : forall i j, at_ i - s / 2 ^ i <= at_ (i + j)%nat - s / 2 ^ (i + j) /\ at_ (i + j)%nat + s / 2 ^ (i + j) <= at_ i + s / 2 ^ i).
  { intros i j. destruct (G i) as (st1 & E1 & H1). destruct (halve_more _ _ _ _ E1 H1 j) as (st2 & γ2 & E2 & H2 & B).
    rewrite <- Nat.add_assoc in E2. replace (at_ (i + j)%nat) with γ2 by (unfold at_; rewrite E2; reflexivity).
    replace (s / 2 ^ (i + j)) with (s / 2 ^ i / 2 ^ j); [exact B|]. rewrite pow_add. field. split; apply pow_nonzero; lra. }
  assert (Pj : forall j, 0 < s / 2 ^ j) by (intros j; destruct (G j) as (? & _ & _ & _ & P & _); exact P).
  assert (LH : forall i j, at_ i - s / 2 ^ i <= at_ j + s / 2 ^ j).
  { intros i j. pose proof (Nest i j) as (A & _). pose proof (Nest j i) as (_ & B). rewrite (Nat.add_comm j i) in B. specialize (Pj (i + j)%nat). lra. }
  assert (Z0 : at_ 0%nat = γ) by (unfold at_; rewrite Nat.add_0_r, E; reflexivity). assert (Z1 : s / 2 ^ 0 = s) by (cbn; field).
  destruct (completeness (fun x => exists j, x = at_ j - s / 2 ^ j)) as (γs & Up & Lo).
  - exists (at_ 0%nat + s / 2 ^ 0). intros x (j & ->). apply LH.
  - eexists. exists 0%nat. reflexivity.
  - assert (A : forall j, at_ j - s / 2 ^ j <= γs) by (intros j; apply Up; exists j; reflexivity).
    assert (B : forall j, γs <= at_ j + s / 2 ^ j) by (intros j; apply Lo; intros x (i & ->); apply LH).
    exists γs. split; [pose proof (A 0%nat); pose proof (B 0%nat); rewrite Z0, Z1 in *; lra|].
    intros j. destruct (G j) as (st' & E' & H'). exists st', (at_ j). split; [exact E'|]. split; [exact H'|]. specialize (A j). specialize (B j). apply Rabs_le. lra.
Qed.

(** *** Until the first change *)
Definition looking (st : stepper_state R_arith) (i : nat) (t : SplitterStatus) : Prop :=
  binary_started R_arith st = false /\ step_size R_arith st = s0 /\ search_steps R_arith st = i /\
  (prev_soln_type R_arith st = match i with O => None | S _ => Some t end).
Definition dir (t : SplitterStatus) : R := match t with DIVERGE => - s0 | _ => s0 end.
Lemma look : forall t, t = DIVERGE \/ t = SIGN_FLIP -> forall n, (n < mx)%nat -> (forall j, (j < n)%nat -> ty (γ0 + INR j * dir t) = t) ->
  exists st, tr n = Some (st, γ0 + INR n * dir t) /\ looking st n t.
Proof.
  intros t Ht. induction n as [|n IH]; intros Hn Ho.
  - exists (initial_stepper R_arith (s0 : F R_arith)). split; [unfold tr; cbn [trajectory INR]; rewrite Rmult_0_l, Rplus_0_r; reflexivity|]. repeat split.
  - destruct (IH ltac:(lia)) as (st & E & B & Sz & C & P); [intros j Hj; apply Ho; lia|]. unfold tr in *. cbn [trajectory]. rewrite E.
    unfold one_step, stepper_advance. rewrite B. cbn [negb]. rewrite C. replace (mx <? S n)%nat with false by (symmetry; apply Nat.ltb_ge; lia).
    rewrite (Ho n ltac:(lia)). rewrite P, Sz.
    assert (Q : γ0 + INR (S n) * dir t = γ0 + INR n * dir t + dir t) by (rewrite S_INR; ring).
    destruct n as [|n].
    + rewrite step_exact by lra. destruct Ht as [-> | ->]; cbn [s_γ]; eexists; (split; [rewrite Q; reflexivity|]); repeat split.
    + destruct (status_eq_dec t t) as [_|Nt]; [|exfalso; apply Nt; reflexivity].
      rewrite step_exact by lra. destruct Ht as [-> | ->]; cbn [s_γ]; eexists; (split; [rewrite Q; reflexivity|]); repeat split.
Qed.
Lemma first_change : forall t, t = DIVERGE \/ t = SIGN_FLIP -> forall m, (m < mx)%nat -> ty γ0 = t -> ty (γ0 + INR m * dir t) <> t ->
  exists n st γ, (n <= m)%nat /\ tr (S n) = Some (st, γ) /\ halving st γ (s0 / 2) /\ Rmin γ0 (γ0 + INR m * dir t) <= γ - s0 / 2 /\ γ + s0 / 2 <= Rmax γ0 (γ0 + INR m * dir t).
Proof.
  intros t Ht m Hm H0 H1.
  set (g := fun j => γ0 + INR j * dir t).
  assert (Le : forall k, (forall j, (j <= k)%nat -> ty (g j) = t) \/ exists n, (n < k)%nat /\ (forall j, (j <= n)%nat -> ty (g j) = t) /\ ty (g (S n)) <> t).
  { induction k as [|k [A|(n & Hn & A)]].
    - left. intros j Hj. replace j with 0%nat by lia. unfold g. cbn [INR]. rewrite Rmult_0_l, Rplus_0_r. exact H0.
    - destruct (status_eq_dec (ty (g (S k))) t) as [Y|N].
      + left. intros j Hj. destruct (Nat.eq_dec j (S k)) as [->|]; [exact Y|apply A; lia].
      + right. exists k. split; [lia|]. split; [exact A|exact N].
    - right. exists n. split; [lia|exact A]. }
  destruct (Le m) as [A|(n & Hn & A & N)]; [exfalso; apply H1, (A m); lia|].
  destruct (look t Ht (S n) ltac:(lia)) as (st & E & B & Sz & C & P); [intros j Hj; apply (A j); lia|].
  assert (Q : g (S n) = g n + dir t) by (unfold g; rewrite S_INR; ring).
  assert (Rn : 0 <= INR n) by apply pos_INR. assert (Rm : INR (S n) <= INR m) by (apply le_INR; lia). rewrite S_INR in Rm.
  exists (S n). unfold tr in *. cbn [trajectory] in *. rewrite E. change (γ0 + INR (S n) * dir t) with (g (S n)).
  unfold one_step, stepper_advance. rewrite B. cbn [negb]. rewrite C. replace (mx <? S (S n))%nat with false by (symmetry; apply Nat.ltb_ge; lia).
  rewrite P. destruct (status_eq_dec t (ty (g (S n)))) as [Y|_]; [exfalso; apply N; symmetry; exact Y|].
  rewrite Sz. cbn [half R_arith]. rewrite step_exact by lra. pose proof (A n ltac:(lia)) as An.
  destruct Ht as [-> | ->].
  - destruct (T2 (g (S n))) as [Z|Z]; [contradiction|]. rewrite Z. cbn [s_γ]. eexists _, _. split; [lia|]. split; [reflexivity|].
    rewrite Q in *. unfold dir in *. unfold halving. cbn [binary_started step_size]. split; [split; [reflexivity|]; split; [reflexivity|]; split; [lra|]; split|].
    + replace (g n + - s0 + s0 / 2 - s0 / 2) with (g n + - s0) by field. exact Z.
    + replace (g n + - s0 + s0 / 2 + s0 / 2) with (g n) by field. exact An.
    + unfold g. pose proof (Rmin_r γ0 (γ0 + INR m * - s0)). pose proof (Rmax_l γ0 (γ0 + INR m * - s0)). nra.
  - destruct (T2 (g (S n))) as [Z|Z]; [|contradiction]. rewrite Z. cbn [s_γ]. eexists _, _. split; [lia|]. split; [reflexivity|].
    rewrite Q in *. unfold dir in *. unfold halving. cbn [binary_started step_size]. split; [split; [reflexivity|]; split; [reflexivity|]; split; [lra|]; split|].
    + replace (g n + s0 - s0 / 2 - s0 / 2) with (g n) by field. exact An.
    + replace (g n + s0 - s0 / 2 + s0 / 2) with (g n + s0) by field. exact Z.
    + unfold g. pose proof (Rmin_l γ0 (γ0 + INR m * s0)). pose proof (Rmax_r γ0 (γ0 + INR m * s0)). nra.
Qed.
End Search.

(** Whatever the answers are, in exact arithmetic: if the search meets both within the steps it may take, the values it tries converge,
    to a number next to which there are both answers. *)
Theorem C132_limit : forall {X : Type} (rest : X) ty mx γ0 s0 m γ1, two_answers ty -> 0 < s0 -> (m < mx)%nat -> meets_other ty γ0 s0 m γ1 ->
  exists n γs, (n <= m)%nat /\ approaches rest ty mx γ0 s0 n γs /\ between_answers ty (Rmin γ0 γ1) (Rmax γ0 γ1) γs.
Proof.
  intros X rest ty mx γ0 s0 m γ1 T2 Ps Hm M.
  assert (F : exists n st γ, (n <= m)%nat /\ trajectory (fun _ => ty) mx (S n) (initial_stepper R_arith (s0 : F R_arith), γ0) rest = Some (st, γ) /\
    halving ty st γ (s0 / 2) /\ Rmin γ0 γ1 <= γ - s0 / 2 /\ γ + s0 / 2 <= Rmax γ0 γ1).
  { destruct M as [(A & -> & B)|(A & -> & B)].
    - replace (γ0 - INR m * s0) with (γ0 + INR m * dir s0 DIVERGE) in * by (cbn [dir]; ring).
      apply (first_change rest ty mx γ0 s0 T2 Ps DIVERGE (or_introl eq_refl) m Hm A). rewrite B. discriminate.
    - apply (first_change rest ty mx γ0 s0 T2 Ps SIGN_FLIP (or_intror eq_refl) m Hm A). cbn [dir]. rewrite B. discriminate. }
  destruct F as (n & st & γ & Hn & E & H & Lo & Hi).
  destruct (converge rest ty mx γ0 s0 T2 (S n) st γ (s0 / 2) E H) as (γs & Is & C). exists n, γs. split; [exact Hn|].
  assert (Half : forall k, s0 / 2 / 2 ^ k = s0 / 2 ^ S k) by (intros k; cbn [pow]; field; apply pow_nonzero; lra).
  split.
  - intros k. destruct (C k) as (st' & γ' & E' & _ & D). exists st', γ'. rewrite Half in D. split; [exact E'|exact D].
  - intros ε Pε. destruct (archimed_cor1 (ε / s0)) as (N & HN & PN); [apply Rdiv_lt_0_compat; assumption|].
    destruct (halve_more rest ty mx γ0 s0 T2 (S n) st γ (s0 / 2) E H N) as (st1 & γ1' & E1 & _ & B1 & B2).
    destruct (C N) as (st' & γ' & E' & (_ & _ & P' & L' & H') & D). rewrite E1 in E'. injection E' as _ <-.
    assert (Nz : 0 < INR N) by (apply lt_0_INR; lia).
    assert (Pow : INR N <= 2 ^ N).
    { clear. induction N as [|N IH]; [cbn; lra|]. rewrite S_INR. cbn [pow]. assert (1 <= 2 ^ N) by (apply pow_R1_Rle; lra). lra. }
    assert (Small : s0 / 2 / 2 ^ N * 2 < ε).
    { replace (s0 / 2 / 2 ^ N * 2) with (s0 * / 2 ^ N) by (field; apply pow_nonzero; lra).
      apply Rle_lt_trans with (s0 * / INR N); [apply Rmult_le_compat_l; [lra|apply Rinv_le_contravar; assumption]|].
      replace ε with (s0 * (ε / s0)) by (field; lra). apply Rmult_lt_compat_l; assumption. }
    assert (D' : - (s0 / 2 / 2 ^ N) <= γ1' - γs <= s0 / 2 / 2 ^ N) by (unfold Rabs in D; destruct (Rcase_abs (γ1' - γs)) in D; lra).
    exists (γ1' - s0 / 2 / 2 ^ N), (γ1' + s0 / 2 / 2 ^ N); repeat split; try assumption; lra.
Qed.
Print Assumptions C132_limit.

(** If the search judges the solutions of a continuous family (C131) by whether the gas slows down, the values it tries converge to a
    number for which the gas does not slow down, although for numbers below it, as near as one likes, it does. *)
Theorem C132_edge : forall {X : Type} (rest : X) O P a b ty mx γ0 s0 m γ1, two_answers ty -> 0 < s0 -> (m < mx)%nat -> meets_other ty γ0 s0 m γ1 ->
  continuous_family O P (Rmin γ0 γ1) (Rmax γ0 γ1) ->
  (forall g, Rmin γ0 γ1 <= g <= Rmax γ0 γ1 -> interpolant_continuous (O g) a b /\ oa_with_taylor (O g) = false /\ (ty g = SIGN_FLIP <-> slows (O g) (P g) a b)) ->
  exists n γs, (n <= m)%nat /\ approaches rest ty mx γ0 s0 n γs /\ Rmin γ0 γ1 <= γs <= Rmax γ0 γ1 /\ ~ slows (O γs) (P γs) a b /\
    forall ε, 0 < ε -> exists g, γs - ε < g < γs /\ slows (O g) (P g) a b.
Proof.
  intros X rest O P a b ty mx γ0 s0 m γ1 T2 Ps Hm M Cf J.
  destruct (C132_limit rest ty mx γ0 s0 m γ1 T2 Ps Hm M) as (n & γs & Hn & Ap & Be). exists n, γs. split; [exact Hn|]. split; [exact Ap|].
  assert (Is : Rmin γ0 γ1 <= γs <= Rmax γ0 γ1) by (destruct (Be 1 ltac:(lra)) as (lo & hi & A & B & _); lra). split; [exact Is|].
  assert (Ns : ~ slows (O γs) (P γs) a b).
  { intros S. destruct (J γs Is) as (Hi & T & _). destruct (slows_nearby (O γs) (P γs) a b Hi T S) as (δ & Pδ & H).
    destruct (Cf γs Is δ Pδ) as (η & Pη & N). destruct (Be η Pη) as (lo & hi & A & B & D & _ & Hd).
    assert (Q : Rmin γ0 γ1 <= hi <= Rmax γ0 γ1) by lra. destruct (J hi Q) as (_ & _ & Jh).
    assert (F : ty hi = SIGN_FLIP) by (apply Jh, H, N; [exact Q|apply Rabs_def1; lra]). congruence. }
  split; [exact Ns|]. intros ε Pε. destruct (Be ε Pε) as (lo & hi & A & B & D & Fl & _). exists lo.
  assert (Q : Rmin γ0 γ1 <= lo <= Rmax γ0 γ1) by lra. destruct (J lo Q) as (_ & _ & Jl). apply Jl in Fl. split; [|exact Fl].
  split; [lra|]. destruct (Req_dec lo γs) as [->|]; [contradiction|lra].
Qed.
Print Assumptions C132_edge.

(** For the set-ups of the code: one input, γ varied, the integration started after the Taylor jump. At the limit the vertical speed
    never falls, up to the last angle or until any given distance from the singular states is used up. *)
Corollary C132_step_search : forall {X : Type} (rest : X) inp ηd stop b ty mx γ0 m γ1, two_answers ty -> 0 < γ0 -> (m < mx)%nat ->
  meets_other ty γ0 (γ0 / 10) m γ1 -> 0 < in_η_O inp + in_η_A inp -> in_v_a_on_c_s inp <> 0 -> stop <= b ->
  (forall g, Rmin γ0 γ1 <= g <= Rmax γ0 γ1 -> regular_midplane inp g /\ 0 <= start_for inp ηd stop g iη_A /\
    (ty g = SIGN_FLIP <-> slows (system_for inp ηd g) (start_for inp ηd stop g) stop b)) ->
  exists n γs, (n <= m)%nat /\ approaches rest ty mx γ0 (γ0 / 10) n γs /\ Rmin γ0 γ1 <= γs <= Rmax γ0 γ1 /\
    (forall ε, 0 < ε -> exists g, γs - ε < g < γs /\ slows (system_for inp ηd g) (start_for inp ηd stop g) stop b) /\
    forall δ M, 0 < δ -> let o := system_for inp ηd γs in let p := start_for inp ηd stop γs in
      margin o δ M stop p -> accepted_from o δ p -> ambipolar_from o δ p ->
      exists y e, stop <= e <= b /\ (forall i, (i < ODE_LEN)%nat -> y stop i = p i) /\ (forall x, stop <= x <= e -> solves_at o y x /\ regular o x (y x)) /\
        (forall x1 x2, stop <= x1 -> x1 < x2 -> x2 <= e -> y x1 iv_θ <= y x2 iv_θ) /\ (e = b \/ ~ (margin o δ M e (y e) /\ ambipolar_from o δ (y e))).
Proof.
  intros X rest inp ηd stop b ty mx γ0 m γ1 T2 Pγ Hm M PP Ha Hb H.
  assert (I : forall g, interpolant_continuous (system_for inp ηd g) stop b) by (intros g f Ef; discriminate Ef).
  destruct (C132_edge rest (system_for inp ηd) (start_for inp ηd stop) stop b ty mx γ0 (γ0 / 10) m γ1 T2 ltac:(lra) Hm M) as (n & γs & Hn & Ap & Is & Ns & Be).
  - apply C131_start_continuous; [exact PP|exact Ha|]. intros g Hg. destruct (H g Hg) as (A & B & _). split; assumption.
  - intros g Hg. split; [apply I|]. split; [reflexivity|]. apply H, Hg.
  - exists n, γs. split; [exact Hn|]. split; [exact Ap|]. split; [exact Is|]. split; [exact Be|]. intros δ M' Pδ o p Mg Ac Am.
    apply (C131_rises o stop b δ M' p Hb Pδ (I γs) eq_refl Mg Ac Am Ns).
Qed.
Print Assumptions C132_step_search.

(** Not empty: a judge without a threshold, who says flip, diverge, flip, diverge as γ grows. *)
Definition judge (γ : R) : SplitterStatus :=
  if Rlt_dec γ (1 / 3) then SIGN_FLIP else if Rlt_dec γ (1 / 2) then DIVERGE else if Rlt_dec γ (3 / 4) then SIGN_FLIP else DIVERGE.
Example C132_nonvacuous : two_answers judge /\ meets_other judge 1 (1 / 10) 8 (1 - INR 8 * (1 / 10)) /\
  exists n γs, approaches tt judge 20 1 (1 / 10) n γs /\ between_answers judge (1 - INR 8 * (1 / 10)) 1 γs.
Proof.
  assert (T : two_answers judge) by (intros γ; unfold judge; repeat destruct (Rlt_dec _ _); auto).
  assert (M : meets_other judge 1 (1 / 10) 8 (1 - INR 8 * (1 / 10))).
  { left. cbn [INR]. unfold judge. split; [repeat (destruct (Rlt_dec _ _) as [L|L]; [lra|clear L]); reflexivity|]. split; [reflexivity|].
    destruct (Rlt_dec _ _) as [L|L]; [reflexivity|lra]. }
  split; [exact T|]. split; [exact M|].
  destruct (C132_limit tt judge 20 1 (1 / 10) 8 _ T ltac:(lra) ltac:(lia) M) as (n & γs & _ & A & B). exists n, γs. split; [exact A|].
  rewrite Rmin_right, Rmax_left in B by (cbn [INR]; lra). exact B.
Qed.
(** And the disc of C131, searched from 1/8 downwards: the limit is an edge at 1/16 or above. *)
Example C132_edge_nonvacuous : exists b n γs ty, 0 < b /\ approaches tt ty 20 (1 / 8) (1 / 80) n γs /\ 1 / 16 <= γs <= 1 / 8 /\
  ~ slows (o_edge γs) p_edge 0 b /\ forall ε, 0 < ε -> exists g, γs - ε < g < γs /\ slows (o_edge g) p_edge 0 b.
Proof.
  assert (Hi : forall g b, interpolant_continuous (o_edge g) 0 b) by (intros g b f Ef; discriminate Ef).
  destruct (edge_start (1 / 8)) as (E1 & E2 & E3).
  destruct (C131_rises_at_once (o_edge (1 / 8)) 0 1 (1 / 4) 1 p_edge ltac:(lra) ltac:(lra) (Hi _ _) E1 E2 E3) as (b & Hb & Nb); [rewrite edge_slope; lra|].
  assert (Low : forall g, g < 1 / 16 -> slows (o_edge g) p_edge 0 b).
  { intros g Hg. destruct (edge_start g) as (F1 & F2 & F3).
    apply (C131_falls_at_once (o_edge g) 0 b (1 / 4) 1 p_edge ltac:(lra) ltac:(lra) (Hi _ _) F1 F2 F3). rewrite edge_slope. lra. }
  set (ty := fun g => if sig_not_dec (slows (o_edge g) p_edge 0 b) then SIGN_FLIP else DIVERGE).
  assert (J : forall g, ty g = SIGN_FLIP <-> slows (o_edge g) p_edge 0 b).
  { intros g. unfold ty. destruct (sig_not_dec _) as [Y|N]; split; intros Q; [apply Classical_Prop.NNPP, Y|reflexivity|discriminate|contradiction]. }
  assert (T : two_answers ty) by (intros g; unfold ty; destruct (sig_not_dec _); auto).
  assert (E : 1 / 8 - INR 6 * (1 / 80) = 1 / 20) by (cbn [INR]; field).
  assert (M : meets_other ty (1 / 8) (1 / 80) 6 (1 / 20)).
  { left. rewrite E. split; [destruct (T (1 / 8)) as [D|D]; [exact D|apply J in D; contradiction]|]. split; [reflexivity|]. apply J, Low. lra. }
  destruct (C132_edge tt o_edge (fun _ => p_edge) 0 b ty 20 (1 / 8) (1 / 80) 6 (1 / 20) T ltac:(lra) ltac:(lia) M) as (n & γs & _ & A & Is & Ns & Be).
  - intros g Hg δ Pδ. exists δ. split; [exact Pδ|]. intros g' Hg' D. split; [repeat split|]. split.
    + unfold parameter_gap, o_edge, state. cbn [oa_γ oa_a_0 oa_norm_kepler_sq oa_init_con iη_O iη_A iη_H]. rewrite !(Rminus_diag_eq _ _ eq_refl), Rabs_R0, Rabs_minus_sym. lra.
    + split; [reflexivity|]. split; [cbn; lra|]. intros i _. rewrite Rminus_diag_eq, Rabs_R0 by reflexivity. exact Pδ.
  - intros g _. split; [apply Hi|]. split; [reflexivity|apply J].
  - exists b, n, γs, ty. split; [lra|]. split; [exact A|]. rewrite Rmin_right, Rmax_left in Is by lra. split; [|split; [exact Ns|exact Be]].
    split; [|lra]. destruct (Rlt_dec γs (1 / 16)) as [L|L]; [exfalso; apply Ns, Low, L|lra].
Qed.
