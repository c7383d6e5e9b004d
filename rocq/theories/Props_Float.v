(** C118: the step search in floating-point arithmetic. *)
From Coq Require Import List Bool ZArith Reals Lra Lia Psatz.
From Flocq Require Import Core.
From Verif Require Import Lib_Py Model_Run Model_Array Model_Stepper Model_Float Spec_Run Spec_Stepper Spec_Float Proofs_Array Proofs_Run Proofs_Float Proofs_FloatSearch.
Import ListNotations.
Local Open Scope R_scope.
Notation pow2 := (bpow radix2).

Lemma representable_format : forall emin p x, representable emin p x -> generic_format radix2 (FLT_exp emin p) x.
Proof.
  intros emin p x (m & k & E & H1 & H2). apply generic_format_FLT. exists (Float radix2 m k); cbn; assumption.
Qed.
Lemma numbered_values : forall {Sol} k (ss : list Sol), map snd (numbered k ss) = ss.
Proof. intros Sol k ss. revert k. induction ss as [|s ss IH]; intro k; [reflexivity|]. change (numbered k (s :: ss)) with ((str_of_nat k, s) :: numbered (S k) ss). cbn [map snd]. rewrite IH. reflexivity. Qed.
Lemma format_representable : forall emin p x, (0 < p)%Z -> generic_format radix2 (FLT_exp emin p) x -> representable emin p x.
Proof.
  intros emin p x Hp H. assert (P : Prec_gt_0 p) by exact Hp. apply FLT_format_generic in H; [|exact P]. destruct H as [[m k] E H1 H2]. cbn in *. exists m, k. repeat split; assumption.
Qed.

(** Each operation of the model gives the number of the format nearest to the exact result; where two are, both are as near. *)
Theorem C118_rounded : forall emin p x, (3 <= p)%Z ->
  representable emin p (rounded emin p x) /\ (forall y, representable emin p y -> Rabs (rounded emin p x - x) <= Rabs (y - x)) /\
  (representable emin p x -> rounded emin p x = x).
Proof.
  intros emin p x Hp. assert (P : Prec_gt_0 p) by (unfold Prec_gt_0; lia).
  destruct (round_N_pt radix2 (FLT_exp emin p) (fun n => negb (Z.even n)) x) as [H1 H2]. split; [apply format_representable; [lia | exact H1]|]. split.
  - intros y Hy. apply H2. apply representable_format. exact Hy.
  - intro Hx. apply RN_exact, representable_format. exact Hx.
Qed.
Print Assumptions C118_rounded.
(** A third has no finite binary expansion: the number of three binary digits nearest to it is 5/16. *)
Example C118_rounded_nonvacuous : rounded (-10) 3 (1 / 3) = 5 / 16.
Proof.
  rewrite (RN_grid (-10) 3 (-1)); [| lia | lia |]; change (bpow radix2 (-1 - 3)) with (/ 16).
  - replace (1 / 3 / / 16) with (5 + 1 / 3) by field. rewrite (grid_inside 5) by (rewrite Rabs_pos_eq; lra). lra.
  - change (bpow radix2 (-1 - 1)) with (/ 4). change (bpow radix2 (-1)) with (/ 2). lra.
Qed.

(** The whole search.  All the numbers between the two bounds, with one first step more on each side, have the same exponent, so that
    they are the multiples of u = 2^(e-p).  Whatever the judge says between the bounds, the search ends by itself.  Its final solution
    is the only one accepted; or no solution is accepted, the final one diverges, and the one for the next smaller number changes sign. *)
Theorem C118_search_ends : forall {X Y I : Type} emin p e tenth fuel
  (solution_func : sinput (float_arith emin p tenth) (X := X) -> res (ssoln (float_arith emin p tenth) (X := X) (Y := Y) * bool)) get_type good ty lo hi γ0 (rest : X) (info : I) num mx m,
  let ar := float_arith emin p tenth in let u := pow2 (e - p) in let s0 := rounded emin p (tenth * γ0) in
  (3 <= p)%Z -> (emin + 3 * p <= e)%Z -> representable emin p γ0 -> pow2 (e - 1) <= γ0 <= pow2 e -> u <= s0 < pow2 e ->
  (forall inp, exists s, solution_func inp = Ok (s, good (s_γ ar inp)) /\ ss_input ar s = inp /\ ss_flag ar s <> None) ->
  (forall s, get_type s = Ok (ty (s_γ ar (ss_input ar s)))) ->
  settled lo hi ty -> pow2 (e - 1) <= lo - s0 -> hi + s0 <= pow2 e ->
  γ0 - lo < INR m * (s0 - u / 2) -> hi - γ0 < INR m * (s0 - u / 2) -> (m < mx)%nat -> (m + Z.to_nat p + 1 < num)%nat -> (5 <= fuel)%nat ->
  exists r' ss s γ,
    solver ar fuel solution_func get_type (mk_sinput ar (γ0 : F ar) rest) (new_run info) num mx false = (r', Ok true) /\
    r_final r' = Final s /\ r_solutions r' = numbered 0 (ss ++ [s]) /\ s_γ ar (ss_input ar s) = γ /\
    (forall x, In x ss -> good (s_γ ar (ss_input ar x)) = false) /\
    (good γ = true \/ good γ = false /\ (length ss <= m + Z.to_nat p + 1)%nat /\
     pow2 (e - 1) <= γ - u /\ γ <= pow2 e /\ ty γ = DIVERGE /\ ty (γ - u) = SIGN_FLIP).
Proof.
  intros X Y I emin p e tenth fuel sf gt good ty lo hi γ0 rest info num mx m ar u s0 Hp He Hγ HB Hs Hsol Hty (T1 & T2 & T3) Rl Rh Dl Dh Hm Hn Hf.
  apply representable_format in Hγ. assert (HU : 0 < u) by apply bpow_gt_0.
  set (G := ZnearestE (γ0 / u)). assert (EG : γ0 = IZR G * u) by (rewrite <- (RN_exact emin p γ0 Hγ) at 1; apply (RN_grid emin p e Hp He); exact HB).
  assert (S2 : u <= s0 < u * 2 ^ Z.to_nat p).
  { split; [apply Hs|]. replace (u * 2 ^ Z.to_nat p) with (pow2 e); [apply Hs|]. rewrite pow_IZR, Z2Nat.id by lia.
    change 2%Z with (radix_val radix2) at 1. rewrite IZR_Zpower by lia. unfold u. rewrite <- bpow_plus. f_equal. ring. }
  set (w0 := mk_sw ar (new_run info) (initial_stepper ar (s0 : F ar)) : sworld ar (X := X) (Y := Y)).
  assert (S := search_ends emin p e Hp He tenth fuel mx (rejecting ar sf) gt ty Hf (rejecting_sol ar sf good Hsol) Hty T1 s0 lo hi ltac:(apply RN_format; exact Hp) S2 T2 T3 Rl Rh m num w0 G rest
    (conj eq_refl eq_refl) ltac:(lia) Hm eq_refl ltac:(fold u; rewrite <- EG; exact HB) ltac:(fold u; rewrite <- EG; exact Dl) ltac:(fold u; rewrite <- EG; exact Dh)).
  fold u in S. rewrite <- EG in S.
  destruct (accept_or_not ar fuel mx sf gt good Hsol num 0 w0 (mk_sinput ar (γ0 : F ar) rest) [] (conj eq_refl eq_refl)) as [A|[EQ A]].
  - destruct A as (ss & s & Q1 & Q2 & Q3 & Q4 & Q5). unfold solver, binary_searcher. cbn [s_γ]. change (Model_Stepper.tenth ar (γ0 : F ar)) with (s0 : F ar). fold w0.
    destruct (search_loop _ _ _ _ num 0 w0 _) as [w best]. cbn [fst snd] in *. subst best. rewrite Q2.
    exists (sw_run ar w), ss, s, (s_γ ar (ss_input ar s)). repeat split; try assumption. left. exact Q4.
  - fold ar in S. rewrite <- EQ in S. clear EQ.
    destruct S as (ss & s & Q1 & Q2 & Q3 & Q4 & Q5 & Q6 & Q7 & Q8). destruct A as (ss' & A1 & A2). unfold solver, binary_searcher. cbn [s_γ].
    change (Model_Stepper.tenth ar (γ0 : F ar)) with (s0 : F ar). fold w0. fold ar in Q1, Q2, Q3.
    destruct (search_loop _ _ _ _ num 0 w0 _) as [w best]. cbn [fst snd] in *. subst best. rewrite Q2.
    assert (ES : ss ++ [s] = ss').
    { cbn [app] in Q3, A1. rewrite Q3 in A1. apply (f_equal (map snd)) in A1. rewrite !numbered_values in A1. exact A1. }
    exists (sw_run ar w), ss, s, (s_γ ar (ss_input ar s)). rewrite <- ES in A2.
    split; [reflexivity|]. split; [exact Q2|]. split; [exact Q3|]. split; [reflexivity|]. split; [intros x Hx; apply A2, in_or_app; left; exact Hx|].
    right. split; [apply A2, in_or_app; right; left; reflexivity|]. repeat split; try assumption. rewrite <- Nat.add_assoc. exact Q4.
Qed.
Print Assumptions C118_search_ends.

(** With a single threshold γs, the final number and the next smaller one are on its two sides unless a solution is accepted. *)
Theorem C118_threshold : forall {X Y I : Type} emin p e tenth fuel
  (solution_func : sinput (float_arith emin p tenth) (X := X) -> res (ssoln (float_arith emin p tenth) (X := X) (Y := Y) * bool)) get_type good ty γs γ0 (rest : X) (info : I) num mx m,
  let ar := float_arith emin p tenth in let u := pow2 (e - p) in let s0 := rounded emin p (tenth * γ0) in
  (3 <= p)%Z -> (emin + 3 * p <= e)%Z -> representable emin p γ0 -> pow2 (e - 1) <= γ0 <= pow2 e -> u <= s0 < pow2 e ->
  (forall inp, exists s, solution_func inp = Ok (s, good (s_γ ar inp)) /\ ss_input ar s = inp /\ ss_flag ar s <> None) ->
  (forall s, get_type s = Ok (ty (s_γ ar (ss_input ar s)))) ->
  threshold γs ty -> pow2 (e - 1) <= γs - s0 -> γs + s0 <= pow2 e ->
  Rabs (γ0 - γs) < INR m * (s0 - u / 2) -> (m < mx)%nat -> (m + Z.to_nat p + 1 < num)%nat -> (5 <= fuel)%nat ->
  exists r' s γ, solver ar fuel solution_func get_type (mk_sinput ar (γ0 : F ar) rest) (new_run info) num mx false = (r', Ok true) /\
    r_final r' = Final s /\ s_γ ar (ss_input ar s) = γ /\ (good γ = true \/ ty γ = DIVERGE /\ γ - u <= γs <= γ).
Proof.
  intros X Y I emin p e tenth fuel sf gt good ty γs γ0 rest info num mx m ar u s0 Hp He Hγ HB Hs Hsol Hty HT Rl Rh D Hm Hn Hf. apply Rabs_def2 in D.
  assert (HS : settled γs γs ty) by (split; [|split]; intro γ; apply HT).
  destruct (C118_search_ends emin p e tenth fuel sf gt good ty γs γs γ0 rest info num mx m Hp He Hγ HB Hs Hsol Hty HS Rl Rh) as (r' & ss & s & γ & E1 & E2 & _ & E3 & _ & E4);
    try assumption; try (fold s0 u; lra).
  exists r', s, γ. repeat split; try assumption. destruct E4 as [E4|(_ & _ & _ & _ & E4 & E5)]; [left; exact E4 | right]. destruct HS as (_ & H1 & H2). fold u in E5. repeat split; [exact E4 | |].
  - destruct (Rle_or_lt (γ - u) γs) as [L|L]; [exact L|]. assert (Q := H2 _ L). congruence.
  - destruct (Rle_or_lt γs γ) as [L|L]; [exact L|]. assert (Q := H1 _ L). congruence.
Qed.
Print Assumptions C118_threshold.

(** In double precision, with the defaults of 100 attempts and 20 search steps, from γ = 3/4 with the threshold at 2/3. *)
Example C118_double : forall {X : Type} (rest : X) fuel, (5 <= fuel)%nat ->
  let ar := float_arith (-1074) 53 (rounded (-1074) 53 (1 / 10)) in
  let sf (inp : sinput ar (X := X)) := Ok (mk_ssoln ar inp (Some 0%Z) tt, false) in
  let gt (s : ssoln ar (X := X) (Y := unit)) := Ok (if Rlt_dec (2 / 3) (s_γ ar (ss_input ar s) : R) then DIVERGE else SIGN_FLIP) in
  exists r' s, solver ar fuel sf gt (mk_sinput ar (3 / 4 : F ar) rest) (new_run tt) 100 20 false = (r', Ok true) /\ r_final r' = Final s /\
    (s_γ ar (ss_input ar s) : R) - pow2 (-53) <= 2 / 3 <= (s_γ ar (ss_input ar s) : R).
Proof.
  intros X rest fuel Hf ar sf gt.
  assert (K : forall m k, (Z.abs m < 2 ^ 53)%Z -> (-1074 <= k)%Z -> rounded (-1074) 53 (IZR m * pow2 k) = IZR m * pow2 k).
  { intros m k H1 H2. apply RN_exact, representable_format. exists m, k. repeat split; assumption. }
  assert (W : pow2 (-8) = / 256) by reflexivity. assert (W2 : pow2 (-53) <= / 1024) by (change (/ 1024) with (pow2 (-10)); apply bpow_le; lia). assert (W3 : 0 < pow2 (-53)) by apply bpow_gt_0.
  assert (A : 24 * pow2 (-8) <= rounded (-1074) 53 (1 / 10) <= 26 * pow2 (-8)).
  { split; [rewrite <- (K 24%Z (-8)%Z) by lia | rewrite <- (K 26%Z (-8)%Z) by lia]; apply RN_mono; try lia; rewrite W; lra. }
  assert (B : 18 * pow2 (-8) <= rounded (-1074) 53 (rounded (-1074) 53 (1 / 10) * (3 / 4)) <= 20 * pow2 (-8)).
  { rewrite W in A. split; [rewrite <- (K 18%Z (-8)%Z) by lia | rewrite <- (K 20%Z (-8)%Z) by lia]; apply RN_mono; try lia; rewrite W; lra. }
  rewrite W in B.
  destruct (C118_threshold (-1074) 53 0 (rounded (-1074) 53 (1 / 10)) fuel sf gt (fun _ => false) (fun γ => if Rlt_dec (2 / 3) γ then DIVERGE else SIGN_FLIP) (2 / 3) (3 / 4) rest tt 100 20 2) as (r' & s & γ & E1 & E2 & E3 & E4);
    change (0 - 53)%Z with (-53)%Z in *; change (pow2 (0 - 1)) with (/ 2) in *; change (pow2 0) with 1 in *; try lia; try lra.
  - exists 3%Z, (-2)%Z. repeat split; lia.
  - intro inp. eexists. split; [reflexivity|]. split; [reflexivity | discriminate].
  - reflexivity.
  - intro γ. destruct (Rlt_dec (2 / 3) γ); repeat split; auto; intros; lra.
  - cbn [INR]. rewrite Rabs_pos_eq; lra.
  - destruct E4 as [E4|[_ E4]]; [discriminate|]. exists r', s. rewrite <- E3 in E4. repeat split; try assumption; apply E4.
Qed.

(** What the search relies on: the step that leaves a number is not too small.  If it is, the loop that looks for a larger step never
    ends, although the step is positive. *)
Theorem C118_tiny_step_endless : forall {X : Type} emin p e tenth fuel γ s (rest : X), (3 <= p)%Z -> (emin + 4 * p + 1 <= e)%Z ->
  representable emin p γ -> pow2 (e - 1) <= γ -> γ + pow2 (e - p) <= pow2 e -> 0 <= s < pow2 (e - 2 * p - 2) ->
  let ar := float_arith emin p tenth in snd (step_func ar fuel (mk_sinput ar (γ : F ar) rest) SIGN_FLIP (s : F ar)) = Raise NonTermination.
Proof.
  intros X emin p e tenth fuel γ s rest Hp He Hγ H1 H2 Hs ar. apply representable_format in Hγ. assert (HU : 0 < pow2 (e - p)) by apply bpow_gt_0.
  set (G := ZnearestE (γ / pow2 (e - p))).
  assert (EG : γ = IZR G * pow2 (e - p)) by (rewrite <- (RN_exact emin p γ Hγ) at 1; apply (RN_grid emin p e Hp); [lia | lra]).
  rewrite EG in *. apply step_endless; try assumption. rewrite plus_IZR. lra.
Qed.
Print Assumptions C118_tiny_step_endless.
(** For γ = 3/4 in double precision, with a step of 2^-120. *)
Example C118_tiny_step_nonvacuous : representable (-1074) 53 (3 / 4) /\ 3 / 4 + pow2 (0 - 53) <= pow2 0 /\ 0 < pow2 (-120) < pow2 (0 - 2 * 53 - 2).
Proof.
  split; [exists 3%Z, (-2)%Z; repeat split; lia|]. split.
  - change (pow2 0) with 1. assert (pow2 (0 - 53) <= pow2 (-2)) by (apply bpow_le; lia). change (pow2 (-2)) with (/ 4) in *. lra.
  - split; [apply bpow_gt_0 | apply bpow_lt; lia].
Qed.
