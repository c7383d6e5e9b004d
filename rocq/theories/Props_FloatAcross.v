(** C119: the step search in floating-point arithmetic, across powers of two. *)
From Coq Require Import List Bool ZArith Reals Lra Lia Psatz.
From Flocq Require Import Core.
From Verif Require Import Lib_Py Model_Run Model_Array Model_Stepper Model_Float Spec_Run Spec_Stepper Spec_Float Proofs_Array Proofs_Run Proofs_Float Proofs_FloatSearch Proofs_FloatAcross Witness_Float Props_Float.
Import ListNotations.
Local Open Scope R_scope.

(** 7/10 and 1/10 in double precision. *)
Definition d_07 : zf := (6305039478318694, -53)%Z.
Definition d_01 : zf := (3602879701896397, -55)%Z.
Lemma d_07_is : rounded (-1074) 53 (7 / 10) = fl d_07.
Proof.
  rewrite (RN_grid (-1074) 53 0) by (lia || (change (bpow radix2 (0 - 1)) with (/ 2); change (bpow radix2 0) with 1; lra)).
  change (0 - 53)%Z with (-53)%Z. unfold fl, d_07. cbn [fst snd]. f_equal. f_equal. apply Znearest_imp.
  replace (7 / 10 / bpow radix2 (-53)) with (7 / 10 * IZR (2 ^ 53)); [|change (bpow radix2 (-53)) with (/ IZR (2 ^ 53)); unfold Rdiv; rewrite Rinv_inv; reflexivity].
  change (2 ^ 53)%Z with 9007199254740992%Z. apply Rabs_def1; lra.
Qed.
Lemma d_01_is : rounded (-1074) 53 (1 / 10) = fl d_01.
Proof.
  rewrite (RN_grid (-1074) 53 (-3)) by (lia || (change (bpow radix2 (-3 - 1)) with (/ 16); change (bpow radix2 (-3)) with (/ 8); lra)).
  change (-3 - 53)%Z with (-56)%Z. unfold fl, d_01. cbn [fst snd].
  replace (ZnearestE (1 / 10 / bpow radix2 (-56))) with (3602879701896397 * 2)%Z.
  - rewrite mult_IZR. change (-55)%Z with (-56 + 1)%Z. rewrite bpow_plus_1. cbn [radix_val radix2]. ring.
  - symmetry. apply Znearest_imp.
    replace (1 / 10 / bpow radix2 (-56)) with (1 / 10 * IZR (2 ^ 56)); [|change (bpow radix2 (-56)) with (/ IZR (2 ^ 56)); unfold Rdiv; rewrite Rinv_inv; reflexivity].
    change (2 ^ 56)%Z with 72057594037927936%Z. change (3602879701896397 * 2)%Z with 7205759403792794%Z. apply Rabs_def1; lra.
Qed.
(** Double precision, the default limits, from γ = 0.7, with a threshold just below 1/2.  The search reports success, but a number smaller
    than the final one diverges as well: on its way down the search crosses 1/2, where the distance of neighbouring numbers halves. *)
Theorem C119_neighbours_refuted : forall {X Y I : Type} fuel (rest : X) (info : I),
  let ar := float_arith (-1074) 53 (rounded (-1074) 53 (1 / 10)) in
  let γ0 := rounded (-1074) 53 (7 / 10) in let γs := 1 / 2 - 4 * pow2 (-54) in
  forall (solution_func : sinput ar (X := X) -> res (ssoln ar (X := X) (Y := Y) * bool)) get_type,
  (5 <= fuel)%nat ->
  (forall inp, exists s, solution_func inp = Ok (s, false) /\ ss_input ar s = inp /\ ss_flag ar s <> None) ->
  (forall s, get_type s = Ok (if Rlt_dec γs (s_γ ar (ss_input ar s)) then DIVERGE else SIGN_FLIP)) ->
  exists r' s γ y, solver ar fuel solution_func get_type (mk_sinput ar (γ0 : F ar) rest) (new_run info) 100 20 false = (r', Ok true) /\
    r_final r' = Final s /\ s_γ ar (ss_input ar s) = γ /\ representable (-1074) 53 y /\ γs < y < γ.
Proof.
  intros X Y I fuel rest info ar γ0 γs sf gt Hf Hsol Hty. set (th := (2 ^ 53 - 4, -54)%Z : zf).
  assert (P54 : bpow radix2 (-54) = / IZR (2 ^ 54)) by reflexivity. change (2 ^ 54)%Z with 18014398509481984%Z in P54.
  assert (TH : γs = fl th). { unfold γs, fl, th. cbn [fst snd]. change (2 ^ 53 - 4)%Z with 9007199254740988%Z. rewrite P54. lra. }
  rewrite TH in Hty |- *. set (s0 := (5044031582654955, -56)%Z : zf).
  assert (S0 : rounded (-1074) 53 (rounded (-1074) 53 (1 / 10) * γ0) = fl s0).
  { unfold γ0. rewrite d_01_is, d_07_is.
    destruct (zround_spec (-1074) 53 (fst d_01 * fst d_07, snd d_01 + snd d_07)%Z s0) as [E _]; [vm_compute; reflexivity|]. rewrite <- E. f_equal.
    unfold fl. cbn [fst snd]. rewrite mult_IZR, bpow_plus. ring. }
  set (w0 := mk_sw ar (new_run info) (initial_stepper ar (fl s0 : F ar)) : sworld ar (X := X) (Y := Y)).
  destruct (zloop_spec (-1074) 53 (rounded (-1074) 53 (1 / 10)) th fuel 20 sf gt Hsol Hty 100 0 false None d_07 s0 (9007199254740990, -54)%Z 54 w0 [] rest) as (ss & x & Q).
  - replace fuel with (5 + (fuel - 5))%nat by lia. generalize (fuel - 5)%nat. intro f. vm_compute. reflexivity.
  - split; reflexivity.
  - split; [reflexivity|]. split; [reflexivity|]. intros _. split; reflexivity.
  - cbn zeta in Q. cbn [length] in Q. unfold solver, binary_searcher. cbn [s_γ]. change (Model_Stepper.tenth ar (γ0 : F ar)) with (rounded (-1074) 53 (rounded (-1074) 53 (1 / 10) * γ0)).
    rewrite S0. unfold γ0. rewrite d_07_is. fold ar in Q. fold w0.
    destruct (search_loop _ _ _ _ 100 0 w0 _) as [w best]. cbn [fst snd] in Q. destruct Q as (Q1 & Q2 & _ & _ & Q5). subst best. rewrite Q2.
    exists (sw_run ar w), x, (fl (9007199254740990, -54)%Z), (fl (9007199254740989, -54)%Z). split; [reflexivity|]. split; [exact Q2|]. split; [exact Q5|].
    split; [exists 9007199254740989%Z, (-54)%Z; repeat split; cbn; lia|]. unfold fl, th. cbn [fst snd]. change (2 ^ 53 - 4)%Z with 9007199254740988%Z. rewrite P54. lra.
Qed.
Print Assumptions C119_neighbours_refuted.

(** What holds instead, for searches in two neighbouring ranges of exponents: the numbers from 2^(e-2) to 2^(e-1) are the multiples of
    v = 2^(e-1-p) and those from 2^(e-1) to 2^e the multiples of 2v.  The search ends by itself.  Unless a solution is accepted, the final
    one diverges, one at most 4v below it (3v, if it is above the power of two in the middle) changes sign, and the threshold is
    between the two.  Missing: that no number is between the two, which C119_neighbours_refuted shows to be false. *)
Theorem C119_near_partial : forall {X Y I : Type} emin p e tenth fuel
  (solution_func : sinput (float_arith emin p tenth) (X := X) -> res (ssoln (float_arith emin p tenth) (X := X) (Y := Y) * bool)) get_type good ty γs γ0 (rest : X) (info : I) num mx m,
  let ar := float_arith emin p tenth in let v := pow2 (e - 1 - p) in let s0 := rounded emin p (tenth * γ0) in
  (5 <= p)%Z -> (emin + 3 * p + 1 <= e)%Z -> representable emin p γ0 -> pow2 (e - 2) <= γ0 <= pow2 e -> 2 * v <= s0 <= pow2 e ->
  (forall inp, exists s, solution_func inp = Ok (s, good (s_γ ar inp)) /\ ss_input ar s = inp /\ ss_flag ar s <> None) ->
  (forall s, get_type s = Ok (ty (s_γ ar (ss_input ar s)))) ->
  threshold γs ty -> pow2 (e - 2) <= γs - s0 -> γs + s0 <= pow2 e ->
  Rabs (γ0 - γs) < INR m * (s0 - v) -> (m < mx)%nat -> (m + Z.to_nat p + 3 < num)%nat -> (17 <= fuel)%nat ->
  exists r' ss s γ,
    solver ar fuel solution_func get_type (mk_sinput ar (γ0 : F ar) rest) (new_run info) num mx false = (r', Ok true) /\
    r_final r' = Final s /\ r_solutions r' = numbered 0 (ss ++ [s]) /\ s_γ ar (ss_input ar s) = γ /\
    (forall x, In x ss -> good (s_γ ar (ss_input ar x)) = false) /\
    (good γ = true \/ good γ = false /\ (length ss <= m + Z.to_nat p + 3)%nat /\ ty γ = DIVERGE /\
     exists y, representable emin p y /\ ty y = SIGN_FLIP /\ y <= γs <= γ /\ y < γ <= y + 4 * v /\ (pow2 (e - 1) < γ -> γ <= y + 3 * v)).
Proof.
  intros X Y I emin p e tenth fuel sf gt good ty γs γ0 rest info num mx m ar v s0 Hp He Hγ HB Hs Hsol Hty HT Rl Rh D Hm Hn Hf.
  apply representable_format in Hγ. assert (HV : 0 < v) by apply bpow_gt_0.
  rewrite (at_low p e Hp) in HB, Rl. rewrite (at_high p e Hp) in HB, Hs, Rh. fold v in HB, Rl, Rh, Hs.
  assert (E0 : γ0 = γ0 / v * v) by (field; lra). assert (ES : s0 = s0 / v * v) by (field; lra). assert (ET : γs = γs / v * v) by (field; lra).
  destruct (rounds_to emin p e Hp He (γ0 / v)) as (G & EG & VG & _).
  { split; apply (Rmult_le_reg_r v); try exact HV; lra. }
  fold v in EG. rewrite <- E0, (RN_exact emin p γ0 Hγ) in EG.
  assert (Lo : forall γ, ty γ = DIVERGE -> γs <= γ) by (intros γ H; destruct (Rle_or_lt γs γ) as [L|L]; [exact L | destruct (HT γ) as (_ & HX & HY); rewrite (HY L) in H; discriminate]).
  assert (Hi : forall γ, ty γ = SIGN_FLIP -> γ <= γs) by (intros γ H; destruct (Rle_or_lt γ γs) as [L|L]; [exact L | destruct (HT γ) as (_ & HX & HY); rewrite (HX L) in H; discriminate]).
  assert (Mo : forall a b, ty a = SIGN_FLIP -> ty b = DIVERGE -> a < b).
  { intros a b H1 H2. assert (A1 := Hi a H1). assert (A2 := Lo b H2). destruct (Rle_lt_or_eq_dec a b ltac:(lra)) as [L| ->]; [exact L | congruence]. }
  assert (S0 : 2 <= s0 / v <= 2 ^ (Z.to_nat p + 1)).
  { split; [apply (Rmult_le_reg_r v); lra|]. rewrite pow_IZR. replace (Z.of_nat (Z.to_nat p + 1)) with (p + 1)%Z by lia. apply (Rmult_le_reg_r v); lra. }
  set (w0 := mk_sw ar (new_run info) (initial_stepper ar (s0 : F ar)) : sworld ar (X := X) (Y := Y)).
  assert (S := search_ends2 emin p e Hp He tenth fuel Hf Y I mx (rejecting ar sf) gt ty (rejecting_sol ar sf good Hsol) Hty (fun γ => proj1 (HT γ)) Mo (s0 / v) (γs / v)
    ltac:(fold v; rewrite <- ES; apply RN_format; lia) S0 ltac:(fold v; rewrite <- ET; exact Lo) ltac:(fold v; rewrite <- ET; exact Hi)
    ltac:(apply (Rmult_le_reg_r v); lra) ltac:(apply (Rmult_le_reg_r v); lra) m num w0 G rest (conj eq_refl eq_refl) ltac:(lia) Hm ltac:(fold v; rewrite <- ES; reflexivity) VG).
  fold v in S. rewrite <- EG in S. lapply S; [clear S; intro S|].
  2: { apply Rabs_def2 in D. apply Rabs_def1; apply (Rmult_lt_reg_r v); try exact HV; rewrite ?Rmult_minus_distr_r, <- ?EG, <- ?ET;
       replace (INR m * (s0 / v - 1) * v) with (INR m * (s0 - v)) by (rewrite ES at 1; ring); [|replace (- (INR m * (s0 / v - 1)) * v) with (- (INR m * (s0 - v))) by (rewrite ES at 1; ring)]; lra. }
  destruct (accept_or_not ar fuel mx sf gt good Hsol num 0 w0 (mk_sinput ar (γ0 : F ar) rest) [] (conj eq_refl eq_refl)) as [A|[EQ A]].
  - destruct A as (ss & s & Q1 & Q2 & Q3 & Q4 & Q5). unfold solver, binary_searcher. cbn [s_γ]. change (Model_Stepper.tenth ar (γ0 : F ar)) with (s0 : F ar). fold w0.
    destruct (search_loop _ _ _ _ num 0 w0 _) as [w best]. cbn [fst snd] in *. subst best. rewrite Q2.
    exists (sw_run ar w), ss, s, (s_γ ar (ss_input ar s)). repeat split; try assumption. left. exact Q4.
  - fold ar in S. rewrite <- EQ in S. clear EQ.
    destruct S as (ss & s & Gl & O & Q1 & Q2 & Q3 & Q4 & Q5 & VGl & VO & TG & TO & Q6 & Q7). destruct A as (ss' & A1 & A2). unfold solver, binary_searcher. cbn [s_γ].
    change (Model_Stepper.tenth ar (γ0 : F ar)) with (s0 : F ar). fold w0. fold ar in Q1, Q2, Q3.
    destruct (search_loop _ _ _ _ num 0 w0 _) as [w best]. cbn [fst snd] in *. subst best. rewrite Q2.
    assert (EL : ss ++ [s] = ss').
    { cbn [app] in Q3, A1. rewrite Q3 in A1. apply (f_equal (map snd)) in A1. rewrite !numbered_values in A1. exact A1. }
    exists (sw_run ar w), ss, s, (s_γ ar (ss_input ar s)). rewrite <- EL in A2.
    split; [reflexivity|]. split; [exact Q2|]. split; [exact Q3|]. split; [reflexivity|]. split; [intros x Hx; apply A2, in_or_app; left; exact Hx|].
    right. split; [apply A2, in_or_app; right; left; reflexivity|]. split; [rewrite <- Nat.add_assoc; exact Q4|]. fold ar in Q5. rewrite Q5. split; [exact TG|]. fold v in TG, TO |- *.
    exists (IZR O * v). apply IZR_le in Q6. rewrite minus_IZR in Q6. split; [|split; [exact TO | split; [split; [apply Hi | apply Lo]; assumption | split; [split; [apply Mo; assumption | nra]|]]]].
    + apply format_representable; [lia|]. destruct VO as [VO1 VO2].
      destruct (rounds_to emin p e Hp He (IZR O)) as (G' & E' & V' & RD).
      { split; apply IZR_le; lia. }
      replace (IZR O * v) with (rounded emin p (IZR O * v)); [apply RN_format; lia|]. fold v in E'. rewrite E'. f_equal. f_equal.
      destruct RD as [(B1 & B2 & B3)|(B1 & B2 & B3 & B4)]; [apply Rabs_le_inv in B3 | apply Rabs_le_inv in B4].
      * assert (G' < O + 1)%Z by (apply lt_IZR; rewrite plus_IZR; lra). assert (O < G' + 1)%Z by (apply lt_IZR; rewrite plus_IZR; lra). lia.
      * assert (G' < O + 2)%Z by (apply lt_IZR; rewrite plus_IZR; lra). assert (O < G' + 2)%Z by (apply lt_IZR; rewrite plus_IZR; lra).
        apply lt_IZR in B1. apply VO2 in B1. apply Z.even_spec in B1, B3. destruct B1 as [a ->]. destruct B3 as [b ->]. lia.
    + intro L. rewrite (at_mid p e Hp) in L. fold v in L. assert (LZ : (2 ^ p < Gl)%Z) by (apply lt_IZR; nra). apply Q7, IZR_le in LZ. rewrite minus_IZR in LZ. nra.
Qed.
Print Assumptions C119_near_partial.
(** The run of the refutation, with the defaults of 100 attempts and 20 search steps, meets the hypotheses: from 0.7 the search crosses 1/2. *)
Example C119_double : forall {X : Type} (rest : X) fuel, (17 <= fuel)%nat ->
  let ar := float_arith (-1074) 53 (rounded (-1074) 53 (1 / 10)) in let γs := 1 / 2 - 4 * pow2 (-54) in
  let sf (inp : sinput ar (X := X)) := Ok (mk_ssoln ar inp (Some 0%Z) tt, false) in
  let gt (s : ssoln ar (X := X) (Y := unit)) := Ok (if Rlt_dec γs (s_γ ar (ss_input ar s) : R) then DIVERGE else SIGN_FLIP) in
  exists r' s, solver ar fuel sf gt (mk_sinput ar (rounded (-1074) 53 (7 / 10) : F ar) rest) (new_run tt) 100 20 false = (r', Ok true) /\ r_final r' = Final s /\
    γs <= (s_γ ar (ss_input ar s) : R) <= γs + 4 * pow2 (-54).
Proof.
  intros X rest fuel Hf ar γs sf gt.
  assert (P54 : bpow radix2 (-54) = / IZR (2 ^ 54)) by reflexivity. change (2 ^ 54)%Z with 18014398509481984%Z in P54.
  assert (P53 : bpow radix2 (-53) = / IZR (2 ^ 53)) by reflexivity. change (2 ^ 53)%Z with 9007199254740992%Z in P53.
  assert (P56 : bpow radix2 (-56) = / IZR (2 ^ 56)) by reflexivity. change (2 ^ 56)%Z with 72057594037927936%Z in P56.
  assert (S0 : rounded (-1074) 53 (rounded (-1074) 53 (1 / 10) * rounded (-1074) 53 (7 / 10)) = 5044031582654955 * pow2 (-56)).
  { rewrite d_01_is, d_07_is.
    destruct (zround_spec (-1074) 53 (fst d_01 * fst d_07, snd d_01 + snd d_07)%Z (5044031582654955, -56)%Z) as [E _]; [vm_compute; reflexivity|].
    unfold fl in E at 2. cbn [fst snd] in E. rewrite <- E. f_equal. unfold fl. cbn [fst snd]. rewrite mult_IZR, bpow_plus. ring. }
  assert (G0 : rounded (-1074) 53 (7 / 10) = 6305039478318694 * pow2 (-53)) by exact d_07_is.
  destruct (C119_near_partial (-1074) 53 0 (rounded (-1074) 53 (1 / 10)) fuel sf gt (fun _ => false) (fun γ => if Rlt_dec γs γ then DIVERGE else SIGN_FLIP) γs
    (rounded (-1074) 53 (7 / 10)) rest tt 100 20 3) as (r' & ss & s & γ & E1 & E2 & _ & E3 & _ & E4);
    change (0 - 1 - 53)%Z with (-54)%Z in *; change (pow2 (0 - 2)) with (/ 4) in *; change (pow2 0) with 1 in *; try lia; try (rewrite S0); try (unfold γs; rewrite ?G0, ?P54, ?P53, ?P56; lra).
  - apply format_representable; [lia | apply RN_format; lia].
  - intro inp. eexists. split; [reflexivity|]. split; [reflexivity | discriminate].
  - reflexivity.
  - intro γ. destruct (Rlt_dec γs γ); repeat split; auto; intros; lra.
  - cbn [INR]. unfold γs. rewrite G0, P54, P53, P56. rewrite Rabs_pos_eq; lra.
  - destruct E4 as [E4|(_ & _ & _ & y & _ & _ & E5 & E6 & _)]; [discriminate|]. exists r', s. split; [exact E1|]. split; [exact E2|]. assert (EY : γs <= γ <= γs + 4 * pow2 (-54)) by lra. rewrite <- E3 in EY. exact EY.
Qed.
