(** Lemmas about the stepping search. *)
From Coq Require Import List Bool Reals Lra Lia Arith.
From Verif Require Import Lib_Py Model_Run Model_Array Proofs_Array Model_Stepper Spec_Stepper Proofs_Run.
Import ListNotations.

Section Rec.
Context {W Inp Out Val : Type}.
Variable func : W -> Inp -> W * res (Out * bool).
Variable pass_func : W -> Out -> nat -> W * res Val.
Variable fail_func : W -> Out -> nat -> W * res Inp.
Variable final_fail_func : W -> nat -> W * res Val.
Let rec_loop := search_loop (rec_func func) (rec_pass pass_func) (rec_step fail_func) (rec_stop final_fail_func).
Let rec_handle := handle (W := W * list (call Inp Out Val)) (rec_stop final_fail_func).

Lemma handle_calls : forall w l a e, exists l' , 
  let '(w', r) := rec_handle (w, l) a e in
  snd w' = l ++ l' /\ after_exception a e l' r /\ handle final_fail_func w a e = (fst w', r).
Proof.
  intros w l a e. unfold rec_handle, handle, rec_stop. 
  destruct e; try (exists []; cbv iota beta; cbn [fst snd]; rewrite app_nil_r; split; [reflexivity|]; split; [constructor; discriminate | reflexivity]).
  cbn [fst snd]. destruct (final_fail_func w a) as [w' r]. exists [Stopped a r]. cbn.
    split; [reflexivity|]. split; [|reflexivity]. destruct r; [exact (ae_stop a (Ok a0)) | exact (ae_stop a (Raise e))].
Qed.
Lemma loop_calls : forall n a w l inp, exists l',
  let '(w', r) := rec_loop n a (w, l) inp in
  snd w' = l ++ l' /\ search_calls n a inp l' r /\
  search_loop func pass_func fail_func final_fail_func n a w inp = (fst w', r).
Proof.
  induction n as [|n IH]; intros a w l inp.
  - exists []. cbn. rewrite app_nil_r. split; [reflexivity|]. split; [constructor | reflexivity].
  - unfold rec_loop. cbn [search_loop]. unfold rec_func at 1. cbn [fst snd].
    destruct (func w inp) as [w1 [[out [|]]|e]] eqn:E1.
    + unfold rec_pass at 1. cbn [fst snd]. destruct (pass_func w1 out a) as [w2 [v|e]] eqn:E2.
      * exists [Solve inp (Ok (out, true)); Pass out a (Ok v)]. cbn. rewrite <- app_assoc.
        split; [reflexivity|]. split; [constructor | reflexivity].
      * destruct (handle_calls w2 ((l ++ [Solve inp (Ok (out, true))]) ++ [Pass out a (Raise e)]) a e) as [l' H].
        exists (Solve inp (Ok (out, true)) :: Pass out a (Raise e) :: l'). unfold rec_handle in H.
        destruct (handle (rec_stop final_fail_func) _ a e) as [w' r]. destruct H as (H1 & H2 & H3).
        rewrite H1, <- !app_assoc. split; [reflexivity|]. split; [constructor; exact H2 | exact H3].
    + unfold rec_step at 1. cbn [fst snd]. destruct (fail_func w1 out a) as [w2 [inp'|e]] eqn:E2.
      * destruct (IH (S a) w2 ((l ++ [Solve inp (Ok (out, false))]) ++ [Step out a (Ok inp')]) inp') as [l' H].
        exists (Solve inp (Ok (out, false)) :: Step out a (Ok inp') :: l'). unfold rec_loop in H.
        destruct (search_loop (rec_func func) (rec_pass pass_func) (rec_step fail_func) (rec_stop final_fail_func) n (S a) _ inp') as [w' r].
        destruct H as (H1 & H2 & H3).
        rewrite H1, <- !app_assoc. split; [reflexivity|]. split; [constructor; exact H2 | exact H3].
      * destruct (handle_calls w2 ((l ++ [Solve inp (Ok (out, false))]) ++ [Step out a (Raise e)]) a e) as [l' H].
        exists (Solve inp (Ok (out, false)) :: Step out a (Raise e) :: l'). unfold rec_handle in H.
        destruct (handle (rec_stop final_fail_func) _ a e) as [w' r]. destruct H as (H1 & H2 & H3).
        rewrite H1, <- !app_assoc. split; [reflexivity|]. split; [constructor; exact H2 | exact H3].
    + destruct (handle_calls w1 (l ++ [Solve inp (Raise e)]) a e) as [l' H].
      exists (Solve inp (Raise e) :: l'). unfold rec_handle in H.
      destruct (handle (rec_stop final_fail_func) _ a e) as [w' r]. destruct H as (H1 & H2 & H3).
      rewrite H1, <- !app_assoc. split; [reflexivity|]. split; [constructor; exact H2 | exact H3].
Qed.
End Rec.

(** ** Step sizes *)
Open Scope R_scope.
Section Sz.
Notation adv := (stepper_advance R_arith).
Lemma halve_S : forall n x, halve n (x / 2) = halve (S n) x.
Proof. induction n; intro x; [reflexivity|]. change (halve (S n) (x / 2)) with (halve n (x / 2) / 2). rewrite IHn. reflexivity. Qed.
Lemma halve_pow : forall n x, halve n x = x / 2 ^ n.
Proof.
  induction n; intro x; simpl; [field|]. rewrite IHn. field. apply pow_nonzero. lra.
Qed.
Lemma sizes_started : forall ts mx c p s n, (n < length ts)%nat ->
  nth_error (sizes R_arith mx (mk_st R_arith c true p s) ts) n = Some (Some (halve (S n) s)).
Proof.
  induction ts as [|t ts IH]; intros mx c p s n Hn; [simpl in Hn; lia|].
  cbn [sizes stepper_advance binary_started negb]. destruct n as [|n]; [reflexivity|].
  cbn [nth_error search_steps prev_soln_type step_size half R_arith]. rewrite IH by (simpl in Hn; lia).
  f_equal. f_equal. apply halve_S.
Qed.
(** Before the change: p is the first type, c calls were made. *)
Lemma sizes_search : forall ts mx c p s j, (c + j < mx)%nat ->
  (forall i, (i < j)%nat -> nth_error ts i = Some p) ->
  (forall n, (n < j)%nat -> nth_error (sizes R_arith mx (mk_st R_arith c false (Some p) s) ts) n = Some (Some s)) /\
  (forall t, nth_error ts j = Some t -> t <> p -> forall n, (j <= n)%nat -> (n < length ts)%nat ->
     nth_error (sizes R_arith mx (mk_st R_arith c false (Some p) s) ts) n = Some (Some (halve (S (n - j)) s))).
Proof.
  induction ts as [|t0 ts IH]; intros mx c p s j Hc Hp.
  - split; intros.
    + specialize (Hp _ H). destruct n; discriminate Hp.
    + destruct j; discriminate H.
  - cbn [sizes stepper_advance binary_started negb]. cbn [search_steps prev_soln_type step_size].
    replace (mx <? S c)%nat with false by (symmetry; apply Nat.ltb_ge; lia).
    destruct j as [|j].
    + split; [intros; lia|]. intros t Ht Hne n _ Hn. simpl in Ht. injection Ht as ->.
      destruct (status_eq_dec p t) as [E|_]; [congruence|]. rewrite Nat.sub_0_r.
      destruct n as [|n]; [reflexivity|]. cbn [nth_error]. rewrite sizes_started by (simpl in Hn; lia).
      cbn [half R_arith]. rewrite halve_S. reflexivity.
    + assert (E0 : t0 = p) by (specialize (Hp 0%nat ltac:(lia)); simpl in Hp; congruence). subst t0.
      destruct (status_eq_dec p p) as [_|N]; [|congruence].
      destruct (IH mx (S c) p s j) as [H1 H2]; [lia | intros i Hi; apply (Hp (S i)); lia|].
      split.
      * intros n Hn. destruct n as [|n]; [reflexivity|]. cbn [nth_error]. apply H1. lia.
      * intros t Ht Hne n Hj Hn. destruct n as [|n]; [lia|]. cbn [nth_error].
        rewrite (H2 t Ht Hne n) by (simpl in Hn; lia). do 3 f_equal.
Qed.
Lemma sizes_error : forall ts mx c p s j, (c + j = mx)%nat -> (j < length ts)%nat ->
  (forall i, (i < j)%nat -> nth_error ts i = Some p) ->
  nth_error (sizes R_arith mx (mk_st R_arith c false (Some p) s) ts) j = Some None /\
  length (sizes R_arith mx (mk_st R_arith c false (Some p) s) ts) = S j.
Proof.
  induction ts as [|t0 ts IH]; intros mx c p s j Hc Hj Hp; [simpl in Hj; lia|].
  cbn [sizes stepper_advance binary_started negb]. cbn [search_steps prev_soln_type step_size].
  destruct j as [|j].
  - replace (mx <? S c)%nat with true by (symmetry; apply Nat.ltb_lt; lia). split; reflexivity.
  - replace (mx <? S c)%nat with false by (symmetry; apply Nat.ltb_ge; lia).
    assert (E0 : t0 = p) by (specialize (Hp 0%nat ltac:(lia)); simpl in Hp; congruence). subst t0.
    destruct (status_eq_dec p p) as [_|N]; [|congruence].
    destruct (IH mx (S c) p s j) as [H1 H2]; [lia | simpl in Hj; lia | intros i Hi; apply (Hp (S i)); lia|].
    cbn [nth_error length]. split; [exact H1 | rewrite H2; reflexivity].
Qed.
End Sz.

(** ** Exact stepping *)
Lemma step_exact : forall {X} fuel γ (rest : X) ty s, s <> 0 ->
  snd (step_func R_arith fuel (mk_sinput R_arith (γ : F R_arith) rest) ty s) =
  match ty with
  | DIVERGE => Ok (mk_sinput R_arith (γ - s : F R_arith) rest)
  | SIGN_FLIP => Ok (mk_sinput R_arith (γ + s : F R_arith) rest)
  | STOP => Raise StepperStop
  | OtherType _ => Raise StepperError
  end.
Proof.
  intros X fuel γ rest ty s Hs. destruct ty; try reflexivity; cbn [step_func s_γ s_rest R_arith add sub feqb].
  - replace (Reqb γ (γ + s)) with false by (symmetry; apply Reqb_false; lra). reflexivity.
  - replace (Reqb γ (γ - s)) with false by (symmetry; apply Reqb_false; lra). reflexivity.
Qed.

(** ** γ under a threshold judge *)
Section Threshold.
Context {X : Type} (rest : X).
Variables (γs s0 : R) (mx : nat).
Hypothesis Hs0 : 0 < s0.
Notation st_t := (stepper_state R_arith).
(** What is known of γ in each phase. *)
Definition inv_started (st : st_t) (γ : R) : Prop := binary_started R_arith st = true /\ 0 < step_size R_arith st /\ Rabs (γ - γs) <= step_size R_arith st.
Definition inv_div (st : st_t) (γ : R) : Prop :=
  binary_started R_arith st = false /\ prev_soln_type R_arith st = Some DIVERGE /\ step_size R_arith st = s0 /\ γs - s0 <= γ.
Definition inv_flip (st : st_t) (γ : R) : Prop :=
  binary_started R_arith st = false /\ prev_soln_type R_arith st = Some SIGN_FLIP /\ step_size R_arith st = s0 /\ γ <= γs + s0.
Lemma judge_cases : forall ty γ, threshold γs ty -> (ty γ = DIVERGE /\ γs <= γ) \/ (ty γ = SIGN_FLIP /\ γ <= γs).
Proof.
  intros ty γ H. destruct (H γ) as (H1 & H2 & H3). destruct (Rlt_dec γs γ) as [L|L]; [left; split; [auto | lra]|].
  destruct (Rlt_dec γ γs) as [L'|L']; [right; split; [auto | lra]|].
  destruct H1 as [H1|H1]; [left | right]; split; auto; lra.
Qed.
Lemma adv_started : forall st t, binary_started R_arith st = true ->
  stepper_advance R_arith mx st t = (mk_st R_arith (search_steps R_arith st) true (prev_soln_type R_arith st) (step_size R_arith st / 2), Ok (step_size R_arith st / 2)).
Proof. intros st t H. unfold stepper_advance. rewrite H. reflexivity. Qed.
Lemma adv_first : forall st t, binary_started R_arith st = false -> prev_soln_type R_arith st = None -> (search_steps R_arith st < mx)%nat ->
  stepper_advance R_arith mx st t = (mk_st R_arith (S (search_steps R_arith st)) false (Some t) (step_size R_arith st), Ok (step_size R_arith st)).
Proof.
  intros st t H1 H2 H3. unfold stepper_advance. rewrite H1, H2. simpl negb. cbv iota.
  replace (mx <? S (search_steps R_arith st))%nat with false by (symmetry; apply Nat.ltb_ge; lia). reflexivity.
Qed.
Lemma adv_same : forall st t, binary_started R_arith st = false -> prev_soln_type R_arith st = Some t -> (search_steps R_arith st < mx)%nat ->
  stepper_advance R_arith mx st t = (mk_st R_arith (S (search_steps R_arith st)) false (Some t) (step_size R_arith st), Ok (step_size R_arith st)).
Proof.
  intros st t H1 H2 H3. unfold stepper_advance. rewrite H1, H2. simpl negb. cbv iota.
  replace (mx <? S (search_steps R_arith st))%nat with false by (symmetry; apply Nat.ltb_ge; lia).
  destruct (status_eq_dec t t); [reflexivity | congruence].
Qed.
Lemma adv_change : forall st p t, binary_started R_arith st = false -> prev_soln_type R_arith st = Some p -> p <> t -> (search_steps R_arith st < mx)%nat ->
  stepper_advance R_arith mx st t = (mk_st R_arith (S (search_steps R_arith st)) true (Some p) (step_size R_arith st / 2), Ok (step_size R_arith st / 2)).
Proof.
  intros st p t H1 H2 HN H3. unfold stepper_advance. rewrite H1, H2. simpl negb. cbv iota.
  replace (mx <? S (search_steps R_arith st))%nat with false by (symmetry; apply Nat.ltb_ge; lia).
  destruct (status_eq_dec p t); [congruence | reflexivity].
Qed.
(** One exact step: the size and the direction. *)
Definition moved (t : SplitterStatus) (γ s : R) : R := match t with DIVERGE => γ - s | _ => γ + s end.
Lemma step_moved : forall fuel γ t s, s <> 0 -> t = DIVERGE \/ t = SIGN_FLIP ->
  snd (step_func R_arith fuel (mk_sinput R_arith (γ : F R_arith) rest) t s) = Ok (mk_sinput R_arith (moved t γ s : F R_arith) rest).
Proof. intros fuel γ t s Hs [-> | ->]; rewrite step_exact by exact Hs; reflexivity. Qed.
Lemma move_started : forall ty st γ, threshold γs ty -> inv_started st γ ->
  Rabs (moved (ty γ) γ (step_size R_arith st / 2) - γs) <= step_size R_arith st / 2.
Proof.
  intros ty st γ HT (H1 & H2 & H3).
  assert (B : - step_size R_arith st <= γ - γs <= step_size R_arith st).
  { unfold Rabs in H3. destruct (Rcase_abs (γ - γs)); lra. }
  destruct (judge_cases ty γ HT) as [[-> L]|[-> L]]; cbn [moved]; apply Rabs_le; lra.
Qed.
Lemma one_started : forall ty i st γ, threshold γs (ty i) -> inv_started st γ ->
  exists st' γ', one_step ty mx i (st, γ) rest = Some (st', γ') /\ inv_started st' γ' /\
    step_size R_arith st' = step_size R_arith st / 2.
Proof.
  intros ty i st γ HT HI. pose proof (move_started _ _ _ HT HI) as HM. destruct HI as (H1 & H2 & H3).
  unfold one_step. rewrite adv_started by exact H1.
  rewrite step_moved by (try lra; destruct (judge_cases _ γ HT) as [[-> _]|[-> _]]; auto).
  eexists _, _. split; [reflexivity|]. cbn [s_γ step_size binary_started]. split; [|reflexivity].
  split; [reflexivity|]. split; [cbn [step_size]; lra | exact HM].
Qed.
Lemma one_search : forall ty i st γ, threshold γs (ty i) -> (search_steps R_arith st < mx)%nat ->
  (inv_div st γ -> (γs <= γ /\ exists st', one_step ty mx i (st, γ) rest = Some (st', γ - s0) /\ inv_div st' (γ - s0) /\
                      search_steps R_arith st' = S (search_steps R_arith st)) \/
     (γ <= γs /\ exists st', one_step ty mx i (st, γ) rest = Some (st', γ + s0 / 2) /\ inv_started st' (γ + s0 / 2) /\ step_size R_arith st' = s0 / 2)) /\
  (inv_flip st γ -> (γ <= γs /\ exists st', one_step ty mx i (st, γ) rest = Some (st', γ + s0) /\ inv_flip st' (γ + s0) /\
                      search_steps R_arith st' = S (search_steps R_arith st)) \/
     (γs <= γ /\ exists st', one_step ty mx i (st, γ) rest = Some (st', γ - s0 / 2) /\ inv_started st' (γ - s0 / 2) /\ step_size R_arith st' = s0 / 2)).
Proof.
  intros ty i st γ HT HC. split; intros (H1 & H2 & H3 & H4);
    destruct (judge_cases _ γ HT) as [[E L]|[E L]]; unfold one_step; rewrite E.
  - left. split; [exact L|]. rewrite adv_same by assumption. rewrite step_moved by (try rewrite H3; auto; lra).
    eexists. split; [cbn [s_γ moved]; rewrite H3; reflexivity|]. unfold inv_div; cbn. repeat split; try assumption; lra.
  - right. split; [exact L|]. rewrite (adv_change st DIVERGE) by (assumption || discriminate). rewrite step_moved by (try rewrite H3; auto; lra).
    eexists. split; [cbn [s_γ moved]; rewrite H3; reflexivity|]. unfold inv_started; cbn. try rewrite H3.
    repeat split; try lra. apply Rabs_le; lra.
  - right. split; [exact L|]. rewrite (adv_change st SIGN_FLIP) by (assumption || discriminate). rewrite step_moved by (try rewrite H3; auto; lra).
    eexists. split; [cbn [s_γ moved]; rewrite H3; reflexivity|]. unfold inv_started; cbn. try rewrite H3.
    repeat split; try lra. apply Rabs_le; lra.
  - left. split; [exact L|]. rewrite adv_same by assumption. rewrite step_moved by (try rewrite H3; auto; lra).
    eexists. split; [cbn [s_γ moved]; rewrite H3; reflexivity|]. unfold inv_flip; cbn. repeat split; try assumption; lra.
Qed.
Lemma one_first : forall ty γ, threshold γs (ty 0%nat) -> (0 < mx)%nat ->
  (γs <= γ /\ exists st', one_step ty mx 0 (initial_stepper R_arith (s0 : F R_arith), γ) rest = Some (st', γ - s0) /\ inv_div st' (γ - s0) /\ search_steps R_arith st' = 1%nat) \/
  (γ <= γs /\ exists st', one_step ty mx 0 (initial_stepper R_arith (s0 : F R_arith), γ) rest = Some (st', γ + s0) /\ inv_flip st' (γ + s0) /\ search_steps R_arith st' = 1%nat).
Proof.
  intros ty γ HT Hm. unfold one_step.
  destruct (judge_cases _ γ HT) as [[E L]|[E L]]; rewrite E; rewrite adv_first by (reflexivity || exact Hm);
    rewrite step_moved by (cbn [initial_stepper step_size]; auto; lra); [left | right]; (split; [exact L|]);
    eexists; (split; [reflexivity|]); unfold inv_div, inv_flip; cbn; repeat split; lra.
Qed.
(** The phases along a trajectory. *)
Lemma phases : forall ty γ0 n st γ, (forall i, threshold γs (ty i)) ->
  trajectory ty mx n (initial_stepper R_arith (s0 : F R_arith), γ0) rest = Some (st, γ) ->
  (n = 0%nat /\ st = initial_stepper R_arith (s0 : F R_arith) /\ γ = γ0) \/
  ((n <= mx)%nat /\ search_steps R_arith st = n /\ (inv_div st γ \/ inv_flip st γ)) \/ inv_started st γ.
Proof.
  intros ty γ0 n. induction n as [|n IH]; intros st γ HT H.
  - left. injection H as <- <-. auto.
  - cbn [trajectory] in H. destruct (trajectory ty mx n _ rest) as [[st1 γ1]|] eqn:E; [|discriminate].
    specialize (IH st1 γ1 HT eq_refl). right.
    destruct IH as [(-> & -> & ->)|[(Hn & Hs & HI)|HI]].
    + destruct (Nat.eq_dec mx 0) as [Z|NZ].
      { exfalso. revert H. unfold one_step, stepper_advance. cbn [initial_stepper binary_started negb search_steps]. rewrite Z. cbn. discriminate. }
      destruct (one_first ty γ0 (HT 0%nat)) as [(L & st' & E1 & I & C)|(L & st' & E1 & I & C)]; try lia;
        rewrite E1 in H; injection H as <- <-; left; (split; [lia|]); auto.
    + destruct (le_lt_dec mx n) as [Hle|Hlt].
      { exfalso. assert (B : binary_started R_arith st1 = false) by (destruct HI as [HI|HI]; apply HI).
        revert H. unfold one_step, stepper_advance. rewrite B. cbn [negb]. rewrite Hs.
        replace (mx <? S n)%nat with true by (symmetry; apply Nat.ltb_lt; lia). discriminate. }
      destruct (one_search ty n st1 γ1 (HT n) ltac:(lia)) as [HD HF].
      destruct HI as [HI|HI]; [destruct (HD HI) as [(L & st' & E1 & I & C)|(L & st' & E1 & I & C)] | destruct (HF HI) as [(L & st' & E1 & I & C)|(L & st' & E1 & I & C)]];
        rewrite E1 in H; injection H as <- <-; first [right; exact I | left; split; [lia|]; split; [lia|]; auto].
    + destruct (one_started ty n st1 γ1 (HT n) HI) as (st' & γ' & E1 & I & _). rewrite E1 in H. injection H as <- <-. auto.
Qed.
Lemma started_on : forall ty p n st γ, (forall i, threshold γs (ty i)) -> trajectory ty mx n p rest = Some (st, γ) -> inv_started st γ ->
  forall k, exists st' γ', trajectory ty mx (n + k) p rest = Some (st', γ') /\ inv_started st' γ' /\ step_size R_arith st' = halve k (step_size R_arith st).
Proof.
  intros ty p n st γ HT HE HI k. induction k as [|k IH].
  - rewrite Nat.add_0_r. exists st, γ. auto.
  - destruct IH as (st' & γ' & E & I & S1). destruct (one_started ty (n + k) st' γ' (HT _) I) as (st2 & γ2 & E2 & I2 & S2).
    exists st2, γ2. rewrite Nat.add_succ_r. cbn [trajectory]. rewrite E. split; [exact E2|]. split; [exact I2|]. rewrite S2, S1. reflexivity.
Qed.
End Threshold.

(** Any judge: after bisection has started. *)
Lemma started_any : forall {X} (rest : X) ty mx p n st γ, trajectory ty mx n p rest = Some (st, γ) -> binary_started R_arith st = true -> 0 < step_size R_arith st ->
  forall k st' γ', trajectory ty mx (n + k) p rest = Some (st', γ') ->
    binary_started R_arith st' = true /\ step_size R_arith st' = halve k (step_size R_arith st) /\ 0 < step_size R_arith st' /\
    Rabs (γ' - γ) <= step_size R_arith st - step_size R_arith st'.
Proof.
  intros X rest ty mx p n st γ HE HB HP k. induction k as [|k IH]; intros st' γ' H.
  - rewrite Nat.add_0_r in H. rewrite HE in H. injection H as <- <-. cbn [halve]. repeat split; try assumption.
    rewrite Rminus_eq_0, Rabs_R0. lra.
  - rewrite Nat.add_succ_r in H. cbn [trajectory] in H. destruct (trajectory ty mx (n + k) p rest) as [[st1 γ1]|] eqn:E; [|discriminate].
    destruct (IH _ _ eq_refl) as (B & S1 & P1 & A1). unfold one_step in H. rewrite adv_started in H by exact B.
    rewrite step_exact in H by lra.
    destruct (ty (n + k)%nat γ1); try discriminate; injection H as <- <-; cbn [binary_started step_size s_γ halve];
      (split; [reflexivity|]); (split; [rewrite S1; reflexivity|]); (split; [lra|]).
    + replace (γ1 + step_size R_arith st1 / 2 - γ) with ((γ1 - γ) + step_size R_arith st1 / 2) by ring.
      eapply Rle_trans; [apply Rabs_triang|]. rewrite (Rabs_right (step_size R_arith st1 / 2)) by lra. lra.
    + replace (γ1 - step_size R_arith st1 / 2 - γ) with ((γ1 - γ) + - (step_size R_arith st1 / 2)) by ring.
      eapply Rle_trans; [apply Rabs_triang|]. rewrite Rabs_Ropp, (Rabs_right (step_size R_arith st1 / 2)) by lra. lra.
Qed.

(** ** The whole solver under a threshold judge *)
Section Whole.
Context {X Y I : Type}.
Variables (fuel mx : nat) (solution_func : sinput R_arith (X := X) -> res (ssoln R_arith (X := X) (Y := Y) * bool))
  (get_type : ssoln R_arith (X := X) (Y := Y) -> res SplitterStatus) (good : R -> bool) (ty : R -> SplitterStatus) (γs ε : R).
Hypothesis Hsol : forall inp, exists s, solution_func inp = Ok (s, good (s_γ R_arith inp)) /\ ss_input R_arith s = inp /\ ss_flag R_arith s <> None.
Hypothesis Hty : forall s, get_type s = Ok (ty (s_γ R_arith (ss_input R_arith s))).
Hypothesis HT : threshold γs ty.
Hypothesis Hε : forall γ, Rabs (γ - γs) < ε -> good γ = true.
Notation world := (sworld R_arith (X := X) (Y := Y) (I := I)).
Notation loop := (search_loop (fun (w : world) inp => (w, solution_func inp)) (cleanup R_arith false)
                    (stepper R_arith fuel mx get_type) (alternate_cleanup R_arith false)).
Definition fine (w : world) (pre : list (ssoln R_arith)) : Prop := r_solutions (sw_run R_arith w) = numbered 0 pre /\ r_final (sw_run R_arith w) = Unset.
Definition success (pre : list (ssoln R_arith)) (p : world * res (option (option (ssoln R_arith)))) : Prop :=
  exists ss s, snd p = Ok (Some (Some s)) /\ r_final (sw_run R_arith (fst p)) = Final s /\
    good (s_γ R_arith (ss_input R_arith s)) = true /\ r_solutions (sw_run R_arith (fst p)) = numbered 0 (pre ++ ss ++ [s]) /\
    (forall x, In x ss -> good (s_γ R_arith (ss_input R_arith x)) = false).
Lemma get_last_numbered : forall (pre : list (ssoln R_arith (X := X) (Y := Y))) s, get_last_solution (numbered 0 (pre ++ [s])) = Ok s.
Proof.
  intros pre s.
  destruct (get_last_total (numbered 0 (pre ++ [s]))) as [x E].
  - apply numbered_NoDup.
  - intro E. apply (f_equal (@length _)) in E. rewrite numbered_length, app_length in E. simpl in E. lia.
  - intros k Hk. rewrite numbered_keys in Hk. apply in_map_iff in Hk. destruct Hk as (n & <- & _). rewrite py_int_str. discriminate.
  - rewrite E. f_equal. destruct (get_last_spec _ _ (numbered_NoDup _ _) E) as (k & z & G & P & M).
    assert (K : In k (dkeys (numbered 0 (pre ++ [s])))).
    { destruct (in_dec String.string_dec k (dkeys (numbered 0 (pre ++ [s])))) as [Hi|Hn]; [exact Hi|]. apply dget_None_keys in Hn. congruence. }
    rewrite numbered_keys in K. apply in_map_iff in K. destruct K as (n & <- & Kn). apply in_seq in Kn. rewrite app_length in Kn; simpl in Kn.
    pose proof (numbered_get (pre ++ [s]) 0 (length pre)) as GL. simpl in GL. rewrite nth_error_app2, Nat.sub_diag in GL by lia. simpl in GL.
    destruct (M _ _ GL) as (z' & P' & LE). rewrite py_int_str in P, P'. injection P as <-. injection P' as <-.
    assert (n = length pre) by lia. subst n. congruence.
Qed.
Lemma loop_good : forall todo a w γ rest pre, fine w pre -> good γ = true ->
  success pre (loop (S todo) a w (mk_sinput R_arith (γ : F R_arith) rest)).
Proof.
  intros todo a w γ rest pre [F1 F2] HG. cbn [search_loop].
  destruct (Hsol (mk_sinput R_arith (γ : F R_arith) rest)) as (s & E & HI & HF). rewrite E. cbn [s_γ]. rewrite HG.
  unfold cleanup, writer. destruct (ss_flag R_arith s) as [fl|]; [|congruence]. rewrite F1, add_numbered.
  cbn [sw_run with_run with_solutions r_solutions r_final]. rewrite get_last_numbered. unfold assign_final, set_final.
  cbn [sw_run with_run with_solutions r_solutions r_final]. rewrite F2.
  exists [], s. cbn [fst snd sw_run with_run with_final r_final r_solutions app]. rewrite HI. cbn [s_γ]. repeat split; auto. intros x [].
Qed.
(** A rejected attempt: what the loop goes on with. *)
Lemma loop_bad : forall todo a w γ rest pre st' sz, fine w pre -> good γ = false -> sz <> 0 ->
  stepper_advance R_arith mx (sw_st R_arith w) (ty γ) = (st', Ok (sz : F R_arith)) ->
  exists w' s, loop (S todo) a w (mk_sinput R_arith (γ : F R_arith) rest) = loop todo (S a) w' (mk_sinput R_arith (moved (ty γ) γ sz : F R_arith) rest) /\
    fine w' (pre ++ [s]) /\ sw_st R_arith w' = st' /\ good (s_γ R_arith (ss_input R_arith s)) = false.
Proof.
  intros todo a w γ rest pre st' sz [F1 F2] HG Hz HA.
  destruct (Hsol (mk_sinput R_arith (γ : F R_arith) rest)) as (s & E & HI & HF).
  assert (W : stepper R_arith fuel mx get_type w s a = 
    (mk_sw R_arith (with_solutions (sw_run R_arith w) (numbered 0 (pre ++ [s]))) st', Ok (mk_sinput R_arith (moved (ty γ) γ sz : F R_arith) rest))).
  { unfold stepper, writer. destruct (ss_flag R_arith s) as [fl|]; [|congruence]. rewrite F1, add_numbered.
    rewrite Hty, HI. cbn [s_γ sw_st with_run]. rewrite HA. cbn [sw_run].
    rewrite step_moved by (try exact Hz; destruct (judge_cases _ _ γ HT) as [[-> _]|[-> _]]; auto). reflexivity. }
  eexists _, s. split; [|split; [|split]]; cycle 1.
  4: { cbn [search_loop]. rewrite E. cbn [s_γ]. rewrite HG, W. reflexivity. }
  - split; [reflexivity | exact F2].
  - reflexivity.
  - rewrite HI. exact HG.
Qed.
Lemma success_more : forall pre s p, good (s_γ R_arith (ss_input R_arith s)) = false -> success (pre ++ [s]) p -> success pre p.
Proof.
  intros pre s p HB (ss & s' & H1 & H2 & H3 & H4 & H5). exists (s :: ss), s'. repeat split; auto.
  - rewrite H4, <- app_assoc. reflexivity.
  - intros x [<-|Hx]; auto.
Qed.
Lemma loop_started : forall k todo a w γ rest pre, (k < todo)%nat -> fine w pre ->
  inv_started γs (sw_st R_arith w) γ -> halve k (step_size R_arith (sw_st R_arith w)) < ε ->
  success pre (loop todo a w (mk_sinput R_arith (γ : F R_arith) rest)).
Proof.
  induction k as [|k IH]; intros todo a w γ rest pre Hk HF HI Hs; (destruct todo as [|todo]; [lia|]).
  - apply loop_good; [exact HF|]. apply Hε. destruct HI as (_ & _ & H3). cbn [halve] in Hs. lra.
  - destruct (good γ) eqn:HG; [apply loop_good; assumption|]. pose proof (move_started _ _ _ _ HT HI) as HM. destruct HI as (H1 & H2 & H3).
    assert (NZ : step_size R_arith (sw_st R_arith w) / 2 <> 0) by lra.
    destruct (loop_bad todo a w γ rest pre _ _ HF HG NZ (adv_started mx _ (ty γ) H1)) as (w' & s & -> & F' & S' & B').
    apply (success_more _ s); [exact B'|]. apply IH; [lia | exact F' | |].
    + rewrite S'. repeat split; cbn [step_size]; [lra | exact HM].
    + rewrite S'. cbn [step_size]. rewrite halve_S. exact Hs.
Qed.
Variable s0 : R.
Hypothesis Hs0 : 0 < s0.
Lemma loop_search : forall m k todo a w γ rest pre, (m + S k < todo)%nat -> fine w pre ->
  (search_steps R_arith (sw_st R_arith w) + m < mx)%nat -> halve (S k) s0 < ε ->
  (inv_div γs s0 (sw_st R_arith w) γ /\ γ - γs < INR m * s0) \/ (inv_flip γs s0 (sw_st R_arith w) γ /\ γs - γ < INR m * s0) ->
  success pre (loop todo a w (mk_sinput R_arith (γ : F R_arith) rest)).
Proof.
  induction m as [|m IH]; intros k todo a w γ rest pre Hk HF Hc Hs HI; (destruct todo as [|todo]; [lia|]);
    (destruct (good γ) eqn:HG; [apply loop_good; assumption|]).
  all: assert (Hc' : (search_steps R_arith (sw_st R_arith w) < mx)%nat) by lia.
  all: destruct HI as [[(H1 & H2 & H3 & H4) L0]|[(H1 & H2 & H3 & H4) L0]]; destruct (judge_cases _ _ γ HT) as [[E L]|[E L]].
  (* turning points *)
  2,6: assert (NE : DIVERGE <> ty γ) by (rewrite E; discriminate);
       assert (NZ : step_size R_arith (sw_st R_arith w) / 2 <> 0) by (rewrite H3; lra);
       destruct (loop_bad todo a w γ rest pre _ _ HF HG NZ (adv_change mx _ DIVERGE (ty γ) H1 H2 NE Hc')) as (w' & s & -> & F' & S' & B');
       apply (success_more _ s); [exact B'|]; apply (loop_started k); [lia | exact F' | |];
       [ rewrite S', E, H3; cbn [moved]; repeat split; cbn [step_size]; [lra | apply Rabs_le; lra] | rewrite S', H3; cbn [step_size]; rewrite halve_S; exact Hs ].
  2,5: assert (NE : SIGN_FLIP <> ty γ) by (rewrite E; discriminate);
       assert (NZ : step_size R_arith (sw_st R_arith w) / 2 <> 0) by (rewrite H3; lra);
       destruct (loop_bad todo a w γ rest pre _ _ HF HG NZ (adv_change mx _ SIGN_FLIP (ty γ) H1 H2 NE Hc')) as (w' & s & -> & F' & S' & B');
       apply (success_more _ s); [exact B'|]; apply (loop_started k); [lia | exact F' | |];
       [ rewrite S', E, H3; cbn [moved]; repeat split; cbn [step_size]; [lra | apply Rabs_le; lra] | rewrite S', H3; cbn [step_size]; rewrite halve_S; exact Hs ].
  (* no turning *)
  1,2: simpl in L0; exfalso; lra.
  all: rewrite S_INR in L0.
  all: rewrite <- E in H2; assert (NZ : step_size R_arith (sw_st R_arith w) <> 0) by (rewrite H3; lra); destruct (loop_bad todo a w γ rest pre _ _ HF HG NZ (adv_same mx _ (ty γ) H1 H2 Hc')) as (w' & s & -> & F' & S' & B');
    apply (success_more _ s); [exact B'|]; apply (IH k); [lia | exact F' | rewrite S'; cbn [search_steps]; lia | exact Hs |].
  1: left. 2: right.
  all: rewrite S', E, H3; cbn [moved]; unfold inv_div, inv_flip; cbn; repeat split; lra.
Qed.
End Whole.
