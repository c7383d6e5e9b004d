(** C51, C82 and the fast crosser's part of C80. *)
From Coq Require Import String List Bool ZArith Reals Lra Lia.
From Verif Require Import Lib_Py Model_Run Model_Array Model_Stepper Model_Mcmc Model_Crosser Spec_Run Spec_Crosser Proofs_Array Proofs_Run Props_Run Props_Solve.
Import ListNotations.
Local Open Scope R_scope.

Lemma golden : 0 < GOLDEN_RATIO - 1 /\ / (GOLDEN_RATIO - 1) = GOLDEN_RATIO.
Proof.
  unfold GOLDEN_RATIO. assert (S1 := sqrt_lt_R0 5 ltac:(lra)). assert (S2 : sqrt 5 * sqrt 5 = 5) by (apply sqrt_sqrt; lra).
  assert (1 < sqrt 5) by nra. split; [lra|]. apply Rmult_eq_reg_l with ((1 + sqrt 5) / 2 - 1); [|lra]. rewrite Rinv_r by lra. nra.
Qed.
(** The state while bisecting: [d] is the distance of the third point from the limits. *)
Inductive outside (d : R) (st : cstate) (v : R) : Prop :=
| first_point : c_mid st = None -> v = c_min st - d -> outside d st v
| below : forall m q, c_mid st = Some (m, q) -> m = c_min st - d -> v = c_max st + d -> outside d st v
| above : forall m q, c_mid st = Some (m, q) -> m = c_max st + d -> v = c_min st - d -> outside d st v.
Definition state_inv (step v0 : R) (st : cstate) (v : R) : Prop :=
  match c_phase st with
  | STARTING => v = v0 /\ c_mid st = None
  | FINDING_MAX => c_mid st = None /\ c_min st = v0 /\ (exists k, c_max st = v0 + INR k * step) /\ v = c_max st + step
  | FINDING_MIN => c_mid st = None /\ (exists k, c_max st = v0 + INR k * step) /\ (exists k, c_min st = v0 - INR k * step) /\ v = c_min st - step
  | BISECTING => c_min st < c_max st /\ exists d, 0 < d /\ outside d st v
  end.
Lemma cross_bisect : forall step st v q st' v' d, c_phase st = BISECTING -> 0 < d -> c_min st < c_max st -> outside d st v -> cross step st v q = (st', Ok v') ->
  c_phase st' = BISECTING /\ outside d st' v' /\ c_min st' <= c_min st /\ c_max st <= c_max st' /\
  width st' = width st + match c_mid st with None => 0 | _ => d end.
Proof.
  intros step st v q st' v' d Ph D L O H. unfold cross in H. rewrite Ph in H. unfold width.
  destruct O as [M V|m q0 M Em V|m q0 M Em V]; rewrite M in *.
  - injection H as <- <-. cbn [c_phase c_min c_max c_mid]. split; [reflexivity|]. split; [|split; [|split]; lra].
    apply (below _ _ _ v q); cbn [c_mid c_min c_max]; [reflexivity | exact V | lra].
  - destruct (Rlt_dec v m) as [Q|Q]; [lra|].
    destruct (nlt q q0); cbn [c_mid c_min c_max] in H; destruct (Reqb _ v); try discriminate; injection H as <- <-; cbn [c_phase c_min c_max c_mid].
    + split; [reflexivity|]. split; [apply (below _ _ _ m q0); cbn [c_mid c_min c_max]; [reflexivity | exact Em | lra]|]. split; [|split]; lra.
    + split; [reflexivity|]. split; [apply (above _ _ _ v q); cbn [c_mid c_min c_max]; [reflexivity | exact V | lra]|]. split; [|split]; lra.
  - destruct (Rlt_dec v m) as [Q|Q]; [|lra].
    destruct (nlt q0 q); cbn [c_mid c_min c_max] in H; destruct (Reqb _ v); try discriminate; injection H as <- <-; cbn [c_phase c_min c_max c_mid].
    + split; [reflexivity|]. split; [apply (below _ _ _ v q); cbn [c_mid c_min c_max]; [reflexivity | exact V | lra]|]. split; [|split]; lra.
    + split; [reflexivity|]. split; [apply (above _ _ _ m q0); cbn [c_mid c_min c_max]; [reflexivity | exact Em | lra]|]. split; [|split]; lra.
Qed.
Lemma asks_inv : forall step v0 st v, 0 < step -> asks step v0 st v -> state_inv step v0 st v.
Proof.
  intros step v0 st v S A. induction A as [|st v q st' v' A IH H]; [split; reflexivity|].
  unfold state_inv in IH. destruct (c_phase st) eqn:Ph.
  - destruct IH as [-> M]. unfold cross in H. rewrite Ph in H. injection H as <- <-. unfold state_inv. cbn [c_phase c_mid c_min c_max].
    repeat split; auto. exists 0%nat. cbn. lra.
  - destruct IH as (M & Mi & (k & K) & V). unfold cross in H. rewrite Ph in H. destruct (nlt (c_max_val st) q); injection H as <- <-; unfold state_inv; cbn [c_phase c_mid c_min c_max].
    + repeat split; auto. exists (Datatypes.S k). rewrite S_INR. lra.
    + repeat split; auto; [exists k; exact K | exists 0%nat; cbn; lra].
  - destruct IH as (M & (k & K) & (j & J) & V). unfold cross in H. rewrite Ph in H. destruct (nlt (c_min_val st) q).
    + injection H as <- <-; unfold state_inv; cbn [c_phase c_mid c_min c_max]. repeat split; auto; [exists k; exact K | exists (Datatypes.S j); rewrite S_INR; lra].
    + cbn [c_min c_max] in H. destruct (Reqb (c_min st) (c_max st)) eqn:E; [discriminate|]. injection H as <- <-. unfold state_inv; cbn [c_phase c_mid c_min c_max].
      assert (c_min st <> c_max st) by (intro X; apply Reqb_true in X; congruence).
      assert (c_min st <= c_max st) by (rewrite K, J; assert (0 <= INR k) by apply pos_INR; assert (0 <= INR j) by apply pos_INR; nra).
      split; [lra|]. destruct golden as [G1 G2]. exists ((c_max st - c_min st) / (GOLDEN_RATIO - 1)). split; [apply Rdiv_lt_0_compat; lra|].
      apply first_point; [exact M|]. cbn [c_min c_max]. field. lra.
  - destruct IH as (L & d & D & O). destruct (cross_bisect _ _ _ _ _ _ _ Ph D L O H) as (P' & O' & A1 & A2 & _). unfold state_inv. rewrite P'. split; [lra|]. exists d. auto.
Qed.
(** C51. While the limits are looked for, they enclose the starting value, are whole steps away from it, and the next value is one
    step beyond the limit that is being moved. *)
Theorem C51_finding_partial : forall step v0 st v, 0 < step -> asks step v0 st v -> c_phase st = FINDING_MAX \/ c_phase st = FINDING_MIN ->
  inside st v0 /\ (exists k, c_max st = v0 + INR k * step) /\ (exists k, c_min st = v0 - INR k * step) /\
  v = (if match c_phase st with FINDING_MAX => true | _ => false end then c_max st + step else c_min st - step).
Proof.
  intros step v0 st v S A P. assert (I := asks_inv _ _ _ _ S A). unfold state_inv, inside in *.
  destruct P as [P|P]; rewrite P in *.
  - destruct I as (_ & M & (k & K) & V). assert (0 <= INR k) by apply pos_INR. split; [nra|]. split; [exists k; exact K|]. split; [exists 0%nat; cbn; lra | exact V].
  - destruct I as (_ & (k & K) & (j & J) & V). assert (0 <= INR k) by apply pos_INR. assert (0 <= INR j) by apply pos_INR. split; [nra|]. eauto.
Qed.
(** Once it bisects, every value it asks for lies outside the limits, whatever the outcomes were. *)
Theorem C51_outside_refuted : forall step v0 st v, 0 < step -> asks step v0 st v -> c_phase st = BISECTING -> c_min st < c_max st /\ ~ inside st v.
Proof.
  intros step v0 st v S A P. assert (I := asks_inv _ _ _ _ S A). unfold state_inv, inside in *. rewrite P in I. destruct I as (L & d & D & O).
  split; [exact L|]. destruct O; lra.
Qed.
(** It never ends by itself: no outcome stops it. *)
Theorem C51_no_stop_refuted : forall step v0 st v q, 0 < step -> asks step v0 st v -> c_phase st = BISECTING -> exists st' v', cross step st v q = (st', Ok v').
Proof.
  intros step v0 st v q S A P. assert (I := asks_inv _ _ _ _ S A). unfold state_inv in I. rewrite P in I. destruct I as (L & d & D & O). unfold cross. rewrite P.
  destruct O as [M V|m q0 M Em V|m q0 M Em V]; rewrite M; [eauto| |].
  - destruct (Rlt_dec v m); [lra|]. destruct (nlt q q0); cbn [c_mid c_min c_max];
      (destruct (Reqb _ v) eqn:E; [apply Reqb_true in E; lra | eauto]).
  - destruct (Rlt_dec v m); [|lra]. destruct (nlt q0 q); cbn [c_mid c_min c_max];
      (destruct (Reqb _ v) eqn:E; [apply Reqb_true in E; lra | eauto]).
Qed.
(** The limits only ever grow, by the same amount at each attempt: n + 1 attempts after the bisection began their distance is
    (1 + n φ) times what it was, for every history of outcomes. *)
Theorem C51_grows_refuted : forall step v0 st v q st0 u0 n st' v', 0 < step -> asks step v0 st v -> c_phase st = FINDING_MIN ->
  cross step st v q = (st0, Ok u0) -> c_phase st0 = BISECTING -> later step st0 u0 (S n) st' v' ->
  width st' = (1 + INR n * GOLDEN_RATIO) * width st0 /\ c_min st' <= c_min st0 /\ c_max st0 <= c_max st'.
Proof.
  intros step v0 st v q st0 u0 n st' v' Hs A Ph H0 P0 Lt.
  assert (I := asks_inv _ _ _ _ Hs A). unfold state_inv in I. rewrite Ph in I. destruct I as (M & _ & _ & _).
  assert (A0 : asks step v0 st0 u0) by (eapply asks_next; eassumption).
  assert (L0 : c_min st0 < c_max st0) by (apply (C51_outside_refuted _ _ _ _ Hs A0 P0)).
  set (d := width st0 * GOLDEN_RATIO).
  assert (D : 0 < d) by (unfold d, width, GOLDEN_RATIO; assert (S1 := sqrt_lt_R0 5 ltac:(lra)); nra).
  assert (O0 : outside d st0 u0 /\ c_mid st0 = None).
  { unfold cross in H0. rewrite Ph in H0. destruct (nlt (c_min_val st) q); [injection H0 as <- <-; discriminate|]. cbn [c_min c_max] in H0.
    destruct (Reqb (c_min st) (c_max st)); [discriminate|]. injection H0 as <- <-. split; [|exact M]. apply first_point; [exact M|]. unfold d, width. cbn [c_min c_max].
    destruct golden as [G1 G2]. unfold Rdiv. rewrite G2. ring. }
  assert (G : forall n st' v', later step st0 u0 n st' v' -> c_phase st' = BISECTING /\ outside d st' v' /\ c_min st' <= c_min st0 /\ c_max st0 <= c_max st' /\
     match n with O => c_mid st' = None /\ width st' = width st0 | S m => c_mid st' <> None /\ width st' = width st0 + INR m * d end).
  { clear n st' v' Lt. intros n st' v' Lt. induction Lt as [|n s u q1 s' u' Lt IH H].
    - repeat split; try lra; try exact P0; apply O0.
    - destruct IH as (P1 & O1 & B1 & B2 & W). destruct (cross_bisect _ _ _ _ _ _ _ P1 D ltac:(lra) O1 H) as (P2 & O2 & B3 & B4 & W2).
      split; [exact P2|]. split; [exact O2|]. split; [lra|]. split; [lra|].
      assert (N : c_mid s' <> None).
      { clear - H P1. unfold cross in H. rewrite P1 in H. destruct (c_mid s) as [[m q0]|]; [|injection H as <- <-; discriminate].
        destruct (Rlt_dec u m); destruct (nlt _ _); cbn [c_mid c_min c_max] in H; destruct (Reqb _ u); try discriminate; injection H as <- <-; discriminate. }
      split; [exact N|]. destruct n as [|m].
      + destruct W as [W0 W1]. rewrite W0 in W2. cbn [INR]. lra.
      + destruct W as [W0 W1]. destruct (c_mid s); [|congruence]. rewrite W2, W1, S_INR. lra. }
  destruct (G _ _ _ Lt) as (_ & _ & B1 & B2 & _ & W). split; [|split; assumption]. rewrite W. unfold d. ring.
Qed.
(** A history that bisects: start at 1 with steps of 1/100; the first step down is worse and the steps up are better once. *)
Example C51_nonvacuous : exists st0 u0 st1 v1 st v q, asks (1/100) 1 st v /\ c_phase st = FINDING_MIN /\ cross (1/100) st v q = (st0, Ok u0) /\ c_phase st0 = BISECTING /\
  later (1/100) st0 u0 1 st1 v1 /\ c_min st0 = 1 /\ c_max st0 = 1 + 1/100.
Proof.
  pose (s1 := mk_c FINDING_MAX 1 (Some 10) 1 (Some 10) None).
  pose (s2 := mk_c FINDING_MAX 1 (Some 10) (1 + 1/100) (Some 20) None).
  pose (s3 := mk_c FINDING_MIN 1 (Some 10) (1 + 1/100) (Some 20) None).
  pose (s4 := mk_c BISECTING 1 (Some 10) (1 + 1/100) (Some 20) None).
  assert (A1 : asks (1/100) 1 s1 (1 + 1/100)) by (eapply (asks_next _ _ _ _ (Some 10)); [apply asks_start | reflexivity]).
  assert (A2 : asks (1/100) 1 s2 (1 + 1/100 + 1/100)).
  { eapply (asks_next _ _ _ _ (Some 20)); [exact A1|]. unfold cross, s1, nlt, cmp, Rltb. cbn [c_phase c_max_val]. destruct (Rlt_dec 10 20); [reflexivity | lra]. }
  assert (A3 : asks (1/100) 1 s3 (1 - 1/100)).
  { eapply (asks_next _ _ _ _ (Some 15)); [exact A2|]. unfold cross, s2, nlt, cmp, Rltb. cbn [c_phase c_max_val]. destruct (Rlt_dec 20 15); [lra | reflexivity]. }
  assert (C4 : cross (1/100) s3 (1 - 1/100) (Some 5) = (s4, Ok (1 + (1 - (1 + 1/100)) / (GOLDEN_RATIO - 1)))).
  { unfold cross, s3, nlt, cmp, Rltb. cbn [c_phase c_min_val c_min c_max]. destruct (Rlt_dec 10 5); [lra|]. destruct (Reqb 1 (1 + 1/100)) eqn:E; [apply Reqb_true in E; lra | reflexivity]. }
  do 4 eexists. exists s3, (1 - 1/100), (Some 5). split; [exact A3|]. split; [reflexivity|]. split; [exact C4|]. split; [reflexivity|].
  split; [eapply (later_S _ _ _ _ _ _ (Some 7)); [apply later_0 | reflexivity] | split; reflexivity].
Qed.

Section Solver.
Context {Inp Sol I : Type}.
Variables (v_r : Inp -> R) (next_input : Inp -> R -> Inp) (final_input : Inp -> Inp).
Variables (s_input : Sol -> Inp) (quality : Sol -> num) (flagged : Sol -> bool).
Variables (step_solver single_solver : Inp -> run Sol I -> run Sol I * res bool) (broken : Inp -> Sol).
Notation crosser := (crosser v_r next_input final_input s_input quality flagged step_solver single_solver broken).
Notation keeps_final m := (forall i (r : run Sol I), r_final (fst (m i r)) = r_final r).
Lemma cross_writer_final : forall r s, r_final (fst (cross_writer flagged (I := I) r s)) = r_final r.
Proof. intros r s. unfold cross_writer. destruct (flagged s); [|reflexivity]. destruct (add_solution s _) as [[k d]|e]; reflexivity. Qed.
(** C80 for the fast crosser: it reports success whenever it returns, and the final solution is then the last one stored; without
    any stored solution it fails with an error instead of reporting failure. *)
Theorem C80_crosser : forall inp r r' n ok, keeps_final step_solver -> keeps_final single_solver -> r_final r = Unset ->
  crosser inp r n = (r', Ok ok) -> ok = true /\ exists s, r_final r' = Final s /\ get_last_solution (r_solutions r') = Ok s.
Proof.
  intros inp r r' n ok K1 K2 U H. unfold Model_Crosser.crosser in H. destruct (binary_searcher _ _ _ _ _ _ _) as [w [best|e]] eqn:B; [|discriminate].
  unfold binary_searcher in B.
  assert (G : match best with Some v => v = None /\ r_final (cw_run w) = Unset | None => r_final (cw_run w) = Unset end).
  { refine (search_result _ _ _ _ (fun w => r_final (cw_run w) = Unset) (fun w v => v = None /\ r_final (cw_run w) = Unset) _ _ _ _ _ _ _ _ _ _ _ B); [| | | |exact U].
    - intros w0 i P. unfold cross_solution. specialize (K1 i (cw_run w0)). destruct (step_solver i (cw_run w0)) as [r1 [b|e]]; cbn [fst cw_run] in *; [|congruence].
      destruct (get_last_solution (r_solutions r1)) as [s|e]; [|cbn; congruence]. specialize (K2 (final_input (s_input s)) r1).
      destruct (single_solver _ r1) as [r2 [b2|e]]; cbn [fst cw_run] in *; congruence.
    - intros w0 s a P. unfold cross_stepper. assert (F := cross_writer_final (cw_run w0) s). destruct (cross_writer flagged (cw_run w0) s) as [r1 [[]|e]]; cbn [fst] in *; [|cbn; congruence].
      destruct (cross_input _ _ _ _ _ _) as [st [i out]]. cbn. congruence.
    - intros w0 s a P. unfold cross_cleanup. assert (F := cross_writer_final (cw_run w0) s). destruct (cross_writer flagged (cw_run w0) s) as [r1 [[]|e]]; cbn [fst rbind cw_run] in *; [split|]; congruence.
    - intros w0 a P. cbn. split; [reflexivity | exact P]. }
  assert (F : r_final (cw_run w) = Unset) by (destruct best; [apply G | exact G]). rewrite F in H.
  assert (B2 : (match best with Some (Some s) => set_final (cw_run w) (Some s) | _ => let! s := get_last_solution (r_solutions (cw_run w)) in set_final (cw_run w) (Some s) end)
            = (let! s := get_last_solution (r_solutions (cw_run w)) in set_final (cw_run w) (Some s))) by (destruct best as [v|]; [destruct G as [-> _]|]; reflexivity).
  rewrite B2 in H. destruct (get_last_solution (r_solutions (cw_run w))) as [s|e] eqn:L; [|discriminate]. cbn [rbind] in H. unfold set_final in H. rewrite F in H.
  injection H as <- <-. split; [reflexivity|]. exists s. split; [reflexivity | exact L].
Qed.

(** C82. When an attempt has a solution it ends up stored twice in a row. *)
Theorem C82_twice_refuted : forall w inp (sols : list Sol) s r1 r2 b b' step a,
  step_solver inp (cw_run w) = (r1, Ok b) -> (exists s0, get_last_solution (r_solutions r1) = Ok s0 /\ single_solver (final_input (s_input s0)) r1 = (r2, Ok b')) ->
  r_solutions r2 = numbered 0 (sols ++ [s]) -> flagged s = true ->
  exists w1 w2 out, cross_solution final_input s_input step_solver single_solver broken w inp = (w1, Ok (s, false)) /\
  cross_stepper v_r next_input s_input quality flagged step w1 s a = (w2, out) /\ r_solutions (cw_run w2) = numbered 0 (sols ++ [s; s]).
Proof.
  intros w inp sols s r1 r2 b b' step a H1 (s0 & L & H2) Hr F. unfold cross_solution. rewrite H1, L, H2.
  assert (Ls : get_last_solution (r_solutions r2) = Ok s).
  { destruct (C36_additions (sols ++ [s])) as (d & A & _ & _ & La). assert (A2 := add_all_numbered (sols ++ [s]) []). change (numbered 0 []) with (@nil (string * Sol)) in A2. rewrite A2 in A. injection A as <-.
    rewrite Hr. exact (La s sols eq_refl). }
  rewrite Ls. cbn [rbind]. exists (mk_cw r2 (cw_st w)). unfold cross_stepper, cross_writer. cbn [cw_run cw_st]. rewrite F, Hr, add_numbered.
  destruct (cross_input v_r next_input step (cw_st w) (s_input s) (quality s)) as [st [i out]]. eexists. eexists. split; [reflexivity|]. split; [reflexivity|]. cbn [cw_run with_solutions r_solutions].
  rewrite <- app_assoc. reflexivity.
Qed.
(** An attempt whose step search fails is passed over, and stores nothing ... *)
Theorem C82_failed_partial : forall w inp r1 e, step_solver inp (cw_run w) = (r1, Raise e) -> e = SolverError \/ e = StepperError \/ e = StepperStop ->
  cross_solution final_input s_input step_solver single_solver broken w inp = (mk_cw r1 (cw_st w), Ok (broken inp, false)).
Proof. intros w inp r1 e H E. unfold cross_solution. rewrite H. destruct E as [->|[->| ->]]; reflexivity. Qed.
(** ... but one whose long solve fails ends the whole search with that error, whatever was found before. *)
Theorem C82_long_solve_refuted : forall inp r n r1 b s r2, step_solver inp r = (r1, Ok b) -> get_last_solution (r_solutions r1) = Ok s ->
  single_solver (final_input (s_input s)) r1 = (r2, Raise SolverError) -> (0 < n)%nat ->
  crosser inp r n = (r2, Raise SolverError).
Proof.
  intros inp r n r1 b s r2 H1 L H2 N. destruct n as [|n]; [lia|]. unfold Model_Crosser.crosser, binary_searcher. cbn [search_loop]. unfold cross_solution at 1. cbn [cw_run].
  rewrite H1, L, H2. reflexivity.
Qed.
(** C35 for the fast crosser: an outcome never asks for the velocity it was computed with again ... *)
Lemma cross_moves : forall step v0 st v q st' v', 0 < step -> asks step v0 st v -> cross step st v q = (st', Ok v') -> v' <> v.
Proof.
  intros step v0 st v q st' v' Hs A H. assert (J := asks_inv _ _ _ _ Hs A). unfold state_inv in J. unfold cross in H. destruct (c_phase st) eqn:Ph.
  - injection H as <- <-. lra.
  - destruct J as (_ & M & (k & K) & V). assert (0 <= INR k) by apply pos_INR. destruct (nlt _ q); injection H as <- <-; nra.
  - destruct J as (M & (k & K) & (j & Hj) & V). destruct (nlt _ q); [injection H as <- <-; lra|]. cbn [c_min c_max] in H.
    destruct (Reqb (c_min st) (c_max st)) eqn:E; [discriminate|]. injection H as <- <-.
    assert (N : c_min st <> c_max st) by (intro Z; apply Reqb_true in Z; congruence).
    assert (Hkj : (1 <= k + j)%nat) by (destruct k, j; try lia; exfalso; apply N; rewrite K, Hj; cbn; lra).
    apply le_INR in Hkj. rewrite plus_INR in Hkj. cbn [INR] in Hkj.
    assert (W : step <= c_max st - c_min st) by (rewrite K, Hj; nra).
    destruct golden as [G1 G2]. unfold Rdiv. rewrite G2. rewrite V.
    assert (1 < GOLDEN_RATIO) by lra. intro Z. nra.
  - destruct J as (L & d & D & O). destruct (c_mid st) as [[m q0]|] eqn:M.
    + destruct (Rlt_dec v m); destruct (nlt _ _); cbn [c_mid c_min c_max] in H;
        match type of H with context [Reqb ?a v] => destruct (Reqb a v) eqn:E; [discriminate|] end; injection H as <- <-;
        intro Z; apply Reqb_true in Z; congruence.
    + injection H as <- <-. destruct O as [_ V|? ? M' _ _|? ? M' _ _]; [lra | congruence | congruence].
Qed.
(** ... so whenever it goes on, the input recorded in the solution it has just looked at no longer has the velocity that solution
    was computed with, but the velocity of the next attempt.  It is unchanged exactly when the search ends there. *)
Theorem C35_crosser_refuted : forall step v0 st inp q, 0 < step -> (forall i v, v_r (next_input i v) = v) -> asks step v0 st (v_r inp) ->
  match cross_input v_r next_input step st inp q with
  | (st', (kept, Ok inp')) => kept = inp' /\ v_r kept <> v_r inp /\ asks step v0 st' (v_r kept)
  | (_, (kept, Raise _)) => kept = inp
  end.
Proof.
  intros step v0 st inp q Hs Set_v A. unfold cross_input. destruct (cross step st (v_r inp) q) as [st' [v|e]] eqn:C; [|reflexivity].
  split; [reflexivity|]. rewrite Set_v. split; [exact (cross_moves _ _ _ _ _ _ _ Hs A C) | exact (asks_next _ _ _ _ _ _ _ A C)].
Qed.
Print Assumptions C35_crosser_refuted.
End Solver.
(** The first attempt: the solution of velocity 2 is left with velocity 2.02 in its input. *)
Example C35_crosser_nonvacuous : asks (/ 100 * 2) 2 c_new 2 /\ snd (cross_input (fun v => v) (fun _ v => v) (/ 100 * 2) c_new 2 (Some 10)) = (2 + / 100 * 2, Ok (2 + / 100 * 2)).
Proof. split; [apply asks_start | reflexivity]. Qed.

(** The final solution is not the best: solutions are their own inputs (the velocity), and reach an angle that is largest at the
    start; the search moves away from it and ends with the last one. *)
Definition toy_quality (v : R) : num := Some (if Req_EM_T v 1 then 50 else 10).
Definition toy_solve (inp : R) (r : run R unit) : run R unit * res bool :=
  match add_solution inp (r_solutions r) with Ok (_, d) => (with_solutions r d, Ok true) | Raise e => (r, Raise e) end.
Definition toy_run (l : list R) : run R unit := with_solutions (new_run tt) (numbered 0 l).
Lemma last_of : forall {Sol : Type} (l : list Sol) s, get_last_solution (numbered 0 (l ++ [s])) = Ok s.
Proof.
  intros Sol l s. destruct (C36_additions (l ++ [s])) as (d & A & _ & _ & La). assert (A2 := add_all_numbered (l ++ [s]) []).
  change (numbered 0 []) with (@nil (string * Sol)) in A2. rewrite A2 in A. injection A as <-. exact (La s l eq_refl).
Qed.
Lemma toy_solve_run : forall inp l, toy_solve inp (toy_run l) = (toy_run (l ++ [inp]), Ok true).
Proof. intros inp l. unfold toy_solve. cbn [toy_run with_solutions r_solutions]. rewrite add_numbered. reflexivity. Qed.
Lemma toy_attempt : forall l st inp, cross_solution (fun v => v) (fun v => v) toy_solve toy_solve (fun v => v) (mk_cw (toy_run l) st) inp =
  (mk_cw (toy_run (l ++ [inp] ++ [inp])) st, Ok (inp, false)).
Proof.
  intros l st inp. unfold cross_solution. cbn [cw_run cw_st]. rewrite toy_solve_run. cbn [toy_run with_solutions r_solutions]. rewrite last_of.
  change (with_solutions (new_run tt) (numbered 0 (l ++ [inp]))) with (toy_run (l ++ [inp])). rewrite toy_solve_run. cbn [toy_run with_solutions r_solutions].
  rewrite last_of. rewrite <- app_assoc. reflexivity.
Qed.
Lemma toy_step : forall step l st v st' v' q a, toy_quality v = q -> cross step st v q = (st', Ok v') ->
  cross_stepper (fun v => v) (fun _ v => v) (fun v => v) toy_quality (fun _ => true) step (mk_cw (toy_run l) st) v a = (mk_cw (toy_run (l ++ [v])) st', Ok v').
Proof.
  intros step l st v st' v' q a Q C. unfold cross_stepper, cross_writer, cross_input. cbn [cw_run cw_st toy_run with_solutions r_solutions]. rewrite add_numbered, Q, C. reflexivity.
Qed.
Theorem C82_best_refuted : exists (r' : run R unit) best last,
  crosser (fun v => v) (fun _ v => v) (fun v => v) (fun v => v) toy_quality (fun _ => true) toy_solve toy_solve (fun v => v) 1 (new_run tt) 2 = (r', Ok true) /\
  In best (map snd (r_solutions r')) /\ r_final r' = Final last /\ nlt (toy_quality last) (toy_quality best) = true.
Proof.
  assert (Q1 : toy_quality 1 = Some 50) by (unfold toy_quality; destruct (Req_EM_T 1 1); [reflexivity | congruence]).
  set (x := 1 + / 100 * 1).
  assert (Q2 : toy_quality x = Some 10) by (unfold toy_quality; destruct (Req_EM_T x 1) as [E|]; [unfold x in E; lra | reflexivity]).
  assert (C1 : cross (/ 100 * 1) c_new 1 (Some 50) = (mk_c FINDING_MAX 1 (Some 50) 1 (Some 50) None, Ok x)) by reflexivity.
  assert (C2 : cross (/ 100 * 1) (mk_c FINDING_MAX 1 (Some 50) 1 (Some 50) None) x (Some 10) = (mk_c FINDING_MIN 1 (Some 50) 1 (Some 50) None, Ok (1 - / 100 * 1))).
  { unfold cross, nlt, cmp. cbn [c_phase c_max_val]. replace (Rltb 50 10) with false by (symmetry; apply Rltb_false; lra). reflexivity. }
  assert (B1 : nlt (Some 10) (Some 50) = true) by (unfold nlt, cmp; apply Rltb_true; lra).
  assert (Run : crosser (fun v => v) (fun _ v => v) (fun v => v) (fun v => v) toy_quality (fun _ => true) toy_solve toy_solve (fun v => v) 1 (new_run tt) 2
    = (with_final (toy_run ([1; 1; 1; x; x] ++ [x])) (Final x), Ok true)).
  { unfold crosser, binary_searcher. cbn [search_loop]. change (new_run tt) with (toy_run []). rewrite toy_attempt. rewrite (toy_step _ _ _ _ _ _ _ _ Q1 C1).
    rewrite toy_attempt. rewrite (toy_step _ _ _ _ _ _ _ _ Q2 C2). cbn [cw_run app].
    change (toy_run [1; 1; 1; x; x; x]) with (toy_run ([1; 1; 1; x; x] ++ [x])).
    change (r_final (toy_run ([1; 1; 1; x; x] ++ [x]))) with (@Unset R). cbv iota.
    change (r_solutions (toy_run ([1; 1; 1; x; x] ++ [x]))) with (numbered 0 ([1; 1; 1; x; x] ++ [x])). rewrite last_of. reflexivity. }
  rewrite Run. exists (with_final (toy_run ([1; 1; 1; x; x] ++ [x])) (Final x)), 1, x. split; [reflexivity|]. split; [left; reflexivity|]. split; [reflexivity|]. rewrite Q1, Q2. exact B1.
Qed.
(** The hypotheses of C80_crosser hold of the step and single methods, as the crosser calls them. *)
Theorem C80_no_final_single : forall {Sol Cond I : Type} (define : Model_Format.val -> res Cond) (solution : Model_Format.val -> Cond -> res Sol) inp (r : run Sol I),
  r_final (fst (single_solver define solution inp r true)) = r_final r.
Proof.
  intros. unfold single_solver. destruct (define inp); [|reflexivity]. destruct (solution inp a); [|reflexivity]. destruct (add_solution a0 (r_solutions r)) as [[k d]|e]; reflexivity.
Qed.
Lemma search_keeps : forall {W Inp Out Val : Type} func pass fail stop (P : W -> Prop),
  (forall w i, P w -> P (fst (func w i))) -> (forall w o a, P w -> P (fst (fail w o a))) ->
  (forall w o a, P w -> P (fst (pass w o a))) -> (forall w a, P w -> P (fst (stop w a))) ->
  forall n a w (inp : Inp), P w -> P (fst (search_loop (W := W) (Out := Out) (Val := Val) func pass fail stop n a w inp)).
Proof.
  intros W Inp Out Val func pass fail stop P Hf Hl Hp Hs.
  assert (Hh : forall w a e, P w -> P (fst (handle stop w a e))).
  { intros w a e Pw. destruct e; try exact Pw. cbn [handle]. specialize (Hs w a Pw). destruct (stop w a). exact Hs. }
  induction n as [|n IH]; intros a w inp Pw; cbn [search_loop]; [exact Pw|].
  specialize (Hf w inp Pw). destruct (func w inp) as [w1 [[x [|]]|e]]; cbn [fst] in Hf; [| |exact (Hh _ _ _ Hf)].
  - specialize (Hp w1 x a Hf). destruct (pass w1 x a) as [w2 [y|e]]; [exact Hp | exact (Hh _ _ _ Hp)].
  - specialize (Hl w1 x a Hf). destruct (fail w1 x a) as [w2 [i|e]]; [exact (IH _ _ _ Hl) | exact (Hh _ _ _ Hl)].
Qed.
Theorem C80_no_final_step : forall {X Y I : Type} ar fuel (sf : sinput ar (X := X) -> res (ssoln ar (X := X) (Y := Y) * bool)) gt inp (r : run (ssoln ar) I) n mx,
  r_final (fst (solver ar fuel sf gt inp r n mx true)) = r_final r.
Proof.
  intros X Y I ar fuel sf gt inp r n mx. unfold solver, binary_searcher.
  match goal with |- context [search_loop ?a ?b ?c ?d ?e ?f ?g ?h] => assert (G := search_keeps a b c d (fun w => r_final (sw_run ar w) = r_final r)) end.
  match goal with |- context [search_loop ?a ?b ?c ?d ?e ?f ?g ?h] => assert (K : r_final (sw_run ar (fst (search_loop a b c d e f g h))) = r_final r); [apply G; clear G|destruct (search_loop a b c d e f g h) as [w [best|e0]]; exact K] end;
    [auto | | | auto | reflexivity].
  - intros w0 s a P. unfold stepper. assert (F := writer_final ar w0 s a). destruct (writer ar w0 s a) as [w1 [[]|e]]; cbn [fst] in *; [|congruence].
    destruct (gt s); [|cbn; congruence]. destruct (stepper_advance ar mx (sw_st ar w1) a0) as [st [x|e]]; cbn; congruence.
  - intros w0 s a P. unfold cleanup. assert (F := writer_final ar w0 s a). destruct (writer ar w0 s a) as [w1 [[]|e]]; cbn [fst] in *; congruence.
Qed.
Print Assumptions C51_grows_refuted. Print Assumptions C80_crosser. Print Assumptions C82_best_refuted.
