(** Properties of the stepping solver: C31-C35, C73, C74. *)
From Coq Require Import String List Bool Reals Lra Lia Arith ZArith.
From Verif Require Import Lib_Py Model_Run Model_Array Proofs_Array Model_Stepper Spec_Stepper Proofs_Run Proofs_Stepper.
Import ListNotations.
Local Open Scope nat_scope.
Local Open Scope list_scope.

Section C31.
Context {W Inp Out Val : Type}.
Variable func : W -> Inp -> W * res (Out * bool).
Variable pass_func : W -> Out -> nat -> W * res Val.
Variable fail_func : W -> Out -> nat -> W * res Inp.
Variable final_fail_func : W -> nat -> W * res Val.
(** C31.  For arbitrary stateful callbacks, the recorded calls and the result form one of the sequences of [search_calls];
    recording changes neither the result nor the effects. *)
Theorem C31_calls : forall w inp n, exists w' l r,
  binary_searcher (rec_func func) (rec_pass pass_func) (rec_step fail_func) (rec_stop final_fail_func) (w, []) inp n = ((w', l), r) /\
  search_calls n 0 inp l r /\
  binary_searcher func pass_func fail_func final_fail_func w inp n = (w', r).
Proof.
  intros w inp n. unfold binary_searcher.
  destruct (loop_calls func pass_func fail_func final_fail_func n 0 w [] inp) as [l H].
  destruct (search_loop (rec_func func) _ _ _ n 0 (w, []) inp) as [[w' l2] r]. destruct H as (H1 & H2 & H3).
  simpl in H1, H3. subst l2. exists w', l, r. auto.
Qed.
End C31.
Print Assumptions C31_calls.
(** Consequences for every such sequence: at most n solver calls; the pass callback at most once; steps and passes directly
    follow the solver call they belong to; nothing but the stop callback follows a pass; the stop callback is called at
    most once, last, and only right after a call that raised the stop signal. *)
Theorem C31_bounds : forall {Inp Out Val : Type} n a inp (l : list (call Inp Out Val)) r, search_calls n a inp l r ->
  count is_solve l <= n /\ count is_pass l <= 1 /\ count is_stopped l <= 1 /\
  (forall l1 out a' r' l2, l = l1 ++ Pass out a' r' :: l2 ->
     (exists l0 inp', l1 = l0 ++ [Solve inp' (Ok (out, true))]) /\ count is_solve l2 = 0) /\
  (forall l1 out a' r' l2, l = l1 ++ Step out a' r' :: l2 -> exists l0 inp', l1 = l0 ++ [Solve inp' (Ok (out, false))]) /\
  (forall l1 a' r' l2, l = l1 ++ Stopped a' r' :: l2 -> l2 = [] /\ exists l0 c, l1 = l0 ++ [c] /\
     (match c with Solve _ r => r = Raise StepperStop | Pass _ _ r => r = Raise StepperStop | Step _ _ r => r = Raise StepperStop | Stopped _ _ => False end)) /\
  (r = Ok None -> n = count is_solve l \/ exists l0 c, l = l0 ++ [c] /\
     (match c with Solve _ r => r = Raise StepperError | Pass _ _ r => r = Raise StepperError | Step _ _ r => r = Raise StepperError | Stopped _ _ => False end)).
Proof.
  intros Inp Out Val n a inp l r H.
  (* the part after an exception *)
  assert (AE : forall a e (l : list (call Inp Out Val)) r, after_exception a e l r ->
    (l = [] \/ exists r', e = StepperStop /\ l = [Stopped a r']) /\ (r = Ok None -> e = StepperError /\ l = [])).
  { intros a0 e0 l0 r0 HA. destruct HA.
    - split; auto.
    - split; [right; eexists; auto|]. destruct r0; discriminate.
    - split; auto. discriminate. }
  (* splitting short prefixes *)
  assert (SP : forall (x : call Inp Out Val) l1 y l2 t, x :: t = l1 ++ y :: l2 -> (l1 = [] /\ x = y /\ t = l2) \/ exists l1', l1 = x :: l1' /\ t = l1' ++ y :: l2).
  { intros x l1 y l2 t HE. destruct l1 as [|z l1']; [left; injection HE; auto | right; exists l1'; injection HE; intros; subst; auto]. }
  Ltac sp SP HE := lazymatch type of HE with
    | [] = ?l1 ++ _ :: _ => destruct l1; discriminate HE
    | _ :: _ = _ ++ _ :: _ => apply SP in HE; let E := fresh "E" in let t := fresh "l1'" in
        destruct HE as [(-> & E & <-)|(t & -> & HE)]; [try discriminate E | sp SP HE]
    | _ => idtac end.
  induction H as [a inp|n a inp out v|n a inp out inp' l r H IH|n a inp e l r HA|n a inp out e l r HA|n a inp out e l r HA].
  3: {
    destruct IH as (I1 & I2 & I3 & I4 & I5 & I6 & I7). unfold count in *. cbn [filter is_solve is_pass is_stopped length].
    split; [lia|]. split; [exact I2|]. split; [exact I3|]. split; [|split; [|split]].
    + intros l1 out0 a' r' l2 HE.
      apply SP in HE. destruct HE as [(-> & E & <-)|(l1' & -> & HE)]; [discriminate|].
      apply SP in HE. destruct HE as [(-> & E & <-)|(l1'' & -> & HE)]; [discriminate|].
      destruct (I4 _ _ _ _ _ HE) as [(l0 & inp0 & ->) HC]. split; [|exact HC].
      exists (Solve inp (Ok (out, false)) :: Step out a (Ok inp') :: l0), inp0. reflexivity.
    + intros l1 out0 a' r' l2 HE.
      apply SP in HE. destruct HE as [(-> & E & <-)|(l1' & -> & HE)]; [discriminate|].
      apply SP in HE. destruct HE as [(-> & E & <-)|(l1'' & -> & HE)]; [injection E; intros; subst; exists [], inp; reflexivity|].
      destruct (I5 _ _ _ _ _ HE) as (l0 & inp0 & ->).
      exists (Solve inp (Ok (out, false)) :: Step out a (Ok inp') :: l0), inp0. reflexivity.
    + intros l1 a' r' l2 HE.
      apply SP in HE. destruct HE as [(-> & E & <-)|(l1' & -> & HE)]; [discriminate|].
      apply SP in HE. destruct HE as [(-> & E & <-)|(l1'' & -> & HE)]; [discriminate|].
      destruct (I6 _ _ _ _ HE) as (E2 & l0 & c & -> & HC). split; [exact E2|].
      exists (Solve inp (Ok (out, false)) :: Step out a (Ok inp') :: l0), c. split; [reflexivity | exact HC].
    + intro HR. destruct (I7 HR) as [E|(l0 & c & -> & HC)]; [left; lia|].
      right. exists (Solve inp (Ok (out, false)) :: Step out a (Ok inp') :: l0), c. split; [reflexivity | exact HC]. }
  all: try (destruct (AE _ _ _ _ HA) as [[->|(r0 & -> & ->)] HN]; clear HA).
  all: unfold count; cbn [filter is_solve is_pass is_stopped length].
  all: split; [lia|]; split; [lia|]; split; [lia|]; split; [|split; [|split]].
  all: try (intros l1 *; intro HE; sp SP HE;
            repeat match goal with E : Pass _ _ _ = Pass _ _ _ |- _ => injection E; intros; subst; clear E
                              | E : Step _ _ _ = Step _ _ _ |- _ => injection E; intros; subst; clear E
                              | E : Stopped _ _ = Stopped _ _ |- _ => injection E; intros; subst; clear E end;
            cbn [filter is_solve is_pass is_stopped length]; try (first [split; [reflexivity|] | split; [|reflexivity]]);
            first [ exists [], inp; reflexivity
                  | exists [], (Solve inp (Raise StepperStop)); split; reflexivity
                  | eexists [_], _; split; reflexivity ]).
  all: try discriminate.
  all: try (intro HR; left; reflexivity).
  all: try (intro HR; destruct (HN HR) as [EE _]; discriminate EE).
  all: intro HR; right; destruct (HN HR) as [-> _].
  all: first [ exists [], (Solve inp (Raise StepperError)); split; reflexivity | eexists [_], _; split; reflexivity ].
Qed.
Print Assumptions C31_bounds.
(** Non-vacuity: a counting solver that succeeds at the third attempt. *)
Example C31_example :
  let func (w : nat) (inp : nat) := (S w, Ok (inp, Nat.eqb w 2)) in
  let pass (w : nat) (o a : nat) := (w, Ok o) in
  let step (w : nat) (o a : nat) := (w, Ok (o + 10)) in
  let stop (w : nat) (a : nat) := (w, Ok 0) in
  binary_searcher func pass step stop 0 5 7 = (3, Ok (Some 25)).
Proof. reflexivity. Qed.

Local Open Scope R_scope.
(** C32.  [sizes] is the list of step sizes handed out for the successive solution types [ts]. *)
Theorem C32_sizes : forall mx s0 ts j p t, (0 < j < mx)%nat ->
  (forall i, (i < j)%nat -> nth_error ts i = Some p) -> nth_error ts j = Some t -> t <> p ->
  forall n, (n < length ts)%nat ->
  nth_error (sizes R_arith mx (initial_stepper R_arith (s0 : F R_arith)) ts) n =
    Some (Some (if (n <? j)%nat then s0 else s0 / 2 ^ (n - j + 1))).
Proof.
  intros mx s0 ts j p t Hj Hp Ht Hne n Hn. destruct ts as [|t0 ts]; [simpl in Hn; lia|].
  assert (E0 : t0 = p) by (specialize (Hp 0%nat ltac:(lia)); simpl in Hp; congruence). subst t0.
  cbn [sizes]. rewrite adv_first by (reflexivity || (cbn; lia)). cbn [initial_stepper search_steps step_size].
  destruct j as [|j]; [lia|]. destruct (sizes_search ts mx 1 p s0 j) as [H1 H2]; [lia | intros i Hi; apply (Hp (S i)); lia|].
  destruct n as [|n]; [reflexivity|]. cbn [nth_error]. simpl in Hn.
  destruct (Nat.ltb_spec (S n) (S j)) as [L|L].
  - apply H1. lia.
  - rewrite (H2 t Ht Hne n) by lia. rewrite halve_pow. replace (S n - S j + 1)%nat with (S (n - j)) by lia. reflexivity.
Qed.
Print Assumptions C32_sizes.
Theorem C32_search : forall mx s0 ts p, (length ts <= mx)%nat -> (forall t, In t ts -> t = p) ->
  sizes R_arith mx (initial_stepper R_arith (s0 : F R_arith)) ts = map (fun _ => Some s0) ts.
Proof.
  intros mx s0 ts p Hl Ha. destruct ts as [|t0 ts]; [reflexivity|].
  cbn [sizes]. rewrite adv_first by (reflexivity || (cbn; simpl in Hl; lia)). cbn [initial_stepper search_steps step_size map].
  f_equal. rewrite (Ha t0) by (left; reflexivity).
  assert (G : forall ts c, (c + length ts <= mx)%nat -> (forall t, In t ts -> t = p) ->
    sizes R_arith mx (mk_st R_arith c false (Some p) (s0 : F R_arith)) ts = map (fun _ => Some s0) ts).
  { clear. induction ts as [|t ts IH]; intros c Hl Ha; [reflexivity|]. simpl in Hl. cbn [sizes]. rewrite (Ha t) by (left; reflexivity).
    rewrite adv_same by (reflexivity || (cbn; lia)). cbn [search_steps step_size map]. f_equal. apply IH; [lia | intros; apply Ha; right; assumption]. }
  apply G; [simpl in Hl; lia | intros; apply Ha; right; assumption].
Qed.
(** No change among the first mx types: mx steps, then the step error, whatever the (mx+1)-th type. *)
Theorem C32_error : forall mx s0 ts p, (0 < mx)%nat -> (mx < length ts)%nat -> (forall i, (i < mx)%nat -> nth_error ts i = Some p) ->
  sizes R_arith mx (initial_stepper R_arith (s0 : F R_arith)) ts = repeat (Some s0) mx ++ [None].
Proof.
  intros mx s0 ts p Hm Hl Hp. destruct ts as [|t0 ts]; [simpl in Hl; lia|].
  assert (E0 : t0 = p) by (specialize (Hp 0%nat Hm); simpl in Hp; congruence). subst t0.
  cbn [sizes]. rewrite adv_first by (reflexivity || (cbn; lia)). cbn [initial_stepper search_steps step_size].
  destruct mx as [|m]; [lia|]. simpl in Hl. cbn [repeat app]. f_equal.
  assert (G : forall j ts c, (c + j = S m)%nat -> (j < length ts)%nat -> (forall i, (i < j)%nat -> nth_error ts i = Some p) ->
    sizes R_arith (S m) (mk_st R_arith c false (Some p) (s0 : F R_arith)) ts = repeat (Some s0) j ++ [None]).
  { clear. induction j as [|j IH]; intros ts c Hc Hj Hp; (destruct ts as [|t ts]; [simpl in Hj; lia|]); cbn [sizes].
    - unfold stepper_advance. cbn [binary_started negb search_steps].
      replace (S m <? S c)%nat with true by (symmetry; apply Nat.ltb_lt; lia). reflexivity.
    - assert (t = p) by (specialize (Hp 0%nat ltac:(lia)); simpl in Hp; congruence). subst t.
      rewrite adv_same by (reflexivity || (cbn; lia)). cbn [search_steps step_size repeat app]. f_equal.
      apply IH; [lia | simpl in Hj; lia | intros i Hi; apply (Hp (S i)); lia]. }
  apply G; [lia | lia | intros i Hi; apply (Hp (S i)); lia].
Qed.
Print Assumptions C32_error.
Example C32_example : sizes R_arith 20 (initial_stepper R_arith (8 : F R_arith)) [DIVERGE; DIVERGE; SIGN_FLIP; DIVERGE] =
  [Some 8; Some 8; Some (8 / 2); Some (8 / 2 / 2)].
Proof. reflexivity. Qed.
Example C32_nonvacuous : exists ts : list SplitterStatus, (0 < 2 < 20)%nat /\
  (forall i, (i < 2)%nat -> nth_error ts i = Some DIVERGE) /\ nth_error ts 2 = Some SIGN_FLIP /\ (4 <= length ts)%nat.
Proof. exists [DIVERGE; DIVERGE; SIGN_FLIP; DIVERGE]. repeat split; try (simpl; lia). intros [|[|i]] H; try reflexivity; lia. Qed.

(** C33.  [trajectory ty mx n p rest]: γ and the stepper's variables after n rejected attempts. *)
Section C33.
Context {X : Type} (rest : X).
Notation start s0 γ0 := (initial_stepper R_arith (s0 : F R_arith), γ0).
Notation started st := (binary_started R_arith st = true).
Notation searching st := (binary_started R_arith st = false).
(** After the first type change (between attempts n and n+1), γ after k more steps is within s0/2^(k+1) of the threshold. *)
Theorem C33_converges : forall ty γs γ0 s0 mx n st γ st1 γ1, 0 < s0 -> (forall i, threshold γs (ty i)) ->
  trajectory ty mx n (start s0 γ0) rest = Some (st, γ) -> searching st ->
  trajectory ty mx (S n) (start s0 γ0) rest = Some (st1, γ1) -> started st1 ->
  forall k, exists st2 γ2, trajectory ty mx (S n + k) (start s0 γ0) rest = Some (st2, γ2) /\ Rabs (γ2 - γs) <= s0 / 2 ^ (S k).
Proof.
  intros ty γs γ0 s0 mx n st γ st1 γ1 Hs HT E0 B0 E1 B1 k.
  assert (P1 := phases rest γs s0 mx Hs ty γ0 _ _ _ HT E1).
  assert (I1 : inv_started γs st1 γ1).
  { destruct P1 as [(? & ? & ?)|[(? & ? & [HI|HI])|HI]]; [discriminate | destruct HI as (C & _); congruence | destruct HI as (C & _); congruence | exact HI]. }
  assert (S1 : step_size R_arith st1 = s0 / 2).
  { assert (P0 := phases rest γs s0 mx Hs ty γ0 _ _ _ HT E0).
    assert (SS : step_size R_arith st = s0).
    { destruct P0 as [(? & -> & ?)|[(? & ? & [HI|HI])|HI]]; [reflexivity | apply HI | apply HI | destruct HI as (C & _); congruence]. }
    cbn [trajectory] in E1. rewrite E0 in E1. unfold one_step, stepper_advance in E1. rewrite B0 in E1. cbn [negb] in E1.
    destruct (mx <? S (search_steps R_arith st))%nat; [discriminate|].
    destruct (prev_soln_type R_arith st) as [p|]; [destruct (status_eq_dec p (ty n γ))|];
      match type of E1 with context [step_func ?a ?b ?c ?d ?e] => destruct (snd (step_func a b c d e)) end; try discriminate;
      injection E1 as <- <-; cbn in B1; try discriminate. cbn [step_size half R_arith]. rewrite SS. reflexivity. }
  destruct (started_on rest γs mx ty _ _ _ _ HT E1 I1 k) as (st2 & γ2 & E2 & (_ & _ & A2) & S2).
  exists st2, γ2. split; [exact E2|]. rewrite S2, S1, halve_S, halve_pow in A2. exact A2.
Qed.
Print Assumptions C33_converges.
(** A type change does happen if the threshold is near enough. *)
Theorem C33_starts : forall ty γs γ0 s0 mx m, 0 < s0 -> (forall i, threshold γs (ty i)) ->
  Rabs (γ0 - γs) < INR m * s0 -> (m < mx)%nat ->
  exists st γ, trajectory ty mx (S m) (start s0 γ0) rest = Some (st, γ) /\ started st /\ Rabs (γ - γs) <= step_size R_arith st.
Proof.
  intros ty γs γ0 s0 mx m Hs HT HA Hm.
  assert (G : forall n, (n <= m)%nat -> exists st γ, trajectory ty mx (S n) (start s0 γ0) rest = Some (st, γ) /\
    (inv_started γs st γ \/ (search_steps R_arith st = S n /\ inv_div γs s0 st γ /\ γ = γ0 - INR (S n) * s0 /\ γs <= γ0 - INR n * s0) \/
     (search_steps R_arith st = S n /\ inv_flip γs s0 st γ /\ γ = γ0 + INR (S n) * s0 /\ γ0 + INR n * s0 <= γs))).
  { induction n as [|n IH]; intro Hn.
    - cbn [trajectory]. destruct (one_first rest γs s0 mx Hs ty γ0 (HT _) ltac:(lia)) as [(L & st' & E & HI & C)|(L & st' & E & HI & C)];
        exists st'; eexists; (split; [exact E|]); right; [left | right]; (split; [exact C|]); (split; [exact HI|]); simpl; split; lra.
    - destruct IH as (st & γ & E & HI); [lia|]. cbn [trajectory] in E |- *. rewrite E.
      destruct HI as [HI|[(C & HI & Eγ & L0)|(C & HI & Eγ & L0)]].
      + destruct (one_started rest γs mx ty (S n) st γ (HT _) HI) as (st' & γ' & E' & HI' & _). exists st', γ'. auto.
      + destruct (one_search rest γs s0 mx Hs ty (S n) st γ (HT _) ltac:(lia)) as [HD _].
        destruct (HD HI) as [(L & st' & E' & HI' & C')|(L & st' & E' & HI' & C')]; exists st'; eexists; (split; [exact E'|]); [|left; exact HI'].
        right; left. split; [lia|]. split; [exact HI'|]. rewrite (S_INR (S n)). split; lra.
      + destruct (one_search rest γs s0 mx Hs ty (S n) st γ (HT _) ltac:(lia)) as [_ HD].
        destruct (HD HI) as [(L & st' & E' & HI' & C')|(L & st' & E' & HI' & C')]; exists st'; eexists; (split; [exact E'|]); [|left; exact HI'].
        right; right. split; [lia|]. split; [exact HI'|]. rewrite (S_INR (S n)). split; lra. }
  destruct (G m (le_n m)) as (st & γ & E & HI). exists st, γ. split; [exact E|].
  assert (B : - (INR m * s0) < γ0 - γs < INR m * s0) by (unfold Rabs in HA; destruct (Rcase_abs (γ0 - γs)); lra).
  destruct HI as [(H1 & H2 & H3)|[(_ & _ & _ & L)|(_ & _ & _ & L)]]; [auto | exfalso; lra | exfalso; lra].
Qed.
Print Assumptions C33_starts.
(** Whatever the judge says (even a different type for the same γ), γ stays within s0/2 of where bisection started. *)
Theorem C33_bracket : forall ty γ0 s0 mx n st γ st1 γ1, 0 < s0 ->
  trajectory ty mx n (start s0 γ0) rest = Some (st, γ) -> searching st ->
  trajectory ty mx (S n) (start s0 γ0) rest = Some (st1, γ1) -> started st1 ->
  forall k st2 γ2, trajectory ty mx (S n + k) (start s0 γ0) rest = Some (st2, γ2) ->
    Rabs (γ2 - γ1) < s0 / 2 /\ started st2.
Proof.
  intros ty γ0 s0 mx n st γ st1 γ1 Hs E0 B0 E1 B1 k st2 γ2 E2.
  assert (SS : forall n st γ, trajectory ty mx n (start s0 γ0) rest = Some (st, γ) -> searching st -> step_size R_arith st = s0).
  { clear - Hs. induction n as [|n IH]; intros st γ H B; [injection H as <- _; reflexivity|].
    cbn [trajectory] in H. destruct (trajectory ty mx n (start s0 γ0) rest) as [[st0 g0]|]; [|discriminate].
    specialize (IH st0 g0 eq_refl). unfold one_step, stepper_advance in H. destruct (binary_started R_arith st0) eqn:B0; cbn [negb] in H.
    - match type of H with context [step_func ?a ?b ?c ?d ?e] => destruct (snd (step_func a b c d e)) end; [|discriminate]. injection H as <- <-. discriminate B.
    - specialize (IH eq_refl). destruct (mx <? S (search_steps R_arith st0))%nat; [discriminate|].
      destruct (prev_soln_type R_arith st0) as [p|]; [destruct (status_eq_dec p (ty n g0))|];
        match type of H with context [step_func ?a ?b ?c ?d ?e] => destruct (snd (step_func a b c d e)) end; try discriminate;
        injection H as <- <-; cbn in B |- *; try discriminate; exact IH. }
  assert (S1 : step_size R_arith st1 = s0 / 2).
  { specialize (SS _ _ _ E0 B0). cbn [trajectory] in E1. rewrite E0 in E1. unfold one_step, stepper_advance in E1. rewrite B0 in E1. cbn [negb] in E1.
    destruct (mx <? S (search_steps R_arith st))%nat; [discriminate|].
    destruct (prev_soln_type R_arith st) as [p|]; [destruct (status_eq_dec p (ty n γ))|];
      match type of E1 with context [step_func ?a ?b ?c ?d ?e] => destruct (snd (step_func a b c d e)) end; try discriminate;
      injection E1 as <- <-; cbn in B1; try discriminate. cbn [step_size half R_arith]. rewrite SS. reflexivity. }
  destruct (started_any rest ty mx _ _ _ _ E1 B1 ltac:(rewrite S1; lra) k st2 γ2 E2) as (B2 & _ & P2 & A2).
  split; [rewrite S1 in A2; lra | exact B2].
Qed.
Print Assumptions C33_bracket.
(** With a negative initial step (the step is a tenth of the starting γ) the search walks away from the threshold and never
    brackets it. *)
Theorem C33_negative_start : forall ty γs γ0 s0 mx n st γ, s0 < 0 -> (forall i, threshold γs (ty i)) ->
  trajectory ty mx n (start s0 γ0) rest = Some (st, γ) -> searching st /\ Rabs (γ0 - γs) <= Rabs (γ - γs).
Proof.
  intros ty γs γ0 s0 mx n st γ Hs HT.
  assert (G : forall n st γ, trajectory ty mx n (start s0 γ0) rest = Some (st, γ) -> searching st /\ step_size R_arith st = s0 /\
    ((prev_soln_type R_arith st = None /\ γ = γ0) \/ (prev_soln_type R_arith st = Some DIVERGE /\ γs < γ /\ γs <= γ0 < γ) \/ (prev_soln_type R_arith st = Some SIGN_FLIP /\ γ < γs /\ γ < γ0 <= γs))).
  { clear n st γ. induction n as [|n IH]; intros st γ H.
    - injection H as <- <-. cbn. repeat split. left. split; reflexivity.
    - cbn [trajectory] in H. destruct (trajectory ty mx n (start s0 γ0) rest) as [[st0 g0]|]; [|discriminate].
      destruct (IH st0 g0 eq_refl) as (B & S0 & HI). unfold one_step, stepper_advance in H. rewrite B in H. cbn [negb] in H.
      destruct (mx <? S (search_steps R_arith st0))%nat; [discriminate|].
      destruct (judge_cases γs (ty n) g0 (HT n)) as [[E L]|[E L]]; rewrite E in H;
      destruct HI as [(P & ->)|[(P & L1 & L2)|(P & L1 & L2)]]; rewrite P in H; try (exfalso; lra);
      try (destruct (status_eq_dec _ _) in H; [|congruence]); rewrite S0 in H; rewrite step_exact in H by lra; injection H as <- <-; cbn;
      (split; [reflexivity|]); (split; [exact S0 || reflexivity|]); right; first [left; repeat split; lra | right; repeat split; lra]. }
  intro H. destruct (G _ _ _ H) as (B & _ & HI). split; [exact B|].
  destruct HI as [(_ & E)|[(_ & L1 & L2)|(_ & L1 & L2)]]; [rewrite E; apply Rle_refl| |]; unfold Rabs; destruct (Rcase_abs (γ0 - γs)), (Rcase_abs (γ - γs)); lra.
Qed.
Print Assumptions C33_negative_start.
Example C33_nonvacuous : exists (ty : nat -> R -> SplitterStatus), (forall i, threshold 3 (ty i)) /\
  exists st1 γ1, trajectory ty 20 3 (start 1 (9/2)) rest = Some (st1, γ1) /\ started st1 /\ γ1 = 3.
Proof.
  exists (fun _ γ => if Rlt_dec 3 γ then DIVERGE else SIGN_FLIP). split.
  { intros i γ. destruct (Rlt_dec 3 γ); repeat split; auto; intros; try lra; auto. }
  cbn [trajectory]. unfold one_step.
  destruct (Rlt_dec 3 (9/2)); [|exfalso; lra]. rewrite adv_first by (reflexivity || (cbn; lia)). rewrite step_exact by (cbn; lra). cbn [s_γ initial_stepper search_steps step_size].
  destruct (Rlt_dec 3 (9/2 - 1)); [|exfalso; lra]. rewrite adv_same by (reflexivity || (cbn; lia)). cbn [search_steps step_size]. rewrite step_exact by lra. cbn [s_γ].
  destruct (Rlt_dec 3 (9/2 - 1 - 1)); [exfalso; lra|]. rewrite (adv_change 20 _ DIVERGE) by (reflexivity || discriminate || (cbn; lia)). cbn [search_steps step_size]. rewrite step_exact by lra. cbn [s_γ].
  eexists _, _. split; [reflexivity|]. split; [reflexivity | lra].
Qed.
End C33.

(** C34. *)
Section C34.
Context {X : Type}.
Theorem C34_terminates_partial : forall fuel γ (rest : X) t s, s <> 0 \/ t <> SIGN_FLIP ->
  snd (step_func R_arith fuel (mk_sinput R_arith (γ : F R_arith) rest) t s) <> Raise NonTermination.
Proof.
  intros fuel γ rest t s [H|H].
  - rewrite step_exact by exact H. destruct t; discriminate.
  - destruct t; cbn [step_func]; try discriminate; [congruence|]. destruct (feqb _ _ _); discriminate.
Qed.
(** A zero step never terminates: however long the loop runs, γ has not changed. *)
Theorem C34_zero_step_refuted : forall fuel γ (rest : X),
  snd (step_func R_arith fuel (mk_sinput R_arith (γ : F R_arith) rest) SIGN_FLIP (0 : F R_arith)) = Raise NonTermination.
Proof.
  intros fuel γ rest. cbn [step_func s_γ s_rest]. cbn [feqb add zero R_arith].
  replace (Reqb γ (γ + 0)) with true by (symmetry; apply Reqb_true; lra).
  assert (B : forall fuel b g, b = 0 -> g = γ -> bump R_arith fuel (γ : F R_arith) (0 : F R_arith) b g = None).
  { clear. induction fuel as [|fuel IH]; intros b g -> ->; cbn [bump]; cbn [feqb add R_arith];
      replace (Reqb γ γ) with true by (symmetry; apply Reqb_true; reflexivity); [reflexivity|].
    apply IH; lra. }
  rewrite B by lra. reflexivity.
Qed.
Print Assumptions C34_zero_step_refuted.
(** In any arithmetic with a correct equality test: the call returns iff some multiple of the step is not absorbed. *)
Fixpoint multiple (ar : arith) (n : nat) (s : F ar) : F ar := match n with O => zero ar | S n' => add ar (multiple ar n' s) s end.
Theorem C34_exact : forall ar (rest : X) (γ s : F ar), (forall a b, feqb ar a b = true <-> a = b) ->
  ((exists fuel, snd (step_func ar fuel (mk_sinput ar γ rest) SIGN_FLIP s) <> Raise NonTermination) <->
   add ar γ s <> γ \/ exists n, add ar γ (multiple ar (S n) s) <> γ).
Proof.
  intros ar rest γ s HE. cbn [step_func s_γ s_rest].
  assert (G : forall fuel k, (exists g, bump ar fuel γ s (multiple ar k s) γ = Some g) <-> exists n, (n < fuel)%nat /\ add ar γ (multiple ar (S (k + n)) s) <> γ).
  { induction fuel as [|fuel IH]; intro k; cbn [bump]; rewrite (proj2 (HE γ γ) eq_refl).
    - split; [intros (g & ?); discriminate | intros (n & ? & _); lia].
    - change (add ar (multiple ar k s) s) with (multiple ar (S k) s). specialize (IH (S k)).
      destruct (feqb ar γ (add ar γ (multiple ar (S k) s))) eqn:E.
      + apply HE in E. rewrite <- E in *. rewrite IH. split.
        * intros (n & Hn & H). exists (S n). split; [lia|]. rewrite Nat.add_succ_r. exact H.
        * intros (n & Hn & H). destruct n as [|n]; [rewrite Nat.add_0_r in H; rewrite <- E in H; congruence|].
          exists n. split; [lia|]. rewrite Nat.add_succ_r in H. exact H.
      + assert (N : add ar γ (multiple ar (S k) s) <> γ) by (intro C; symmetry in C; apply HE in C; congruence).
        split; [intros _; exists 0%nat; split; [lia | rewrite Nat.add_0_r; exact N] | intros _].
        destruct fuel; cbn [bump]; rewrite E; eexists; reflexivity. }
  destruct (feqb ar γ (add ar γ s)) eqn:E.
  - apply HE in E. rewrite <- E. split.
    + intros (fuel & H). right. destruct (bump ar fuel γ s (zero ar) γ) as [g|] eqn:EB.
      * destruct (proj1 (G fuel 0%nat)) as (n & _ & Hn); [exists g; exact EB|]. exists n. exact Hn.
      * exfalso. apply H; cbn; first [reflexivity | rewrite EB; reflexivity].
    + intros [H|(n & H)]; [congruence|]. exists (S n). destruct (proj2 (G (S n) 0%nat)) as (g & EB); [exists n; split; [lia | exact H]|].
      change (multiple ar 0 s) with (zero ar) in EB. rewrite EB. discriminate.
  - assert (N : add ar γ s <> γ) by (intro C; symmetry in C; apply HE in C; congruence).
    split; [intros _; left; exact N | intros _; exists 0%nat; discriminate].
Qed.
Print Assumptions C34_exact.
(** It is reachable: starting from γ = 0 the first rejected solution that flips sign hangs the solver. *)
Theorem C34_hang_refuted : forall {Y I} fuel (solution_func : sinput R_arith (X := X) -> res (ssoln R_arith (X := X) (Y := Y) * bool))
  get_type (rest : X) (r : run (ssoln R_arith) I) n mx nf s,
  solution_func (mk_sinput R_arith (0 : F R_arith) rest) = Ok (s, false) -> ss_input R_arith s = mk_sinput R_arith (0 : F R_arith) rest ->
  get_type s = Ok SIGN_FLIP -> r_solutions r = [] -> (0 < n)%nat -> (0 < mx)%nat ->
  snd (solver R_arith fuel solution_func get_type (mk_sinput R_arith (0 : F R_arith) rest) r n mx nf) = Raise NonTermination.
Proof.
  intros Y I fuel sf gt rest r n mx nf s Hs Hi Ht Hr Hn Hm. destruct n as [|n]; [lia|].
  unfold solver, binary_searcher. cbn [search_loop]. rewrite Hs.
  assert (W : exists w, stepper R_arith fuel mx gt (mk_sw R_arith r (initial_stepper R_arith (tenth R_arith (0 : F R_arith)))) s 0 = (w, Raise NonTermination)).
  { unfold stepper, writer. cbn [sw_run]. rewrite Hr. 
    assert (Z0 : (tenth R_arith (0 : F R_arith)) = (0 : F R_arith)) by (cbn; lra).
    destruct (ss_flag R_arith s); [change (@nil (string * ssoln R_arith (X := X) (Y := Y))) with (numbered 0 (@nil (ssoln R_arith (X := X) (Y := Y)))); rewrite add_numbered|];
      rewrite Ht; cbn [sw_st with_run]; rewrite adv_first by (reflexivity || exact Hm); cbn [initial_stepper step_size];
      rewrite Z0, Hi; eexists; rewrite C34_zero_step_refuted; reflexivity. }
  destruct W as (w & W). cbn [s_γ]. rewrite W. reflexivity.
Qed.
Print Assumptions C34_hang_refuted.
Example C34_nonvacuous : forall rest : X, snd (step_func R_arith 0 (mk_sinput R_arith (1 : F R_arith) rest) SIGN_FLIP (1/2 : F R_arith)) = Ok (mk_sinput R_arith (1 + 1/2 : F R_arith) rest).
Proof. intro rest. rewrite step_exact by lra. reflexivity. Qed.

(** C35.  The first component is what the solution's recorded input has become. *)
Theorem C35_unchanged_partial : forall ar fuel (inp : sinput ar (X := X)) t s, t <> DIVERGE -> t <> SIGN_FLIP ->
  fst (step_func ar fuel inp t s) = inp.
Proof. intros ar fuel inp t s H1 H2. destruct t; try congruence; reflexivity. Qed.
(** Otherwise the recorded input is overwritten with the next one. *)
Theorem C35_overwritten_refuted : forall ar fuel (inp inp' : sinput ar (X := X)) t s, t = DIVERGE \/ t = SIGN_FLIP ->
  snd (step_func ar fuel inp t s) = Ok inp' -> fst (step_func ar fuel inp t s) = inp'.
Proof.
  intros ar fuel inp inp' t s [-> | ->]; cbn [step_func].
  - destruct (feqb ar _ _); cbn; [discriminate | intros [= <-]; reflexivity].
  - destruct (feqb ar _ _); cbn; [|intros [= <-]; reflexivity].
    destruct (bump ar fuel _ _ _ _); cbn; [intros [= <-]; reflexivity | discriminate].
Qed.
Theorem C35_refuted : forall γ (rest : X), exists inp inp' : sinput R_arith (X := X), s_γ R_arith inp = γ /\
  fst (step_func R_arith 0 inp DIVERGE (1 : F R_arith)) = inp' /\ s_γ R_arith inp' <> γ.
Proof.
  intros γ rest. exists (mk_sinput R_arith (γ : F R_arith) rest), (mk_sinput R_arith (γ - 1 : F R_arith) rest).
  split; [reflexivity|]. split; [|cbn; lra]. cbn [step_func s_γ s_rest R_arith sub feqb].
  replace (Reqb γ (γ - 1)) with false by (symmetry; apply Reqb_false; lra). reflexivity.
Qed.
Print Assumptions C35_refuted.
End C34.

(** C74.  The whole step search.  The solver reports, for each input, a solution carrying that input and a flag, and accepts it
    iff its γ is [good]; everything within ε of γ* is good; the judge is a threshold judge at γ*. *)
Theorem C74_search_succeeds : forall {X Y I : Type} fuel
  (solution_func : sinput R_arith (X := X) -> res (ssoln R_arith (X := X) (Y := Y) * bool)) get_type good ty γs ε γ0 (rest : X) (info : I) num mx m k,
  (forall inp, exists s, solution_func inp = Ok (s, good (s_γ R_arith inp)) /\ ss_input R_arith s = inp /\ ss_flag R_arith s <> None) ->
  (forall s, get_type s = Ok (ty (s_γ R_arith (ss_input R_arith s)))) ->
  threshold γs ty -> (forall γ, Rabs (γ - γs) < ε -> good γ = true) ->
  0 < γ0 -> Rabs (γ0 - γs) < INR m * (γ0 / 10) -> γ0 / 10 / 2 ^ S k < ε -> (m < mx)%nat -> (m + S (S k) < num)%nat ->
  exists r' ss s,
    solver R_arith fuel solution_func get_type (mk_sinput R_arith (γ0 : F R_arith) rest) (new_run info) num mx false = (r', Ok true) /\
    r_final r' = Final s /\ good (s_γ R_arith (ss_input R_arith s)) = true /\
    r_solutions r' = numbered 0 (ss ++ [s]) /\ forall x, In x ss -> good (s_γ R_arith (ss_input R_arith x)) = false.
Proof.
  intros X Y I fuel sf gt good ty γs ε γ0 rest info num mx m k Hsol Hty HT Hε Hγ HA Hk Hm Hn.
  set (s0 := γ0 / 10). assert (Hs : 0 < s0) by (unfold s0; lra). fold s0 in HA, Hk.
  assert (T0 : tenth R_arith (γ0 : F R_arith) = (s0 : F R_arith)) by (cbn; unfold s0; field).
  assert (B : - (INR m * s0) < γ0 - γs < INR m * s0) by (unfold Rabs in HA; destruct (Rcase_abs (γ0 - γs)); lra).
  assert (Hm1 : (0 < m)%nat) by (destruct m; [simpl in B; lra | lia]).
  set (w0 := mk_sw R_arith (new_run info) (initial_stepper R_arith (s0 : F R_arith)) : sworld R_arith (X := X) (Y := Y)).
  assert (F0 : fine w0 []) by (split; reflexivity).
  assert (S : success good [] (search_loop (fun (w : sworld R_arith (X := X) (Y := Y)) inp => (w, sf inp)) (cleanup R_arith false)
                    (stepper R_arith fuel mx gt) (alternate_cleanup R_arith false) num 0 w0 (mk_sinput R_arith (γ0 : F R_arith) rest))).
  { destruct num as [|num]; [lia|]. destruct (good γ0) eqn:HG; [eapply loop_good; eassumption|].
    assert (A1 : stepper_advance R_arith mx (sw_st R_arith w0) (ty γ0) = (mk_st R_arith 1 false (Some (ty γ0)) (s0 : F R_arith), Ok (s0 : F R_arith)))
      by (unfold w0; cbn [sw_st]; rewrite adv_first by (reflexivity || (cbn; lia)); reflexivity).
    destruct (loop_bad fuel mx sf gt good ty γs Hsol Hty HT num 0 w0 γ0 rest [] _ _ F0 HG (Rgt_not_eq _ _ Hs) A1) as (w' & s & -> & F' & S' & B').
    apply (success_more _ _ s); [exact B'|]. destruct m as [|m]; [lia|]. rewrite S_INR in B.
    eapply (loop_search fuel mx sf gt good ty γs ε Hsol Hty HT Hε s0 Hs m k); [lia | exact F' | rewrite S'; cbn; lia | rewrite halve_pow; exact Hk |].
    rewrite S'. destruct (judge_cases γs ty γ0 HT) as [[E L]|[E L]]; rewrite E; cbn [moved]; [left | right]; unfold inv_div, inv_flip; cbn; repeat split; lra. }
  destruct S as (ss & s & R1 & R2 & R3 & R4 & R5). unfold solver, binary_searcher. cbn [s_γ]. rewrite T0. fold w0.
  destruct (search_loop _ _ _ _ num 0 w0 _) as [w best]. cbn [fst snd] in *. subst best. rewrite R2.
  exists (sw_run R_arith w), ss, s. repeat split; assumption.
Qed.
Print Assumptions C74_search_succeeds.
(** With the default 100 attempts and 20 search steps, and a tolerance of a billionth of γ0. *)
Example C74_defaults : forall {X : Type} (rest : X) γ0 γs, 0 < γ0 -> Rabs (γ0 - γs) < 19/10 * γ0 ->
  let sf (inp : sinput R_arith (X := X)) := Ok (mk_ssoln R_arith inp (Some 0%Z) tt, if Rlt_dec (Rabs (s_γ R_arith inp - γs)) (γ0 / 10 ^ 9) then true else false) in
  let gt (s : ssoln R_arith (X := X)) := Ok (if Rlt_dec γs (s_γ R_arith (ss_input R_arith s)) then DIVERGE else SIGN_FLIP) in
  snd (solver R_arith 0 sf gt (mk_sinput R_arith (γ0 : F R_arith) rest) (new_run tt) 100 20 false) = Ok true.
Proof.
  intros X rest γ0 γs H0 HA sf gt.
  destruct (C74_search_succeeds 0 sf gt (fun γ => if Rlt_dec (Rabs (γ - γs)) (γ0 / 10 ^ 9) then true else false)
    (fun γ => if Rlt_dec γs γ then DIVERGE else SIGN_FLIP) γs (γ0 / 10 ^ 9) γ0 rest tt 100 20 19 30) as (r' & ss & s & E & _).
  - intro inp. eexists. split; [reflexivity|]. split; [reflexivity | discriminate].
  - reflexivity.
  - intro γ. destruct (Rlt_dec γs γ); repeat split; auto; intros; try lra; auto.
  - intros γ H. destruct (Rlt_dec _ _); [reflexivity | contradiction].
  - exact H0.
  - simpl. lra.
  - simpl. lra.
  - lia.
  - lia.
  - rewrite E. reflexivity.
Qed.

(** C73. *)
Theorem C73_two_valued : forall c v i t, v_θ_deriv_splitter c v i = Ok t -> t = DIVERGE \/ t = SIGN_FLIP.
Proof.
  intros c v i t. unfold v_θ_deriv_splitter. destruct i as [[p d]|].
  - destruct (existsb _ p); [intros [= <-]; auto|]. destruct (nth_error d 5); [|discriminate].
    repeat match goal with |- context [if ?b then _ else _] => destruct b end; intros [= <-]; auto.
  - repeat match goal with |- context [if ?b then _ else _] => destruct b end; intros [= <-]; auto.
Qed.
Theorem C73_negative_velocity : forall c v p d l, In l p -> In "negative velocity"%string l -> v_θ_deriv_splitter c v (Some (p, d)) = Ok SIGN_FLIP.
Proof.
  intros c v p d l Hl Hn. unfold v_θ_deriv_splitter.
  replace (existsb _ p) with true; [reflexivity|]. symmetry. apply existsb_exists. exists l. split; [exact Hl|].
  apply existsb_exists. exists "negative velocity"%string. split; [exact Hn | reflexivity].
Qed.
(** It raises exactly when internal data with fewer than six rows and no negative velocity is present. *)
Theorem C73_raises_iff : forall c v i e, v_θ_deriv_splitter c v i = Raise e <->
  e = Lib_Py.IndexError /\ exists p d, i = Some (p, d) /\ (length d < 6)%nat /\ forall l, In l p -> ~ In "negative velocity"%string l.
Proof.
  intros c v i e. unfold v_θ_deriv_splitter. destruct i as [[p d]|].
  - destruct (existsb (fun pl => existsb (String.eqb "negative velocity") pl) p) eqn:EX.
    + split; [discriminate|]. intros (_ & p' & d' & [= <- <-] & _ & H). exfalso.
      apply existsb_exists in EX. destruct EX as (l & Hl & EX). apply existsb_exists in EX. destruct EX as (x & Hx & EX).
      apply String.eqb_eq in EX. subst x. exact (H l Hl Hx).
    + destruct (nth_error d 5) as [row|] eqn:EN.
      * split.
        -- repeat match goal with |- context [if ?b then _ else _] => destruct b end; discriminate.
        -- intros (_ & p' & d' & [= <- <-] & L & _). exfalso. assert (L5 : (length d <= 5)%nat) by lia. apply nth_error_None in L5. congruence.
      * split.
        -- intros [= <-]. split; [reflexivity|]. exists p, d. split; [reflexivity|]. split; [apply nth_error_None in EN; lia|].
           intros l Hl HI. assert (T : existsb (fun pl => existsb (String.eqb "negative velocity") pl) p = true).
           { apply existsb_exists. exists l. split; [exact Hl|]. apply existsb_exists. exists "negative velocity"%string. split; [exact HI | reflexivity]. }
           congruence.
        -- intros (-> & _). reflexivity.
  - split; [repeat match goal with |- context [if ?b then _ else _] => destruct b end; discriminate|].
    intros (_ & p & d & C & _). discriminate.
Qed.
Print Assumptions C73_raises_iff.
(** Without internal data and without NaN: diverging iff some sample lies between the cutoff and 1 and either some sample
    is above 1 or those near-sonic samples never decrease. *)
Theorem C73_by_velocity : forall c v, v_θ_deriv_splitter c (map Some v) None = Ok DIVERGE <->
  (exists x, In x v /\ c < x < 1) /\
  ((exists x, In x v /\ 1 < x) \/ is_monotonically_increasing (filter (near_sonic c) (map Some v)) = true).
Proof.
  intros c v. unfold v_θ_deriv_splitter.
  assert (A : existsb (near_sonic c) (map Some v) = true <-> exists x, In x v /\ c < x < 1).
  { rewrite existsb_exists. split.
    - intros (y & Hy & E). apply in_map_iff in Hy. destruct Hy as (x & <- & Hx). exists x. split; [exact Hx|].
      unfold near_sonic in E. apply andb_prop in E. destruct E as [E1 E2]. cbn in E1, E2. apply Rltb_true in E1. apply Rltb_true in E2. lra.
    - intros (x & Hx & L). exists (Some x). split; [apply in_map; exact Hx|]. unfold near_sonic. cbn.
      apply andb_true_intro. split; apply Rltb_true; lra. }
  assert (B : existsb (fun w => nlt (Some 1) w) (map Some v) = true <-> exists x, In x v /\ 1 < x).
  { rewrite existsb_exists. split.
    - intros (y & Hy & E). apply in_map_iff in Hy. destruct Hy as (x & <- & Hx). exists x. split; [exact Hx|]. apply Rltb_true in E. exact E.
    - intros (x & Hx & L). exists (Some x). split; [apply in_map; exact Hx|]. apply Rltb_true. exact L. }
  destruct (existsb (near_sonic c) (map Some v)) eqn:E1; cbn [negb].
  - destruct (existsb (fun w => nlt (Some 1) w) (map Some v)) eqn:E2.
    + split; [intros _ | reflexivity]. split; [apply A; reflexivity | left; apply B; reflexivity].
    + destruct (is_monotonically_increasing _) eqn:E3.
      * split; [intros _ | reflexivity]. split; [apply A; reflexivity | right; reflexivity].
      * split; [discriminate|]. intros (_ & [H|H]); [apply B in H; discriminate | discriminate].
  - split; [discriminate|]. intros (H & _). apply A in H. discriminate.
Qed.
Print Assumptions C73_by_velocity.
(** The judge looks at the sixth stored row, not at the v_θ column: data with the same v_θ derivatives at every angle are judged
    differently. *)
Theorem C73_column_refuted : exists c v (d1 d2 : list (list num)),
  map (fun row => nth 5 row None) d1 = map (fun row => nth 5 row None) d2 /\
  v_θ_deriv_splitter c v (Some ([], d1)) = Ok DIVERGE /\ v_θ_deriv_splitter c v (Some ([], d2)) = Ok SIGN_FLIP.
Proof.
  set (z := map Some [0; 0; 0; 0; 0; 0; 0; 0; 0; 0; 0]).
  exists (9/10), (map Some [0]), [z; z; z; z; z; map Some [0; 0; 1; 0; 0; -5; 0; 0; 0; 0; 0]], [z; z; z; z; z; map Some [0; -1; -2; -3; -4; -5; -6; -7; -8; -9; -10]].
  split; [reflexivity|]. split; unfold v_θ_deriv_splitter, z; cbn; rdec; cbn; rdec; reflexivity.
Qed.
Print Assumptions C73_column_refuted.
(** The two names give the two judges. *)
Theorem C73_names : create_soln_splitter "v_θ_deriv" = Ok Deriv_splitter /\ create_soln_splitter "human" = Ok Human_splitter /\
  forall m k, create_soln_splitter m = Ok k -> (m = "v_θ_deriv"%string /\ k = Deriv_splitter) \/ (m = "human"%string /\ k = Human_splitter).
Proof.
  split; [reflexivity|]. split; [reflexivity|]. intros m k. unfold create_soln_splitter.
  destruct (String.eqb_spec m "v_θ_deriv") as [->|]; [intros [= <-]; left; split; reflexivity|].
  destruct (String.eqb_spec m "human") as [->|]; [intros [= <-]; right; split; reflexivity | discriminate].
Qed.
(** An unknown splitter name is an error at the call instead of the default. *)
Theorem C73_unknown_refuted : forall m, m <> "v_θ_deriv"%string -> m <> "human"%string -> create_soln_splitter m = Raise TypeError.
Proof. intros m H1 H2. unfold create_soln_splitter. destruct (String.eqb_spec m "v_θ_deriv"), (String.eqb_spec m "human"); congruence. Qed.
