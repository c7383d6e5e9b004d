(** Properties of batches of tasks given to worker processes, for every schedule (C111). *)
From Coq Require Import String List Bool ZArith Reals Permutation Lia.
From Verif Require Import Lib_Py Model_Format Model_Inputs Model_Csv Model_Options Model_Run Model_Solve Model_Index Model_Waves Model_Midplane Model_Shock Model_SolverOptions Model_Pool Spec_Pool.
Import ListNotations.
Open Scope string_scope. Open Scope list_scope.

Section Pool.
Context {W A E : Type}.
Variable task : nat -> W -> W * res A.
Variable total : nat.
Variable body : A -> list E * option exn.
Variable workers : nat.
Notation batch := (@batch W A E).
Notation step := (@step W A E task total body workers).
Notation steps := (@steps W A E task total body workers).
Notation initial := (@initial W A E total).

Lemma done_in_app : forall a b w, done_in task (a ++ b) w =
  let (w1, l1) := done_in task a w in let (w2, l2) := done_in task b w1 in (w2, l1 ++ l2).
Proof.
  induction a as [|i a IH]; intros b w; cbn [done_in app].
  - destruct (done_in task b w). reflexivity.
  - destruct (task i w) as [w1 r]. rewrite IH. destruct (done_in task a w1) as [w2 l2]. destruct (done_in task b w2). reflexivity.
Qed.
Lemma done_in_fst : forall a w, map fst (snd (done_in task a w)) = a.
Proof. induction a as [|i a IH]; intro w; cbn; [reflexivity|]. destruct (task i w) as [w1 r]. specialize (IH w1). destruct (done_in task a w1). cbn in *. f_equal. exact IH. Qed.
Lemma handled_app : forall l r es, handled body l = (es, None) -> handled body (l ++ [r]) =
  match r with Raise e => (es, Some e) | Ok a => (es ++ fst (body a), snd (body a)) end.
Proof.
  induction l as [|x l IH]; intros r es H; cbn [app handled] in *.
  - injection H as <-. destruct r as [a|e]; [|reflexivity]. destruct (body a) as [es [e|]]; cbn; rewrite ?app_nil_r; reflexivity.
  - destruct x as [a|e]; [|discriminate]. destruct (body a) as [es1 [e|]]; [discriminate|]. injection H as H1 H2.
    rewrite (IH r (fst (handled body l))) by (rewrite <- H2; destruct (handled body l); reflexivity).
    rewrite <- H1. destruct r as [b|e]; cbn; [rewrite app_assoc|]; reflexivity.
Qed.

(** The results of the tasks before [n]. *)
Definition results_upto (s : batch) (n : nat) (l : list (res A)) : Prop :=
  List.length l = n /\ forall i, (i < n)%nat -> exists r, nth_error l i = Some r /\ In (i, r) (b_done s).
(** What holds after any number of steps. *)
Record reached (w0 : W) (s : batch) : Prop := {
  re_world : exists order, done_in task order w0 = (b_world s, rev (b_done s));
  re_tasks : Permutation (b_waiting s ++ b_running s ++ map fst (b_done s)) (seq 0 total);
  re_started : exists k, b_waiting s = seq k (total - k) /\ (k <= total)%nat;
  re_workers : (List.length (b_running s) <= workers)%nat;
  re_next : (b_next s <= total)%nat;
  re_out : exists l, results_upto s (b_next s) l /\
    match b_phase s with
    | Looping => handled body l = (b_out s, None)
    | Leaving e | Left e => handled body l = (b_out s, e) /\ (e = None -> b_next s = total)
    end;
  re_left : forall e, b_phase s = Left e -> b_waiting s = [] /\ b_running s = [] }.

Lemma result_of_In : forall i (l : list (nat * res A)) r, result_of i l = Some r -> In (i, r) l.
Proof.
  intros i l r H. unfold result_of in H. destruct (find (fun p => Nat.eqb i (fst p)) l) as [[j x]|] eqn:F; [|discriminate]. injection H as ->.
  apply find_some in F. destruct F as [F1 F2]. cbn in F2. apply Nat.eqb_eq in F2. subst. exact F1.
Qed.
Lemma upto_more : forall s s' n l, results_upto s n l -> (forall p, In p (b_done s) -> In p (b_done s')) -> results_upto s' n l.
Proof. intros s s' n l [H1 H2] Hin. split; [exact H1|]. intros i Hi. destruct (H2 i Hi) as (r & R1 & R2). exists r. split; [exact R1|apply Hin, R2]. Qed.
Lemma upto_next : forall s n l r, results_upto s n l -> In (n, r) (b_done s) -> results_upto s (S n) (l ++ [r]).
Proof.
  intros s n l r [H1 H2] H. split; [rewrite app_length, H1; cbn; lia|]. intros i Hi. destruct (Nat.eq_dec i n) as [->|D].
  - exists r. split; [|exact H]. rewrite nth_error_app2, H1, Nat.sub_diag by lia. reflexivity.
  - destruct (H2 i ltac:(lia)) as (x & R1 & R2). exists x. split; [|exact R2]. rewrite nth_error_app1 by lia. exact R1.
Qed.

Lemma reached_initial : forall w, reached w (initial w).
Proof.
  intro w. split; cbn.
  - exists []. reflexivity.
  - rewrite app_nil_r. apply Permutation_refl.
  - exists 0%nat. rewrite Nat.sub_0_r. split; [reflexivity|lia].
  - lia.
  - lia.
  - exists []. split; [|reflexivity]. split; [reflexivity|]. intros i Hi. lia.
  - intros e H. discriminate.
Qed.
Lemma reached_step : forall w0 s s', reached w0 s -> step s s' -> reached w0 s'.
Proof.
  intros w0 s s' [R1 R2 R3 R4 R5 R6 R7] H. destruct H; cbn [b_world b_waiting b_running b_done b_next b_out b_phase] in *.
  - (* take *) split; cbn [b_world b_waiting b_running b_done b_next b_out b_phase]; auto.
    + rewrite <- R2. cbn [app]. symmetry. apply Permutation_middle.
    + destruct R3 as (k & K1 & K2). exists (S k). destruct (Nat.eq_dec k total) as [->|D]; [rewrite Nat.sub_diag in K1; discriminate|].
      replace (total - k)%nat with (S (total - S k)) in K1 by lia. cbn [seq] in K1. injection K1 as _ K1. split; [exact K1|lia].
    + intros e He. destruct (R7 e He). discriminate.
  - (* end *) split; cbn [b_world b_waiting b_running b_done b_next b_out b_phase]; auto.
    + destruct R1 as (order & O). exists (order ++ [i]). rewrite done_in_app, O. cbn [done_in]. rewrite H. cbn [rev]. reflexivity.
    + rewrite <- R2. cbn [map fst]. apply Permutation_app_head. rewrite <- !app_assoc. apply Permutation_app_head. cbn [app].
      symmetry. apply Permutation_middle.
    + rewrite !app_length in *. cbn in R4. lia.
    + destruct R6 as (l & U & P). exists l. split; [|exact P]. apply (upto_more _ _ _ _ U). cbn. intros p Hp. right. exact Hp.
    + intros e He. destruct (R7 e He) as [_ F]. destruct before; discriminate.
  - (* hand over *) split; cbn [b_world b_waiting b_running b_done b_next b_out b_phase]; auto.
    destruct R6 as (l & U & P). exists (l ++ [Ok a]). split; [apply (upto_next _ _ _ _ U), result_of_In; assumption|].
    rewrite (handled_app _ _ _ P), H1. reflexivity.
  - split; cbn [b_world b_waiting b_running b_done b_next b_out b_phase]; auto; [|discriminate].
    destruct R6 as (l & U & P). exists (l ++ [Ok a]). split; [apply (upto_next _ _ _ _ U), result_of_In; assumption|].
    rewrite (handled_app _ _ _ P), H1. split; [reflexivity|discriminate].
  - split; cbn [b_world b_waiting b_running b_done b_next b_out b_phase]; auto; [|discriminate].
    destruct R6 as (l & U & P). exists (l ++ [Raise e]). split; [apply (upto_next _ _ _ _ U), result_of_In; assumption|].
    rewrite (handled_app _ _ _ P). split; [reflexivity|discriminate].
  - split; cbn [b_world b_waiting b_running b_done b_next b_out b_phase]; auto; [|discriminate].
    destruct R6 as (l & U & P). exists l. split; [exact U|]. split; [exact P|reflexivity].
  - split; cbn [b_world b_waiting b_running b_done b_next b_out b_phase]; auto.
Qed.
Lemma reached_steps : forall w s, steps (initial w) s -> reached w s.
Proof. intros w s H. remember (initial w) as s0 eqn:E0. induction H; subst; [apply reached_initial|]. eapply reached_step; eauto. Qed.

(** ** At every moment *)
(** C111: at most as many tasks run at once as there are workers, they are started in the order of the inputs, and no task is there
    twice. *)
Theorem C111_workers : forall w s, steps (initial w) s ->
  (List.length (b_running s) <= workers)%nat /\
  (exists k, b_waiting s = seq k (total - k) /\ Permutation (b_running s ++ map fst (b_done s)) (seq 0 k) /\ (k <= total)%nat).
Proof.
  intros w s H. destruct (reached_steps w s H) as [_ R2 (k & K1 & K2) R4 _ _ _]. split; [exact R4|]. exists k. split; [exact K1|]. split; [|exact K2].
  rewrite K1 in R2. replace total with (k + (total - k))%nat in R2 at 2 by lia. rewrite seq_app in R2. cbn [plus] in R2.
  apply (Permutation_app_inv_l (seq k (total - k))). rewrite R2. apply Permutation_app_comm.
Qed.
(** C111: what was written is what handling some first results in order writes (so also if the command is stopped there). *)
Theorem C111_written : forall w s, steps (initial w) s ->
  exists l, results_upto s (b_next s) l /\ fst (handled body l) = b_out s.
Proof.
  intros w s H. destruct (reached_steps w s H) as [_ _ _ _ _ (l & U & P) _]. exists l. split; [exact U|].
  destruct (b_phase s); [rewrite P; reflexivity|destruct P as [P _]; rewrite P; reflexivity|destruct P as [P _]; rewrite P; reflexivity].
Qed.

(** ** At the end *)
Lemma nodup_result : forall (l : list (nat * res A)) i x y, NoDup (map fst l) -> In (i, x) l -> In (i, y) l -> x = y.
Proof.
  induction l as [|[j z] l IH]; intros i x y N Hx Hy; [destruct Hx|]. cbn in N. inversion N as [|? ? N1 N2]; subst.
  assert (F : forall u, In (i, u) l -> In i (map fst l)) by (intros u Hu; apply in_map_iff; exists (i, u); auto).
  destruct Hx as [Hx|Hx], Hy as [Hy|Hy].
  - congruence.
  - injection Hx as -> ->. exfalso. apply N1. eapply F, Hy.
  - injection Hy as -> ->. exfalso. apply N1. eapply F, Hx.
  - eapply IH; eauto.
Qed.
Lemma handled_stops : forall l m es e, handled body l = (es, Some e) -> handled body (l ++ m) = (es, Some e).
Proof.
  induction l as [|x l IH]; intros m es e H; cbn [app handled] in *; [discriminate|]. destruct x as [a|e']; [|exact H].
  destruct (body a) as [es1 [e1|]]; [exact H|]. injection H as H1 H2. rewrite (IH m (fst (handled body l)) e) by (rewrite <- H2; destruct (handled body l); reflexivity).
  cbn. rewrite H1. reflexivity.
Qed.
(** C111: whatever fails, when the command ends every task has been done exactly once, in some order; what was written and the
    exception are those of handling all results in the order of the inputs. *)
Theorem C111_end : forall w s e, steps (initial w) s -> b_phase s = Left e ->
  exists order results, Permutation order (seq 0 total) /\
    done_in task order w = (b_world s, rev (b_done s)) /\ rev (b_done s) = map (fun i => (i, nth i results (Raise NonTermination))) order /\
    List.length results = total /\ handled body results = (b_out s, e).
Proof.
  intros w s e H He. destruct (reached_steps w s H) as [(order & O) R2 _ _ R5 (l & [U1 U2] & P) R7].
  destruct (R7 e He) as [Ew Er]. rewrite Ew, Er in R2. cbn [app] in R2. rewrite He in P. destruct P as [P1 P2].
  assert (Eo : order = map fst (rev (b_done s))) by (rewrite <- (done_in_fst order w), O; reflexivity).
  assert (Po : Permutation order (seq 0 total)).
  { rewrite Eo, map_rev. rewrite <- R2. symmetry. apply Permutation_rev. }
  assert (ND : NoDup (map fst (b_done s))) by (apply (Permutation_NoDup (Permutation_sym R2)), seq_NoDup).
  set (results := map (fun i => match result_of i (b_done s) with Some r => r | None => Raise NonTermination end) (seq 0 total)).
  assert (Rn : forall i r, (i < total)%nat -> In (i, r) (b_done s) -> nth i results (Raise NonTermination) = r).
  { intros i r Hi Hr. unfold results. rewrite (nth_indep _ _ ((fun i => match result_of i (b_done s) with Some r => r | None => Raise NonTermination end) 0%nat)) by (rewrite map_length, seq_length; exact Hi).
    rewrite (map_nth (fun i => match result_of i (b_done s) with Some r => r | None => Raise NonTermination end)), seq_nth by exact Hi. cbn [plus].
    destruct (result_of i (b_done s)) as [x|] eqn:F.
    - apply (nodup_result (b_done s) i); [exact ND|apply result_of_In, F|exact Hr].
    - exfalso. unfold result_of in F. destruct (find (fun p => Nat.eqb i (fst p)) (b_done s)) as [[j x]|] eqn:F'; [discriminate|].
      pose proof (find_none _ _ F' _ Hr) as Z. cbn in Z. rewrite Nat.eqb_refl in Z. discriminate. }
  exists order, results. split; [exact Po|]. split; [exact O|]. split; [|split].
  - rewrite Eo, map_map. rewrite <- (map_id (rev (b_done s))) at 1. apply map_ext_in. intros [i r] Hp. cbn [fst]. f_equal. symmetry. apply in_rev in Hp. apply Rn; [|exact Hp].
    assert (In i (seq 0 total)) by (apply (Permutation_in _ R2), in_map_iff; exists (i, r); auto). apply in_seq in H0. lia.
  - unfold results. rewrite map_length, seq_length. reflexivity.
  - assert (El : l = firstn (b_next s) results).
    { apply (nth_ext _ _ (Raise NonTermination) (Raise NonTermination)).
      - rewrite firstn_length, U1. unfold results. rewrite map_length, seq_length. lia.
      - intros i Hi. rewrite U1 in Hi. destruct (U2 i Hi) as (r & V1 & V2). rewrite (nth_error_nth _ _ _ V1).
        rewrite <- (Rn i r ltac:(lia) V2). rewrite <- (firstn_skipn (b_next s) results) at 1. rewrite app_nth1; [reflexivity|].
        rewrite firstn_length. unfold results. rewrite map_length, seq_length. lia. }
    destruct e as [e|].
    + rewrite <- (firstn_skipn (b_next s) results). apply handled_stops. rewrite <- El. exact P1.
    + rewrite (P2 eq_refl) in El. rewrite firstn_all2 in El by (unfold results; rewrite map_length, seq_length; lia). rewrite <- El. exact P1.
Qed.
(** C111: if no task depends on what the others leave, output and status do not depend on the schedule. *)
Theorem C111_schedule : forall w s e, (forall i u v, snd (task i u) = snd (task i v)) -> steps (initial w) s -> b_phase s = Left e ->
  handled body (map (fun i => snd (task i w)) (seq 0 total)) = (b_out s, e).
Proof.
  intros w s e Pure H He. destruct (C111_end w s e H He) as (order & results & Po & D & D' & L & Hd). rewrite <- Hd. f_equal. rewrite D' in D.
  assert (G : forall order u i r, In (i, r) (snd (done_in task order u)) -> r = snd (task i w)).
  { clear - Pure. induction order as [|j t IH]; intros u i r Hi; cbn in Hi; [destruct Hi|]. destruct (task j u) as [w1 x] eqn:T. specialize (IH w1).
    destruct (done_in task t w1) as [w2 l]. destruct Hi as [Hi|Hi]; [|apply IH, Hi]. injection Hi as <- <-. rewrite (Pure j w u), T. reflexivity. }
  apply (nth_ext _ _ (Raise NonTermination) (Raise NonTermination)); [rewrite map_length, seq_length; symmetry; exact L|].
  intros i Hi. rewrite map_length, seq_length in Hi.
  rewrite (nth_indep _ _ ((fun i => snd (task i w)) 0%nat)) by (rewrite map_length, seq_length; exact Hi). rewrite (map_nth (fun i => snd (task i w))), seq_nth by exact Hi. cbn [plus].
  assert (In (i, nth i results (Raise NonTermination)) (snd (done_in task order w))).
  { rewrite D. cbn [snd]. apply in_map_iff. exists i. split; [reflexivity|]. apply (Permutation_in _ (Permutation_sym Po)), in_seq. lia. }
  symmetry. eapply G, H0.
Qed.

(** C111: and what was written before the end is the beginning of that. *)
Lemma handled_prefix : forall l m, begins_with (fst (handled body l)) (fst (handled body (l ++ m))).
Proof.
  induction l as [|x l IH]; intro m; cbn [app handled fst]; [eexists; reflexivity|]. destruct x as [a|e]; [|exists []; reflexivity].
  destruct (body a) as [es [e|]]; cbn [fst]; [exists []; rewrite app_nil_r; reflexivity|]. destruct (IH m) as [rest E']. exists rest. rewrite E', app_assoc. reflexivity.
Qed.
Theorem C111_prefix : forall w s, (forall i u v, snd (task i u) = snd (task i v)) -> steps (initial w) s ->
  begins_with (b_out s) (fst (handled body (map (fun i => snd (task i w)) (seq 0 total)))).
Proof.
  intros w s Pure H. destruct (C111_written w s H) as (l & [U1 U2] & P). destruct (reached_steps w s H) as [(order & O) _ _ _ R5 _ _].
  assert (G : forall order u i r, In (i, r) (snd (done_in task order u)) -> r = snd (task i w)).
  { clear - Pure. induction order as [|j t IH]; intros u i r Hi; cbn in Hi; [destruct Hi|]. destruct (task j u) as [w1 x] eqn:T. specialize (IH w1).
    destruct (done_in task t w1) as [w2 l]. destruct Hi as [Hi|Hi]; [|apply IH, Hi]. injection Hi as <- <-. rewrite (Pure j w u), T. reflexivity. }
  assert (El : l = map (fun i => snd (task i w)) (seq 0 (b_next s))).
  { apply (nth_ext _ _ (Raise NonTermination) (Raise NonTermination)); [rewrite map_length, seq_length; exact U1|]. intros i Hi. rewrite U1 in Hi.
    destruct (U2 i Hi) as (r & V1 & V2). rewrite (nth_error_nth _ _ _ V1).
    rewrite (nth_indep _ _ ((fun i => snd (task i w)) 0%nat)) by (rewrite map_length, seq_length; exact Hi). rewrite (map_nth (fun i => snd (task i w))), seq_nth by exact Hi. cbn [plus].
    apply (G order w). rewrite O. cbn [snd]. apply -> in_rev. exact V2. }
  rewrite <- P, El. replace total with (b_next s + (total - b_next s))%nat by lia. rewrite seq_app, map_app. apply handled_prefix.
Qed.

(** ** It ends *)
Definition left_to_do (s : batch) : nat :=
  (2 * List.length (b_waiting s) + List.length (b_running s) + (total - b_next s) + match b_phase s with Looping => 2 | Leaving _ => 1 | Left _ => 0 end)%nat.
(** C111: with at least one worker the command goes on until it has ended, and ends after at most 3 n + 2 steps. *)
Theorem C111_ends : forall w, (1 <= workers)%nat ->
  left_to_do (initial w) = (3 * total + 2)%nat /\
  (forall s s', step s s' -> (left_to_do s' < left_to_do s)%nat) /\
  (forall s, steps (initial w) s -> (forall e, b_phase s <> Left e) -> exists s', step s s').
Proof.
  intros w Hw. split; [|split].
  - unfold left_to_do. cbn. rewrite seq_length. lia.
  - intros s s' H. destruct H; unfold left_to_do; cbn [b_waiting b_running b_next b_phase List.length]; rewrite ?app_length; cbn [List.length]; try lia.
    all: destruct ph; lia.
  - intros s H He. destruct (reached_steps w s H) as [_ R2 (k & K1 & K2) R4 R5 (l & U & P) _].
    destruct s as [u waiting running results next out ph]. cbn [b_waiting b_running b_done b_next b_out b_phase b_world] in *.
    destruct running as [|i running].
    + destruct waiting as [|i waiting].
      * destruct ph as [|e|e]; [|eexists; apply joined|destruct (He e eq_refl)].
        destruct (Nat.eq_dec next total) as [->|D]; [eexists; apply loop_ends|].
        assert (Hn : (next < total)%nat) by lia.
        assert (In next (map fst results)) by (apply (Permutation_in _ (Permutation_sym R2)), in_seq; lia).
        assert (F : exists r, result_of next results = Some r).
        { apply in_map_iff in H0. destruct H0 as ([j r] & J & Hin). cbn in J. subst j. unfold result_of. destruct (find (fun p => Nat.eqb next (fst p)) results) as [[j x]|] eqn:F; [eexists; reflexivity|].
          pose proof (find_none _ _ F _ Hin) as Z. cbn in Z. rewrite Nat.eqb_refl in Z. discriminate. }
        destruct F as [[a|e] F].
        -- destruct (body a) as [es [e|]] eqn:B; eexists; [eapply body_raises|eapply hand_over]; eauto.
        -- eexists. eapply task_raised; eauto.
      * eexists. apply take_task. cbn. lia.
    + destruct (task i u) as [u' r] eqn:T. eexists. apply (end_task task total body workers u waiting [] i running). exact T.
Qed.
(** C111: so every batch can be brought to its end, from wherever it is. *)
Theorem C111_completes : forall w s, (1 <= workers)%nat -> steps (initial w) s -> exists s' e, steps (initial w) s' /\ b_phase s' = Left e.
Proof.
  intros w s Hw. remember (left_to_do s) as n eqn:En. revert s En. induction n as [n IH] using (well_founded_induction Wf_nat.lt_wf). intros s -> H.
  destruct (C111_ends w Hw) as (_ & Dec & Prog). destruct (b_phase s) as [|e|e] eqn:P; [| |exists s, e; auto].
  - destruct (Prog s H) as [s' St]; [intros e He; congruence|]. apply (IH _ (Dec s s' St) s' eq_refl). eapply steps_more; eassumption.
  - destruct (Prog s H) as [s' St]; [intros e' He; congruence|]. apply (IH _ (Dec s s' St) s' eq_refl). eapply steps_more; eassumption.
Qed.
End Pool.

(** Three tasks and two workers: the second ends before the first, which raises; the third is done all the same. *)
Definition ex_task (i : nat) (w : list nat) : list nat * res nat := (w ++ [i], match i with O => Raise Lib_Py.ValueError | _ => Ok i end).
Definition ex_body (a : nat) : list nat * option exn := ([a], None).
Example C111_nonvacuous : exists s, steps ex_task 3 ex_body 2 (initial 3 []) s /\ b_phase s = Left (Some Lib_Py.ValueError) /\ b_world s = [1; 0; 2]%nat /\ b_out s = [].
Proof.
  exists (mk_batch [1; 0; 2]%nat [] [] [(2%nat, Ok 2%nat); (0%nat, Raise Lib_Py.ValueError); (1%nat, Ok 1%nat)] 1 [] (Left (Some Lib_Py.ValueError))).
  split; [|split; [reflexivity|split; reflexivity]].
  eapply steps_more; [|apply joined].
  eapply steps_more; [|apply (end_task ex_task 3 ex_body 2 [1; 0]%nat [] [] 2 []); reflexivity].
  eapply steps_more; [|apply task_raised; [lia|reflexivity]].
  eapply steps_more; [|apply take_task; cbn; lia].
  eapply steps_more; [|apply (end_task ex_task 3 ex_body 2 [1]%nat [2]%nat [] 0 []); reflexivity].
  eapply steps_more; [|apply (end_task ex_task 3 ex_body 2 [] [2]%nat [] 1 [0]%nat); reflexivity].
  eapply steps_more; [|apply take_task; cbn; lia].
  eapply steps_more; [|apply take_task; cbn; lia].
  apply steps_none.
Qed.
