(** The step search in floating-point arithmetic: lemmas for Props_Float. *)
From Coq Require Import String List Bool ZArith Reals Lra Lia Psatz.
From Flocq Require Import Core.
From Verif Require Import Lib_Py Model_Run Model_Array Model_Stepper Model_Float Spec_Run Spec_Stepper Proofs_Array Proofs_Run Proofs_Stepper Proofs_Float.
Import ListNotations.
Local Open Scope R_scope.

(** ** One attempt, in any arithmetic *)
Section Attempt.
Variable ar : arith.
Context {X Y I : Type}.
Variables (fuel mx : nat) (sf : sinput ar (X := X) -> res (ssoln ar (X := X) (Y := Y) * bool))
  (gt : ssoln ar (X := X) (Y := Y) -> res SplitterStatus) (ty : F ar -> SplitterStatus).
Hypothesis Hsol : forall inp, exists s, sf inp = Ok (s, false) /\ ss_input ar s = inp /\ ss_flag ar s <> None.
Hypothesis Hty : forall s, gt s = Ok (ty (s_γ ar (ss_input ar s))).
Notation world := (sworld ar (X := X) (Y := Y) (I := I)).
Notation loop := (search_loop (fun (w : world) inp => (w, sf inp)) (cleanup ar false) (stepper ar fuel mx gt) (alternate_cleanup ar false)).
Definition fresh (w : world) (pre : list (ssoln ar (X := X) (Y := Y))) : Prop :=
  r_solutions (sw_run ar w) = numbered 0 pre /\ r_final (sw_run ar w) = Unset.
Lemma written : forall w i s pre a st' sz, fresh w pre -> ss_input ar s = i -> ss_flag ar s <> None ->
  stepper_advance ar mx (sw_st ar w) (ty (s_γ ar i)) = (st', Ok sz) ->
  stepper ar fuel mx gt w s a = (mk_sw ar (with_solutions (sw_run ar w) (numbered 0 (pre ++ [s]))) st', snd (step_func ar fuel i (ty (s_γ ar i)) sz)).
Proof.
  intros w i s pre a st' sz [F1 F2] HI HF HA. unfold stepper, writer. destruct (ss_flag ar s) as [fl|]; [|congruence]. rewrite F1, add_numbered.
  rewrite Hty, HI. cbn [sw_st with_run]. rewrite HA. reflexivity.
Qed.
Lemma attempt_moves : forall todo a w i pre st' sz i', fresh w pre ->
  stepper_advance ar mx (sw_st ar w) (ty (s_γ ar i)) = (st', Ok sz) -> snd (step_func ar fuel i (ty (s_γ ar i)) sz) = Ok i' ->
  exists w' s, loop (S todo) a w i = loop todo (S a) w' i' /\ fresh w' (pre ++ [s]) /\ sw_st ar w' = st' /\ ss_input ar s = i.
Proof.
  intros todo a w i pre st' sz i' HF HA HS. destruct (Hsol i) as (s & E & HI & HG). eexists _, s. cbn [search_loop]. rewrite E.
  rewrite (written w i s pre a st' sz HF HI HG HA), HS. split; [reflexivity|]. split; [|split; [reflexivity | exact HI]]. split; [reflexivity | exact (proj2 HF)].
Qed.
Lemma attempt_stops : forall todo w i pre st' sz, fresh w pre ->
  stepper_advance ar mx (sw_st ar w) (ty (s_γ ar i)) = (st', Ok sz) -> snd (step_func ar fuel i (ty (s_γ ar i)) sz) = Raise StepperStop ->
  exists s, let '(w', res) := loop (S todo) (length pre) w i in
    res = Ok (Some (Some s)) /\ r_final (sw_run ar w') = Final s /\ r_solutions (sw_run ar w') = numbered 0 (pre ++ [s]) /\ ss_input ar s = i.
Proof.
  intros todo w i pre st' sz HF HA HS. destruct (Hsol i) as (s & E & HI & HG). exists s. cbn [search_loop]. rewrite E.
  rewrite (written w i s pre _ st' sz HF HI HG HA), HS. unfold handle, alternate_cleanup. cbn [sw_run with_solutions r_solutions].
  assert (NG := numbered_get (pre ++ [s]) 0 (length pre)). cbn [Nat.add] in NG. rewrite nth_error_app2, Nat.sub_diag in NG by lia. cbn [nth_error] in NG.
  unfold dgetitem. rewrite NG.
  unfold assign_final, set_final. cbn [sw_run with_solutions r_final]. rewrite (proj2 HF). repeat split; exact HI.
Qed.
Lemma attempt_raises : forall todo a w i pre st' sz, fresh w pre ->
  stepper_advance ar mx (sw_st ar w) (ty (s_γ ar i)) = (st', Ok sz) -> snd (step_func ar fuel i (ty (s_γ ar i)) sz) = Raise NonTermination ->
  snd (loop (S todo) a w i) = Raise NonTermination.
Proof.
  intros todo a w i pre st' sz HF HA HS. destruct (Hsol i) as (s & E & HI & HG). cbn [search_loop]. rewrite E.
  rewrite (written w i s pre a st' sz HF HI HG HA), HS. reflexivity.
Qed.
(** The stepper's variables. *)
Lemma go_started : forall st t, binary_started ar st = true ->
  stepper_advance ar mx st t = (mk_st ar (search_steps ar st) true (prev_soln_type ar st) (half ar (step_size ar st)), Ok (half ar (step_size ar st))).
Proof. intros st t H. unfold stepper_advance. rewrite H. reflexivity. Qed.
Lemma go_first : forall n s t, (n < mx)%nat -> stepper_advance ar mx (mk_st ar n false None s) t = (mk_st ar (S n) false (Some t) s, Ok s).
Proof. intros n s t H. unfold stepper_advance. cbn. replace (mx <=? n)%nat with false by (symmetry; apply Nat.leb_gt; lia). reflexivity. Qed.
Lemma go_same : forall n s t, (n < mx)%nat -> stepper_advance ar mx (mk_st ar n false (Some t) s) t = (mk_st ar (S n) false (Some t) s, Ok s).
Proof.
  intros n s t H. unfold stepper_advance. cbn [binary_started negb search_steps prev_soln_type step_size].
  replace (mx <? S n)%nat with false by (symmetry; apply Nat.ltb_ge; lia). destruct (status_eq_dec t t); [reflexivity | congruence].
Qed.
Lemma go_change : forall n s t0 t, (n < mx)%nat -> t0 <> t ->
  stepper_advance ar mx (mk_st ar n false (Some t0) s) t = (mk_st ar (S n) true (Some t0) (half ar s), Ok (half ar s)).
Proof.
  intros n s t0 t H HN. unfold stepper_advance. cbn [binary_started negb search_steps prev_soln_type step_size].
  replace (mx <? S n)%nat with false by (symmetry; apply Nat.ltb_ge; lia). destruct (status_eq_dec t0 t); [congruence | reflexivity].
Qed.
End Attempt.

(** ** Accepted solutions: the search ends with the first one, and goes on as if there were none until then. *)
Section Accept.
Variable ar : arith.
Context {X Y I : Type}.
Variables (fuel mx : nat) (sf : sinput ar (X := X) -> res (ssoln ar (X := X) (Y := Y) * bool))
  (gt : ssoln ar (X := X) (Y := Y) -> res SplitterStatus) (good : F ar -> bool).
Hypothesis Hsol : forall inp, exists s, sf inp = Ok (s, good (s_γ ar inp)) /\ ss_input ar s = inp /\ ss_flag ar s <> None.
Notation world := (sworld ar (X := X) (Y := Y) (I := I)).
Definition rejecting (inp : sinput ar (X := X)) : res (ssoln ar (X := X) (Y := Y) * bool) := let! q := sf inp in Ok (fst q, false).
Notation loop f := (search_loop (fun (w : world) inp => (w, f inp)) (cleanup ar false) (stepper ar fuel mx gt) (alternate_cleanup ar false)).
Lemma rejecting_sol : forall inp, exists s, rejecting inp = Ok (s, false) /\ ss_input ar s = inp /\ ss_flag ar s <> None.
Proof. intro inp. destruct (Hsol inp) as (s & E & H). exists s. unfold rejecting. rewrite E. split; [reflexivity | exact H]. Qed.
Definition accepted (pre : list (ssoln ar (X := X) (Y := Y))) (q : world * res (option (option (ssoln ar)))) : Prop :=
  exists ss s, snd q = Ok (Some (Some s)) /\ r_final (sw_run ar (fst q)) = Final s /\ r_solutions (sw_run ar (fst q)) = numbered 0 (pre ++ ss ++ [s]) /\
    good (s_γ ar (ss_input ar s)) = true /\ forall x, In x ss -> good (s_γ ar (ss_input ar x)) = false.
Lemma last_numbered : forall {Sol} (pre : list Sol) s, get_last_solution (numbered 0 (pre ++ [s])) = Ok s.
Proof.
  intros Sol pre s.
  destruct (get_last_total (numbered 0 (pre ++ [s]))) as [x E].
  - apply numbered_NoDup.
  - intro E. apply (f_equal (@length _)) in E. rewrite numbered_length, app_length in E. simpl in E. lia.
  - intros k Hk. rewrite numbered_keys in Hk. apply in_map_iff in Hk. destruct Hk as (n & <- & _). rewrite py_int_str. discriminate.
  - rewrite E. f_equal. destruct (get_last_spec _ _ (numbered_NoDup _ _) E) as (k & z & G & P & M).
    assert (K : In k (dkeys (numbered 0 (pre ++ [s])))).
    { destruct (in_dec String.string_dec k (dkeys (numbered 0 (pre ++ [s])))) as [Hi|Hn]; [exact Hi|]. apply dget_None_keys in Hn. congruence. }
    rewrite numbered_keys in K. apply in_map_iff in K. destruct K as (n & <- & Kn). apply in_seq in Kn. rewrite app_length in Kn; simpl in Kn.
    pose proof (numbered_get (pre ++ [s]) 0 (length pre)) as GL. simpl in GL. rewrite nth_error_app2, Nat.sub_diag in GL by lia. simpl in GL.
    destruct (M _ _ GL) as (z' & P' & LE). rewrite py_int_str in P, P'. injection P as <-. injection P' as <-.
    assert (n = length pre) by lia. subst n. congruence.
Qed.
Lemma accept_or_not : forall todo a w i pre, fresh ar w pre ->
  accepted pre (loop sf todo a w i) \/
  loop sf todo a w i = loop rejecting todo a w i /\
  exists ss, r_solutions (sw_run ar (fst (loop sf todo a w i))) = numbered 0 (pre ++ ss) /\ forall x, In x ss -> good (s_γ ar (ss_input ar x)) = false.
Proof.
  induction todo as [|todo IH]; intros a w i pre [F1 F2].
  - right. split; [reflexivity|]. exists []. cbn [search_loop fst]. rewrite app_nil_r. split; [exact F1 | intros x []].
  - destruct (Hsol i) as (s & E & HI & HF). cbn [search_loop]. unfold rejecting at 1. rewrite E. cbn [rbind fst].
    destruct (good (s_γ ar i)) eqn:HG.
    + left. unfold cleanup, writer. destruct (ss_flag ar s) as [fl|]; [|congruence]. rewrite F1, add_numbered.
      cbn [sw_run with_run with_solutions r_solutions r_final]. rewrite last_numbered. unfold assign_final, set_final.
      cbn [sw_run with_run with_solutions r_solutions r_final]. rewrite F2.
      exists [], s. cbn [fst snd sw_run with_run with_final r_final r_solutions app]. rewrite HI. repeat split; auto. intros x [].
    + assert (W : fresh ar (fst (stepper ar fuel mx gt w s a)) (pre ++ [s])).
      { unfold stepper, writer. destruct (ss_flag ar s) as [fl|]; [|congruence]. rewrite F1, add_numbered.
        destruct (gt s) as [t|e]; [|split; [reflexivity | exact F2]]. destruct (stepper_advance ar mx _ t) as [st [sz|e]]; split; try reflexivity; exact F2. }
      destruct (stepper ar fuel mx gt w s a) as [w' [i'|e]]; cbn [fst] in W.
      * destruct (IH (S a) w' i' (pre ++ [s]) W) as [(ss & x & H1 & H2 & H3 & H4 & H5)|(H1 & ss & H2 & H3)].
        -- left. exists (s :: ss), x. split; [exact H1|]. split; [exact H2|]. split; [rewrite H3, <- app_assoc; reflexivity|]. split; [exact H4|].
           intros y [<-|Hy]; [rewrite HI; exact HG | exact (H5 y Hy)].
        -- right. split; [exact H1|]. exists (s :: ss). split; [rewrite H2, <- app_assoc; reflexivity|]. intros y [<-|Hy]; [rewrite HI; exact HG | exact (H3 y Hy)].
      * right. split; [reflexivity|]. exists [s]. split; [|intros y [<-|[]]; rewrite HI; exact HG].
        destruct W as [W1 W2]. destruct e; cbn [handle fst]; try exact W1.
        unfold alternate_cleanup. destruct (dgetitem _ _) as [x|e]; [|exact W1]. unfold assign_final, set_final. rewrite W2. exact W1.
Qed.
End Accept.

(** ** The two types close in on neighbouring numbers *)
Section Search.
Variables emin p e : Z.
Hypothesis p_large : (3 <= p)%Z.
Hypothesis e_large : (emin + 3 * p <= e)%Z.
Variable c : R.
Notation ar := (float_arith emin p c).
Notation RN := (rounded emin p).
Notation pow := (bpow radix2).
Notation u := (pow (e - p)).
Notation fexp := (FLT_exp emin p).
Context {X Y I : Type}.
Variables (fuel mx : nat) (sf : sinput ar (X := X) -> res (ssoln ar (X := X) (Y := Y) * bool))
  (gt : ssoln ar (X := X) (Y := Y) -> res SplitterStatus) (ty : R -> SplitterStatus).
Hypothesis fuel_large : (5 <= fuel)%nat.
Hypothesis Hsol : forall inp, exists s, sf inp = Ok (s, false) /\ ss_input ar s = inp /\ ss_flag ar s <> None.
Hypothesis Hty : forall s, gt s = Ok (ty (s_γ ar (ss_input ar s))).
Hypothesis Htwo : forall γ, ty γ = DIVERGE \/ ty γ = SIGN_FLIP.
Notation world := (sworld ar (X := X) (Y := Y) (I := I)).
Notation loop := (search_loop (fun (w : world) inp => (w, sf inp)) (cleanup ar false) (stepper ar fuel mx gt) (alternate_cleanup ar false)).
Notation inp G r := (mk_sinput ar (X := X) (IZR G * u : F ar) r).
(** The search has ended by itself: the last attempt is the final solution, it diverges, and the number below it does not. *)
Definition ended (bound : nat) (pre : list (ssoln ar (X := X) (Y := Y))) (q : world * res (option (option (ssoln ar)))) : Prop :=
  exists ss s, snd q = Ok (Some (Some s)) /\ r_final (sw_run ar (fst q)) = Final s /\ r_solutions (sw_run ar (fst q)) = numbered 0 (pre ++ ss ++ [s]) /\
    (length ss <= bound)%nat /\ pow (e - 1) <= (s_γ ar (ss_input ar s) : R) - u /\ (s_γ ar (ss_input ar s) : R) <= pow e /\
    ty (s_γ ar (ss_input ar s)) = DIVERGE /\ ty ((s_γ ar (ss_input ar s) : R) - u) = SIGN_FLIP.
Lemma ended_more : forall n pre s q, ended n (pre ++ [s]) q -> ended (S n) pre q.
Proof.
  intros n pre s q (ss & s' & H1 & H2 & H3 & H4 & H5). exists (s :: ss), s'. split; [exact H1|]. split; [exact H2|]. split; [rewrite H3, <- app_assoc; reflexivity|].
  split; [cbn; lia | exact H5].
Qed.
Lemma ended_le : forall n m pre q, (n <= m)%nat -> ended n pre q -> ended m pre q.
Proof. intros n m pre q L (ss & s & H1 & H2 & H3 & H4 & H5). exists ss, s. repeat split; try assumption; try apply H5. lia. Qed.
Lemma U : 0 < u. Proof. apply bpow_gt_0. Qed.
Lemma ended_here : forall todo w G r pre st' sz, fresh ar w pre -> stepper_advance ar mx (sw_st ar w) (ty (IZR G * u)) = (st', Ok sz) -> ty (IZR G * u) = DIVERGE ->
  snd (step_func ar fuel (inp G r) DIVERGE sz) = Raise StepperStop -> ty (IZR (G - 1) * u) = SIGN_FLIP -> pow (e - 1) <= IZR (G - 1) * u -> IZR G * u <= pow e ->
  ended 0 pre (loop (S todo) (length pre) w (inp G r)).
Proof.
  intros todo w G r pre st' sz HF HA HD HS H1 H2 H3. rewrite <- HD in HS.
  destruct (attempt_stops ar fuel mx sf gt ty Hsol Hty todo w (inp G r) pre st' sz HF HA HS) as (s & E).
  destruct (loop (S todo) (length pre) w (inp G r)) as [w' res]. destruct E as (E1 & E2 & E3 & E4). exists [], s. cbn [fst snd app length]. rewrite E4. cbn [s_γ].
  replace (IZR G * u - u) with (IZR (G - 1) * u) by (rewrite minus_IZR; ring). repeat split; try assumption; lia.
Qed.
(** The distance to an earlier number, after a move by half the step towards it. *)
Lemma near_step : forall (D n : Z) σ, Rabs (IZR D - σ) < 1 -> Rabs (IZR n - σ / 2) <= / 2 -> Rabs (IZR (D - n) - σ / 2) < 1.
Proof.
  intros D n σ H1 H2. apply Rabs_def2 in H1. apply Rabs_le_inv in H2. rewrite minus_IZR.
  assert (A1 : (D <= 2 * n + 1)%Z) by (apply Z.lt_succ_r, lt_IZR; rewrite succ_IZR, plus_IZR, mult_IZR; lra).
  assert (A2 : (2 * n - 1 <= D)%Z) by (apply Z.lt_pred_le, lt_IZR; unfold Z.pred; rewrite plus_IZR, minus_IZR, mult_IZR; lra).
  apply IZR_le in A1, A2. rewrite plus_IZR, mult_IZR in A1. rewrite minus_IZR, mult_IZR in A2. apply Rabs_def1; lra.
Qed.
Lemma grid_pow : forall k, (e - p <= k)%Z -> pow k = IZR (2 ^ (k - (e - p))) * u.
Proof. intros k H. change 2%Z with (radix_val radix2) at 1. rewrite IZR_Zpower by lia. rewrite <- bpow_plus. f_equal. lia. Qed.
Lemma low : forall G x, Rabs (IZR G - x) <= / 2 -> pow (e - 1) <= x * u -> pow (e - 1) <= IZR G * u.
Proof.
  intros G x H1 H2. assert (HU := U). rewrite (grid_pow (e - 1)) in * by lia. apply Rabs_le_inv in H1. apply Rmult_le_reg_r in H2; [|exact HU].
  apply Rmult_le_compat_r; [lra|]. apply IZR_le, Z.lt_succ_r, lt_IZR. rewrite succ_IZR. lra.
Qed.
Lemma high : forall G x, Rabs (IZR G - x) <= / 2 -> x * u <= pow e -> IZR G * u <= pow e.
Proof.
  intros G x H1 H2. assert (HU := U). rewrite (grid_pow e) in * by lia. apply Rabs_le_inv in H1. apply Rmult_le_reg_r in H2; [|exact HU].
  apply Rmult_le_compat_r; [lra|]. apply IZR_le, Z.lt_succ_r, lt_IZR. rewrite succ_IZR. lra.
Qed.
Definition bracket (G A B : Z) (σ : R) : Prop := (A <= G <= B)%Z /\
  (ty (IZR G * u) = DIVERGE -> exists Gf, ty (IZR Gf * u) = SIGN_FLIP /\ (A <= Gf)%Z /\ Rabs (IZR (G - Gf) - σ) < 1) /\
  (ty (IZR G * u) = SIGN_FLIP -> exists Gd, ty (IZR Gd * u) = DIVERGE /\ (Gd <= B)%Z /\ Rabs (IZR (Gd - G) - σ) < 1).
Lemma apart : forall a b σ, / 2 <= σ -> Rabs (IZR (a - b) - σ) < 1 -> ty (IZR a * u) <> ty (IZR b * u) -> (1 <= a - b)%Z /\ σ / 2 <= IZR (a - b).
Proof.
  intros a b σ Hσ H HN. apply Rabs_def2 in H.
  assert (0 <= a - b)%Z by (apply Z.lt_succ_r, lt_IZR; rewrite succ_IZR; lra). assert (a <> b) by (intros ->; congruence).
  assert (L : (1 <= a - b)%Z) by lia. split; [exact L|]. apply IZR_le in L. lra.
Qed.
Lemma one_apart : forall a b σ, σ <= 1 -> Rabs (IZR (a - b) - σ) < 1 -> (1 <= a - b)%Z -> a = (b + 1)%Z.
Proof. intros a b σ Hσ H HL. apply Rabs_def2 in H. assert (a - b < 2)%Z by (apply lt_IZR; lra). lia. Qed.

(** One attempt with half the step. *)
Lemma halve : forall todo w G r pre n b t s A B, fresh ar w pre -> generic_format radix2 fexp s -> u <= s ->
  stepper_advance ar mx (sw_st ar w) (ty (IZR G * u)) = (mk_st ar n b t (RN (s / 2) : F ar), Ok (RN (s / 2) : F ar)) ->
  pow (e - 1) <= IZR A * u -> IZR B * u <= pow e -> bracket G A B (s / u) ->
  ended 0 pre (loop (S todo) (length pre) w (inp G r)) \/
  exists w' s' G', loop (S todo) (length pre) w (inp G r) = loop todo (S (length pre)) w' (inp G' r) /\ fresh ar w' (pre ++ [s']) /\
    sw_st ar w' = mk_st ar n b t (s / 2 : F ar) /\ generic_format radix2 fexp (s / 2) /\ bracket G' A B (s / 2 / u).
Proof.
  intros todo w G r pre n b t s A B HF Fs Hs HA L1 L2 ([KA KB] & Kf & Kd). assert (HU := U).
  assert (PE : pow (emin + p) <= u) by (apply bpow_le; lia).
  destruct (RN_half emin p s Fs ltac:(lra)) as [EH FH]. rewrite EH in HA.
  assert (ES : s = s / u * u) by (field; lra). assert (EQ : s / 2 / u = s / u / 2) by (field; lra).
  set (σ := s / u) in *. assert (Hσ : 1 <= σ) by (apply (Rmult_le_reg_r u); lra).
  assert (M1 : IZR A <= IZR G) by (apply IZR_le; lia). assert (M2 : IZR G <= IZR B) by (apply IZR_le; lia).
  destruct (Htwo (IZR G * u)) as [JD|JF].
  - destruct (Kf JD) as (Gf & Tf & HA1 & Nf). assert (M3 : IZR A <= IZR Gf) by (apply IZR_le; lia). destruct (apart G Gf σ ltac:(lra) Nf ltac:(congruence)) as [P1 P2]. rewrite minus_IZR in P2.
    assert (B1 : IZR G * u <= pow e) by nra. assert (B2 : pow (e - 1) <= IZR G * u - s / 2) by nra.
    destruct (div_large emin p e p_large e_large c fuel G (s / 2) r B2 B1 ltac:(lra)) as [[ST EU]|(G' & MV & ME)].
    + left. assert (Eσ : σ = 1) by (unfold σ; replace s with u by lra; field; lra).
      assert (EG := one_apart G Gf σ ltac:(lra) Nf P1).
      eapply ended_here; [exact HF | exact HA | exact JD | exact ST | | | exact B1]; (replace (G - 1)%Z with Gf by lia); [exact Tf | nra].
    + right. rewrite <- JD in MV. destruct (attempt_moves ar fuel mx sf gt ty Hsol Hty todo (length pre) w (inp G r) pre _ _ _ HF HA MV) as (w' & s' & E1 & F' & S' & _).
      exists w', s', G'. split; [exact E1|]. split; [exact F'|]. split; [exact S'|]. split; [exact FH|]. rewrite EQ in *.
      assert (Q : Rabs (IZR (G - G') - σ / 2) <= / 2) by (rewrite minus_IZR; apply Rabs_le_inv in ME; apply Rabs_le; lra).
      assert (NF : Rabs (IZR (G' - Gf) - σ / 2) < 1) by (replace (G' - Gf)%Z with (G - Gf - (G - G'))%Z by lia; apply near_step; assumption).
      assert (O1 : (Gf <= G')%Z) by (apply Rabs_def2 in NF; assert (- 1 < G' - Gf)%Z by (apply lt_IZR; lra); lia).
      assert (O2 : (G' <= G)%Z) by (apply Rabs_le_inv in Q; assert (- 1 < G - G')%Z by (apply lt_IZR; lra); lia).
      split; [lia|]. split; intros _; [exists Gf | exists G]; repeat split; try assumption; try lia. lra.
  - destruct (Kd JF) as (Gd & Td & HB1 & Nd). assert (M3 : IZR Gd <= IZR B) by (apply IZR_le; lia). destruct (apart Gd G σ ltac:(lra) Nd ltac:(congruence)) as [P1 P2]. rewrite minus_IZR in P2.
    assert (M4 : IZR (G + 1) <= IZR Gd) by (apply IZR_le; lia).
    assert (B1 : IZR (G + 1) * u <= pow e) by nra. assert (B2 : pow (e - 1) <= IZR G * u) by nra. assert (B3 : IZR G * u + s / 2 <= pow e) by nra.
    destruct (flip_large emin p e p_large e_large c fuel fuel_large G (s / 2) r B2 B1 ltac:(lra) B3) as (G' & MV & ME).
    right. rewrite <- JF in MV. destruct (attempt_moves ar fuel mx sf gt ty Hsol Hty todo (length pre) w (inp G r) pre _ _ _ HF HA MV) as (w' & s' & E1 & F' & S' & _).
    exists w', s', G'. split; [exact E1|]. split; [exact F'|]. split; [exact S'|]. split; [exact FH|]. rewrite EQ in *.
    assert (Q : Rabs (IZR (G' - G) - σ / 2) <= / 2) by (rewrite minus_IZR; apply Rabs_le_inv in ME; apply Rabs_le; lra).
    assert (NF : Rabs (IZR (Gd - G') - σ / 2) < 1) by (replace (Gd - G')%Z with (Gd - G - (G' - G))%Z by lia; apply near_step; assumption).
    assert (O1 : (G' <= Gd)%Z) by (apply Rabs_def2 in NF; assert (- 1 < Gd - G')%Z by (apply lt_IZR; lra); lia).
    assert (O2 : (G <= G')%Z) by (apply Rabs_le_inv in Q; assert (- 1 < G' - G)%Z by (apply lt_IZR; lra); lia).
    split; [lia|]. split; intros _; [exists G | exists Gd]; repeat split; try assumption; try lia. lra.
Qed.
(** The last attempts, with steps of less than half the distance of neighbouring numbers. *)
Lemma last_attempts : forall todo w G r pre A B, fresh ar w pre -> binary_started ar (sw_st ar w) = true -> (1 < todo)%nat ->
  let s := step_size ar (sw_st ar w) : R in generic_format radix2 fexp s -> u / 2 <= s < u ->
  pow (e - 1) <= IZR A * u -> IZR B * u <= pow e -> bracket G A B (s / u) -> ended 1 pre (loop todo (length pre) w (inp G r)).
Proof.
  intros todo w G r pre A B HF HB Ht s Fs Hs L1 L2 ([KA KB] & Kf & Kd). assert (HU := U). destruct todo as [|[|todo]]; [lia | lia|].
  assert (ES : s = s / u * u) by (field; lra). set (σ := s / u) in *.
  assert (Hσ : / 2 <= σ < 1) by (split; [apply (Rmult_le_reg_r u) | apply (Rmult_lt_reg_r u)]; lra).
  assert (PE : pow (emin + p) * 4 <= u).
  { replace (e - p)%Z with (e - p - 2 + 1 + 1)%Z by lia. rewrite !bpow_plus_1. assert (pow (emin + p) <= pow (e - p - 2)) by (apply bpow_le; lia). cbn [radix_val radix2]. cbn. lra. }
  destruct (RN_half emin p s Fs ltac:(lra)) as [EH FH]. destruct (RN_half emin p (s / 2) FH ltac:(lra)) as [EH2 FH2].
  assert (HA := go_started ar mx (sw_st ar w) (ty (IZR G * u)) HB). change (half ar (step_size ar (sw_st ar w))) with (RN (s / 2)) in HA. rewrite EH in HA.
  assert (M1 : IZR A <= IZR G) by (apply IZR_le; lia). assert (M2 : IZR G <= IZR B) by (apply IZR_le; lia).
  destruct (Htwo (IZR G * u)) as [JD|JF].
  - destruct (Kf JD) as (Gf & Tf & HA1 & Nf). assert (M3 : IZR A <= IZR Gf) by (apply IZR_le; lia). destruct (apart G Gf σ ltac:(lra) Nf ltac:(congruence)) as [P1 P2]. assert (EG := one_apart G Gf σ ltac:(lra) Nf P1).
    rewrite minus_IZR in P2.
    eapply ended_le; [|eapply (ended_here (S todo) w G r pre); [exact HF | exact HA | exact JD | | | |]]; [lia | | | |].
    + apply (div_small emin p e p_large e_large); nra.
    + replace (G - 1)%Z with Gf by lia. exact Tf.
    + replace (G - 1)%Z with Gf by lia. nra.
    + nra.
  - destruct (Kd JF) as (Gd & Td & HB1 & Nd). assert (M3 : IZR Gd <= IZR B) by (apply IZR_le; lia). destruct (apart Gd G σ ltac:(lra) Nd ltac:(congruence)) as [P1 P2]. assert (EG := one_apart Gd G σ ltac:(lra) Nd P1).
    assert (B1 : pow (e - 1) <= IZR G * u) by nra. assert (B2 : IZR (G + 1) * u <= pow e) by (rewrite <- EG; nra).
    assert (MV : snd (step_func ar fuel (inp G r) (ty (IZR G * u)) (s / 2 : F ar)) = Ok (inp (G + 1)%Z r)).
    { rewrite JF. apply (flip_small emin p e p_large e_large c fuel fuel_large); [exact B1 | exact B2 | lra]. }
    destruct (attempt_moves ar fuel mx sf gt ty Hsol Hty (S todo) (length pre) w (inp G r) pre _ _ _ HF HA MV) as (w' & s' & -> & F' & S' & _).
    apply (ended_more 0 pre s'). replace (S (length pre)) with (length (pre ++ [s'])) by (rewrite app_length; cbn; lia). rewrite <- EG in B2 |- *.
    assert (HA' := go_started ar mx (sw_st ar w') (ty (IZR Gd * u)) ltac:(rewrite S'; reflexivity)). rewrite S' in HA'. cbn [step_size search_steps prev_soln_type] in HA'.
    change (half ar (s / 2 : F ar)) with (RN (s / 2 / 2)) in HA'. rewrite EH2, <- S' in HA'.
    eapply ended_here; [exact F' | exact HA' | exact Td | | replace (Gd - 1)%Z with G by lia; exact JF | replace (Gd - 1)%Z with G by lia; exact B1 | exact B2].
    apply (div_small emin p e p_large e_large); [|exact B2 | lra]. rewrite EG, plus_IZR. nra.
Qed.
Lemma narrow : forall n todo w G r pre A B, fresh ar w pre -> binary_started ar (sw_st ar w) = true -> (n + 1 < todo)%nat ->
  let s := step_size ar (sw_st ar w) : R in generic_format radix2 fexp s -> u / 2 <= s < u * 2 ^ n ->
  pow (e - 1) <= IZR A * u -> IZR B * u <= pow e -> bracket G A B (s / u) -> ended (n + 1) pre (loop todo (length pre) w (inp G r)).
Proof.
  induction n as [|n IH]; intros todo w G r pre A B HF HB Ht s Fs Hs L1 L2 HK.
  - apply (last_attempts todo w G r pre A B); fold s; try assumption. cbn [Rpow_def.pow] in Hs; lra.
  - destruct (Rlt_or_le s u) as [Q|Q].
    + eapply ended_le; [|apply (last_attempts todo w G r pre A B); fold s; try assumption; [lia | lra]]. lia.
    + destruct todo as [|todo]; [lia|].
      destruct (halve todo w G r pre (search_steps ar (sw_st ar w)) true (prev_soln_type ar (sw_st ar w)) s A B HF Fs Q (go_started ar mx _ _ HB) L1 L2 HK) as [E|(w' & s' & G' & -> & F' & S' & Fs' & D')].
      * eapply ended_le; [|exact E]. lia.
      * apply (ended_more (n + 1) pre s'). replace (S (length pre)) with (length (pre ++ [s'])) by (rewrite app_length; cbn; lia).
        apply (IH todo w' G' r (pre ++ [s']) A B); try rewrite S'; cbn [binary_started step_size]; try assumption; try reflexivity; try lia.
        cbn [Rpow_def.pow] in Hs. assert (HU := U). lra.
Qed.

(** The search with the first step, down and up, until the type changes. *)
Variables (s0 lo hi : R).
Hypothesis F0 : generic_format radix2 fexp s0.
Hypothesis S0 : u <= s0 < u * 2 ^ Z.to_nat p.
Hypothesis Hlo : forall γ, γ < lo -> ty γ = SIGN_FLIP.
Hypothesis Hhi : forall γ, hi < γ -> ty γ = DIVERGE.
Hypothesis R1 : pow (e - 1) <= lo - s0.
Hypothesis R2 : hi + s0 <= pow e.
Let N := (Z.to_nat p + 1)%nat.
Lemma turned : forall todo w G r pre k t0 A B, fresh ar w pre -> (N < todo)%nat -> (k < mx)%nat ->
  sw_st ar w = mk_st ar k false (Some t0) (s0 : F ar) -> t0 <> ty (IZR G * u) ->
  pow (e - 1) <= IZR A * u -> IZR B * u <= pow e -> bracket G A B (s0 / u) -> ended N pre (loop todo (length pre) w (inp G r)).
Proof.
  intros todo w G r pre k t0 A B HF Ht Hk HS HN L1 L2 HK. assert (HU := U). destruct todo as [|todo]; [lia|].
  assert (HA := go_change ar mx k (s0 : F ar) t0 (ty (IZR G * u)) Hk HN). rewrite <- HS in HA.
  destruct (halve todo w G r pre _ _ _ s0 A B HF F0 (proj1 S0) HA L1 L2 HK) as [E|(w' & s' & G' & -> & F' & S' & Fs' & D')].
  - eapply ended_le; [|exact E]. lia.
  - unfold N in *. destruct (Z.to_nat p) as [|n] eqn:EP; [lia|]. apply (ended_more (n + 1) pre s'). replace (S (length pre)) with (length (pre ++ [s'])) by (rewrite app_length; cbn; lia).
    apply (narrow n todo w' G' r (pre ++ [s']) A B); try rewrite S'; cbn [binary_started step_size]; try assumption; try reflexivity; try lia.
    destruct S0 as [S1 S2]. cbn [Rpow_def.pow] in S2. lra.
Qed.
Lemma down : forall m todo w G r pre k, fresh ar w pre -> (m + N < todo)%nat -> (k + m < mx)%nat ->
  sw_st ar w = mk_st ar k false (Some DIVERGE) (s0 : F ar) -> pow (e - 1) <= IZR G * u ->
  IZR G - lo / u < INR m * (s0 / u - / 2) ->
  (exists Gd, ty (IZR Gd * u) = DIVERGE /\ IZR Gd * u <= pow e /\ Rabs (IZR (Gd - G) - s0 / u) <= / 2) ->
  ended (m + N) pre (loop todo (length pre) w (inp G r)).
Proof.
  assert (HU := U). assert (EL : lo = lo / u * u) by (field; lra). assert (ES : s0 = s0 / u * u) by (field; lra).
  assert (Hσ : 1 <= s0 / u) by (apply (Rmult_le_reg_r u); lra).
  induction m as [|m IH]; intros todo w G r pre k HF Ht Hk HS HG HD (Gd & Td & LB & ND); (destruct (Htwo (IZR G * u)) as [JD|JF]).
  2, 4: assert (O : (G <= Gd)%Z) by (apply Rabs_le_inv in ND; assert (- 1 < Gd - G)%Z by (apply lt_IZR; lra); lia);
        eapply ended_le; [|eapply (turned todo w G r pre k DIVERGE G Gd); try eassumption; try lia; [rewrite JF; discriminate |]]; [lia|];
        split; [lia|]; split; [congruence|]; intros _; exists Gd; repeat split; try assumption; try lia; lra.
  all: assert (L : lo <= IZR G * u) by (destruct (Rle_or_lt lo (IZR G * u)) as [L|L]; [exact L | rewrite (Hlo _ L) in JD; discriminate]).
  - cbn [INR] in HD. nra.
  - destruct todo as [|todo]; [lia|].
    assert (HA : stepper_advance ar mx (sw_st ar w) (ty (IZR G * u)) = (mk_st ar (S k) false (Some DIVERGE) (s0 : F ar), Ok (s0 : F ar))) by (rewrite HS, JD; apply go_same; lia).
    assert (O : (G <= Gd)%Z) by (apply Rabs_le_inv in ND; assert (- 1 < Gd - G)%Z by (apply lt_IZR; lra); lia). apply IZR_le in O.
    assert (B1 : IZR G * u <= pow e) by nra. assert (B2 : pow (e - 1) <= IZR G * u - s0) by lra.
    destruct (div_large emin p e p_large e_large c fuel G s0 r B2 B1 ltac:(lra)) as [[ST EU]|(G' & MV & ME)]; [lra|]. rewrite <- JD in MV at 1.
    rewrite S_INR in HD.
    destruct (attempt_moves ar fuel mx sf gt ty Hsol Hty todo (length pre) w (inp G r) pre _ _ _ HF HA MV) as (w' & s' & -> & F' & S' & _).
    apply (ended_more (m + N) pre s'). replace (S (length pre)) with (length (pre ++ [s'])) by (rewrite app_length; cbn; lia).
    assert (Q : Rabs (IZR (G - G') - s0 / u) <= / 2) by (rewrite minus_IZR; apply Rabs_le_inv in ME; apply Rabs_le; lra).
    apply (IH todo w' G' r (pre ++ [s']) (S k)); try assumption; try lia.
    + eapply low; [exact ME|]. rewrite Rmult_minus_distr_r, <- ES. exact B2.
    + apply Rabs_le_inv in ME. lra.
    + exists G. repeat split; assumption.
Qed.
Lemma up : forall m todo w G r pre k, fresh ar w pre -> (m + N < todo)%nat -> (k + m < mx)%nat ->
  sw_st ar w = mk_st ar k false (Some SIGN_FLIP) (s0 : F ar) -> IZR G * u <= pow e ->
  hi / u - IZR G < INR m * (s0 / u - / 2) ->
  (exists Gf, ty (IZR Gf * u) = SIGN_FLIP /\ pow (e - 1) <= IZR Gf * u /\ Rabs (IZR (G - Gf) - s0 / u) <= / 2) ->
  ended (m + N) pre (loop todo (length pre) w (inp G r)).
Proof.
  assert (HU := U). assert (EL : hi = hi / u * u) by (field; lra). assert (ES : s0 = s0 / u * u) by (field; lra).
  assert (Hσ : 1 <= s0 / u) by (apply (Rmult_le_reg_r u); lra).
  induction m as [|m IH]; intros todo w G r pre k HF Ht Hk HS HG HD (Gf & Tf & LB & ND); (destruct (Htwo (IZR G * u)) as [JD|JF]).
  1, 3: assert (O : (Gf <= G)%Z) by (apply Rabs_le_inv in ND; assert (- 1 < G - Gf)%Z by (apply lt_IZR; lra); lia);
        eapply ended_le; [|eapply (turned todo w G r pre k SIGN_FLIP Gf G); try eassumption; try lia; [rewrite JD; discriminate |]]; [lia|];
        split; [lia|]; split; [|congruence]; intros _; exists Gf; repeat split; try assumption; try lia; lra.
  all: assert (L : IZR G * u <= hi) by (destruct (Rle_or_lt (IZR G * u) hi) as [L|L]; [exact L | rewrite (Hhi _ L) in JF; discriminate]).
  - cbn [INR] in HD. nra.
  - destruct todo as [|todo]; [lia|].
    assert (HA : stepper_advance ar mx (sw_st ar w) (ty (IZR G * u)) = (mk_st ar (S k) false (Some SIGN_FLIP) (s0 : F ar), Ok (s0 : F ar))) by (rewrite HS, JF; apply go_same; lia).
    assert (O : (Gf <= G)%Z) by (apply Rabs_le_inv in ND; assert (- 1 < G - Gf)%Z by (apply lt_IZR; lra); lia). apply IZR_le in O.
    assert (B1 : IZR (G + 1) * u <= pow e) by (rewrite plus_IZR; lra). assert (B2 : pow (e - 1) <= IZR G * u) by nra. assert (B3 : IZR G * u + s0 <= pow e) by lra.
    destruct (flip_large emin p e p_large e_large c fuel fuel_large G s0 r B2 B1 ltac:(lra) B3) as (G' & MV & ME). rewrite <- JF in MV at 1.
    rewrite S_INR in HD.
    destruct (attempt_moves ar fuel mx sf gt ty Hsol Hty todo (length pre) w (inp G r) pre _ _ _ HF HA MV) as (w' & s' & -> & F' & S' & _).
    apply (ended_more (m + N) pre s'). replace (S (length pre)) with (length (pre ++ [s'])) by (rewrite app_length; cbn; lia).
    assert (Q : Rabs (IZR (G' - G) - s0 / u) <= / 2) by (rewrite minus_IZR; apply Rabs_le_inv in ME; apply Rabs_le; lra).
    apply (IH todo w' G' r (pre ++ [s']) (S k)); try assumption; try lia.
    + eapply high; [exact ME|]. rewrite Rmult_plus_distr_r, <- ES. exact B3.
    + apply Rabs_le_inv in ME. lra.
    + exists G. repeat split; assumption.
Qed.
(** The whole search. *)
Lemma search_ends : forall m todo w G r, fresh ar w [] -> (m + N < todo)%nat -> (m < mx)%nat -> sw_st ar w = mk_st ar 0 false None (s0 : F ar) ->
  pow (e - 1) <= IZR G * u <= pow e -> IZR G * u - lo < INR m * (s0 - u / 2) -> hi - IZR G * u < INR m * (s0 - u / 2) ->
  ended (m + N) [] (loop todo 0 w (inp G r)).
Proof.
  intros m todo w G r HF Ht Hm HS [L1 L2] HL HH. assert (HU := U). assert (EL : lo = lo / u * u) by (field; lra). assert (EH : hi = hi / u * u) by (field; lra).
  assert (ES : s0 = s0 / u * u) by (field; lra). assert (Hσ : 1 <= s0 / u) by (apply (Rmult_le_reg_r u); lra).
  destruct todo as [|todo]; [lia|]. destruct m as [|m].
  { exfalso. cbn [INR] in HL, HH. assert (A := Hlo (IZR G * u) ltac:(lra)). rewrite (Hhi (IZR G * u)) in A by lra. discriminate. }
  rewrite S_INR in HL, HH. assert (HA := fun t => go_first ar mx 0 (s0 : F ar) t ltac:(lia)). rewrite <- HS in HA.
  assert (K1 : IZR G - lo / u < (INR m + 1) * (s0 / u - / 2)).
  { apply (Rmult_lt_reg_r u); [exact HU|]. replace ((IZR G - lo / u) * u) with (IZR G * u - lo) by (field; lra).
    replace ((INR m + 1) * (s0 / u - / 2) * u) with ((INR m + 1) * (s0 - u / 2)) by (field; lra). exact HL. }
  assert (K2 : hi / u - IZR G < (INR m + 1) * (s0 / u - / 2)).
  { apply (Rmult_lt_reg_r u); [exact HU|]. replace ((hi / u - IZR G) * u) with (hi - IZR G * u) by (field; lra).
    replace ((INR m + 1) * (s0 / u - / 2) * u) with ((INR m + 1) * (s0 - u / 2)) by (field; lra). exact HH. }
  destruct (Htwo (IZR G * u)) as [JD|JF].
  - assert (L : lo <= IZR G * u) by (destruct (Rle_or_lt lo (IZR G * u)) as [L|L]; [exact L | rewrite (Hlo _ L) in JD; discriminate]).
    assert (B2 : pow (e - 1) <= IZR G * u - s0) by lra.
    destruct (div_large emin p e p_large e_large c fuel G s0 r B2 L2 ltac:(lra)) as [[ST EU]|(G' & MV & ME)]; [lra|]. rewrite <- JD in MV at 1.
    destruct (attempt_moves ar fuel mx sf gt ty Hsol Hty todo 0 w (inp G r) [] _ _ _ HF (HA _) MV) as (w' & s' & -> & F' & S' & _).
    apply (ended_more (m + N) [] s'). apply (down m todo w' G' r [s'] 1); try assumption; try lia.
    + rewrite S'. cbn [s_γ]. rewrite JD. reflexivity.
    + eapply low; [exact ME|]. rewrite Rmult_minus_distr_r, <- ES. exact B2.
    + apply Rabs_le_inv in ME. lra.
    + exists G. repeat split; try assumption. rewrite minus_IZR; apply Rabs_le_inv in ME; apply Rabs_le; lra.
  - assert (L : IZR G * u <= hi) by (destruct (Rle_or_lt (IZR G * u) hi) as [L|L]; [exact L | rewrite (Hhi _ L) in JF; discriminate]).
    assert (B1 : IZR (G + 1) * u <= pow e) by (rewrite plus_IZR; lra). assert (B3 : IZR G * u + s0 <= pow e) by lra.
    destruct (flip_large emin p e p_large e_large c fuel fuel_large G s0 r L1 B1 ltac:(lra) B3) as (G' & MV & ME). rewrite <- JF in MV at 1.
    destruct (attempt_moves ar fuel mx sf gt ty Hsol Hty todo 0 w (inp G r) [] _ _ _ HF (HA _) MV) as (w' & s' & -> & F' & S' & _).
    apply (ended_more (m + N) [] s'). apply (up m todo w' G' r [s'] 1); try assumption; try lia.
    + rewrite S'. cbn [s_γ]. rewrite JF. reflexivity.
    + eapply high; [exact ME|]. rewrite Rmult_plus_distr_r, <- ES. exact B3.
    + apply Rabs_le_inv in ME. lra.
    + exists G. repeat split; try assumption. rewrite minus_IZR; apply Rabs_le_inv in ME; apply Rabs_le; lra.
Qed.
End Search.
