(** Running the step search on floating-point numbers given by their digits: the computations behind the examples of Props_FloatAcross. *)
From Coq Require Import List Bool ZArith Reals Lra Lia Psatz.
From Flocq Require Import Core.
From Verif Require Import Lib_Py Model_Run Model_Array Model_Stepper Model_Float Spec_Run Spec_Stepper Spec_Float Proofs_Array Proofs_Run Proofs_Stepper Proofs_Float Proofs_FloatSearch.
Import ListNotations.
Local Open Scope R_scope.

(** m * 2^k *)
Definition zf := (Z * Z)%type.
Definition fl (x : zf) : R := IZR (fst x) * bpow radix2 (snd x).
Definition zadd (x y : zf) : zf := let k := Z.min (snd x) (snd y) in (fst x * 2 ^ (snd x - k) + fst y * 2 ^ (snd y - k), k)%Z.
Definition zneg (x : zf) : zf := (- fst x, snd x)%Z.
Definition zsub (x y : zf) : zf := zadd x (zneg y).
Definition zltb (x y : zf) : bool := (fst (zsub x y) <? 0)%Z.
Definition zeqb (x y : zf) : bool := (fst (zsub x y) =? 0)%Z.
Lemma fl_shift : forall m k j, (j <= k)%Z -> IZR m * bpow radix2 k = IZR (m * 2 ^ (k - j)) * bpow radix2 j.
Proof.
  intros m k j H. rewrite mult_IZR. change 2%Z with (radix_val radix2). rewrite IZR_Zpower by lia. rewrite Rmult_assoc, <- bpow_plus. do 2 f_equal. lia.
Qed.
Lemma fl_add : forall x y, fl (zadd x y) = fl x + fl y.
Proof.
  intros [m1 k1] [m2 k2]. unfold fl, zadd. cbn [fst snd]. rewrite (fl_shift m1 k1 (Z.min k1 k2)), (fl_shift m2 k2 (Z.min k1 k2)) by lia. rewrite plus_IZR. ring.
Qed.
Lemma fl_sub : forall x y, fl (zsub x y) = fl x - fl y.
Proof. intros x y. unfold zsub. rewrite fl_add. destruct y as [m k]. unfold fl, zneg. cbn [fst snd]. rewrite opp_IZR. ring. Qed.
Lemma fl_sign : forall x, (0 < fst x)%Z -> 0 < fl x.
Proof. intros [m k] H. unfold fl. cbn [fst snd] in *. apply Rmult_lt_0_compat; [apply IZR_lt; exact H | apply bpow_gt_0]. Qed.
Lemma fl_neg : forall x, (fst x < 0)%Z -> fl x < 0.
Proof. intros [m k] H. unfold fl. cbn [fst snd] in *. assert (P : 0 < bpow radix2 k) by apply bpow_gt_0. apply IZR_lt in H. nra. Qed.
Lemma fl_zero : forall x, fst x = 0%Z -> fl x = 0.
Proof. intros [m k] H. unfold fl. cbn [fst snd] in *. rewrite H. ring. Qed.
Lemma zltb_spec : forall x y, if zltb x y then fl x < fl y else fl y <= fl x.
Proof.
  intros x y. assert (E := fl_sub x y). unfold zltb. destruct (Z.ltb_spec (fst (zsub x y)) 0) as [H|H].
  - apply fl_neg in H. lra.
  - destruct (Z.eq_dec (fst (zsub x y)) 0) as [Z|Z]; [apply fl_zero in Z; lra|]. assert (P : 0 < fl (zsub x y)) by (apply fl_sign; lia). lra.
Qed.
Lemma zeqb_spec : forall x y, Reqb (fl x) (fl y) = zeqb x y.
Proof.
  intros x y. assert (E := fl_sub x y). unfold zeqb. destruct (Z.eqb_spec (fst (zsub x y)) 0) as [H|H].
  - apply fl_zero in H. apply Reqb_true. lra.
  - apply Reqb_false. destruct (Z_lt_le_dec (fst (zsub x y)) 0) as [L|L]; [apply fl_neg in L; lra|]. assert (P : 0 < fl (zsub x y)) by (apply fl_sign; lia). lra.
Qed.

Section Round.
Variables emin p : Z.
Hypothesis p_large : (3 <= p)%Z.
(** Rounding to p digits, ties to even; positive numbers above the least exponent only. *)
Definition zround (x : zf) : option zf :=
  let (m, k) := x in
  if (m <=? 0)%Z || (k <? emin)%Z then None else
  let n := (Z.log2 m + 1 - p)%Z in
  if (n <=? 0)%Z then Some (m, k) else
  let q := (m / 2 ^ n)%Z in
  let r := (m mod 2 ^ n)%Z in
  let h := (2 ^ (n - 1))%Z in
  Some ((if (r <? h)%Z then q else if (h <? r)%Z then q + 1 else if Z.even q then q else q + 1)%Z, (k + n)%Z).
Lemma nearest_part : forall q r h, (0 <= r < 2 * h)%Z -> (0 < h)%Z ->
  ZnearestE (IZR q + IZR r / IZR (2 * h)) = (if (r <? h)%Z then q else if (h <? r)%Z then q + 1 else if Z.even q then q else q + 1)%Z.
Proof.
  intros q r h Hr Hh. assert (H0 : 0 < IZR h) by (apply IZR_lt; exact Hh). rewrite mult_IZR.
  assert (R1 : 0 <= IZR r < 2 * IZR h) by (rewrite <- mult_IZR; split; [apply IZR_le | apply IZR_lt]; lia).
  set (t := IZR r / (2 * IZR h)). assert (T : IZR r = t * (2 * IZR h)) by (unfold t; field; lra).
  assert (T0 : 0 <= t < 1) by (split; nra).
  destruct (Z.ltb_spec r h) as [L|L].
  - apply Znearest_imp. apply IZR_lt in L. replace (IZR q + t - IZR q) with t by ring. rewrite Rabs_pos_eq; nra.
  - destruct (Z.ltb_spec h r) as [G|G].
    + apply Znearest_imp. apply IZR_lt in G. rewrite plus_IZR. replace (IZR q + t - (IZR q + 1)) with (- (1 - t)) by ring. rewrite Rabs_Ropp, Rabs_pos_eq; nra.
    + assert (r = h) by lia. subst r. assert (T1 : t = / 2) by nra. rewrite T1.
      assert (FL : Zfloor (IZR q + / 2) = q) by (apply Zfloor_imp; rewrite plus_IZR; lra).
      unfold Znearest. rewrite FL. replace (IZR q + / 2 - IZR q) with (/ 2) by ring. rewrite Rcompare_Eq by reflexivity.
      assert (CE : Zceil (IZR q + / 2) = (q + 1)%Z) by (apply Zceil_imp; replace (q + 1 - 1)%Z with q by ring; rewrite plus_IZR; lra).
      rewrite CE. destruct (Z.even q); reflexivity.
Qed.
Lemma zround_spec : forall x y, zround x = Some y -> rounded emin p (fl x) = fl y /\ (emin <= snd y)%Z.
Proof.
  intros [m k] y. unfold zround. destruct (Z.leb_spec m 0) as [M|M]; [discriminate|]. destruct (Z.ltb_spec k emin) as [K|K]; [discriminate|]. cbn [orb].
  assert (LG := Z.log2_spec m M). set (l := Z.log2 m) in *. assert (L0 : (0 <= l)%Z) by apply Z.log2_nonneg.
  destruct (Z.leb_spec (l + 1 - p) 0) as [N|N]; intro E; injection E as <-; cbn [snd].
  - split; [|exact K]. apply RN_exact, generic_format_FLT. exists (Float radix2 m k); cbn; [reflexivity | | exact K].
    rewrite Z.abs_eq by lia. apply Z.lt_le_trans with (2 ^ Z.succ l)%Z; [apply LG|]. apply Z.pow_le_mono_r; lia.
  - set (n := (l + 1 - p)%Z) in *. split; [|lia]. unfold rounded, round, F2R, scaled_mantissa, cexp. cbn [Fnum Fexp].
    assert (G : mag radix2 (fl (m, k)) = (l + 1 + k)%Z :> Z).
    { unfold fl. cbn [fst snd]. change (IZR m * bpow radix2 k) with (F2R (Float radix2 m k)). rewrite mag_F2R_Zdigits by lia.
      rewrite <- (Zdigits_unique radix2 m (l + 1)); [reflexivity|]. rewrite Z.abs_eq by lia. replace (l + 1 - 1)%Z with l by ring. replace (l + 1)%Z with (Z.succ l) by lia. exact LG. }
    rewrite G. assert (FE : FLT_exp emin p (l + 1 + k) = (k + n)%Z) by (unfold FLT_exp, n; lia). rewrite FE.
    assert (P0 : (0 < 2 ^ (n - 1))%Z) by (apply Z.pow_pos_nonneg; lia). assert (P1 : (2 ^ n = 2 * 2 ^ (n - 1))%Z) by (rewrite <- Z.pow_succ_r by lia; f_equal; lia).
    assert (DM := Z.div_mod m (2 ^ n) ltac:(lia)). assert (MB := Z.mod_pos_bound m (2 ^ n) ltac:(lia)).
    replace (fl (m, k) * bpow radix2 (- (k + n))) with (IZR (m / 2 ^ n) + IZR (m mod 2 ^ n) / IZR (2 * 2 ^ (n - 1))).
    + rewrite nearest_part by lia. reflexivity.
    + unfold fl. cbn [fst snd]. rewrite Rmult_assoc, <- bpow_plus. replace (k + - (k + n))%Z with (- n)%Z by ring. rewrite <- P1.
      assert (B : bpow radix2 (- n) = / IZR (2 ^ n)) by (rewrite bpow_opp; f_equal; rewrite <- IZR_Zpower by lia; reflexivity).
      rewrite B. rewrite DM at 3. rewrite plus_IZR, mult_IZR. assert (0 < IZR (2 ^ n)) by (apply IZR_lt; lia). field. lra.
Qed.
End Round.

Section Run.
Variables emin p : Z.
Hypothesis p_large : (3 <= p)%Z.
Variable tenth : R.
Variable th : zf.
Notation ar := (float_arith emin p tenth).
Notation zr := (zround emin p).
(** The judge with a threshold. *)
Definition judge (γ : R) : SplitterStatus := if Rlt_dec (fl th) γ then DIVERGE else SIGN_FLIP.
Definition zjudge (g : zf) : bool := zltb th g.
Lemma zjudge_spec : forall g, judge (fl g) = if zjudge g then DIVERGE else SIGN_FLIP.
Proof. intro g. unfold judge, zjudge. assert (S := zltb_spec th g). destruct (zltb th g); destruct (Rlt_dec (fl th) (fl g)); try reflexivity; lra. Qed.
Definition zhalf (s : zf) : option zf := zr (fst s, (snd s - 1)%Z).
Lemma zhalf_spec : forall s s', zhalf s = Some s' -> half ar (fl s : F ar) = fl s'.
Proof.
  intros s s' H. cbn [half float_arith]. replace (fl s / 2) with (fl (fst s, (snd s - 1)%Z)); [apply (zround_spec emin p _ _ H)|].
  unfold fl. cbn [fst snd]. replace (snd s) with (snd s - 1 + 1)%Z at 2 by ring. rewrite bpow_plus_1. cbn [radix_val radix2]. lra.
Qed.
Fixpoint zbump (fuel : nat) (prev step bigger g : zf) : option zf :=
  if zeqb prev g then
    match fuel with
    | O => None
    | S fuel' => match zr (zadd bigger step) with
                 | Some b => match zr (zadd g b) with Some g' => zbump fuel' prev step b g' | None => None end
                 | None => None
                 end
    end
  else Some g.
Lemma zbump_spec : forall fuel prev step bigger g g', zbump fuel prev step bigger g = Some g' ->
  bump ar fuel (fl prev : F ar) (fl step : F ar) (fl bigger : F ar) (fl g : F ar) = Some (fl g' : F ar).
Proof.
  induction fuel as [|fuel IH]; intros prev step bigger g g'; cbn [zbump bump]; cbn [feqb float_arith]; rewrite zeqb_spec; destruct (zeqb prev g); try discriminate.
  - intro H. injection H as <-. reflexivity.
  - destruct (zr (zadd bigger step)) as [b|] eqn:B; [|discriminate]. destruct (zr (zadd g b)) as [h|] eqn:H; [|discriminate].
    intro E. apply zround_spec in B. apply zround_spec in H. rewrite fl_add in B, H. cbn [add float_arith].
    rewrite (proj1 B), (proj1 H). apply IH. exact E.
  - intro H. injection H as <-. reflexivity.
Qed.
(** One call of step_func: Some None is the end of the search. *)
Definition zstep (fuel : nat) (g s : zf) : option (option zf) :=
  if zjudge g then
    match zr (zsub g s) with Some g' => Some (if zeqb g g' then None else Some g') | None => None end
  else
    match zr (zadd g s) with
    | Some g' => if zeqb g g' then match zbump fuel g s (0, 0)%Z g' with Some h => Some (Some h) | None => None end else Some (Some g')
    | None => None
    end.
Lemma zstep_spec : forall {X} fuel g s (r : X) o, zstep fuel g s = Some o ->
  snd (step_func ar fuel (mk_sinput ar (fl g : F ar) r) (judge (fl g)) (fl s : F ar)) =
  match o with None => Raise Lib_Py.StepperStop | Some g' => Ok (mk_sinput ar (fl g' : F ar) r) end.
Proof.
  intros X fuel g s r o. unfold zstep. rewrite zjudge_spec. destruct (zjudge g).
  - destruct (zr (zsub g s)) as [g'|] eqn:E; [|discriminate]. intro H. injection H as <-. apply zround_spec in E. rewrite fl_sub in E.
    cbn [step_func s_γ s_rest]. cbn [feqb sub float_arith]. rewrite (proj1 E), zeqb_spec. destruct (zeqb g g'); reflexivity.
  - destruct (zr (zadd g s)) as [g'|] eqn:E; [|discriminate]. apply zround_spec in E. rewrite fl_add in E.
    cbn [step_func s_γ s_rest]. cbn [feqb add zero float_arith]. rewrite (proj1 E), zeqb_spec. destruct (zeqb g g').
    + destruct (zbump fuel g s (0, 0)%Z g') as [h|] eqn:B; [|discriminate]. intro H. injection H as <-. apply zbump_spec in B.
      rewrite (fl_zero (0, 0)%Z) in B by reflexivity. cbn [float_arith] in B. rewrite B. reflexivity.
    + intro H. injection H as <-. reflexivity.
Qed.
(** The search: [started] as in the stepper; [prev] is the type before the change, once known. *)
Variables (fuel mx : nat).
Fixpoint zloop (todo n : nat) (started : bool) (prev : option bool) (g s : zf) : option (zf * nat) :=
  match todo with
  | O => None
  | S todo =>
      let go started prev s :=
        match zstep fuel g s with
        | Some (Some g') => match zloop todo (S n) started prev g' s with Some (h, k) => Some (h, S k) | None => None end
        | Some None => Some (g, O)
        | None => None
        end in
      if started then match zhalf s with Some s' => go true prev s' | None => None end
      else if (n <? mx)%nat then
        match prev with
        | None => go false (Some (zjudge g)) s
        | Some b => if Bool.eqb b (zjudge g) then go false prev s else match zhalf s with Some s' => go true prev s' | None => None end
        end
      else None
  end.
Context {X Y I : Type}.
Variables (sf : sinput ar (X := X) -> res (ssoln ar (X := X) (Y := Y) * bool)) (gt : ssoln ar (X := X) (Y := Y) -> res SplitterStatus).
Hypothesis Hsol : forall inp, exists s, sf inp = Ok (s, false) /\ ss_input ar s = inp /\ ss_flag ar s <> None.
Hypothesis Hty : forall s, gt s = Ok (judge (s_γ ar (ss_input ar s))).
Notation world := (sworld ar (X := X) (Y := Y) (I := I)).
Notation loop := (search_loop (fun (w : world) inp => (w, sf inp)) (cleanup ar false) (stepper ar fuel mx gt) (alternate_cleanup ar false)).
Definition status (b : bool) : SplitterStatus := if b then DIVERGE else SIGN_FLIP.
Definition state_is (st : stepper_state ar) (n : nat) (started : bool) (prev : option bool) (s : zf) : Prop :=
  binary_started ar st = started /\ step_size ar st = (fl s : F ar) /\
  (started = false -> search_steps ar st = n /\ prev_soln_type ar st = match prev with None => None | Some b => Some (status b) end).
Lemma zloop_spec : forall todo n started prev g s h k (w : world) pre r, zloop todo n started prev g s = Some (h, k) ->
  fresh ar w pre -> state_is (sw_st ar w) n started prev s ->
  exists ss x, let q := loop todo (length pre) w (mk_sinput ar (fl g : F ar) r) in
    snd q = Ok (Some (Some x)) /\ r_final (sw_run ar (fst q)) = Final x /\ r_solutions (sw_run ar (fst q)) = numbered 0 (pre ++ ss ++ [x]) /\
    length ss = k /\ s_γ ar (ss_input ar x) = (fl h : F ar).
Proof.
  induction todo as [|todo IH]; intros n started prev g s h k w pre r; [discriminate|]. cbn [zloop]. intros E HF (S1 & S2 & S3).
  assert (GO : forall started' prev' s' st', stepper_advance ar mx (sw_st ar w) (judge (fl g)) = (st', Ok (fl s' : F ar)) ->
    state_is st' (S n) started' prev' s' ->
    match zstep fuel g s' with
    | Some (Some g') => match zloop todo (S n) started' prev' g' s' with Some (h, k) => Some (h, S k) | None => None end
    | Some None => Some (g, O)
    | None => None
    end = Some (h, k) ->
    exists ss x, let q := loop (S todo) (length pre) w (mk_sinput ar (fl g : F ar) r) in
      snd q = Ok (Some (Some x)) /\ r_final (sw_run ar (fst q)) = Final x /\ r_solutions (sw_run ar (fst q)) = numbered 0 (pre ++ ss ++ [x]) /\
      length ss = k /\ s_γ ar (ss_input ar x) = (fl h : F ar)).
  { intros started' prev' s' st' HA HS HZ. destruct (zstep fuel g s') as [o|] eqn:ZS; [|discriminate]. apply (@zstep_spec X _ _ _ r) in ZS. destruct o as [g'|].
    - destruct (zloop todo (S n) started' prev' g' s') as [[h' k']|] eqn:ZL; [|discriminate]. injection HZ as <- <-.
      destruct (attempt_moves ar fuel mx sf gt judge Hsol Hty todo (length pre) w (mk_sinput ar (fl g : F ar) r) pre st' (fl s' : F ar) (mk_sinput ar (fl g' : F ar) r) HF HA ZS) as (w' & x & EQ & HF' & HST & HI).
      destruct (IH (S n) started' prev' g' s' h' k' w' (pre ++ [x]) r ZL HF') as (ss & y & Q); [rewrite HST; exact HS|].
      exists (x :: ss), y. cbn zeta in Q |- *. rewrite EQ. replace (length (pre ++ [x])) with (S (length pre)) in Q by (rewrite app_length; cbn; lia).
      destruct Q as (Q1 & Q2 & Q3 & Q4 & Q5). split; [exact Q1|]. split; [exact Q2|]. split; [rewrite Q3, <- app_assoc; reflexivity|]. split; [cbn; lia | exact Q5].
    - injection HZ as <- <-.
      destruct (attempt_stops ar fuel mx sf gt judge Hsol Hty todo w (mk_sinput ar (fl g : F ar) r) pre st' (fl s' : F ar) HF HA ZS) as (x & Q).
      exists [], x. cbn zeta. destruct (loop (S todo) (length pre) w (mk_sinput ar (fl g : F ar) r)) as [w' res]. cbn [fst snd]. destruct Q as (Q1 & Q2 & Q3 & Q4).
      split; [exact Q1|]. split; [exact Q2|]. split; [exact Q3|]. split; [reflexivity|]. rewrite Q4. reflexivity. }
  destruct started.
  - destruct (zhalf s) as [s'|] eqn:H; [|discriminate]. apply zhalf_spec in H.
    eapply GO; [rewrite go_started by exact S1; rewrite S2, H; reflexivity | | exact E]. split; [reflexivity|]. split; [reflexivity | discriminate].
  - destruct (S3 eq_refl) as [T1 T2]. destruct (sw_st ar w) as [n0 b0 p0 s0]. cbn [binary_started step_size search_steps prev_soln_type] in S1, S2, T1, T2. subst b0 n0 p0. rewrite S2 in GO.
    destruct (Nat.ltb_spec n mx) as [L|L]; [|discriminate]. destruct prev as [b|].
    + rewrite zjudge_spec in GO. destruct (Bool.eqb_spec b (zjudge g)) as [EB|NB].
      * eapply GO; [subst b; apply go_same; exact L | | exact E]. split; [reflexivity|]. split; [reflexivity|]. intros _. split; [reflexivity|]. subst b. reflexivity.
      * destruct (zhalf s) as [s'|] eqn:H; [|discriminate]. apply zhalf_spec in H.
        eapply GO; [rewrite go_change; [rewrite H; reflexivity | exact L |] | | exact E].
        -- unfold status. destruct b, (zjudge g); congruence.
        -- split; [reflexivity|]. split; [reflexivity | discriminate].
    + eapply GO; [apply go_first; exact L | | exact E]. split; [reflexivity|]. split; [reflexivity|]. intros _. split; [reflexivity|]. cbn [prev_soln_type]. rewrite zjudge_spec. reflexivity.
Qed.
End Run.
