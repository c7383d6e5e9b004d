(** The step search in floating-point arithmetic across a power of two: lemmas for Props_FloatAcross. *)
From Coq Require Import String List Bool ZArith Reals Lra Lia Psatz.
From Flocq Require Import Core.
From Verif Require Import Lib_Py Model_Run Model_Array Model_Stepper Model_Float Spec_Run Spec_Stepper Proofs_Array Proofs_Run Proofs_Stepper Proofs_Float Proofs_FloatSearch.
Import ListNotations.
Local Open Scope R_scope.

(** ** Rounding on the two sides of 2^(e-1), in units of the lower distance v *)
Section Two.
Variables emin p e : Z.
Hypothesis p_large : (5 <= p)%Z.
Hypothesis e_large : (emin + 3 * p + 1 <= e)%Z.
Variable c : R.
Notation ar := (float_arith emin p c).
Notation RN := (rounded emin p).
Notation pow := (bpow radix2).
Notation v := (pow (e - 1 - p)).
Notation Q := (2 ^ p)%Z.
Lemma v_pos : 0 < v. Proof. apply bpow_gt_0. Qed.
Lemma upper_unit : pow (e - p) = 2 * v.
Proof. replace (e - p)%Z with (e - 1 - p + 1)%Z by lia. rewrite bpow_plus_1. cbn [radix_val radix2]. lra. Qed.
Lemma pow_units : forall k, (0 <= k)%Z -> pow (e - 1 - p + k) = IZR (2 ^ k) * v.
Proof. intros k H. change 2%Z with (radix_val radix2). rewrite IZR_Zpower by lia. rewrite <- bpow_plus. f_equal. lia. Qed.
Lemma at_low : pow (e - 2) = IZR (2 ^ (p - 1)) * v. Proof. rewrite <- pow_units by lia. f_equal. lia. Qed.
Lemma at_mid : pow (e - 1) = IZR Q * v. Proof. rewrite <- pow_units by lia. f_equal. lia. Qed.
Lemma at_high : pow e = IZR (2 ^ (p + 1)) * v. Proof. rewrite <- pow_units by lia. f_equal. lia. Qed.
Lemma Q_even : Z.even Q = true. Proof. apply Z.even_pow. lia. Qed.
Lemma Q_low : (2 * 2 ^ (p - 1) = Q)%Z. Proof. rewrite <- Z.pow_succ_r by lia. f_equal. lia. Qed.
Lemma Q_high : (2 ^ (p + 1) = 2 * Q)%Z. Proof. rewrite <- Z.pow_succ_r by lia. f_equal. Qed.
Lemma low_large : (16 <= 2 ^ (p - 1))%Z. Proof. change 16%Z with (2 ^ 4)%Z. apply Z.pow_le_mono_r; lia. Qed.

(** A number between 2^(e-2) and 2^e. *)
Definition valid (G : Z) : Prop := (2 ^ (p - 1) <= G <= 2 ^ (p + 1))%Z /\ ((Q < G)%Z -> Z.even G = true).
(** G' is the number x is rounded to. *)
Definition rounds (x : R) (G' : Z) : Prop :=
  x <= IZR Q /\ (G' <= Q)%Z /\ Rabs (IZR G' - x) <= / 2 \/ IZR Q < x /\ (Q <= G')%Z /\ Z.even G' = true /\ Rabs (IZR G' - x) <= 1.
Lemma rounds_to : forall x, IZR (2 ^ (p - 1)) <= x <= IZR (2 ^ (p + 1)) -> exists G', RN (x * v) = IZR G' * v /\ valid G' /\ rounds x G'.
Proof.
  intros x [H1 H2]. assert (V := v_pos). assert (QL := Q_low). assert (QH := Q_high). assert (LL := low_large).
  destruct (Rle_or_lt x (IZR Q)) as [L|L].
  - exists (ZnearestE x). assert (N := Znearest_half (fun n => negb (Z.even n)) x).
    assert (N1 : (2 ^ (p - 1) <= ZnearestE x)%Z) by (apply Z.lt_succ_r, lt_IZR; rewrite succ_IZR; apply Rabs_le_inv in N; lra).
    assert (N2 : (ZnearestE x <= Q)%Z) by (apply Z.lt_succ_r, lt_IZR; rewrite succ_IZR; apply Rabs_le_inv in N; lra).
    split.
    + rewrite (RN_grid emin p (e - 1) ltac:(lia) ltac:(lia)).
      * replace (x * v / v) with x by (field; lra). reflexivity.
      * replace (e - 1 - 1)%Z with (e - 2)%Z by lia. rewrite at_low, at_mid. split; apply Rmult_le_compat_r; lra.
    + split; [split; [lia | lia]|]. left. split; [exact L|]. split; [exact N2|]. rewrite Rabs_minus_sym. exact N.
  - exists (2 * ZnearestE (x / 2))%Z. assert (N := Znearest_half (fun n => negb (Z.even n)) (x / 2)).
    assert (N1 : (2 ^ (p - 1) <= ZnearestE (x / 2))%Z). { apply Z.lt_succ_r, lt_IZR. rewrite succ_IZR. apply Rabs_le_inv in N. rewrite <- QL, mult_IZR in L. lra. }
    assert (N2 : (ZnearestE (x / 2) <= Q)%Z). { apply Z.lt_succ_r, lt_IZR. rewrite succ_IZR. apply Rabs_le_inv in N. rewrite QH, mult_IZR in H2. lra. }
    assert (EV : Z.even (2 * ZnearestE (x / 2)) = true) by (rewrite Z.even_mul; reflexivity).
    split.
    + rewrite (RN_grid emin p e ltac:(lia) ltac:(lia)).
      * rewrite upper_unit. replace (x * v / (2 * v)) with (x / 2) by (field; lra). rewrite mult_IZR. ring.
      * rewrite at_mid, at_high. split; apply Rmult_le_compat_r; lra.
    + split; [split; [lia | intros _; exact EV]|]. right. split; [exact L|]. split; [lia|]. split; [exact EV|].
      rewrite mult_IZR. apply Rabs_le_inv in N. apply Rabs_le. lra.
Qed.

Context {X : Type}.
Variable fuel : nat.
Hypothesis fuel_large : (17 <= fuel)%nat.
Notation inp G r := (mk_sinput ar (X := X) (IZR G * v : F ar) r).
Lemma same_number : forall a b, Reqb (IZR a * v) (IZR b * v) = (a =? b)%Z.
Proof.
  intros a b. assert (V := v_pos). destruct (Z.eqb_spec a b) as [->|N]; [apply Reqb_true; reflexivity|]. apply Reqb_false. intro E. apply N, eq_IZR. nra.
Qed.
(** A step down. *)
Lemma step_down : forall G σ r, valid G -> 0 < σ -> IZR (2 ^ (p - 1)) <= IZR G - σ ->
  (snd (step_func ar fuel (inp G r) DIVERGE (σ * v : F ar)) = Raise Lib_Py.StepperStop /\ rounds (IZR G - σ) G) \/
  exists G', snd (step_func ar fuel (inp G r) DIVERGE (σ * v : F ar)) = Ok (inp G' r) /\ valid G' /\ rounds (IZR G - σ) G' /\ G' <> G.
Proof.
  intros G σ r [VG VE] Hσ HL. assert (HG : IZR G <= IZR (2 ^ (p + 1))) by (apply IZR_le; lia).
  destruct (rounds_to (IZR G - σ) ltac:(lra)) as (G' & E & V' & RD).
  cbn [step_func s_γ s_rest]. cbn [feqb sub float_arith]. replace (IZR G * v - σ * v) with ((IZR G - σ) * v) by ring. rewrite E, same_number.
  destruct (Z.eqb_spec G G') as [->|N]; [left; split; [reflexivity | exact RD] | right; exists G'; repeat split; try apply V'; auto].
Qed.
(** The next number. *)
Definition next (G : Z) : Z := if (G <? Q)%Z then (G + 1)%Z else (G + 2)%Z.
Lemma bumped : forall G σ, valid G -> (G < 2 ^ (p + 1))%Z -> / 8 <= σ -> (if (G <? Q)%Z then σ <= / 2 else σ <= 1) ->
  bump ar fuel (IZR G * v : F ar) (σ * v : F ar) (0 : F ar) (IZR G * v : F ar) = Some (IZR (next G) * v : F ar).
Proof.
  intros G σ [VG VE] HG Hσ Hs. assert (V := v_pos). unfold next. assert (QH := Q_high). assert (I17 : INR 17 = 17) by (cbn [INR]; lra).
  destruct (Z.ltb_spec G Q) as [L|L].
  - apply (bump_next emin p (e - 1) ltac:(lia) ltac:(lia) c 17 fuel G (σ * v) 0 fuel_large).
    + replace (e - 1 - 1)%Z with (e - 2)%Z by lia. rewrite at_low. apply Rmult_le_compat_r; [lra | apply IZR_le; lia].
    + rewrite at_mid. apply Rmult_le_compat_r; [lra | apply IZR_le; lia].
    + split; [|nra]. assert (S : pow (e - 1 - p + 1 - p) <= pow (e - 1 - p - 4)) by (apply bpow_le; lia).
      assert (S4 : pow (e - 1 - p - 4) = v / 16) by (unfold Zminus at 1; rewrite bpow_plus; change (pow (- (4))) with (/ 16); lra). nra.
    + lra.
    + rewrite I17. nra.
  - assert (EV : Z.even G = true) by (destruct (Z.eq_dec G Q) as [->|N]; [apply Q_even | apply VE; lia]).
    apply Z.even_spec in EV. destruct EV as [H ->].
    replace (IZR (2 * H) * v) with (IZR H * pow (e - p)) by (rewrite upper_unit, mult_IZR; ring).
    replace (IZR (2 * H + 2) * v) with (IZR (H + 1) * pow (e - p)) by (rewrite upper_unit, !plus_IZR, mult_IZR; ring).
    assert (UU := upper_unit).
    apply (bump_next emin p e ltac:(lia) ltac:(lia) c 17 fuel H (σ * v) 0 fuel_large).
    + rewrite at_mid, UU. replace (IZR H * (2 * v)) with (IZR (2 * H) * v) by (rewrite mult_IZR; ring). apply Rmult_le_compat_r; [lra | apply IZR_le; lia].
    + rewrite at_high, UU. replace (IZR (H + 1) * (2 * v)) with (IZR (2 * (H + 1)) * v) by (rewrite mult_IZR; ring). apply Rmult_le_compat_r; [lra | apply IZR_le; lia].
    + split; [|nra]. assert (S : pow (e - p + 1 - p) <= pow (e - p - 4)) by (apply bpow_le; lia).
      assert (S4 : pow (e - p - 4) = pow (e - p) / 16) by (unfold Zminus at 1; rewrite bpow_plus; change (pow (- (4))) with (/ 16); lra). nra.
    + lra.
    + rewrite I17, UU. nra.
Qed.
(** A step up. *)
Lemma step_up : forall G σ r, valid G -> / 8 <= σ -> IZR G + σ <= IZR (2 ^ (p + 1)) ->
  exists G', snd (step_func ar fuel (inp G r) SIGN_FLIP (σ * v : F ar)) = Ok (inp G' r) /\ valid G' /\
    (rounds (IZR G + σ) G' /\ G' <> G \/ G' = next G /\ (if (G <? Q)%Z then σ <= / 2 else σ <= 1)).
Proof.
  intros G σ r VG Hσ HH. assert (HG : IZR (2 ^ (p - 1)) <= IZR G) by (apply IZR_le, VG).
  destruct (rounds_to (IZR G + σ) ltac:(lra)) as (G' & E & V' & RD).
  cbn [step_func s_γ s_rest]. cbn [feqb add zero float_arith]. replace (IZR G * v + σ * v) with ((IZR G + σ) * v) by ring. rewrite E, same_number.
  destruct (Z.eqb_spec G G') as [<-|N].
  - assert (HS : if (G <? Q)%Z then σ <= / 2 else σ <= 1).
    { destruct RD as [(A & B & C)|(A & B & C & D)]; [apply Rabs_le_inv in C | apply Rabs_le_inv in D]; destruct (Z.ltb_spec G Q) as [L|L]; try lia; try lra. }
    assert (LT : (G < 2 ^ (p + 1))%Z) by (apply lt_IZR; lra).
    rewrite (bumped G σ VG LT Hσ HS). exists (next G). split; [reflexivity|]. split; [|right; split; [reflexivity | exact HS]].
    destruct VG as [VG VE]. assert (QH := Q_high). unfold next. destruct (Z.ltb_spec G Q) as [L|L].
    + split; [lia|]. lia.
    + assert (EV : Z.even G = true) by (destruct (Z.eq_dec G Q) as [->|NN]; [apply Q_even | apply VE; lia]).
      apply Z.even_spec in EV. destruct EV as [H ->]. split; [lia|]. intros _. apply Z.even_spec. exists (H + 1)%Z. lia.
  - exists G'. split; [reflexivity|]. split; [exact V'|]. left. split; [exact RD | auto].
Qed.

(** ** The two numbers the search is between *)
Variables (Y I : Type) (mx : nat) (sf : sinput ar (X := X) -> res (ssoln ar (X := X) (Y := Y) * bool))
  (gt : ssoln ar (X := X) (Y := Y) -> res SplitterStatus) (ty : R -> SplitterStatus).
Hypothesis Hsol : forall inp, exists s, sf inp = Ok (s, false) /\ ss_input ar s = inp /\ ss_flag ar s <> None.
Hypothesis Hty : forall s, gt s = Ok (ty (s_γ ar (ss_input ar s))).
Hypothesis Htwo : forall γ, ty γ = DIVERGE \/ ty γ = SIGN_FLIP.
Hypothesis Hmono : forall a b, ty a = SIGN_FLIP -> ty b = DIVERGE -> a < b.
Notation world := (sworld ar (X := X) (Y := Y) (I := I)).
Notation loop := (search_loop (fun (w : world) inp => (w, sf inp)) (cleanup ar false) (stepper ar fuel mx gt) (alternate_cleanup ar false)).
Notation fexp := (FLT_exp emin p).
Notation tz G := (ty (IZR G * v)).
Lemma order : forall a b, tz a = SIGN_FLIP -> tz b = DIVERGE -> (a < b)%Z.
Proof. intros a b H1 H2. assert (V := v_pos). apply lt_IZR. assert (L := Hmono _ _ H1 H2). nra. Qed.
(** The next point G is of one kind and an earlier one, O, of the other; their distance is about the step σ. *)
Definition above (G O : Z) (σ : R) : Prop :=
  (G <= Q)%Z /\ Rabs (IZR (G - O) - σ) < 4 \/ (Q < G)%Z /\ (Z.even O = true /\ Rabs (IZR (G - O) - σ) < 2 \/ Z.even O = false /\ Rabs (IZR (G - O) - σ) < 3).
Definition below (G O : Z) (σ : R) : Prop := (G < Q)%Z /\ Rabs (IZR (O - G) - σ) < 1 \/ (Q <= G)%Z /\ Rabs (IZR (O - G) - σ) < 2.
Lemma near_w : forall (D n a b w K : Z) σ, (0 < w)%Z -> (w * a = D - K)%Z -> (w * b = D + K)%Z -> (exists m, n = w * m)%Z ->
  Rabs (IZR D - σ) < IZR K -> Rabs (IZR n - σ / 2) <= IZR w / 2 -> Rabs (IZR (D - n) - σ / 2) < IZR K.
Proof.
  intros D n a b w K σ Hw Ha Hb [m ->] H1 H2. apply Rabs_def2 in H1. apply Rabs_le_inv in H2. rewrite minus_IZR.
  assert (A1 : (a <= 2 * m)%Z).
  { apply Z.lt_succ_r. apply (Z.mul_lt_mono_pos_l w); [exact Hw|]. apply lt_IZR. rewrite Ha. unfold Z.succ. rewrite minus_IZR, !mult_IZR, plus_IZR, mult_IZR. rewrite mult_IZR in H2. nra. }
  assert (A2 : (2 * m <= b)%Z).
  { apply Z.lt_succ_r. apply (Z.mul_lt_mono_pos_l w); [exact Hw|]. apply lt_IZR. replace (w * Z.succ b)%Z with (w * b + w)%Z by lia. rewrite Hb, !plus_IZR, !mult_IZR. rewrite mult_IZR in H2. nra. }
  assert (B1 : (D - K <= 2 * (w * m))%Z) by nia. assert (B2 : (2 * (w * m) <= D + K)%Z) by nia.
  apply IZR_le in B1, B2. rewrite minus_IZR, mult_IZR in B1. rewrite plus_IZR, mult_IZR in B2. apply Rabs_def1; lra.
Qed.
Lemma even_of : forall G, valid G -> (Q <= G)%Z -> Z.even G = true.
Proof. intros G [_ H] L. destruct (Z.eq_dec G Q) as [->|N]; [apply Q_even | apply H; lia]. Qed.
Lemma halves : forall a, Z.even a = true -> exists h, a = (2 * h)%Z.
Proof. intros a H. apply Z.even_spec in H. exact H. Qed.
Lemma down_down : forall G G' O σ, valid G -> valid G' -> valid O -> above G O σ -> rounds (IZR G - σ / 2) G' -> 0 < σ -> (O < G')%Z -> above G' O (σ / 2).
Proof.
  intros G G' O σ VG VG' VO HA HR Hσ HO. assert (E : forall x y : Z, IZR (x - y) = IZR x - IZR y) by apply minus_IZR.
  destruct HR as [(R1 & R2 & R3)|(R1 & R2 & R3 & R4)].
  - left. split; [exact R2|]. destruct HA as [(A1 & A2)|(A1 & A2)].
    + replace (G' - O)%Z with (G - O - (G - G'))%Z by lia. apply (near_w (G - O) (G - G') (G - O - 4) (G - O + 4) 1 4); try lia; try exact A2; [exists (G - G')%Z; lia|].
      rewrite E. apply Rabs_le_inv in R3. apply Rabs_le. lra.
    + assert (A3 : Rabs (IZR (G - O) - σ) < 3) by (destruct A2 as [[_ A2]|[_ A2]]; lra). rewrite E in *. apply Rabs_def2 in A3. apply Rabs_le_inv in R3. apply Rabs_def1; lra.
  - assert (QG : (Q < G)%Z) by (apply lt_IZR; lra). destruct HA as [(A1 & _)|(A1 & A2)]; [lia|].
    destruct (halves G (proj2 VG QG)) as [g EG]. destruct (halves G' R3) as [g' EG'].
    destruct (Z.eq_dec G' Q) as [EQ|NQ].
    + left. split; [lia|]. assert (A3 : Rabs (IZR (G - O) - σ) < 3) by (destruct A2 as [[_ A2]|[_ A2]]; lra). rewrite E in *. apply Rabs_def2 in A3. apply Rabs_le_inv in R4. apply Rabs_def1; lra.
    + right. split; [lia|]. assert (RR : Rabs (IZR (G - G') - σ / 2) <= 2 / 2) by (rewrite E; apply Rabs_le_inv in R4; apply Rabs_le; lra).
      replace (G' - O)%Z with (G - O - (G - G'))%Z by lia. destruct A2 as [[EO A2]|[EO A2]]; [left | right]; split; try exact EO.
      * destruct (halves O EO) as [o EO']. apply (near_w (G - O) (G - G') (g - o - 1) (g - o + 1) 2 2); try lia; try assumption. exists (g - g')%Z. lia.
      * assert (OO : exists o, O = (2 * o + 1)%Z) by (apply Z.odd_spec; rewrite <- Z.negb_even, EO; reflexivity). destruct OO as [o EO'].
        apply (near_w (G - O) (G - G') (g - o - 2) (g - o + 1) 2 3); try lia; try assumption. exists (g - g')%Z. lia.
Qed.
Lemma down_up : forall G G' σ, rounds (IZR G - σ) G' -> below G' G σ.
Proof.
  intros G G' σ [(R1 & R2 & R3)|(R1 & R2 & R3 & R4)]; unfold below; rewrite minus_IZR.
  - apply Rabs_le_inv in R3. destruct (Z.eq_dec G' Q) as [EQ|NQ]; [right | left]; (split; [lia | apply Rabs_def1; lra]).
  - apply Rabs_le_inv in R4. right. split; [lia | apply Rabs_def1; lra].
Qed.
Lemma up_up : forall G G' O σ, valid G -> valid G' -> valid O -> below G O σ -> rounds (IZR G + σ / 2) G' -> 0 < σ -> (G < O)%Z -> below G' O (σ / 2).
Proof.
  intros G G' O σ VG VG' VO HB HR Hσ HO. assert (E : forall x y : Z, IZR (x - y) = IZR x - IZR y) by apply minus_IZR.
  destruct HR as [(R1 & R2 & R3)|(R1 & R2 & R3 & R4)].
  - assert (QG : (G < Q)%Z) by (apply lt_IZR; lra). destruct HB as [(A1 & A2)|(A1 & A2)]; [|lia].
    destruct (Z.eq_dec G' Q) as [EQ|NQ]; [right | left]; (split; [lia|]).
    + rewrite E in *. apply Rabs_def2 in A2. apply Rabs_le_inv in R3. apply Rabs_def1; lra.
    + replace (O - G')%Z with (O - G - (G' - G))%Z by lia. apply (near_w (O - G) (G' - G) (O - G - 1) (O - G + 1) 1 1); try lia; try exact A2; [exists (G' - G)%Z; lia|].
      rewrite E. apply Rabs_le_inv in R3. apply Rabs_le. lra.
  - right. split; [exact R2|]. destruct HB as [(A1 & A2)|(A1 & A2)].
    + rewrite E in *. apply Rabs_def2 in A2. apply Rabs_le_inv in R4. apply Rabs_def1; lra.
    + destruct (halves G (even_of G VG A1)) as [g EG]. destruct (halves G' R3) as [g' EG']. destruct (halves O (even_of O VO ltac:(lia))) as [o EO].
      replace (O - G')%Z with (O - G - (G' - G))%Z by lia. apply (near_w (O - G) (G' - G) (o - g - 1) (o - g + 1) 2 2); try lia; try exact A2; [exists (g' - g)%Z; lia|].
      rewrite E. apply Rabs_le_inv in R4. apply Rabs_le. lra.
Qed.
Lemma up_down : forall G G' σ, valid G -> 0 < σ -> rounds (IZR G + σ) G' \/ G' = next G /\ (if (G <? Q)%Z then σ <= / 2 else σ <= 1) -> above G' G σ.
Proof.
  intros G G' σ VG Hσ [[(R1 & R2 & R3)|(R1 & R2 & R3 & R4)]|[E L]]; unfold above; rewrite minus_IZR.
  - apply Rabs_le_inv in R3. left. split; [exact R2 | apply Rabs_def1; lra].
  - apply Rabs_le_inv in R4. destruct (Z.eq_dec G' Q) as [EQ|NQ]; [left; split; [lia | apply Rabs_def1; lra]|]. right. split; [lia|].
    destruct (Z.even G); [left | right]; (split; [reflexivity | apply Rabs_def1; lra]).
  - unfold next in E. destruct (Z.ltb_spec G Q) as [LT|GE]; subst G'; rewrite plus_IZR.
    + left. split; [lia | apply Rabs_def1; lra].
    + right. split; [lia|]. left. split; [apply even_of; assumption | apply Rabs_def1; lra].
Qed.
(** A point that is left by adding the smallest possible amount is next to the other one. *)
Lemma up_next : forall G O σ, valid G -> valid O -> below G O σ -> (G < O)%Z -> (if (G <? Q)%Z then σ / 2 <= / 2 else σ / 2 <= 1) -> O = next G.
Proof.
  intros G O σ VG VO HB HO HL. unfold next. destruct (Z.ltb_spec G Q) as [LT|GE]; destruct HB as [(A1 & A2)|(A1 & A2)]; try lia; apply Rabs_def2 in A2.
  - assert (O - G < 2)%Z by (apply lt_IZR; lra). lia.
  - assert (O - G < 4)%Z by (apply lt_IZR; lra). destruct (halves G (even_of G VG GE)) as [g EG]. destruct (halves O (even_of O VO ltac:(lia))) as [o EO]. lia.
Qed.
Lemma stop_near : forall G O σ, valid G -> above G O σ -> rounds (IZR G - σ / 2) G -> 0 < σ -> (G - O <= 4)%Z /\ ((Q < G)%Z -> (G - O <= 3)%Z).
Proof.
  intros G O σ VG HA HR Hσ. destruct HR as [(R1 & R2 & R3)|(R1 & R2 & R3 & R4)].
  - apply Rabs_le_inv in R3. destruct HA as [(A1 & A2)|(A1 & A2)]; [|lia]. apply Rabs_def2 in A2. assert (G - O < 5)%Z by (apply lt_IZR; lra). lia.
  - apply Rabs_le_inv in R4. assert (QG : (Q < G)%Z) by (apply lt_IZR; lra). destruct HA as [(A1 & A2)|(A1 & [(A2 & A3)|(A2 & A3)])]; [lia | |]; apply Rabs_def2 in A3.
    + assert (G - O < 4)%Z by (apply lt_IZR; lra). lia.
    + assert (G - O < 5)%Z by (apply lt_IZR; lra). destruct (halves G R3) as [g EG].
      assert (OO : exists o, O = (2 * o + 1)%Z) by (apply Z.odd_spec; rewrite <- Z.negb_even, A2; reflexivity). destruct OO as [o EO]. lia.
Qed.

(** ** The search *)
Variables (σ0 γs : R).
Hypothesis F0 : generic_format radix2 fexp (σ0 * v).
Hypothesis S0 : 2 <= σ0 <= 2 ^ (Z.to_nat p + 1).
Hypothesis Hlo : forall γ, ty γ = DIVERGE -> γs * v <= γ.
Hypothesis Hhi : forall γ, ty γ = SIGN_FLIP -> γ <= γs * v.
Hypothesis R1 : IZR (2 ^ (p - 1)) <= γs - σ0.
Hypothesis R2 : γs + σ0 <= IZR (2 ^ (p + 1)).
Lemma zlo : forall G, tz G = DIVERGE -> γs <= IZR G. Proof. intros G H. assert (V := v_pos). apply Hlo in H. nra. Qed.
Lemma zhi : forall G, tz G = SIGN_FLIP -> IZR G <= γs. Proof. intros G H. assert (V := v_pos). apply Hhi in H. nra. Qed.
Definition ended2 (bound : nat) (pre : list (ssoln ar (X := X) (Y := Y))) (q : world * res (option (option (ssoln ar)))) : Prop :=
  exists ss s G O, snd q = Ok (Some (Some s)) /\ r_final (sw_run ar (fst q)) = Final s /\ r_solutions (sw_run ar (fst q)) = numbered 0 (pre ++ ss ++ [s]) /\
    (length ss <= bound)%nat /\ s_γ ar (ss_input ar s) = IZR G * v /\ valid G /\ valid O /\ tz G = DIVERGE /\ tz O = SIGN_FLIP /\
    (G - O <= 4)%Z /\ ((Q < G)%Z -> (G - O <= 3)%Z).
Lemma ended2_more : forall n pre s q, ended2 n (pre ++ [s]) q -> ended2 (S n) pre q.
Proof.
  intros n pre s q (ss & s' & G & O & H1 & H2 & H3 & H4 & H5). exists (s :: ss), s', G, O. split; [exact H1|]. split; [exact H2|]. split; [rewrite H3, <- app_assoc; reflexivity|].
  split; [cbn; lia | exact H5].
Qed.
Lemma ended2_le : forall n m pre q, (n <= m)%nat -> ended2 n pre q -> ended2 m pre q.
Proof. intros n m pre q L (ss & s & G & O & H1 & H2 & H3 & H4 & H5). exists ss, s, G, O. repeat split; try assumption; try apply H5. lia. Qed.
Definition between (G : Z) (σ : R) : Prop := valid G /\ exists O, valid O /\
  (tz G = DIVERGE /\ tz O = SIGN_FLIP /\ above G O σ \/ tz G = SIGN_FLIP /\ tz O = DIVERGE /\ below G O σ).
(** One attempt with half the step. *)
Lemma cross : forall todo w G r pre n b t σ, fresh ar w pre -> generic_format radix2 fexp (σ * v) -> / 8 <= σ <= σ0 -> (tz G = SIGN_FLIP -> / 4 <= σ) ->
  stepper_advance ar mx (sw_st ar w) (tz G) = (mk_st ar n b t (RN (σ * v / 2) : F ar), Ok (RN (σ * v / 2) : F ar)) -> between G σ ->
  ended2 0 pre (loop (S todo) (length pre) w (inp G r)) \/
  exists w' s' G', loop (S todo) (length pre) w (inp G r) = loop todo (S (length pre)) w' (inp G' r) /\ fresh ar w' (pre ++ [s']) /\
    sw_st ar w' = mk_st ar n b t (σ / 2 * v : F ar) /\ generic_format radix2 fexp (σ / 2 * v) /\ between G' (σ / 2) /\ (σ <= / 2 -> tz G = SIGN_FLIP /\ tz G' = DIVERGE).
Proof.
  intros todo w G r pre n b t σ HF Fs Hσ H4 HA (VG & O & VO & HK). assert (V := v_pos).
  assert (PE : pow (emin + p) <= σ * v).
  { assert (pow (emin + p) <= pow (e - 1 - p - 3)) by (apply bpow_le; lia).
    assert (S3 : pow (e - 1 - p - 3) = v / 8) by (unfold Zminus at 1; rewrite bpow_plus; change (pow (- (3))) with (/ 8); lra). nra. }
  destruct (RN_half emin p (σ * v) Fs ltac:(lra)) as [EH FH]. rewrite EH in HA. replace (σ * v / 2) with (σ / 2 * v) in * by field.
  destruct HK as [(JD & JO & AB)|(JF & JO & BE)].
  - assert (LG := zlo G JD). destruct (step_down G (σ / 2) r VG ltac:(lra) ltac:(lra)) as [[ST RD]|(G' & MV & VG' & RD & NE)].
    + left. rewrite <- JD in ST. destruct (attempt_stops ar fuel mx sf gt ty Hsol Hty todo w (inp G r) pre _ _ HF HA ST) as (s & E).
      destruct (loop (S todo) (length pre) w (inp G r)) as [w' res]. destruct E as (E1 & E2 & E3 & E4). destruct (stop_near G O σ VG AB RD ltac:(lra)) as [N1 N2].
      exists [], s, G, O. cbn [fst snd app length]. rewrite E4. repeat split; try assumption; try lia; try apply VG; try apply VO.
    + right. rewrite <- JD in MV. destruct (attempt_moves ar fuel mx sf gt ty Hsol Hty todo (length pre) w (inp G r) pre _ _ _ HF HA MV) as (w' & s' & E1 & F' & S' & _).
      exists w', s', G'. split; [exact E1|]. split; [exact F'|]. split; [exact S'|]. split; [exact FH|]. split.
      * split; [exact VG'|]. destruct (Htwo (IZR G' * v)) as [J|J]; [exists O | exists G]; (split; [assumption|]); [left | right]; (split; [exact J|]); (split; [assumption|]).
        { apply (down_down G G' O σ); try assumption; try lra. apply order; assumption. }
        { apply down_up. exact RD. }
      * intro Hs. exfalso. apply NE, eq_IZR.
        assert (Z1 : (G' < G + 1)%Z /\ (G < G' + 1)%Z \/ (Q < G)%Z /\ Z.even G' = true /\ (G' < G + 2)%Z /\ (G < G' + 2)%Z).
        { destruct RD as [(A & B & C)|(A & B & C & D)]; [apply Rabs_le_inv in C; left | apply Rabs_le_inv in D; right].
          - split; apply lt_IZR; rewrite plus_IZR; lra.
          - split; [apply lt_IZR; lra|]. split; [exact C|]. split; apply lt_IZR; rewrite plus_IZR; lra. }
        f_equal. destruct Z1 as [Z1|(Z1 & Z2 & Z3)]; [lia|]. destruct (halves G' Z2) as [g' E']. destruct (halves G (even_of G VG ltac:(lia))) as [g E]. lia.
  - assert (LG := zhi G JF). assert (L4 := H4 JF). destruct (step_up G (σ / 2) r VG ltac:(lra) ltac:(lra)) as (G' & MV & VG' & HC).
    assert (GO := order G O JF JO).
    right. rewrite <- JF in MV. destruct (attempt_moves ar fuel mx sf gt ty Hsol Hty todo (length pre) w (inp G r) pre _ _ _ HF HA MV) as (w' & s' & E1 & F' & S' & _).
    exists w', s', G'. split; [exact E1|]. split; [exact F'|]. split; [exact S'|]. split; [exact FH|]. split.
    + split; [exact VG'|]. destruct (Htwo (IZR G' * v)) as [J|J]; [exists G | exists O]; (split; [assumption|]); [left | right]; (split; [exact J|]); (split; [assumption|]).
      * apply up_down; [exact VG | lra|]. destruct HC as [[HC _]|HC]; [left | right]; exact HC.
      * destruct HC as [[HC _]|[HC HL]]; [apply (up_up G G' O σ); assumption || lra|].
        exfalso. assert (EO := up_next G O σ VG VO BE GO HL). rewrite <- EO in HC. rewrite HC in J. congruence.
    + intro Hs. split; [exact JF|].
      assert (HL : if (G <? Q)%Z then σ / 2 <= / 2 else σ / 2 <= 1) by (destruct (G <? Q)%Z; lra). assert (EO := up_next G O σ VG VO BE GO HL).
      destruct HC as [[RD NE]|[HC _]]; [exfalso; apply NE | rewrite HC, <- EO; exact JO].
      destruct RD as [(A & B & C)|(A & B & C & D)]; [apply Rabs_le_inv in C | apply Rabs_le_inv in D].
      * assert (G' < G + 1)%Z by (apply lt_IZR; rewrite plus_IZR; lra). assert (G < G' + 1)%Z by (apply lt_IZR; rewrite plus_IZR; lra). lia.
      * assert (G' < G + 2)%Z by (apply lt_IZR; rewrite plus_IZR; lra). assert (G < G' + 2)%Z by (apply lt_IZR; rewrite plus_IZR; lra).
        assert (QG : (Q <= G)%Z) by (apply Z.lt_succ_r, lt_IZR; rewrite succ_IZR; lra).
        destruct (halves G' C) as [g' E']. destruct (halves G (even_of G VG QG)) as [g E]. lia.
Qed.
Lemma narrow2 : forall n todo w G r pre σ, fresh ar w pre -> binary_started ar (sw_st ar w) = true -> (n + 1 < todo)%nat ->
  step_size ar (sw_st ar w) = (σ * v : F ar) -> generic_format radix2 fexp (σ * v) -> / 4 <= σ <= 2 ^ n / 2 -> σ <= σ0 -> between G σ ->
  ended2 (n + 1) pre (loop todo (length pre) w (inp G r)).
Proof.
  assert (LAST : forall todo w G r pre σ, fresh ar w pre -> binary_started ar (sw_st ar w) = true -> (1 < todo)%nat ->
    step_size ar (sw_st ar w) = (σ * v : F ar) -> generic_format radix2 fexp (σ * v) -> / 4 <= σ <= / 2 -> between G σ -> ended2 1 pre (loop todo (length pre) w (inp G r))).
  { intros todo w G r pre σ HF HB Ht HS Fs Hσ HK. destruct todo as [|[|todo]]; [lia | lia|].
    assert (HA := go_started ar mx (sw_st ar w) (tz G) HB). rewrite HS in HA. change (half ar (σ * v : F ar)) with (RN (σ * v / 2)) in HA.
    destruct (cross (S todo) w G r pre _ _ _ σ HF Fs ltac:(lra) ltac:(intros _; lra) HA HK) as [E|(w' & s' & G' & -> & F' & S' & Fs' & K' & L')]; [eapply ended2_le; [|exact E]; lia|].
    destruct (L' ltac:(lra)) as [_ JD]. apply (ended2_more 0 pre s'). replace (S (length pre)) with (length (pre ++ [s'])) by (rewrite app_length; cbn; lia).
    assert (HA' := go_started ar mx (sw_st ar w') (tz G') ltac:(rewrite S'; reflexivity)). rewrite S' in HA' at 2 3 4 5. cbn [step_size search_steps prev_soln_type] in HA'.
    change (half ar (σ / 2 * v : F ar)) with (RN (σ / 2 * v / 2)) in HA'.
    destruct (cross todo w' G' r (pre ++ [s']) _ _ _ (σ / 2) F' Fs' ltac:(lra) ltac:(rewrite JD; discriminate) HA' K') as [E|(w2 & s2 & G2 & _ & _ & _ & _ & _ & L2)]; [exact E|].
    destruct (L2 ltac:(lra)) as [JF _]. congruence. }
  induction n as [|n IH]; intros todo w G r pre σ HF HB Ht HS Fs Hσ H0 HK.
  - apply (LAST todo w G r pre σ); try assumption. cbn [Rpow_def.pow] in Hσ. lra.
  - destruct (Rle_or_lt σ (/ 2)) as [L|L].
    + eapply ended2_le; [|apply (LAST todo w G r pre σ); try assumption; [lia | lra]]. lia.
    + destruct todo as [|todo]; [lia|]. assert (HA := go_started ar mx (sw_st ar w) (tz G) HB). rewrite HS in HA. change (half ar (σ * v : F ar)) with (RN (σ * v / 2)) in HA.
      destruct (cross todo w G r pre _ _ _ σ HF Fs ltac:(lra) ltac:(intros _; lra) HA HK) as [E|(w' & s' & G' & -> & F' & S' & Fs' & K' & L')]; [eapply ended2_le; [|exact E]; lia|].
      apply (ended2_more (n + 1) pre s'). replace (S (length pre)) with (length (pre ++ [s'])) by (rewrite app_length; cbn; lia).
      apply (IH todo w' G' r (pre ++ [s']) (σ / 2)); try rewrite S'; try assumption; try reflexivity; try lia; [|lra]. cbn [Rpow_def.pow] in Hσ. lra.
Qed.
Let N := (Z.to_nat p + 3)%nat.
Lemma turned2 : forall todo w G r pre k t0, fresh ar w pre -> (N < todo)%nat -> (k < mx)%nat ->
  sw_st ar w = mk_st ar k false (Some t0) (σ0 * v : F ar) -> t0 <> tz G -> between G σ0 -> ended2 N pre (loop todo (length pre) w (inp G r)).
Proof.
  intros todo w G r pre k t0 HF Ht Hk HS HN HK. destruct todo as [|todo]; [lia|].
  assert (HA := go_change ar mx k (σ0 * v : F ar) t0 (tz G) Hk HN). rewrite <- HS in HA. change (half ar (σ0 * v : F ar)) with (RN (σ0 * v / 2)) in HA.
  destruct (cross todo w G r pre _ _ _ σ0 HF F0 ltac:(lra) ltac:(intros _; lra) HA HK) as [E|(w' & s' & G' & -> & F' & S' & Fs' & K' & L')]; [eapply ended2_le; [|exact E]; lia|].
  replace N with (S (Z.to_nat p + 1 + 1)) by (unfold N; lia). apply (ended2_more _ pre s'). replace (S (length pre)) with (length (pre ++ [s'])) by (rewrite app_length; cbn; lia).
  apply (narrow2 (Z.to_nat p + 1) todo w' G' r (pre ++ [s']) (σ0 / 2)); try rewrite S'; try assumption; try reflexivity; try lra. unfold N in Ht. lia.
Qed.
Lemma rounds_1 : forall x G', rounds x G' -> Rabs (IZR G' - x) <= 1.
Proof. intros x G' [(_ & _ & H)|(_ & _ & _ & H)]; lra. Qed.
Lemma walk_down : forall m todo w G r pre k, fresh ar w pre -> (m + N < todo)%nat -> (k + m < mx)%nat ->
  sw_st ar w = mk_st ar k false (Some DIVERGE) (σ0 * v : F ar) -> valid G -> IZR G - γs < INR m * (σ0 - 1) ->
  (exists O, tz O = DIVERGE /\ valid O /\ rounds (IZR O - σ0) G) -> ended2 (m + N) pre (loop todo (length pre) w (inp G r)).
Proof.
  induction m as [|m IH]; intros todo w G r pre k HF Ht Hk HS VG HD (O & TO & VO & RO); (destruct (Htwo (IZR G * v)) as [JD|JF]).
  2, 4: eapply ended2_le; [|eapply (turned2 todo w G r pre k DIVERGE); try eassumption; try lia; [rewrite JF; discriminate |]]; [lia|];
        split; [exact VG|]; exists O; split; [exact VO|]; right; split; [exact JF|]; split; [exact TO|]; apply down_up; exact RO.
  all: assert (L := zlo G JD).
  - cbn [INR] in HD. lra.
  - destruct todo as [|todo]; [lia|]. rewrite S_INR in HD.
    assert (HA : stepper_advance ar mx (sw_st ar w) (tz G) = (mk_st ar (S k) false (Some DIVERGE) (σ0 * v : F ar), Ok (σ0 * v : F ar))) by (rewrite HS, JD; apply go_same; lia).
    destruct (step_down G σ0 r VG ltac:(lra) ltac:(lra)) as [[_ RD]|(G' & MV & VG' & RD & NE)]; [apply rounds_1, Rabs_le_inv in RD; lra|]. rewrite <- JD in MV at 1.
    destruct (attempt_moves ar fuel mx sf gt ty Hsol Hty todo (length pre) w (inp G r) pre _ _ _ HF HA MV) as (w' & s' & -> & F' & S' & _).
    apply (ended2_more (m + N) pre s'). replace (S (length pre)) with (length (pre ++ [s'])) by (rewrite app_length; cbn; lia).
    apply (IH todo w' G' r (pre ++ [s']) (S k)); try assumption; try lia; [apply rounds_1, Rabs_le_inv in RD; lra|]. exists G. repeat split; assumption || apply VG.
Qed.
Lemma walk_up : forall m todo w G r pre k, fresh ar w pre -> (m + N < todo)%nat -> (k + m < mx)%nat ->
  sw_st ar w = mk_st ar k false (Some SIGN_FLIP) (σ0 * v : F ar) -> valid G -> γs - IZR G < INR m * (σ0 - 1) ->
  (exists O, tz O = SIGN_FLIP /\ valid O /\ rounds (IZR O + σ0) G) -> ended2 (m + N) pre (loop todo (length pre) w (inp G r)).
Proof.
  induction m as [|m IH]; intros todo w G r pre k HF Ht Hk HS VG HD (O & TO & VO & RO); (destruct (Htwo (IZR G * v)) as [JD|JF]).
  1, 3: eapply ended2_le; [|eapply (turned2 todo w G r pre k SIGN_FLIP); try eassumption; try lia; [rewrite JD; discriminate |]]; [lia|];
        split; [exact VG|]; exists O; split; [exact VO|]; left; split; [exact JD|]; split; [exact TO|]; apply up_down; [exact VO | lra | left; exact RO].
  all: assert (L := zhi G JF).
  - cbn [INR] in HD. lra.
  - destruct todo as [|todo]; [lia|]. rewrite S_INR in HD.
    assert (HA : stepper_advance ar mx (sw_st ar w) (tz G) = (mk_st ar (S k) false (Some SIGN_FLIP) (σ0 * v : F ar), Ok (σ0 * v : F ar))) by (rewrite HS, JF; apply go_same; lia).
    destruct (step_up G σ0 r VG ltac:(lra) ltac:(lra)) as (G' & MV & VG' & [[RD NE]|[_ B]]); [|destruct (G <? Q)%Z; lra]. rewrite <- JF in MV at 1.
    destruct (attempt_moves ar fuel mx sf gt ty Hsol Hty todo (length pre) w (inp G r) pre _ _ _ HF HA MV) as (w' & s' & -> & F' & S' & _).
    apply (ended2_more (m + N) pre s'). replace (S (length pre)) with (length (pre ++ [s'])) by (rewrite app_length; cbn; lia).
    apply (IH todo w' G' r (pre ++ [s']) (S k)); try assumption; try lia; [apply rounds_1, Rabs_le_inv in RD; lra|]. exists G. repeat split; assumption || apply VG.
Qed.
Lemma search_ends2 : forall m todo w G r, fresh ar w [] -> (m + N < todo)%nat -> (m < mx)%nat -> sw_st ar w = mk_st ar 0 false None (σ0 * v : F ar) ->
  valid G -> Rabs (IZR G - γs) < INR m * (σ0 - 1) -> ended2 (m + N) [] (loop todo 0 w (inp G r)).
Proof.
  intros m todo w G r HF Ht Hm HS VG HD. apply Rabs_def2 in HD. destruct todo as [|todo]; [lia|]. destruct m as [|m]; [cbn [INR] in HD; lra|].
  rewrite S_INR in HD. assert (HA := fun t => go_first ar mx 0 (σ0 * v : F ar) t ltac:(lia)). rewrite <- HS in HA.
  destruct (Htwo (IZR G * v)) as [JD|JF].
  - assert (L := zlo G JD). destruct (step_down G σ0 r VG ltac:(lra) ltac:(lra)) as [[_ RD]|(G' & MV & VG' & RD & NE)]; [apply rounds_1, Rabs_le_inv in RD; lra|]. rewrite <- JD in MV at 1.
    destruct (attempt_moves ar fuel mx sf gt ty Hsol Hty todo 0 w (inp G r) [] _ _ _ HF (HA _) MV) as (w' & s' & -> & F' & S' & _).
    apply (ended2_more (m + N) [] s'). apply (walk_down m todo w' G' r [s'] 1); try assumption; try lia.
    + rewrite S'. cbn [s_γ]. rewrite JD. reflexivity.
    + apply rounds_1, Rabs_le_inv in RD. lra.
    + exists G. repeat split; assumption || apply VG.
  - assert (L := zhi G JF). destruct (step_up G σ0 r VG ltac:(lra) ltac:(lra)) as (G' & MV & VG' & [[RD NE]|[_ B]]); [|destruct (G <? Q)%Z; lra]. rewrite <- JF in MV at 1.
    destruct (attempt_moves ar fuel mx sf gt ty Hsol Hty todo 0 w (inp G r) [] _ _ _ HF (HA _) MV) as (w' & s' & -> & F' & S' & _).
    apply (ended2_more (m + N) [] s'). apply (walk_up m todo w' G' r [s'] 1); try assumption; try lia.
    + rewrite S'. cbn [s_γ]. rewrite JF. reflexivity.
    + apply rounds_1, Rabs_le_inv in RD. lra.
    + exists G. repeat split; assumption || apply VG.
Qed.
End Two.
