(** C59: the Taylor space scan. *)
From Coq Require Import Reals List Bool Arith Lra Lia.
From Verif Require Import Lib_Py Model_Index Model_Deriv Model_Midplane Model_Space Spec_Midplane Proofs_Midplane Witness_Midplane.
Import ListNotations.
Open Scope R_scope.

(** What an input should be for the i-th sample. *)
Definition right_input (γ v_rin v_a c_s η_O η_A η_H : R) (inp : cond_input) : Prop :=
  in_γ inp = γ /\ in_v_rin_on_c_s inp = v_rin /\ in_v_a_on_c_s inp = v_a /\ in_c_s_on_v_k inp = c_s /\
  in_η_O inp = η_O /\ in_η_A inp = η_A /\ in_η_H inp = η_H.

Lemma generator_iff : forall γ v_rin v_a c_s η_O η_A η_H,
  (length v_rin = length γ /\ length v_a = length γ /\ length c_s = length γ ->
   solution_input_generator γ v_rin v_a c_s η_O η_A η_H =
   Ok (map (fun i => scan_input (nth i γ 0) (nth i v_rin 0) (nth i v_a 0) (nth i c_s 0) η_O η_A η_H) (seq 0 (length γ)))) /\
  (~ (length v_rin = length γ /\ length v_a = length γ /\ length c_s = length γ) ->
   solution_input_generator γ v_rin v_a c_s η_O η_A η_H = Raise RuntimeError).
Proof.
  intros. unfold solution_input_generator.
  destruct (Nat.eqb_spec (length γ) (length v_rin)); [|split; [intuition congruence | reflexivity]].
  destruct (Nat.eqb_spec (length γ) (length v_a)); [|split; [intuition congruence | reflexivity]].
  destruct (Nat.eqb_spec (length γ) (length c_s)); [|split; [intuition congruence | reflexivity]].
  split; [reflexivity|]. intro H. destruct H. repeat split; congruence.
Qed.
(** C59: one input per sample, with the sampled parameters and the Ohmic diffusivity as given; samples of different lengths are a RuntimeError. *)
Theorem C59_inputs_partial : forall γ v_rin v_a c_s η_O η_A η_H,
  (length v_rin = length γ /\ length v_a = length γ /\ length c_s = length γ ->
   exists l, solution_input_generator γ v_rin v_a c_s η_O η_A η_H = Ok l /\ length l = length γ /\
   forall i inp, nth_error l i = Some inp ->
     in_γ inp = nth i γ 0 /\ in_v_rin_on_c_s inp = nth i v_rin 0 /\ in_v_a_on_c_s inp = nth i v_a 0 /\ in_c_s_on_v_k inp = nth i c_s 0 /\
     in_η_O inp = η_O) /\
  (~ (length v_rin = length γ /\ length v_a = length γ /\ length c_s = length γ) ->
   solution_input_generator γ v_rin v_a c_s η_O η_A η_H = Raise RuntimeError).
Proof.
  intros. destruct (generator_iff γ v_rin v_a c_s η_O η_A η_H) as (A & B). split; [|exact B].
  intro H. rewrite (A H). eexists. split; [reflexivity|]. split; [rewrite map_length, seq_length; reflexivity|].
  intros i inp E. rewrite nth_error_map in E. destruct (nth_error (seq 0 (length γ)) i) as [k|] eqn:K; [|discriminate]. injection E as <-.
  assert (L : (i < length γ)%nat) by (rewrite <- (seq_length (length γ) 0); apply nth_error_Some; congruence).
  apply nth_error_nth with (d := 0%nat) in K. rewrite seq_nth in K by exact L. cbn in K. subst k. repeat split.
Qed.
(** C59, refuted: the Hall value is used as ambipolar diffusivity and the other way round, in every input. *)
Theorem C59_exact : forall γ v_rin v_a c_s η_O η_A η_H l, solution_input_generator γ v_rin v_a c_s η_O η_A η_H = Ok l ->
  (forall inp, In inp l -> in_η_A inp = η_H /\ in_η_H inp = η_A) /\
  ((forall i inp, nth_error l i = Some inp -> right_input (nth i γ 0) (nth i v_rin 0) (nth i v_a 0) (nth i c_s 0) η_O η_A η_H inp) <-> γ = [] \/ η_A = η_H).
Proof.
  intros γ v_rin v_a c_s η_O η_A η_H l H.
  assert (D : {length v_rin = length γ /\ length v_a = length γ /\ length c_s = length γ} + {~ (length v_rin = length γ /\ length v_a = length γ /\ length c_s = length γ)}).
  { destruct (Nat.eq_dec (length v_rin) (length γ)); [|right; tauto]. destruct (Nat.eq_dec (length v_a) (length γ)); [|right; tauto].
    destruct (Nat.eq_dec (length c_s) (length γ)); [left | right]; tauto. }
  destruct (generator_iff γ v_rin v_a c_s η_O η_A η_H) as (A & B). destruct D as [D|D]; [|rewrite (B D) in H; discriminate].
  pose proof (A D) as E. rewrite H in E. injection E as ->.
  assert (S : forall inp, In inp (map (fun i => scan_input (nth i γ 0) (nth i v_rin 0) (nth i v_a 0) (nth i c_s 0) η_O η_A η_H) (seq 0 (length γ))) -> in_η_A inp = η_H /\ in_η_H inp = η_A).
  { intros inp I. apply in_map_iff in I. destruct I as (k & <- & _). split; reflexivity. }
  split; [exact S|]. split.
  - intro R. destruct γ as [|g γ']; [left; reflexivity|]. right. specialize (R 0%nat _ eq_refl). destruct R as (_ & _ & _ & _ & _ & R & _). cbn in R. congruence.
  - intros [-> | ->] i inp I; [destruct i; discriminate|].
    destruct (C59_inputs_partial γ v_rin v_a c_s η_O η_H η_H) as (P & _). destruct (P D) as (l & El & _ & Pl). rewrite H in El. injection El as <-.
    destruct (Pl i inp I) as (P1 & P2 & P3 & P4 & P5). destruct (S inp (nth_error_In _ _ I)). repeat split; assumption.
Qed.
Theorem C59_swapped_refuted : exists γ v_rin v_a c_s η_O η_A η_H inp,
  solution_input_generator γ v_rin v_a c_s η_O η_A η_H = Ok [inp] /\ in_η_A inp <> η_A /\ in_η_H inp <> η_H.
Proof. exists [1], [1], [1], [1], 1, 2, 3. eexists. split; [reflexivity|]. cbn. lra. Qed.

(** C59: the scan holds, for each sample, the midplane state and the first three orders for that sample's input (with the diffusivities as above),
    and fails with SolverError exactly if some sample has no midplane state. *)
Theorem C59_scan_partial : forall γ v_rin v_a c_s η_O η_A η_H,
  length v_rin = length γ -> length v_a = length γ -> length c_s = length γ ->
  let inp i := mk_cond_input (nth i v_rin 0) (nth i v_a 0) (nth i c_s 0) (nth i γ 0) η_O η_H η_A false 0 0 0 in
  (forall rows, compute_taylor_space γ v_rin v_a c_s η_O η_A η_H = Ok rows ->
   length rows = length γ /\
   forall i, (i < length γ)%nat -> exists c, define_conditions (inp i) = Some c /\
     nth i rows [] = [c_init_con c; get_taylor_first_order (c_init_con c) (c_γ c) (c_a_0 c);
       get_taylor_second_order (c_init_con c) (c_γ c) (c_a_0 c) false false; get_taylor_third_order (c_init_con c) (c_γ c) (c_a_0 c) false false]) /\
  ((forall i, (i < length γ)%nat -> define_conditions (inp i) <> None) -> exists rows, compute_taylor_space γ v_rin v_a c_s η_O η_A η_H = Ok rows) /\
  ((exists i, (i < length γ)%nat /\ define_conditions (inp i) = None) -> compute_taylor_space γ v_rin v_a c_s η_O η_A η_H = Raise SolverError).
Proof.
  intros γ v_rin v_a c_s η_O η_A η_H L1 L2 L3 inp. unfold compute_taylor_space.
  rewrite (proj1 (generator_iff γ v_rin v_a c_s η_O η_A η_H) (conj L1 (conj L2 L3))). cbn [rbind].
  change (map _ (seq 0 (length γ))) with (map inp (seq 0 (length γ))).
  assert (G : forall n k,
    (forall rows, all_values (map inp (seq k n)) = Ok rows -> length rows = n /\
     forall i, (i < n)%nat -> exists c, define_conditions (inp (k + i)%nat) = Some c /\
     nth i rows [] = [c_init_con c; get_taylor_first_order (c_init_con c) (c_γ c) (c_a_0 c);
       get_taylor_second_order (c_init_con c) (c_γ c) (c_a_0 c) false false; get_taylor_third_order (c_init_con c) (c_γ c) (c_a_0 c) false false]) /\
    ((forall i, (i < n)%nat -> define_conditions (inp (k + i)%nat) <> None) -> exists rows, all_values (map inp (seq k n)) = Ok rows) /\
    ((exists i, (i < n)%nat /\ define_conditions (inp (k + i)%nat) = None) -> all_values (map inp (seq k n)) = Raise SolverError)).
  { induction n as [|n IH]; intro k; cbn [seq map all_values].
    - refine (conj _ (conj _ _)); [intros rows E; injection E as <-; split; [reflexivity | intros i Hi; lia] | eauto | intros (i & Hi & _); lia].
    - destruct (IH (S k)) as (I1 & I2 & I3). unfold compute_taylor_values. destruct (define_conditions (inp k)) as [c|] eqn:C; cbn [rbind].
      + refine (conj _ (conj _ _)).
        * intros rows E. destruct (all_values (map inp (seq (S k) n))) as [vs|] eqn:V; cbn [rbind] in E; [|discriminate]. injection E as <-.
          destruct (I1 vs eq_refl) as (J1 & J2). split; [cbn; lia|]. intros [|i] Hi.
          -- exists c. rewrite Nat.add_0_r. split; [exact C | reflexivity].
          -- replace (k + S i)%nat with (S k + i)%nat by lia. apply J2. lia.
        * intro A. destruct I2 as (vs & ->); [intros i Hi; replace (S k + i)%nat with (k + S i)%nat by lia; apply A; lia|]. cbn [rbind]. eauto.
        * intros ([|i] & Hi & N); [rewrite Nat.add_0_r in N; congruence|]. rewrite I3; [reflexivity|]. exists i. split; [lia|]. replace (S k + i)%nat with (k + S i)%nat by lia. exact N.
      + refine (conj _ (conj _ _)); [discriminate | | reflexivity]. intro A. exfalso. apply (A 0%nat); [lia|]. rewrite Nat.add_0_r. exact C. }
  exact (G (length γ) 0%nat).
Qed.
(** So that, over the whole scan, the tabulated ambipolar diffusivity is the Hall value given. *)
Theorem C59_table_refuted : forall γ v_rin v_a c_s η_O η_A η_H rows,
  length v_rin = length γ -> length v_a = length γ -> length c_s = length γ -> compute_taylor_space γ v_rin v_a c_s η_O η_A η_H = Ok rows ->
  forall i, (i < length γ)%nat -> nth 0 (nth i rows []) zeros iη_A = η_H /\ nth 0 (nth i rows []) zeros iη_H = η_A.
Proof.
  intros γ v_rin v_a c_s η_O η_A η_H rows L1 L2 L3 E i Hi.
  destruct (C59_scan_partial γ v_rin v_a c_s η_O η_A η_H L1 L2 L3) as (P & _). destruct (P rows E) as (_ & Q). destruct (Q i Hi) as (c & Hc & ->). cbn [nth].
  unfold define_conditions in Hc. destruct (v_φ_boundary_func _ _ _ _ _ _); [|discriminate]. injection Hc as <-. split; reflexivity.
Qed.
Example C59_nonvacuous : exists rows,
  compute_taylor_space [1 / 8] [1 / 8] [1] [sqrt (1 / (305 / 128))] 1 0 0 = Ok rows.
Proof.
  destruct (C59_scan_partial [1 / 8] [1 / 8] [1] [sqrt (1 / (305 / 128))] 1 0 0 eq_refl eq_refl eq_refl) as (_ & P & _). apply P.
  intros i Hi. cbn in Hi. replace i with 0%nat by lia. cbn [nth]. destruct inp_g_ok as (c & Hc & _).
  unfold inp_g, define_conditions in *. cbn [in_v_rin_on_c_s in_v_a_on_c_s in_c_s_on_v_k in_γ in_η_O in_η_A in_η_H in_use_E_r] in *.
  destruct (v_φ_boundary_func _ _ _ _ _ _); [discriminate | discriminate Hc].
Qed.
