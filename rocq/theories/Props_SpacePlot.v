(** C114: ds-plot-taylor-space. *)
From Coq Require Import Reals List Bool Arith Lra Lia String ZArith.
From Verif Require Import Lib_Py Model_Index Model_Deriv Model_Midplane Model_Space Model_SpacePlot Spec_SpacePlot Spec_Midplane Proofs_Midplane Props_Space.
Import ListNotations.
Open Scope R_scope.

Lemma inv_sq_bounds : forall c, 3 / 100 <= c <= 5 / 100 -> 400 <= 1 / c ^ 2 <= 1112.
Proof.
  intros c H. assert (P : 0 < c ^ 2) by (apply pow_lt; lra).
  assert (L : 9 / 10000 <= c ^ 2 <= 25 / 10000) by (split; nra).
  split; apply (Rmult_le_reg_r (c ^ 2)); try exact P; field_simplify; nra.
Qed.
Lemma sq_bounds : forall v, 1 / 10 <= v <= 1 -> 1 / 100 <= v ^ 2 <= 1.
Proof. intros v H. split; nra. Qed.
(** The rotation of the midplane, for these parameters and diffusivities of this order. *)
Lemma range_vφ : forall γ v_rin v_a c_s P H, in_ranges γ v_rin v_a c_s -> 6 / 1000 <= P <= 13 / 1000 -> 1 / 1000 <= H <= 8 / 1000 ->
  exists v_φ, v_φ_boundary_func (- v_rin) H P (1 / c_s ^ 2) (v_a ^ 2) γ = Some v_φ /\ 14 < v_φ < 34.
Proof.
  intros γ v a c P H (Hg & Hv & Ha & Hc) HP HH. destruct (inv_sq_bounds c Hc) as (K1 & K2). destruct (sq_bounds a Ha) as (A1 & A2).
  set (a0 := a ^ 2) in *. set (nk := 1 / c ^ 2) in *.
  assert (Q : 0 < P) by lra.
  assert (C1 : 0 < H / P) by (apply Rdiv_lt_0_compat; lra).
  assert (C2 : H / P <= 4 / 3) by (apply (Rmult_le_reg_r P); [lra|]; unfold Rdiv; rewrite Rmult_assoc, Rinv_l by lra; lra).
  assert (D1 : 0 < a0 / P) by (apply Rdiv_lt_0_compat; lra).
  assert (D2 : a0 / P <= 167) by (apply (Rmult_le_reg_r P); [lra|]; unfold Rdiv; rewrite Rmult_assoc, Rinv_l by lra; lra).
  assert (E : v_φ_radicand (- v) H P nk a0 γ = nk - 5 / 2 + 2 * γ - v * (a0 / P) + v ^ 2 / 2 * ((H / P) ^ 2 / 8 - 1)).
  { unfold v_φ_radicand. field. lra. }
  set (k := H / P) in *. set (d := a0 / P) in *.
  assert (V : 0 <= v ^ 2 <= 1) by (split; nra).
  assert (T1 : 0 <= v * d <= 167) by (split; nra).
  assert (T2 : - (1 / 2) <= v ^ 2 / 2 * (k ^ 2 / 8 - 1) <= 0).
  { assert (0 <= k ^ 2 <= 16 / 9) by (split; nra). split; nra. }
  assert (B : 225 <= v_φ_radicand (- v) H P nk a0 γ <= 1156) by (rewrite E; split; lra).
  exists (- v * H / (4 * P) + sqrt (v_φ_radicand (- v) H P nk a0 γ)). unfold v_φ_boundary_func.
  destruct (Rlt_dec _ 0) as [N|N]; [lra|]. split; [reflexivity|].
  replace (- v * H / (4 * P)) with (- (v * k / 4)) by (unfold k; field; lra).
  assert (W : 0 < v * k / 4 <= 1 / 3) by (split; nra).
  assert (S1 : 15 <= sqrt (v_φ_radicand (- v) H P nk a0 γ)).
  { rewrite <- (sqrt_square 15) by lra. apply sqrt_le_1_alt. lra. }
  assert (S2 : sqrt (v_φ_radicand (- v) H P nk a0 γ) <= 34).
  { rewrite <- (sqrt_square 34) by lra. apply sqrt_le_1_alt. lra. }
  lra.
Qed.
(** The divisors, for the diffusivities with which the scan works. *)
Lemma range_divisors : forall γ v_rin v_a c_s v_φ, in_ranges γ v_rin v_a c_s -> 14 < v_φ ->
  let a_0 := v_a ^ 2 in let η_P := 5 / 1000 + 8 / 1000 in let η_H := 1 / 1000 in
  let Z_5 := (η_P ^ 2 + η_H ^ 2) / η_P in
  let Y_5 := Y_5_func a_0 (- v_rin) γ Z_5 in
  0 < Z_5 /\ 0 < Y_5 /\ 0 < Y_6_func v_φ Y_5 a_0 (η_H / η_P) Z_5 γ (- v_rin) η_P η_H.
Proof.
  intros γ v a c vφ (Hg & Hv & Ha & Hc) Hφ a0 P H Z Y5. destruct (sq_bounds a Ha) as (A1 & A2). fold a0 in A1, A2.
  assert (EZ : Z = 17 / 1300) by (unfold Z, P, H; field).
  assert (E5 : Y5 = - v * (1 - 8 * γ) + a0 * (2600 / 17)) by (unfold Y5, Y_5_func; rewrite EZ; field).
  assert (P5 : 0 < Y5) by (rewrite E5; nra).
  refine (conj _ (conj P5 _)); [lra|]. unfold Y_6_func. rewrite EZ.
  set (X := 2 * a0 * (H / P) / (17 / 1300) + vφ).
  assert (PX : 0 < X).
  { unfold X. assert (0 < 2 * a0 * (H / P) / (17 / 1300)); [|lra]. unfold H, P. replace (2 * a0 * (1 / 1000 / (5 / 1000 + 8 / 1000)) / (17 / 1300)) with (a0 * (200 / 17)) by field. lra. }
  assert (Q1 : 0 < vφ / Y5 * X) by (apply Rmult_lt_0_compat; [apply Rdiv_lt_0_compat; lra | exact PX]).
  assert (Q2 : 0 < H * X / (17 / 1300 * Y5)) by (apply Rdiv_lt_0_compat; [unfold H; lra | lra]).
  assert (Q3 : H / P * H / (17 / 1300) = 1 / 170) by (unfold H, P; field). rewrite Q3.
  assert (Q4 : 0 < a0 / (2 * P)) by (apply Rdiv_lt_0_compat; unfold P; lra).
  replace ((4 * γ + 1) * - v / 2) with (- ((4 * γ + 1) * v / 2)) by field.
  assert (0 < (4 * γ + 1) * v / 2) by nra.
  assert (0 < a0 / (2 * P) * (1 + H * X / (17 / 1300 * Y5) - 1 / 170)) by (apply Rmult_lt_0_compat; lra).
  nra.
Qed.

Lemma nth_in_list : forall (l : list R) n i, List.length l = n -> (i < n)%nat -> In (nth i l 0) l.
Proof. intros l n i L I. apply nth_In. lia. Qed.

Section Draw.
Variable uniform : nat -> R -> R -> nat -> list R.
Hypothesis U : uniform_ok uniform.
Variable n : nat.
Let γs := uniform 0%nat (1 / 100000) (1 / 100) n.
Let vs := uniform 1%nat (1 / 10) 1 n.
Let va := uniform 2%nat (1 / 10) 1 n.
Let cs := uniform 3%nat (5 / 100) (3 / 100) n.

Lemma draw_length : List.length γs = n /\ List.length vs = n /\ List.length va = n /\ List.length cs = n.
Proof. repeat split; apply U. Qed.
Lemma draw_range : forall i, (i < n)%nat -> in_ranges (nth i γs 0) (nth i vs 0) (nth i va 0) (nth i cs 0).
Proof.
  intros i I. destruct draw_length as (L1 & L2 & L3 & L4).
  pose proof (proj2 (U 0%nat (1 / 100000) (1 / 100) n) _ (nth_in_list γs n i L1 I)) as G.
  pose proof (proj2 (U 1%nat (1 / 10) 1 n) _ (nth_in_list vs n i L2 I)) as V.
  pose proof (proj2 (U 2%nat (1 / 10) 1 n) _ (nth_in_list va n i L3 I)) as A.
  pose proof (proj2 (U 3%nat (5 / 100) (3 / 100) n) _ (nth_in_list cs n i L4 I)) as C.
  rewrite Rmin_left, Rmax_right in G by lra. rewrite Rmin_left, Rmax_right in V by lra. rewrite Rmin_left, Rmax_right in A by lra.
  rewrite Rmin_right, Rmax_left in C by lra. exact (conj G (conj V (conj A C))).
Qed.
Lemma draw_space : exists rows, compute_taylor_space γs vs va cs (5 / 1000) (1 / 1000) (8 / 1000) = Ok rows /\ List.length rows = n /\
  forall i, (i < n)%nat -> curvatures (nth i γs 0) (nth i vs 0) (nth i va 0) (nth i cs 0) (5 / 1000) (8 / 1000) (1 / 1000) (nth 2 (nth i rows []) zeros).
Proof.
  destruct draw_length as (L1 & L2 & L3 & L4).
  destruct (C59_scan_partial γs vs va cs (5 / 1000) (1 / 1000) (8 / 1000)) as (S1 & S2 & _); [congruence..|].
  assert (D : forall i, (i < n)%nat -> exists v_φ, v_φ_boundary_func (- nth i vs 0) (1 / 1000) (5 / 1000 + 8 / 1000) (1 / nth i cs 0 ^ 2) (nth i va 0 ^ 2) (nth i γs 0) = Some v_φ /\ 14 < v_φ < 34).
  { intros i I. apply range_vφ; [apply draw_range; exact I | lra..]. }
  destruct S2 as (rows & E).
  { rewrite L1. intros i I. destruct (D i I) as (v & Hv & _). unfold define_conditions. cbn [in_v_rin_on_c_s in_v_a_on_c_s in_c_s_on_v_k in_γ in_η_O in_η_A in_η_H]. rewrite Hv. discriminate. }
  exists rows. split; [exact E|]. destruct (S1 rows E) as (R1 & R2). rewrite L1 in *. split; [exact R1|].
  intros i I. destruct (R2 i I) as (c & Hc & ->). cbn [nth]. destruct (D i I) as (v & Hv & B1 & B2).
  unfold define_conditions in Hc. cbn [in_v_rin_on_c_s in_v_a_on_c_s in_c_s_on_v_k in_γ in_η_O in_η_A in_η_H in_use_E_r] in Hc. rewrite Hv in Hc. injection Hc as <-.
  cbn [c_init_con c_γ c_a_0]. pose proof (draw_range i I) as Rg.
  destruct (range_divisors _ _ _ _ v Rg B1) as (Z1 & Z2 & Z3). destruct Rg as (Hg & Hvr & Ha & Hcs).
  exists v. split; [exact Hv|]. split; [lra|]. split.
  - cbv zeta. repeat split; apply Rgt_not_eq; try assumption; try lra. apply pow_lt; lra.
  - eexists. split; [reflexivity|]. repeat split; reflexivity.
Qed.
End Draw.

Lemma fold_min : forall l x, least (fold_left Rmin l x) (x :: l).
Proof.
  induction l as [|y l IH]; intro x; cbn [fold_left].
  - split; [left; reflexivity|]. intros z [-> | []]. lra.
  - destruct (IH (Rmin x y)) as (I & M). split.
    + destruct I as [I | I]; [|right; right; exact I]. rewrite <- I. unfold Rmin. destruct (Rle_dec x y); [left | right; left]; reflexivity.
    + intros z [<- | [<- | Hz]].
      * eapply Rle_trans; [apply M; left; reflexivity | apply Rmin_l].
      * eapply Rle_trans; [apply M; left; reflexivity | apply Rmin_r].
      * apply M. right. exact Hz.
Qed.
Lemma py_min_ok : forall l, l <> [] -> exists x, py_min l = Ok x /\ least x l.
Proof. intros [|x l] H; [congruence|]. exists (fold_left Rmin l x). split; [reflexivity | apply fold_min]. Qed.

(** C114: for every draw the command ends with a figure of 10000 points; the row of each point holds its own parameters, in the
    order of the names and within the advertised ranges, and the row of outputs holds the curvatures at the midplane with these
    parameters (and with ambipolar diffusivity 0.008 and Hall diffusivity 0.001: see C114_diffusivities_refuted); no divisor is zero.
    The two numbers printed are the least curvatures of v_r and of v_φ. *)
Theorem C114_figure_partial : forall uniform, uniform_ok uniform ->
  exists f, plot_taylor_space_main uniform = Ok f /\
  f_input_names f = ["γ"; "v_rin_on_c_s"; "v_a_on_c_s"; "c_s_on_v_k"]%string /\
  f_output_names f = ["B_r"; "B_φ"; "B_θ"; "v_r"; "v_φ"; "v_θ"; "ρ"; "B_φ_prime"; "η_O"; "η_A"; "η_H"]%string /\
  Z.of_nat (List.length (f_xs f)) = 10000%Z /\ Z.of_nat (List.length (f_ys f)) = 10000%Z /\
  (forall i x y, nth_error (f_xs f) i = Some x -> nth_error (f_ys f) i = Some y ->
   exists γ v_rin v_a c_s, x = [γ; v_rin; v_a; c_s] /\ in_ranges γ v_rin v_a c_s /\
   curvatures γ v_rin v_a c_s (5 / 1000) (8 / 1000) (1 / 1000) y) /\
  exists a b, f_printed f = [a; b] /\ least a (map (fun y : vec => y iv_r) (f_ys f)) /\ least b (map (fun y : vec => y iv_φ) (f_ys f)).
Proof.
  intros uniform U. unfold plot_taylor_space_main, sampled_taylor_space. cbn [fst snd].
  assert (Pn : (0 < Z.to_nat 10000)%nat) by (apply Nat2Z.inj_lt; rewrite Z2Nat.id; lia).
  assert (Zn : Z.of_nat (Z.to_nat 10000) = 10000%Z) by (rewrite Z2Nat.id; lia).
  set (n := Z.to_nat 10000) in *. clearbody n.
  destruct (draw_length uniform U n) as (L1 & _). pose proof (draw_range uniform U n) as DR.
  destruct (draw_space uniform U n) as (rows & -> & Lr & DS). cbn [rbind]. unfold plot_taylor_space. cbn [taylor_orders γ_arr v_rin_on_c_s_arr v_a_on_c_s_arr c_s_on_v_k_arr].
  assert (NE : rows <> []) by (intros ->; cbn in Lr; lia).
  assert (NY : forall g : list vec -> R, map g rows <> []) by (intros g E; apply map_eq_nil in E; contradiction).
  destruct rows as [|r0 rows0]; [congruence|]. cbv iota zeta. set (rows := r0 :: rows0) in *. clearbody rows. clear r0 rows0.
  set (ys := map (fun orders => nth 2 orders zeros) rows).
  destruct (py_min_ok (map (fun y : vec => y iv_r) ys)) as (a & -> & Ma); [unfold ys; rewrite map_map; apply NY|].
  destruct (py_min_ok (map (fun y : vec => y iv_φ) ys)) as (b & -> & Mb); [unfold ys; rewrite map_map; apply NY|].
  cbn [rbind]. eexists. split; [reflexivity|]. cbn [f_printed f_xs f_ys f_input_names f_output_names].
  refine (conj eq_refl (conj eq_refl (conj _ (conj _ (conj _ _))))).
  - unfold transpose4. rewrite map_length, seq_length, L1. exact Zn.
  - unfold ys. rewrite map_length, Lr. exact Zn.
  - intros i x y Hx Hy. unfold transpose4 in Hx. rewrite L1, nth_error_map in Hx.
    destruct (nth_error (seq 0 n) i) as [k|] eqn:K; [|discriminate]. injection Hx as <-.
    assert (I : (i < n)%nat) by (rewrite <- (seq_length n 0); apply nth_error_Some; congruence).
    apply nth_error_nth with (d := 0%nat) in K. rewrite seq_nth in K by exact I. cbn in K. subst k.
    unfold ys in Hy. rewrite nth_error_map in Hy. destruct (nth_error rows i) as [r|] eqn:Er; [|discriminate]. injection Hy as <-.
    apply nth_error_nth with (d := []) in Er. subst r.
    do 4 eexists. split; [reflexivity|]. split; [exact (DR i I) | exact (DS i I)].
  - exists a, b. split; [reflexivity|]. split; assumption.
Qed.

Lemma curvature_B_θ : forall s γ a_0, get_taylor_second_order s γ a_0 false false iB_θ =
  1 - (γ + 3 / 4) * (γ - 1 / 4 - (s iv_φ * s iv_r / (2 * a_0) * s iη_H + s iv_r) / (s iη_O + s iη_A)).
Proof. reflexivity. Qed.
Lemma curvature_ρ : forall s γ a_0, get_taylor_second_order s γ a_0 false false iρ =
  - Y_1_func (s iv_r) (s iv_φ) (γ - 1 / 4 - (s iv_φ * s iv_r / (2 * a_0) * s iη_H + s iv_r) / (s iη_O + s iη_A)) (s iv_φ * s iv_r / (2 * a_0)) γ a_0.
Proof. reflexivity. Qed.

(** C114, refuted: main asks for ambipolar diffusivity 0.001 and Hall diffusivity 0.008, but no point of any figure is that of a
    disc with these: the curvature of B_θ differs at every point. *)
Theorem C114_diffusivities_refuted : forall uniform f, uniform_ok uniform -> plot_taylor_space_main uniform = Ok f ->
  forall i γ v_rin v_a c_s y, nth_error (f_xs f) i = Some [γ; v_rin; v_a; c_s] -> nth_error (f_ys f) i = Some y ->
  (exists z, curvatures γ v_rin v_a c_s (5 / 1000) (8 / 1000) (1 / 1000) z) /\
  forall right, curvatures γ v_rin v_a c_s (5 / 1000) (1 / 1000) (8 / 1000) right -> right iB_θ < y iB_θ.
Proof.
  intros uniform f U E i γ v a c y Hx Hy.
  destruct (C114_figure_partial uniform U) as (f' & E' & _ & _ & _ & _ & P & _). rewrite E in E'. injection E' as <-.
  destruct (P i _ _ Hx Hy) as (γ' & v' & a' & c' & Q & Rg & Cy). injection Q as <- <- <- <-. split; [eexists; exact Cy|].
  intros right Cr. destruct Cy as (p & Hp & _ & _ & s & -> & _ & _ & _ & V & F & _ & _ & O1 & A1 & H1).
  destruct Cr as (q & Hq & _ & _ & t & -> & _ & _ & _ & V' & F' & _ & _ & O2 & A2 & H2).
  destruct (range_vφ γ v a c (5 / 1000 + 8 / 1000) (1 / 1000) Rg) as (p' & Hp' & P1 & P2); [lra..|]. rewrite Hp in Hp'. injection Hp' as <-.
  destruct (range_vφ γ v a c (5 / 1000 + 1 / 1000) (8 / 1000) Rg) as (q' & Hq' & Q1 & Q2); [lra..|]. rewrite Hq in Hq'. injection Hq' as <-.
  rewrite !curvature_B_θ. rewrite V, F, O1, A1, H1, V', F', O2, A2, H2. destruct Rg as (Hg & Hv & Ha & Hc). destruct (sq_bounds a Ha) as (B1 & B2).
  set (a0 := a ^ 2) in *.
  assert (K : (p * - v / (2 * a0) * (1 / 1000) + - v) / (5 / 1000 + 8 / 1000) = - (v * (1000 / 13 + / a0 * (p / 26)))) by (field; lra).
  assert (L : (q * - v / (2 * a0) * (8 / 1000) + - v) / (5 / 1000 + 1 / 1000) = - (v * (500 / 3 + / a0 * (2 * q / 3)))) by (field; lra).
  rewrite K, L. assert (I0 : 0 < / a0) by (apply Rinv_0_lt_compat; lra).
  assert (M : v * (1000 / 13 + / a0 * (p / 26)) < v * (500 / 3 + / a0 * (2 * q / 3))).
  { apply Rmult_lt_compat_l; [lra|]. assert (/ a0 * (p / 26) < / a0 * (2 * q / 3)) by (apply Rmult_lt_compat_l; lra). lra. }
  assert (N : (γ + 3 / 4) * (γ - 1 / 4 - - (v * (1000 / 13 + / a0 * (p / 26)))) < (γ + 3 / 4) * (γ - 1 / 4 - - (v * (500 / 3 + / a0 * (2 * q / 3)))))
    by (apply Rmult_lt_compat_l; lra).
  lra.
Qed.
Lemma main_limits : forall uniform f, plot_taylor_space_main uniform = Ok f -> f_limits f = plot_limits.
Proof.
  intros uniform f E. unfold plot_taylor_space_main in E. destruct (sampled_taylor_space _ _ _ _ _ _ _ _ _) as [t|]; [|discriminate].
  cbn [rbind] in E. unfold plot_taylor_space in E. destruct (taylor_orders t); [discriminate|].
  destruct (py_min _) as [a|]; [|discriminate]. cbn [rbind] in E. destruct (py_min _) as [b|]; [|discriminate]. cbn [rbind] in E. injection E as <-. reflexivity.
Qed.
(** C114, refuted: the axes of B_θ and ρ start at 0, where no point of any figure is: both curvatures are negative at every point. *)
Theorem C114_off_axes_refuted : forall uniform f, uniform_ok uniform -> plot_taylor_space_main uniform = Ok f ->
  forall y, In y (f_ys f) ->
  ~ within (y iB_θ) (nth iB_θ (f_limits f) (None, None)) /\ ~ within (y iρ) (nth iρ (f_limits f) (None, None)).
Proof.
  intros uniform f U E y I.
  destruct (C114_figure_partial uniform U) as (f' & E' & _ & _ & Lx & Ly & P & _). rewrite E in E'. injection E' as <-.
  apply In_nth_error in I. destruct I as (i & Hy).
  assert (Hx : exists x, nth_error (f_xs f) i = Some x).
  { destruct (nth_error (f_xs f) i) eqn:N; [eauto|]. apply nth_error_None in N. assert (i < List.length (f_ys f))%nat by (apply nth_error_Some; congruence). lia. }
  destruct Hx as (x & Hx). destruct (P i x y Hx Hy) as (γ & v & a & c & _ & Rg & p & Hp & _ & _ & s & -> & _ & _ & _ & V & F & _ & _ & O1 & A1 & H1).
  pose proof (main_limits uniform f E) as EL.
  rewrite EL. unfold within. cbn [plot_limits seq map nth iB_θ iρ Nat.eqb fst snd].
  destruct (range_vφ γ v a c (5 / 1000 + 8 / 1000) (1 / 1000) Rg) as (p' & Hp' & P1 & P2); [lra..|]. rewrite Hp in Hp'. injection Hp' as <-.
  change (get_taylor_second_order s γ (a ^ 2) false false 2%nat) with (get_taylor_second_order s γ (a ^ 2) false false iB_θ).
  change (get_taylor_second_order s γ (a ^ 2) false false 6%nat) with (get_taylor_second_order s γ (a ^ 2) false false iρ).
  rewrite curvature_B_θ, curvature_ρ, V, F, O1, A1, H1. destruct Rg as (Hg & Hv & Ha & Hc). destruct (sq_bounds a Ha) as (B1 & B2).
  set (a0 := a ^ 2) in *. assert (I0 : 0 < / a0) by (apply Rinv_0_lt_compat; lra).
  replace ((p * - v / (2 * a0) * (1 / 1000) + - v) / (5 / 1000 + 8 / 1000)) with (- (v * (1000 / 13 + / a0 * (p / 26)))) by (field; lra).
  assert (M : 0 < / a0 * (p / 26)) by (apply Rmult_lt_0_compat; lra).
  set (m := / a0 * (p / 26)) in *. set (w := v * (1000 / 13 + m)).
  assert (W : 7 < w) by (unfold w; nra).
  split; intros (T & _).
  - nra.
  - revert T. apply Rlt_not_le. unfold Y_1_func. set (b := p * - v / (2 * a0)). set (d := γ - 1 / 4 - - w).
    assert (D : 0 < d * (1 / 4 - γ + d)) by (apply Rmult_lt_0_compat; unfold d; lra).
    assert (D2 : 0 <= b ^ 2) by apply pow2_ge_0.
    assert (D3 : 0 < a0 * (d * (1 / 4 - γ + d) + b ^ 2)) by (apply Rmult_lt_0_compat; lra).
    assert (D4 : (- v) ^ 2 * γ * (1 - 4 * γ) / 2 <= 1).
    { assert (0 <= v ^ 2 <= 1) by (split; nra). replace ((- v) ^ 2) with (v ^ 2) by ring. assert (0 <= γ * (1 - 4 * γ) <= 1) by (split; nra). nra. }
    assert (100 < p ^ 2) by nra. lra.
Qed.

(** A draw: every sample at the lower of its bounds. *)
Example C114_nonvacuous : exists uniform f x y, uniform_ok uniform /\ plot_taylor_space_main uniform = Ok f /\
  nth_error (f_xs f) 3 = Some x /\ nth_error (f_ys f) 3 = Some y /\ y iB_θ < 0.
Proof.
  pose (u := fun (k : nat) (low high : R) (size : nat) => repeat (Rmin low high) size).
  assert (U : uniform_ok u).
  { intros k low high size. split; [apply repeat_length|]. intros x I. apply repeat_spec in I. subst x. split; [apply Rle_refl | apply Rle_trans with low; [apply Rmin_l | apply Rmax_l]]. }
  clearbody u.
  destruct (C114_figure_partial u U) as (f & E & _ & _ & Lx & Ly & P & _).
  destruct (nth_error (f_xs f) 3) as [x|] eqn:Hx; [|apply nth_error_None in Hx; lia].
  destruct (nth_error (f_ys f) 3) as [y|] eqn:Hy; [|apply nth_error_None in Hy; lia].
  exists u, f, x, y. refine (conj U (conj E (conj Hx (conj Hy _)))).
  destruct (C114_off_axes_refuted u f U E y (nth_error_In _ _ Hy)) as (B & _). revert B.
  pose proof (main_limits u f E) as EL.
  rewrite EL. unfold within. cbn [plot_limits seq map nth iB_θ iρ Nat.eqb fst snd]. intro B. apply Rnot_le_lt. tauto.
Qed.
