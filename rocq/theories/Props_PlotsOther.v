(** C98, C99: the plots with panels of their own. *)
From Coq Require Import Reals List Bool String Lra Lia Arith.
From Verif Require Import Lib_Deriv Lib_Py Model_Index Model_Waves Model_Plots Model_PlotsOther Model_Stats Spec_Plots Spec_Ode Spec_MHD Spec_Fields
  Props_Plots Proofs_Waves Props_Waves Props_Flux.
Import ListNotations.
Open Scope string_scope.
Open Scope list_scope.
Open Scope R_scope.

(** ** ds-combine-plot *)
(** What the three panels promise, in physical units. *)
Definition physical_lines (slow alfven fast sonic : bool) (KM : R) (n : normalisation) (K : R) : list (string * string * list (string * (vec -> num))) :=
  let km x := Some (x * n_v n / KM) in
  [ ("Velocity Field (km/s)", "linear",
     [("$v_r$", fun y => km (y iv_r)); ("$v_φ - v_k$", fun y => km (y iv_φ - sqrt K)); ("$v_θ$", fun y => km (y iv_θ))]
     ++ (if slow then [("slow", fun y : vec => match np_sqrt (fst (fst (mhd_wave_speeds y 1))) with Some v => km v | None => None end)] else [])
     ++ (if alfven then [("alfven", fun y : vec => match np_sqrt (snd (fst (mhd_wave_speeds y 1))) with Some v => km v | None => None end)] else [])
     ++ (if fast then [("fast", fun y : vec => match np_sqrt (snd (mhd_wave_speeds y 1)) with Some v => km v | None => None end)] else [])
     ++ (if sonic then [("$c_s$", fun _ : vec => km 1)] else []));
    ("Density (g cm$^{-3}$)", "log", [("$ρ$", fun y => Some (y iρ * n_ρ n))]);
    ("Magnetic Field (G)", "linear",
     [("$B_r$", fun y => Some (y iB_r * n_B n)); ("$B_φ$", fun y => Some (y iB_φ * n_B n)); ("$B_θ$", fun y => Some (y iB_θ * n_B n))]) ].
Definition physical_panel (s : psoln) (lo hi : R) (p : string * string * list (string * (vec -> num))) : panel :=
  mk_panel (fst (fst p)) (snd (fst p)) (map (fun lq => mk_line (Some (fst lq)) None (angle_curve s lo hi (snd lq))) (snd p)).
Lemma axis_is : forall s lo hi k label scale (ls : list (string * (vec -> num) * num)), List.length (ps_angles s) = List.length (ps_rows s) ->
  combine_axis lo hi (ps_angles s) k label scale (map (fun l => mk_cline (fst (fst l)) (map (snd (fst l)) (ps_rows s)) (snd l)) ls) =
  Ok (mk_panel label scale (map (fun l => mk_line (Some (fst (fst l))) None
       (angle_curve s lo hi (fun y => num_sub (num_scale k (snd (fst l) y)) (snd l)))) ls)).
Proof.
  intros s lo hi k label scale ls HL. unfold combine_axis. cbv zeta.
  assert (E : forall f : cline -> res line, (forall l, In l ls -> f (mk_cline (fst (fst l)) (map (snd (fst l)) (ps_rows s)) (snd l)) =
      Ok (mk_line (Some (fst (fst l))) None (angle_curve s lo hi (fun y => num_sub (num_scale k (snd (fst l) y)) (snd l))))) ->
    lines_of f (map (fun l => mk_cline (fst (fst l)) (map (snd (fst l)) (ps_rows s)) (snd l)) ls) =
    Ok (map (fun l => mk_line (Some (fst (fst l))) None (angle_curve s lo hi (fun y => num_sub (num_scale k (snd (fst l) y)) (snd l)))) ls)).
  { intros f. induction ls as [|l t IH]; intros H; [reflexivity|]. cbn [map lines_of]. rewrite (H l (or_introl eq_refl)). cbn [rbind].
    rewrite IH; [reflexivity|]. intros l' Hl'. apply H. right. exact Hl'. }
  rewrite E; [reflexivity|]. intros l _. cbn [cl_data cl_offset cl_label].
  assert (exists L, ps_angles s = map fst L /\ ps_rows s = map snd L /\ samples s = L) as (L & E1 & E2 & E3).
  { exists (samples s). unfold samples. rewrite combine_fst, combine_snd by exact HL. auto. }
  unfold angle_curve, curve. rewrite E3, E1, E2, !map_map, !mask_filter. cbn [rbind]. rewrite !map_map.
  rewrite points_map. cbn [rbind]. do 3 f_equal. apply filter_ext. intros [θ y]. apply in_range_between.
Qed.
(** C98 (ds-combine-plot): every line shows the quantity it is named after in the unit of its axis, at the samples in range. *)
Theorem C98_combine : forall slow alfven fast sonic lo hi KM n s, List.length (ps_angles s) = List.length (ps_rows s) ->
  0 <= ps_kepler_sq s ->
  generate_plot_combine slow alfven fast sonic lo hi KM n s =
  Ok (map (physical_panel s lo hi) (physical_lines slow alfven fast sonic KM n (ps_kepler_sq s))).
Proof.
  intros slow alfven fast sonic lo hi KM n s HL HK. unfold generate_plot_combine. cbv zeta.
  assert (np_sqrt (ps_kepler_sq s) = Some (sqrt (ps_kepler_sq s))) as ->.
  { unfold np_sqrt. destruct (Rlt_dec (ps_kepler_sq s) 0); [lra|reflexivity]. }
  set (off := Some (sqrt (ps_kepler_sq s) * n_v n / KM)).
  set (W := fun f : R * R * R -> R => fun y : vec => np_sqrt (f (mhd_wave_speeds y 1))).
  set (vel := ([(("$v_r$", fun y : vec => Some (y iv_r)), Some 0); (("$v_φ - v_k$", fun y : vec => Some (y iv_φ)), off); (("$v_θ$", fun y : vec => Some (y iv_θ)), Some 0)]
     ++ (if slow then [(("slow", W (fun w => fst (fst w))), Some 0)] else [])
     ++ (if alfven then [(("alfven", W (fun w => snd (fst w))), Some 0)] else [])
     ++ (if fast then [(("fast", W snd), Some 0)] else [])
     ++ (if sonic then [(("$c_s$", fun _ : vec => Some 1), Some 0)] else []))
    : list (string * (vec -> num) * num)).
  assert (Ev : forall k label scale, combine_axis lo hi (ps_angles s) k label scale
     ([index_line (ps_rows s) "$v_r$" iv_r; mk_cline "$v_φ - v_k$" (column (ps_rows s) iv_φ) off; index_line (ps_rows s) "$v_θ$" iv_θ]
      ++ (if slow then [mk_cline "slow" (wave_curve (fun w => fst (fst w)) (ps_rows s)) (Some 0)] else [])
      ++ (if alfven then [mk_cline "alfven" (wave_curve (fun w => snd (fst w)) (ps_rows s)) (Some 0)] else [])
      ++ (if fast then [mk_cline "fast" (wave_curve snd (ps_rows s)) (Some 0)] else [])
      ++ (if sonic then [mk_cline "$c_s$" (map (fun _ => Some 1) (ps_rows s)) (Some 0)] else [])) =
     combine_axis lo hi (ps_angles s) k label scale (map (fun l => mk_cline (fst (fst l)) (map (snd (fst l)) (ps_rows s)) (snd l)) vel)).
  { intros k label scale. f_equal. unfold vel. destruct slow, alfven, fast, sonic; reflexivity. }
  rewrite Ev, (axis_is s lo hi _ _ _ vel HL). cbn [rbind].
  change [index_line (ps_rows s) "$ρ$" iρ] with (map (fun l => mk_cline (fst (fst l)) (map (snd (fst l)) (ps_rows s)) (snd l))
    [(("$ρ$", fun y : vec => Some (y iρ)), Some 0)]).
  rewrite (axis_is s lo hi _ _ _ _ HL). cbn [rbind].
  change [index_line (ps_rows s) "$B_r$" iB_r; index_line (ps_rows s) "$B_φ$" iB_φ; index_line (ps_rows s) "$B_θ$" iB_θ]
    with (map (fun l => mk_cline (fst (fst l)) (map (snd (fst l)) (ps_rows s)) (snd l))
    [(("$B_r$", fun y : vec => Some (y iB_r)), Some 0); (("$B_φ$", fun y : vec => Some (y iB_φ)), Some 0); (("$B_θ$", fun y : vec => Some (y iB_θ)), Some 0)]).
  rewrite (axis_is s lo hi _ _ _ _ HL). cbn [rbind].
  assert (Ec : forall (q q' : vec -> num), (forall y, q y = q' y) -> angle_curve s lo hi q = angle_curve s lo hi q') by (intros; apply curve_eq; assumption).
  f_equal. unfold physical_lines, physical_panel. cbn [map fst snd]. 
  assert (G : forall f g : vec -> R, forall k o, (forall y, f y * k - o = g y) ->
    angle_curve s lo hi (fun y => num_sub (num_scale k (Some (f y))) (Some o)) = angle_curve s lo hi (fun y => Some (g y))).
  { intros f g k o H. apply Ec. intros y. cbn. rewrite H. reflexivity. }
  f_equal; [|f_equal; [|f_equal]].
  - f_equal. unfold vel. rewrite !map_app. cbn [map fst snd]. unfold off.
    f_equal.
    + rewrite (G (fun y => y iv_r) (fun y => y iv_r * n_v n / KM)) by (intros; unfold Rdiv; ring).
      rewrite (G (fun y => y iv_φ) (fun y => (y iv_φ - sqrt (ps_kepler_sq s)) * n_v n / KM)) by (intros; unfold Rdiv; ring).
      rewrite (G (fun y => y iv_θ) (fun y => y iv_θ * n_v n / KM)) by (intros; unfold Rdiv; ring). reflexivity.
    + assert (X : forall f : R * R * R -> R, angle_curve s lo hi (fun y => num_sub (num_scale (n_v n / KM) (W f y)) (Some 0)) =
        angle_curve s lo hi (fun y : vec => match np_sqrt (f (mhd_wave_speeds y 1)) with Some v => Some (v * n_v n / KM) | None => None end)).
      { intros f. apply Ec. intros y. unfold W. destruct (np_sqrt (f (mhd_wave_speeds y 1))); [|reflexivity]. cbn. f_equal. unfold Rdiv. ring. }
      f_equal; [destruct slow; [cbn [map fst snd]; rewrite X; reflexivity|reflexivity]|].
      f_equal; [destruct alfven; [cbn [map fst snd]; rewrite X; reflexivity|reflexivity]|].
      f_equal; [destruct fast; [cbn [map fst snd]; rewrite X; reflexivity|reflexivity]|].
      destruct sonic; [|reflexivity]. cbn [map fst snd].
      rewrite (G (fun _ => 1) (fun _ => 1 * n_v n / KM)) by (intros; unfold Rdiv; ring). reflexivity.
  - rewrite (G (fun y => y iρ) (fun y => y iρ * n_ρ n)) by (intros; ring). reflexivity.
  - rewrite (G (fun y => y iB_r) (fun y => y iB_r * n_B n)) by (intros; ring).
    rewrite (G (fun y => y iB_φ) (fun y => y iB_φ * n_B n)) by (intros; ring).
    rewrite (G (fun y => y iB_θ) (fun y => y iB_θ * n_B n)) by (intros; ring). reflexivity.
Qed.
(** The "alfven" line in km/s is the Alfvén speed along θ of the gas in physical units, B/sqrt(4πρ), exactly if
    (v_a/c_s)² is 1/(4π). *)
Theorem C98_alfven_exact : forall c_s_on_v_k v_a_on_c_s G radius mass density KM p v,
  0 < G -> 0 < radius -> 0 < mass -> 0 < density -> 0 < KM -> 0 < c_s_on_v_k -> 0 <= v_a_on_c_s ->
  0 < p iρ -> p iB_θ <> 0 ->
  let n := get_normalisation c_s_on_v_k v_a_on_c_s G radius mass density in
  np_sqrt (snd (fst (mhd_wave_speeds p 1))) = Some v ->
  (v * n_v n / KM = sqrt ((n_B n * p iB_θ) ^ 2 / (4 * PI * (n_ρ n * p iρ))) / KM <-> v_a_on_c_s ^ 2 = 1 / (4 * PI)).
Proof.
  intros c va G r M d KM p v HG Hr HM Hd HKM Hc Hva Hρ HB n Hv.
  pose proof PI_RGT_0 as HPI.
  destruct (C70_normalisation c va G r M d p HG Hr HM Hd Hρ) as (N1 & N2 & N3 & N4). fold n in N1, N2, N3, N4.
  rewrite N4.
  assert (Hn : 0 < n_v n).
  { unfold n, get_normalisation. cbn. apply Rmult_lt_0_compat; [exact Hc|]. apply sqrt_lt_R0.
    apply Rmult_lt_0_compat; [apply Rmult_lt_0_compat; lra | apply Rinv_0_lt_compat; exact Hr]. }
  assert (HB2 : 0 < p iB_θ ^ 2) by (rewrite <- Rsqr_pow2; apply Rlt_0_sqr; exact HB).
  destruct (mhd_wave_speeds p 1) as [[s a] f] eqn:E.
  destruct (C21_ordered p 1 s a f Hρ (B_sq_pos p HB) E) as (_ & _ & _ & Ea & _). cbn [fst snd] in Hv.
  assert (Hq : 0 < p iB_θ ^ 2 / p iρ) by (apply Rmult_lt_0_compat; [exact HB2 | apply Rinv_0_lt_compat; exact Hρ]).
  assert (Ha : a = 1 / (4 * PI) * (p iB_θ ^ 2 / p iρ)) by (rewrite Ea; field; lra).
  assert (H4 : 0 < 1 / (4 * PI)) by (apply Rmult_lt_0_compat; [lra | apply Rinv_0_lt_compat; lra]).
  assert (v = sqrt a) as ->.
  { unfold np_sqrt in Hv. destruct (Rlt_dec a 0); [discriminate|]. congruence. }
  rewrite sqrt_mult; [|apply Rmult_le_pos; [apply Rmult_le_pos; [apply pow2_ge_0|lra]|apply Rlt_le, Rinv_0_lt_compat, Hρ]|apply pow2_ge_0].
  rewrite sqrt_pow2 by lra.
  replace (va ^ 2 * p iB_θ ^ 2 / p iρ) with (va ^ 2 * (p iB_θ ^ 2 / p iρ)) by (field; lra).
  rewrite Ha, !sqrt_mult by (try apply pow2_ge_0; lra).
  pose proof (sqrt_lt_R0 _ Hq) as Hs.
  split.
  - intros H.
    assert (sqrt (1 / (4 * PI)) = sqrt (va ^ 2)) as H'.
    { apply (Rmult_eq_reg_r (sqrt (p iB_θ ^ 2 / p iρ) * n_v n / KM)).
      - replace (sqrt (1 / (4 * PI)) * (sqrt (p iB_θ ^ 2 / p iρ) * n_v n / KM)) with (sqrt (1 / (4 * PI)) * sqrt (p iB_θ ^ 2 / p iρ) * n_v n / KM) by (field; lra).
        rewrite H. field. lra.
      - apply Rgt_not_eq. apply Rmult_lt_0_compat; [apply Rmult_lt_0_compat; assumption | apply Rinv_0_lt_compat, HKM]. }
    apply sqrt_inj in H'; [symmetry; exact H' | lra | apply pow2_ge_0].
  - intros ->. field. lra.
Qed.
(** C98 (wave speeds): refuted for an equipartition disc, v_a = c_s, where the curve is too low by the square root of 4π. *)
Theorem C98_alfven_refuted : exists p v, let n := get_normalisation (1 / 10) 1 1 1 1 1 in
  0 < p iρ /\ p iB_θ <> 0 /\ np_sqrt (snd (fst (mhd_wave_speeds p 1))) = Some v /\
  v * n_v n / 100000 <> sqrt ((n_B n * p iB_θ) ^ 2 / (4 * PI * (n_ρ n * p iρ))) / 100000.
Proof.
  set (p := state 0 0 1 0 0 1 1 0 1 0 0).
  assert (H1 : 0 < p iρ) by (cbn; lra). assert (H2 : p iB_θ <> 0) by (cbn; lra).
  destruct (mhd_wave_speeds p 1) as [[s a] f] eqn:E.
  destruct (C21_ordered p 1 s a f H1 (B_sq_pos p H2) E) as ((Hs & Ha) & _).
  exists p, (sqrt a). cbv zeta. rewrite E. cbn [fst snd].
  assert (np_sqrt a = Some (sqrt a)) as Hv by (unfold np_sqrt; destruct (Rlt_dec a 0); [lra|reflexivity]).
  split; [exact H1|]. split; [exact H2|]. split; [exact Hv|]. intros X.
  apply (C98_alfven_exact (1 / 10) 1 1 1 1 1 100000 p (sqrt a)) in X; try lra; try assumption.
  - pose proof PI_RGT_0. pose proof PI2_1. assert (4 * PI * (1 ^ 2) = 1) by (rewrite X; field; lra). lra.
  - rewrite E. exact Hv.
Qed.

(** ** ds-conserve-plot *)
Definition named_curve (lo hi : R) (q : vec -> R) (sc : (string * psoln) * string) : line :=
  mk_line (Some (fst (fst sc))) (Some (snd sc)) (angle_curve (snd (fst sc)) lo hi (fun y => Some (q y))).
Lemma combine_keeps : forall {A B} (l : list A) (cs : list B), (List.length l <= List.length cs)%nat -> map fst (combine l cs) = l.
Proof.
  intros A B l. induction l as [|x t IH]; intros cs H; [reflexivity|]. destruct cs as [|c cs]; cbn in H; [lia|].
  cbn. rewrite IH by lia. reflexivity.
Qed.
Lemma column_curve : forall s lo hi (q : vec -> R), List.length (ps_angles s) = List.length (ps_rows s) ->
  let mask := map (fun θ => in_range lo hi (Model_Plots.degrees θ)) (ps_angles s) in
  forall f : list (R * num) -> res line,
  (let! x := mask_list mask (ps_angles s) in
   let! y := mask_list mask (map (fun row => Some (q row)) (ps_rows s)) in
   let! pts := points (map Model_Plots.degrees x) y in f pts) = f (angle_curve s lo hi (fun y => Some (q y))).
Proof.
  intros s lo hi q HL mask f. destruct (masked_curve s lo hi (fun y => Some (q y)) HL) as (x & y & E1 & E2 & E3).
  unfold mask. rewrite E1. cbn [rbind].
  match goal with |- context [@mask_list ?A ?m ?l] => let E := fresh in assert (E : @mask_list A m l = Ok y) by exact E2; rewrite E; clear E end.
  cbn [rbind]. rewrite E3. reflexivity.
Qed.
(** C98 (ds-conserve-plot): one line per solution of the file, ρ v_θ at the samples in range. *)
Theorem C98_conserve : forall lo hi colors sols, (List.length sols <= List.length (colors (List.length sols)))%nat ->
  Forall (fun p => List.length (ps_angles (snd p)) = List.length (ps_rows (snd p))) sols ->
  let drawn := combine sols (colors (List.length sols)) in
  map fst drawn = sols /\
  generate_conserve_plot lo hi colors sols =
    Ok (mk_panel "$ρ v_θ / c_s$" "linear" (map (named_curve lo hi (fun y => y iρ * y iv_θ)) drawn)).
Proof.
  intros lo hi colors sols Hlen Hall drawn. assert (Hf : map fst drawn = sols) by (apply combine_keeps, Hlen).
  split; [exact Hf|]. unfold generate_conserve_plot. fold drawn.
  rewrite (lines_map _ (named_curve lo hi (fun y => y iρ * y iv_θ))); [reflexivity|].
  intros sc Hsc. rewrite Forall_forall in Hall. cbv zeta.
  rewrite (column_curve _ lo hi (fun row => row iρ * row iv_θ)); [reflexivity|]. apply Hall. rewrite <- Hf. apply in_map, Hsc.
Qed.
(** The title speaks of the conservation of ρ v_θ: in a flow that conserves mass the slope of the curve is
    ρ (v_θ tan θ - 2 γ v_r), so it is flat exactly where v_θ tan θ = 2 γ v_r. *)
Theorem C98_conserve_exact : forall γ y t, cos t <> 0 -> y t iρ <> 0 -> mass_conserved (fluid_of γ y) 1 t ->
  derivable_pt_lim (fun t => y t iρ * y t iv_θ) t (y t iρ * (y t iv_θ * tan t - 2 * γ * y t iv_r)) /\
  (derivable_pt_lim (fun t => y t iρ * y t iv_θ) t 0 <-> y t iv_θ * tan t = 2 * γ * y t iv_r).
Proof.
  intros γ y t Hc Hρ H.
  assert (D : derivable_pt_lim (fun t => y t iρ * y t iv_θ) t (y t iρ * (y t iv_θ * tan t - 2 * γ * y t iv_r))).
  { pose proof (mass_ode γ y t Hc H) as M.
    destruct (continuity_cos t (Rabs (cos t)) (Rabs_pos_lt _ Hc)) as (e & He & K).
    apply (dpl_ext_loc (fun u => cos u * (y u iρ * y u iv_θ) / cos u) _ t _ e He).
    - intros u Hu. destruct (Req_dec (cos u) 0) as [E|E]; [|field; exact E]. exfalso.
      destruct (Req_dec u t) as [->|Hn]; [congruence|]. specialize (K u). unfold D_x, no_cond, dist in K. cbn in K. unfold R_dist in K.
      assert (Rabs (cos u - cos t) < Rabs (cos t)) as X by (apply K; repeat split; auto). rewrite E in X. replace (0 - cos t) with (- cos t) in X by ring.
      rewrite Rabs_Ropp in X. lra.
    - eapply dpl_eq; [apply dpl_div; [exact Hc | exact M | apply dpl_cos]|]. cbv beta. unfold tan, Rsqr. field. exact Hc. }
  split; [exact D|]. split.
  - intros D0. pose proof (uniqueness_limite _ _ _ _ D D0) as E. apply Rmult_integral in E. destruct E; [contradiction|lra].
  - intros E. replace 0 with (y t iρ * (y t iv_θ * tan t - 2 * γ * y t iv_r)); [exact D|]. rewrite E. ring.
Qed.
(** C98 (conservation): refuted - a flow that conserves mass everywhere and whose curve rises from 0 to 1/2. *)
Theorem C98_conserve_refuted :
  (forall r t, 0 < r -> 0 <= t <= PI / 4 -> mass_conserved (fluid_of (1 / 4) wedge) r t) /\
  wedge 0 iρ * wedge 0 iv_θ = 0 /\ wedge (PI / 4) iρ * wedge (PI / 4) iv_θ = 1 / 2.
Proof.
  pose proof PI_RGT_0. split; [|split].
  - intros r t Hr Ht. apply wedge_conserves; [exact Hr|]. apply Rgt_not_eq, cos_gt_0; lra.
  - cbn. rewrite tan_0. field.
  - cbn. rewrite tan_PI4. field.
Qed.

(** ** ds-surface-density *)
Definition total (l : list R) : R := fold_right Rplus 0 l.
Lemma cumsum_nth : forall l acc i, (i < List.length l)%nat -> nth i (cumsum_from acc l) 0 = acc + total (firstn (S i) l).
Proof.
  intros l. induction l as [|x t IH]; intros acc i Hi; cbn in Hi; [lia|].
  destruct i as [|i]; cbn [cumsum_from nth firstn]; [cbn; ring|].
  rewrite IH by lia. cbn. ring.
Qed.
Lemma cumsum_length : forall l acc, List.length (cumsum_from acc l) = List.length l.
Proof. intros l. induction l; intros; [reflexivity|]. cbn. rewrite IHl. reflexivity. Qed.
(** C98 (σ, exact): the curve at a sample is the sum of the densities of all samples up to it - those before the range included. *)
Theorem C98_σ_exact : forall lo hi s, List.length (ps_angles s) = List.length (ps_rows s) ->
  generate_surface_density_plot lo hi s = Ok (mk_panel "σ" "linear" [mk_line None None
    (map (fun i => (deg (nth i (ps_angles s) 0), Some (total (firstn (S i) (map (fun y : vec => y iρ) (ps_rows s))))))
       (filter (fun i => between lo hi (deg (nth i (ps_angles s) 0))) (seq 0 (List.length (ps_angles s)))))]).
Proof.
  intros lo hi s HL. unfold generate_surface_density_plot. cbv zeta.
  set (ρs := map (fun row : vec => row iρ) (ps_rows s)). set (I := seq 0 (List.length (ps_angles s))).
  assert (nth_seq : forall {A} (l : list A) d, map (fun i => nth i l d) (seq 0 (List.length l)) = l).
  { intros A l d. apply (nth_ext _ _ d d); [rewrite map_length, seq_length; reflexivity|]. intros i Hi. rewrite map_length, seq_length in Hi.
    rewrite (nth_indep _ d (nth 0%nat l d)) by (rewrite map_length, seq_length; exact Hi).
    rewrite (map_nth (fun i => nth i l d) _ 0%nat), seq_nth by exact Hi. reflexivity. }
  assert (EA : ps_angles s = map (fun i => nth i (ps_angles s) 0) I) by (symmetry; apply nth_seq).
  assert (EC : cumsum_from 0 ρs = map (fun i => nth i (cumsum_from 0 ρs) 0) I).
  { unfold I. rewrite HL. replace (List.length (ps_rows s)) with (List.length (cumsum_from 0 ρs)) by (rewrite cumsum_length; unfold ρs; apply map_length).
    symmetry; apply nth_seq. }
  assert (mask_of : forall {B} (m : R -> bool) (f : nat -> R) (g : nat -> B) l1 l2, l1 = map f I -> l2 = map g I ->
    mask_list (map m l1) l2 = Ok (map g (filter (fun i => m (f i)) I))).
  { intros B m f g l1 l2 -> ->. rewrite map_map. apply mask_filter. }
  rewrite (mask_of R _ (fun i => nth i (ps_angles s) 0) (fun i => nth i (ps_angles s) 0)) by exact EA. cbn [rbind].
  rewrite (mask_of _ _ (fun i => nth i (ps_angles s) 0) (fun i => Some (nth i (cumsum_from 0 ρs) 0))); [|exact EA|rewrite EC at 1; rewrite map_map; reflexivity].
  cbn [rbind]. rewrite map_map, points_map. cbn [rbind].
  do 3 f_equal. f_equal. set (A := ps_angles s) in *.
  rewrite (filter_ext _ (fun i => between lo hi (deg (nth i A 0)))) by (intros i; apply in_range_between).
  apply map_ext_in. intros i Hi. apply filter_In in Hi as [Hi _]. unfold I in Hi. apply in_seq in Hi.
  rewrite cumsum_nth by (unfold ρs; rewrite map_length, <- HL; lia). do 2 f_equal. ring.
Qed.
(** C98 (σ): refuted as a surface density - for one and the same flow the curve exceeds every bound on fine enough grids. *)
Theorem C98_σ_refuted : forall M, exists angles pts θ v, increasing angles /\ Forall (fun t => 0 <= t <= PI / 4) angles /\
  generate_surface_density_plot 0 90 (mk_psoln angles (map wedge angles) 1 (1 / 4) 1 None (fun _ => 0) None [] None) =
    Ok (mk_panel "σ" "linear" [mk_line None None pts]) /\
  In (θ, Some v) pts /\ M <= v.
Proof.
  intros M. destruct (C92_Σ_refuted (Rmax M 1)) as (angles & H1 & H2 & H3).
  assert (M <= compute_Σ (map (fun t => (t, wedge t)) angles) /\ 1 <= compute_Σ (map (fun t => (t, wedge t)) angles)) as [H4 H5].
  { pose proof (Rmax_l M 1). pose proof (Rmax_r M 1). lra. }
  unfold compute_Σ in H4, H5. rewrite map_map in H4, H5. cbn [snd] in H4, H5.
  assert (Hne : angles <> []) by (intros ->; cbn in H5; lra).
  exists angles. rewrite C98_σ_exact by (cbn; rewrite map_length; reflexivity). cbn [ps_angles ps_rows].
  set (i := (List.length angles - 1)%nat).
  assert (Hi : (i < List.length angles)%nat) by (unfold i; destruct angles; [congruence|cbn; lia]).
  eexists _, (deg (nth i angles 0)), _. split; [exact H1|]. split; [exact H2|]. split; [reflexivity|]. split.
  - apply in_map_iff. exists i. split; [reflexivity|]. apply filter_In. split; [apply in_seq; lia|].
    rewrite Forall_forall in H2. pose proof (H2 _ (nth_In angles 0 Hi)) as X. pose proof PI_RGT_0.
    unfold between, deg.
    assert (0 <= nth i angles 0 * 180 / PI) by (apply Rmult_le_pos; [lra | apply Rlt_le, Rinv_0_lt_compat; lra]).
    assert (nth i angles 0 * 180 / PI <= 90).
    { apply Rle_trans with (PI / 4 * 180 / PI); [apply Rmult_le_compat_r; [apply Rlt_le, Rinv_0_lt_compat; lra | lra]|].
      replace (PI / 4 * 180 / PI) with 45 by (field; lra). lra. }
    destruct (Rle_dec 0 (nth i angles 0 * 180 / PI)); [|contradiction]. destruct (Rle_dec (nth i angles 0 * 180 / PI) 90); [reflexivity|contradiction].
  - rewrite firstn_all2 by (rewrite !map_length; unfold i; lia). rewrite map_map. exact H4.
Qed.
Example C98_nonvacuous : let s := mk_psoln [0; PI / 4] [wedge 0; wedge (PI / 4)] 4 (1 / 4) 1 None (fun _ => 0) None [] None in
  List.length (ps_angles s) = List.length (ps_rows s) /\ 0 <= ps_kepler_sq s /\ cos (PI / 4) <> 0 /\ wedge (PI / 4) iρ <> 0 /\
  mass_conserved (fluid_of (1 / 4) wedge) 1 (PI / 4).
Proof.
  pose proof PI_RGT_0. assert (cos (PI / 4) <> 0) as C by (apply Rgt_not_eq, cos_gt_0; lra).
  cbn. split; [reflexivity|]. split; [lra|]. split; [exact C|]. split; [lra|]. apply wedge_conserves; [lra | exact C].
Qed.

(** ** ds-taylor-plot *)
Definition by_sign (angles values : list R) : list line :=
  let l := combine angles values in
  [ mk_line None (Some "C0") (map (fun p => (deg (fst p), Some (snd p))) (filter (fun p => if Rle_dec 0 (snd p) then true else false) l));
    mk_line None (Some "C1") (map (fun p => (deg (fst p), Some (- snd p))) (filter (fun p => if Rlt_dec (snd p) 0 then true else false) l)) ].
Lemma sign_lines_is : forall angles values, List.length angles = List.length values ->
  sign_lines (map Model_Plots.degrees angles) values = Ok (by_sign angles values).
Proof.
  intros angles values HL.
  assert (exists L, angles = map fst L /\ values = map snd L /\ combine angles values = L) as (L & -> & -> & EL).
  { exists (combine angles values). rewrite combine_fst, combine_snd by exact HL. auto. }
  unfold by_sign. cbv zeta. rewrite EL. unfold sign_lines. cbv zeta. rewrite !map_map, !mask_filter. cbn [rbind]. rewrite !map_map, !points_map. reflexivity.
Qed.
Lemma abs_ratio_is : forall a b, List.length a = List.length b ->
  abs_ratio a b = Ok (map (fun p => if Req_EM_T (snd p) 0 then None else Some (Rabs (fst p / snd p))) (combine a b)).
Proof. intros a. induction a as [|x t IH]; intros [|y b] H; try discriminate; [reflexivity|]. cbn. rewrite IH by (injection H; auto). reflexivity. Qed.
(** C99 (ds-taylor-plot with values): every recorded derivative of each formula is shown once, at its angle in degrees, with its sign
    as the colour. *)
Theorem C99_taylor_values : forall start stop angles series,
  Forall (fun s : string * (list R * list R) => List.length angles = List.length (fst (snd s)) /\ List.length angles = List.length (snd (snd s))) series ->
  generate_taylor_plot true start stop (Some (mk_taylor angles series)) =
  Ok (map (fun s => mk_panel (fst s) "log" (by_sign angles (fst (snd s)) ++ by_sign angles (snd (snd s)))) series).
Proof.
  intros start stop angles series H. unfold generate_taylor_plot. cbv zeta. cbn [td_angles td_series].
  induction H as [|[title [normal taylor]] t [H1 H2] Ht IH]; [reflexivity|]. cbn [taylor_axes map fst snd] in *.
  rewrite !sign_lines_is by assumption. cbn [rbind]. rewrite IH. reflexivity.
Qed.
(** C99 (ratios, exact): without values the ratio of the two formulae is shown, at the angle converted to degrees twice. *)
Theorem C99_taylor_ratio_exact : forall start stop angles series,
  Forall (fun s : string * (list R * list R) => List.length angles = List.length (fst (snd s)) /\ List.length angles = List.length (snd (snd s))) series ->
  generate_taylor_plot false start stop (Some (mk_taylor angles series)) =
  Ok (map (fun s => mk_panel (fst s) "log" [mk_line None None
       (map (fun p => (deg (deg (fst p)), if Req_EM_T (snd (snd p)) 0 then None else Some (Rabs (fst (snd p) / snd (snd p)))))
          (combine angles (combine (fst (snd s)) (snd (snd s)))))]) series).
Proof.
  intros start stop angles series H. unfold generate_taylor_plot. cbv zeta. cbn [td_angles td_series].
  induction H as [|[title [normal taylor]] t [H1 H2] Ht IH]; [reflexivity|]. cbn [taylor_axes map fst snd] in *.
  rewrite abs_ratio_is by congruence. cbn [rbind].
  set (nt := combine normal taylor). assert (HL : List.length angles = List.length nt) by (unfold nt; rewrite combine_length; lia).
  assert (exists L, angles = map fst L /\ nt = map snd L /\ combine angles nt = L) as (L & E1 & E2 & E3).
  { exists (combine angles nt). rewrite combine_fst, combine_snd by exact HL. auto. }
  rewrite E3. rewrite E2. rewrite E1 at 1. rewrite !map_map, points_map. cbn [rbind]. rewrite IH. reflexivity.
Qed.
(** C99 (abscissa): refuted - every sample off the midplane is shown at 180/π times its angle in degrees. *)
Theorem C99_taylor_refuted : forall start stop θ x y title, 0 < θ -> y <> 0 ->
  exists x', generate_taylor_plot false start stop (Some (mk_taylor [θ] [(title, ([x], [y]))])) =
    Ok [mk_panel title "log" [mk_line None None [(x', Some (Rabs (x / y)))]]] /\ x' = 180 / PI * deg θ /\ 44 * deg θ < x'.
Proof.
  intros start stop θ x y title Hθ Hy. exists (deg (deg θ)).
  split; [rewrite C99_taylor_ratio_exact by (constructor; [split; reflexivity|constructor]); cbn; destruct (Req_EM_T y 0); [contradiction|reflexivity]|].
  pose proof PI_RGT_0. assert (E : deg (deg θ) = 180 / PI * deg θ) by (unfold deg; field; lra).
  split; [exact E|]. rewrite E. apply Rmult_lt_compat_r.
  - unfold deg. apply Rmult_lt_0_compat; [lra | apply Rinv_0_lt_compat; lra].
  - pose proof PI_4. apply (Rmult_lt_reg_r PI); [lra|]. replace (180 / PI * PI) with 180 by (field; lra). lra.
Qed.
(** C99 (recorded lists): a run of the hydrostatic methods records angles but none of the six series (C95): the plot raises
    ValueError, and without internal data it is refused. *)
Theorem C99_taylor_refused : forall show start stop,
  generate_taylor_plot show start stop None = Raise OtherError /\
  forall θ angles title rest, generate_taylor_plot false start stop (Some (mk_taylor (θ :: angles) ((title, ([], [])) :: rest))) = Raise ValueError.
Proof. intros show start stop. split; [reflexivity|]. intros θ angles title rest. reflexivity. Qed.

(** ** ds-acc-plot *)
(** C99 (ds-acc-plot, exact): the two curves are shown for the samples under one degree, whatever the range asked for; the constants
    turn them into solar masses per year. *)
Theorem C99_acc_exact : forall AU KM M_SUN YEAR start stop n s, List.length (ps_angles s) = List.length (ps_rows s) ->
  let shown := filter (fun p => if Rlt_dec (deg (fst p)) 1 then true else false) (samples s) in
  let solar_masses_per_year x := x / (M_SUN / YEAR) in
  M_SUN <> 0 -> YEAR <> 0 -> KM <> 0 ->
  generate_acc_plot AU KM M_SUN YEAR start stop n s =
  Ok [ mk_panel "" "linear" [mk_line None None (map (fun p => (deg (fst p), Some (solar_masses_per_year
         (AU ^ 2 * (n_B n * snd p iB_θ) * (n_B n * snd p iB_φ) / (30 * KM))))) shown)];
       mk_panel "" "linear" [mk_line None None (map (fun p => (deg (fst p), Some (solar_masses_per_year
         (PI * AU ^ 2 * (n_ρ n * snd p iρ) * (n_v n * snd p iv_θ))))) shown)] ].
Proof.
  intros AU KM M_SUN YEAR start stop n s HL shown smy HM HY HK. unfold generate_acc_plot. cbv zeta.
  assert (exists L, ps_angles s = map fst L /\ ps_rows s = map snd L /\ samples s = L) as (L & E1 & E2 & E3).
  { exists (samples s). unfold samples. rewrite combine_fst, combine_snd by exact HL. auto. }
  unfold shown. rewrite E3, E1, E2, !map_map, !mask_filter. cbn [rbind]. rewrite !map_map.
  rewrite !points_map. cbn [rbind]. rewrite ?mask_filter. cbn [rbind]. rewrite ?points_map. cbn [rbind].
  set (S := filter _ L).
  assert (X : forall f g : R * vec -> R * num, (forall p, f p = g p) -> map f S = map g S) by (intros; apply map_ext; assumption).
  match goal with |- Ok [mk_panel _ _ [mk_line _ _ (map ?f S)]; mk_panel _ _ [mk_line _ _ (map ?g S)]] =
    Ok [mk_panel _ _ [mk_line _ _ (map ?f' _)]; mk_panel _ _ [mk_line _ _ (map ?g' _)]] =>
    rewrite (X f f'); [rewrite (X g g'); [reflexivity|]|] end;
    intros [θ y]; cbn [fst snd]; unfold smy, ACC_CONSTANT, WIND_CONSTANT, deg, Model_Plots.degrees; do 2 f_equal; field; repeat split; assumption.
Qed.
(** C99 (range): refuted - ds-acc-plot shows a sample outside the range asked for and leaves out one inside it; so does ds-taylor-plot the
    former. *)
Theorem C99_range_refuted : forall AU KM M_SUN YEAR n (y0 y1 : vec),
  (exists p q, generate_acc_plot AU KM M_SUN YEAR 10 90 n (mk_psoln [0; PI / 4] [y0; y1] 1 0 1 None (fun _ => 0) None [] None) = Ok [p; q] /\
     map (fun l => map fst (l_points l)) (p_lines p) = [[0]]) /\
  (forall title v, 0 <= v -> exists p, generate_taylor_plot true 10 90 (Some (mk_taylor [0] [(title, ([v], [v]))])) = Ok [p] /\
     In [0] (map (fun l => map fst (l_points l)) (p_lines p))).
Proof.
  intros AU KM M_SUN YEAR n y0 y1. pose proof PI_RGT_0 as HP.
  assert (D0 : deg 0 = 0) by (unfold deg, Rdiv; ring).
  split.
  - unfold generate_acc_plot. cbn [ps_angles ps_rows map].
    change (Model_Plots.degrees) with deg. rewrite D0.
    assert (deg (PI / 4) = 45) as -> by (unfold deg; field; lra).
    destruct (Rlt_dec 0 1); [|lra]. destruct (Rlt_dec 45 1); [lra|]. cbn.
    eexists _, _. split; [reflexivity|]. cbn. change (Model_Plots.degrees) with deg. rewrite D0. reflexivity.
  - intros title v Hv. rewrite C99_taylor_values by (constructor; [split; reflexivity|constructor]).
    eexists. split; [reflexivity|]. cbn. destruct (Rle_dec 0 v); [|lra]. cbn. rewrite D0. left. reflexivity.
Qed.

(** ** ds-sonic-ratio-plot and ds-v-deriv-cmp *)
(** C99 (ds-sonic-ratio-plot): one line per solution in both panels, |v_θ| over the Alfvén and over the fast speed of the sample
    (the speeds of C21 and C68). *)
Theorem C99_sonic_ratio : forall lo hi colors n sols, (List.length sols <= List.length (colors n))%nat ->
  Forall (fun p => List.length (ps_angles (snd p)) = List.length (ps_rows (snd p)) /\
                   Forall (fun y => 0 < y iρ /\ y iB_θ <> 0) (ps_rows (snd p))) sols ->
  let drawn := combine sols (colors n) in
  let over f := fun y => Rabs (y iv_θ) / sqrt (f (mhd_wave_speeds y 1)) in
  map fst drawn = sols /\
  generate_sonic_ratio_plot lo hi colors n sols =
    Ok [ mk_panel "$v_θ/v_a$" "linear" (map (named_curve lo hi (over (fun w => snd (fst w)))) drawn);
         mk_panel "$v_θ/v_f$" "linear" (map (named_curve lo hi (over snd)) drawn) ].
Proof.
  intros lo hi colors n sols Hlen Hall drawn over. assert (Hf : map fst drawn = sols) by (apply combine_keeps, Hlen).
  split; [exact Hf|]. unfold generate_sonic_ratio_plot. fold drawn. cbv zeta.
  assert (G : forall label f g, (forall y, 0 < y iρ -> y iB_θ <> 0 -> f (get_mach_numbers y) = over g y) ->
    ratio_axis lo hi label f drawn = Ok (mk_panel label "linear" (map (named_curve lo hi (over g)) drawn))).
  { intros label f g H. unfold ratio_axis.
    rewrite (lines_map _ (named_curve lo hi (over g))); [reflexivity|].
    intros sc Hsc. rewrite Forall_forall in Hall. cbv zeta.
    assert (In (fst sc) sols) as Hin by (rewrite <- Hf; apply in_map, Hsc).
    destruct (Hall _ Hin) as [HL Hrows]. rewrite Forall_forall in Hrows.
    rewrite (column_curve _ lo hi (fun row => f (get_mach_numbers row)) HL).
    unfold named_curve. do 2 f_equal. unfold angle_curve, curve. apply map_ext_in. intros [θ y] Hy. cbn [fst snd].
    apply filter_In in Hy as [Hy _]. unfold samples in Hy. apply in_combine_r in Hy.
    destruct (Hrows y Hy) as [Hρ HB]. rewrite (H y Hρ HB). reflexivity. }
  assert (Hsq : forall v a, 0 < a -> sqrt (v ^ 2 / a) = Rabs v / sqrt a).
  { intros v a Ha. rewrite sqrt_div by (try apply pow2_ge_0; exact Ha). f_equal. rewrite <- Rsqr_pow2. apply sqrt_Rsqr_abs. }
  assert (Hpos : forall y s a f, 0 < y iρ -> y iB_θ <> 0 -> mhd_wave_speeds y 1 = (s, a, f) -> 0 < a /\ 0 < f).
  { intros y s a f Hρ HB E. destruct (C21_ordered y 1 s a f Hρ (B_sq_pos y HB) E) as (_ & H2 & _ & H4 & _).
    assert (0 < a); [|lra]. rewrite H4. pose proof PI_RGT_0. apply Rmult_lt_0_compat; [rewrite <- Rsqr_pow2; apply Rlt_0_sqr; exact HB|].
    apply Rinv_0_lt_compat. apply Rmult_lt_0_compat; lra. }
  rewrite (G "$v_θ/v_a$" _ (fun w => snd (fst w))); [|intros y Hρ HB].
  - cbn [rbind]. rewrite (G "$v_θ/v_f$" _ snd); [reflexivity|]. intros y Hρ HB. unfold over, get_mach_numbers.
    destruct (mhd_wave_speeds y 1) as [[s a] f] eqn:E. cbn [fst snd]. apply Hsq. apply (Hpos y s a f Hρ HB E).
  - unfold over, get_mach_numbers. destruct (mhd_wave_speeds y 1) as [[s a] f] eqn:E. cbn [fst snd]. apply Hsq. apply (Hpos y s a f Hρ HB E).
Qed.
(** C99 (ds-v-deriv-cmp): one line per solution, the recorded derivative of v_θ; a single solution without internal data refuses the
    whole plot. *)
Theorem C99_v_deriv : forall lo hi colors n sols, (List.length sols <= List.length (colors n))%nat ->
  let drawn := combine sols (colors n) in
  map fst drawn = sols /\
  (Forall (fun p => exists angles params derivs, ps_internal (snd p) = Some (angles, params, derivs) /\ List.length angles = List.length derivs) sols ->
   generate_v_deriv_plot lo hi colors n sols = Ok (mk_panel "$v_θ'$" "linear" (map (fun sc =>
     mk_line (Some (fst (fst sc))) (Some (snd sc))
       match ps_internal (snd (fst sc)) with
       | Some (angles, params, derivs) => curve deg (fun _ d => Some (d iv_θ)) lo hi (combine angles derivs)
       | None => []
       end) drawn))) /\
  (Exists (fun p => ps_internal (snd p) = None) sols -> exists e, generate_v_deriv_plot lo hi colors n sols = Raise e).
Proof.
  intros lo hi colors n sols Hlen drawn. assert (Hf : map fst drawn = sols) by (apply combine_keeps, Hlen).
  split; [exact Hf|]. unfold generate_v_deriv_plot. fold drawn. split.
  - intros Hall. match goal with |- _ = Ok (mk_panel _ _ (map ?g drawn)) => rewrite (lines_map _ g) end; [reflexivity|]. intros sc Hsc. rewrite Forall_forall in Hall.
    assert (In (fst sc) sols) as Hin by (rewrite <- Hf; apply in_map, Hsc).
    destruct (Hall _ Hin) as (angles & params & derivs & E & HL). rewrite E. cbv zeta.
    pose (s' := mk_psoln angles derivs 0 0 0 None (fun _ => 0) None [] None).
    rewrite (column_curve s' lo hi (fun row => row iv_θ) HL). reflexivity.
  - intros Hex. rewrite <- Hf in Hex. clear -Hex.
    induction drawn as [|sc t IH]; [inversion Hex|]. cbn [lines_of].
    destruct (ps_internal (snd (fst sc))) as [[[angles params] derivs]|] eqn:E.
    + assert (Exists (fun p => ps_internal (snd p) = None) (map fst t)) as Ht.
      { inversion Hex as [? ? X|? ? X]; [cbn in X; congruence|exact X]. }
      destruct (IH Ht) as [e He]. clear IH. cbv zeta.
      destruct (mask_list _ angles); cbn [rbind]; [|(eexists; reflexivity)]. destruct (mask_list _ (column derivs iv_θ)); cbn [rbind]; [|eauto].
      destruct (points _ _); cbn [rbind]; [|(eexists; reflexivity)].
      destruct (lines_of _ t); cbn [rbind] in *; [discriminate|]. (eexists; reflexivity).
    + (eexists; reflexivity).
Qed.
Example C99_nonvacuous : exists x y,
  generate_taylor_plot true 0 90 (Some (mk_taylor [0; PI / 4] [("v_r", ([1; - 2], [1; - 2]))])) =
    Ok [mk_panel "v_r" "log" (by_sign [0; PI / 4] [1; - 2] ++ by_sign [0; PI / 4] [1; - 2])] /\
  map l_points (by_sign [0; PI / 4] [1; - 2]) = [[x]; [y]] /\ snd x = Some 1 /\ snd y = Some (- - 2).
Proof.
  eexists _, _. split; [apply C99_taylor_values; repeat constructor|].
  cbn. destruct (Rle_dec 0 1); [|lra]. destruct (Rle_dec 0 (- 2)); [lra|]. destruct (Rlt_dec 1 0); [lra|]. destruct (Rlt_dec (- 2) 0); [|lra].
  cbn. split; [reflexivity|]. split; reflexivity.
Qed.
