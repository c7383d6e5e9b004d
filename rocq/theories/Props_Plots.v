(** C97: what the plots draw, whatever the same process plotted before. *)
From Coq Require Import Reals List Bool String Lra Lia Arith.
From Verif Require Import Lib_Py Model_Index Model_Waves Model_Plots Spec_Plots.
Import ListNotations.
Open Scope string_scope.
Open Scope list_scope.
Open Scope R_scope.

(** ** The store between plots *)
(** What no plot ever changes: names and legends, the scale of everything but v_θ, the absence of offsets but for v_φ and of
    extras but for v_θ and v_z. *)
Definition kept (st : store) : Prop := forall p,
  s_name (st p) = s_name (COMMON_ARGUMENTS p) /\ s_legend (st p) = s_legend (COMMON_ARGUMENTS p) /\
  (p <> pv_θ -> s_scale (st p) = s_scale (COMMON_ARGUMENTS p)) /\
  (p <> pv_φ -> s_offset (st p) = None) /\
  (p <> pv_θ -> p <> pv_z -> s_extras (st p) = None).
Lemma kept_init : kept COMMON_ARGUMENTS.
Proof. intros p. destruct p; cbn; repeat split; congruence. Qed.
Lemma kept_gca : forall o sc K no off st, kept st -> kept (fst (get_common_arguments o sc K no off st)).
Proof.
  intros o sc K no off st H p. specialize (H p).
  destruct o, no, off as [off|], p; cbn in *; destruct H as (H1 & H2 & H3 & H4 & H5);
    (split; [assumption|]; split; [assumption|]; split; [|split]);
    intros; try congruence; try (apply H3; congruence); try (apply H4; congruence); try (apply H5; congruence).
Qed.
Lemma gca_args : forall o sc K no off st, snd (get_common_arguments o sc K no off st) = PLOT_ORDERINGS o.
Proof. intros. unfold get_common_arguments. reflexivity. Qed.
(** Appending an extra to the v_θ or v_z dict. *)
Lemma kept_extra : forall o e st, kept st -> kept (append_extra (PLOT_ORDERINGS o) iv_θ e st).
Proof.
  intros o e st H p. specialize (H p).
  destruct o, p; cbn in *; destruct H as (H1 & H2 & H3 & H4 & H5);
    (split; [assumption|]; split; [assumption|]; split; [|split]);
    intros; try congruence; try (apply H3; congruence); try (apply H4; congruence); try (apply H5; congruence).
Qed.
Lemma plot_store_eq : forall a s e st, plot_store a s e st =
  (let o := if e then ord_E_r else ord_B_φ_prime in
   let st := fst (get_common_arguments o (pa_v_θ_scale a) (ps_kepler_sq s) false None st) in
   let st := if pa_slow a then append_extra (PLOT_ORDERINGS o) iv_θ (mk_extra "slow" (wave_curve (fun w => fst (fst w)) (ps_rows s))) st else st in
   let st := if pa_alfven a then append_extra (PLOT_ORDERINGS o) iv_θ (mk_extra "alfven" (wave_curve (fun w => snd (fst w)) (ps_rows s))) st else st in
   let st := if pa_fast a then append_extra (PLOT_ORDERINGS o) iv_θ (mk_extra "fast" (wave_curve snd (ps_rows s))) st else st in
   let st := if pa_sonic a then append_extra (PLOT_ORDERINGS o) iv_θ (mk_extra "sound" (map (fun _ => Some 1) (ps_rows s))) st else st in
   (st, PLOT_ORDERINGS o)).
Proof. intros. unfold plot_store, get_common_arguments. destruct e; reflexivity. Qed.
Lemma kept_plot : forall a s e st, kept st -> kept (fst (plot_store a s e st)).
Proof.
  intros a s e st H. rewrite plot_store_eq. cbv zeta. cbn [fst].
  assert (G := kept_gca (if e then ord_E_r else ord_B_φ_prime) (pa_v_θ_scale a) (ps_kepler_sq s) false None st H).
  destruct (pa_slow a), (pa_alfven a), (pa_fast a), (pa_sonic a); repeat apply kept_extra; exact G.
Qed.
Lemma kept_compare : forall a l fig st, kept st -> kept (fst (compare_loop a l fig st)).
Proof.
  intros a l. induction l as [|[[name s] color] t IH]; intros fig st H; [exact H|].
  cbn [compare_loop].
  assert (G := kept_gca ord_B_φ_prime (ca_v_θ_scale a) (ps_kepler_sq s) false None st H).
  destruct (get_common_arguments ord_B_φ_prime (ca_v_θ_scale a) (ps_kepler_sq s) false None st) as [st' args]. cbn [fst] in G.
  destruct (panels (cmp_panel a name color s st') 0 args); [apply IH|]; exact G.
Qed.
Lemma kept_run : forall c st, kept st -> kept (fst (run_command c st)).
Proof.
  intros c st H. destruct c as [a s e|a s e|a colors n l|a s e|a s e]; cbn [run_command].
  - unfold generate_plot. assert (G := kept_plot a s e st H). destruct (plot_store a s e st). exact G.
  - unfold generate_vert_plot. destruct (convert_rows _ _ _ _ _) as [conv|x]; [|exact H].
    cbv zeta. set (off := map _ (ps_angles s)).
    assert (G := kept_gca (if e then ord_E_r_vert else ord_B_φ_prime_vert) "linear" (ps_kepler_sq s) false (Some (Off_array off)) st H).
    assert (A := gca_args (if e then ord_E_r_vert else ord_B_φ_prime_vert) "linear" (ps_kepler_sq s) false (Some (Off_array off)) st).
    destruct (get_common_arguments _ _ _ _ _ st) as [st' args]. cbn [fst snd] in *. subst args.
    destruct (va_sonic a); cbn [fst]; [apply kept_extra|]; exact G.
  - apply kept_compare, H.
  - unfold generate_derivs_plot. destruct (ps_internal s) as [[[an pr] de]|]; [|exact H].
    assert (G := kept_gca (if e then ord_E_r else ord_B_φ_prime) "linear" (ps_kepler_sq s) true None st H).
    cbv zeta. destruct (get_common_arguments _ _ _ _ _ st) as [st' args]. exact G.
  - unfold generate_params_plot. destruct e; [exact H|]. destruct (ps_internal s) as [[[an pr] de]|]; [|exact H].
    assert (G := kept_gca ord_B_φ_prime "linear" (ps_kepler_sq s) false None st H).
    destruct (get_common_arguments _ _ _ _ _ st) as [st' args]. exact G.
Qed.
Lemma kept_after : forall h, kept (after h).
Proof.
  intros h. unfold after. rewrite <- fold_left_rev_right. induction (rev h) as [|c t IH]; [apply kept_init|].
  cbn. apply kept_run, IH.
Qed.

(** ** Every figure is a function of the command *)
(** Two stores that agree on what the panels of an ordering read. *)
Lemma panels_ext : forall f g args i, (forall j p, In p args -> f j p = g j p) -> panels f i args = panels g i args.
Proof.
  intros f g args. induction args as [|p t IH]; intros i H; [reflexivity|].
  cbn. rewrite (H i p (or_introl eq_refl)). rewrite (IH (S i)); [reflexivity|]. intros j q Hq. apply H. right. exact Hq.
Qed.
Lemma settings_eta : forall s, s = mk_settings (s_name s) (s_legend s) (s_scale s) (s_offset s) (s_extras s).
Proof. intros []. reflexivity. Qed.
Lemma kept_settings : forall st p, kept st -> p <> pv_θ -> p <> pv_z -> p <> pv_φ -> st p = COMMON_ARGUMENTS p.
Proof.
  intros st p H A B C. destruct (H p) as (H1 & H2 & H3 & H4 & H5).
  rewrite (settings_eta (st p)), (settings_eta (COMMON_ARGUMENTS p)), H1, H2, (H3 A), (H4 C), (H5 A B).
  destruct p; try congruence; reflexivity.
Qed.
(** After get_common_arguments with an offset the dicts handed out depend on the arguments only. *)
Lemma gca_fixed : forall o sc K no off st st', kept st -> kept st' -> no = false \/ off <> None ->
  forall p, In p (PLOT_ORDERINGS o) ->
  fst (get_common_arguments o sc K no off st) p = fst (get_common_arguments o sc K no off st') p.
Proof.
  intros o sc K no off st st' H H' Hno p Hp.
  assert (forall q, s_name (st q) = s_name (st' q) /\ s_legend (st q) = s_legend (st' q)) as E1.
  { intros q. destruct (H q) as (A1 & A2 & _), (H' q) as (B1 & B2 & _). split; congruence. }
  assert (forall q, q <> pv_θ -> s_scale (st q) = s_scale (st' q)) as E2.
  { intros q Hq. destruct (H q) as (_ & _ & A & _), (H' q) as (_ & _ & B & _). rewrite A, B by exact Hq. reflexivity. }
  assert (forall q, q <> pv_φ -> s_offset (st q) = s_offset (st' q)) as E3.
  { intros q Hq. destruct (H q) as (_ & _ & _ & A & _), (H' q) as (_ & _ & _ & B & _). rewrite A, B by exact Hq. reflexivity. }
  assert (s_extras (st pv_φ) = s_extras (st' pv_φ)) as E4.
  { destruct (H pv_φ) as (_ & _ & _ & _ & A), (H' pv_φ) as (_ & _ & _ & _ & B). rewrite A, B by congruence. reflexivity. }
  assert (forall q, q <> pv_θ -> q <> pv_z -> q <> pv_φ -> st q = st' q) as E5.
  { intros q A B C. rewrite (kept_settings st q H A B C), (kept_settings st' q H' A B C). reflexivity. }
  assert (no = true -> off = None -> False) as X by (intros -> ->; destruct Hno; congruence).
  destruct o, no, off as [off|]; try (exfalso; apply X; reflexivity);
    cbn in Hp; repeat (destruct Hp as [<- | Hp]); try contradiction;
    cbn; try (apply E5; congruence);
    unfold set_extras, set_scale, set_offset; cbn;
    try (destruct (E1 pv_θ) as [-> ->]); try (destruct (E1 pv_φ) as [-> ->]); try (destruct (E1 pv_z) as [-> ->]);
    try rewrite (E2 pv_φ) by congruence; try rewrite (E2 pv_z) by congruence;
    try rewrite (E3 pv_θ) by congruence; try rewrite (E3 pv_z) by congruence; try rewrite E4; reflexivity.
Qed.
Lemma extra_agree : forall l i e st st', (forall p, In p l -> st p = st' p) ->
  forall p, In p l -> append_extra l i e st p = append_extra l i e st' p.
Proof.
  intros l i e st st' H p Hp. unfold append_extra, at_index.
  destruct (nth_error l i) as [q|] eqn:E; [|apply H, Hp].
  assert (In q l) as Hq by (eapply nth_error_In; exact E).
  unfold st_set. rewrite (H q Hq). destruct (pname_eqb p q); [reflexivity | apply H, Hp].
Qed.
Lemma plot_agree : forall a s e st st', kept st -> kept st' ->
  snd (plot_store a s e st) = snd (plot_store a s e st') /\
  forall p, In p (snd (plot_store a s e st)) -> fst (plot_store a s e st) p = fst (plot_store a s e st') p.
Proof.
  intros a s e st st' H H'. rewrite !plot_store_eq. cbv zeta. cbn [fst snd]. split; [reflexivity|].
  assert (G := gca_fixed (if e then ord_E_r else ord_B_φ_prime) (pa_v_θ_scale a) (ps_kepler_sq s) false None st st' H H' (or_introl eq_refl)).
  destruct (pa_slow a), (pa_alfven a), (pa_fast a), (pa_sonic a); repeat apply extra_agree; exact G.
Qed.
Lemma plot_panel_st : forall a s st st' i p, st p = st' p -> plot_panel a s st i p = plot_panel a s st' i p.
Proof. intros a s st st' i p H. unfold plot_panel. rewrite H. reflexivity. Qed.
Lemma vert_panel_st : forall a c st st' i p, st p = st' p -> vert_panel a c st i p = vert_panel a c st' i p.
Proof. intros a c st st' i p H. unfold vert_panel. rewrite H. reflexivity. Qed.
Lemma cmp_panel_st : forall a n c s st st' i p, st p = st' p -> cmp_panel a n c s st i p = cmp_panel a n c s st' i p.
Proof. intros a n c s st st' i p H. unfold cmp_panel. rewrite H. reflexivity. Qed.
Lemma int_panel_st : forall a an r st st' i p, s_name (st p) = s_name (st' p) -> int_panel a an r st i p = int_panel a an r st' i p.
Proof. intros a an r st st' i p H. unfold int_panel. rewrite H. reflexivity. Qed.
Lemma compare_agree : forall a l fig st st', kept st -> kept st' ->
  snd (compare_loop a l fig st) = snd (compare_loop a l fig st').
Proof.
  intros a l. induction l as [|[[name s] color] t IH]; intros fig st st' H H'; [reflexivity|].
  cbn [compare_loop].
  assert (G := gca_fixed ord_B_φ_prime (ca_v_θ_scale a) (ps_kepler_sq s) false None st st' H H' (or_introl eq_refl)).
  assert (K := kept_gca ord_B_φ_prime (ca_v_θ_scale a) (ps_kepler_sq s) false None st H).
  assert (K' := kept_gca ord_B_φ_prime (ca_v_θ_scale a) (ps_kepler_sq s) false None st' H').
  assert (A := gca_args ord_B_φ_prime (ca_v_θ_scale a) (ps_kepler_sq s) false None st).
  assert (A' := gca_args ord_B_φ_prime (ca_v_θ_scale a) (ps_kepler_sq s) false None st').
  destruct (get_common_arguments _ _ _ _ _ st) as [st1 args1], (get_common_arguments _ _ _ _ _ st') as [st2 args2].
  cbn [fst snd] in *. subst args1 args2.
  rewrite (panels_ext (cmp_panel a name color s st1) (cmp_panel a name color s st2)).
  - destruct (panels (cmp_panel a name color s st2) 0 (PLOT_ORDERINGS ord_B_φ_prime)); [apply IH; assumption | reflexivity].
  - intros j p Hp. apply cmp_panel_st, G, Hp.
Qed.
Lemma run_agree : forall c st st', kept st -> kept st' -> snd (run_command c st) = snd (run_command c st').
Proof.
  intros c st st' H H'. destruct c as [a s e|a s e|a colors n l|a s e|a s e]; cbn [run_command].
  - unfold generate_plot. destruct (plot_agree a s e st st' H H') as [E G].
    destruct (plot_store a s e st) as [st1 args1], (plot_store a s e st') as [st2 args2]. cbn [fst snd] in *. subst args2.
    apply panels_ext. intros j p Hp. apply plot_panel_st, G, Hp.
  - unfold generate_vert_plot. destruct (convert_rows _ _ _ _ _) as [conv|x]; [|reflexivity].
    cbv zeta. set (off := map _ (ps_angles s)). set (o := if e then ord_E_r_vert else ord_B_φ_prime_vert).
    assert (G := gca_fixed o "linear" (ps_kepler_sq s) false (Some (Off_array off)) st st' H H' (or_introl eq_refl)).
    assert (A := gca_args o "linear" (ps_kepler_sq s) false (Some (Off_array off)) st).
    assert (A' := gca_args o "linear" (ps_kepler_sq s) false (Some (Off_array off)) st').
    destruct (get_common_arguments _ _ _ _ _ st) as [st1 args1], (get_common_arguments _ _ _ _ _ st') as [st2 args2].
    cbn [fst snd] in *. subst args1 args2.
    apply panels_ext. intros j p Hp. apply vert_panel_st. destruct (va_sonic a); [apply extra_agree|apply G]; assumption.
  - apply compare_agree; assumption.
  - unfold generate_derivs_plot. destruct (ps_internal s) as [[[an pr] de]|]; [|reflexivity].
    cbv zeta. set (o := if e then ord_E_r else ord_B_φ_prime).
    assert (K := kept_gca o "linear" (ps_kepler_sq s) true None st H).
    assert (K' := kept_gca o "linear" (ps_kepler_sq s) true None st' H').
    assert (A := gca_args o "linear" (ps_kepler_sq s) true None st).
    assert (A' := gca_args o "linear" (ps_kepler_sq s) true None st').
    destruct (get_common_arguments _ _ _ _ _ st) as [st1 args1], (get_common_arguments _ _ _ _ _ st') as [st2 args2].
    cbn [fst snd] in *. subst args1 args2.
    apply panels_ext. intros j p Hp. apply int_panel_st. rewrite (proj1 (K p)), (proj1 (K' p)). reflexivity.
  - unfold generate_params_plot. destruct e; [reflexivity|]. destruct (ps_internal s) as [[[an pr] de]|]; [|reflexivity].
    assert (K := kept_gca ord_B_φ_prime "linear" (ps_kepler_sq s) false None st H).
    assert (K' := kept_gca ord_B_φ_prime "linear" (ps_kepler_sq s) false None st' H').
    destruct (get_common_arguments _ _ _ _ _ st) as [st1 args1] eqn:E1, (get_common_arguments _ _ _ _ _ st') as [st2 args2] eqn:E2.
    assert (A : args1 = PLOT_ORDERINGS ord_B_φ_prime) by (unfold get_common_arguments in E1; congruence).
    assert (A' : args2 = PLOT_ORDERINGS ord_B_φ_prime) by (unfold get_common_arguments in E2; congruence).
    cbn [fst snd] in *. subst args1 args2.
    apply panels_ext. intros j p Hp. apply int_panel_st. rewrite (proj1 (K p)), (proj1 (K' p)). reflexivity.
Qed.
(** C97 (history): whatever was plotted before in the same process - including plots that failed half way - a plot comes out as
    it does in a fresh process. *)
Theorem C97_history : forall h c, snd (run_command c (after h)) = snd (run_command c COMMON_ARGUMENTS).
Proof. intros h c. apply run_agree; [apply kept_after | apply kept_init]. Qed.

(** ** The settings handed out by the common function *)
(** C97 (settings, exact): the settings are those of a fresh process, except that a call asking for no v_φ offset gets the one
    the last plot left behind. *)
Theorem C97_settings_exact : forall h o sc K no off p, In p (PLOT_ORDERINGS o) ->
  let used := fst (get_common_arguments o sc K no off (after h)) p in
  let fresh := fst (get_common_arguments o sc K no off COMMON_ARGUMENTS) p in
  (p = pv_φ /\ no = true /\ off = None -> used = mk_settings "$(v_φ - v_k)/c_s$" false None (s_offset (after h pv_φ)) None) /\
  (~ (p = pv_φ /\ no = true /\ off = None) -> used = fresh).
Proof.
  intros h o sc K no off p Hp. cbv zeta. assert (H := kept_after h). split.
  - intros (-> & -> & ->). destruct (H pv_φ) as (H1 & H2 & H3 & H4 & H5).
    rewrite (settings_eta (fst _ pv_φ)).
    destruct o; cbn; rewrite H1, H2, H3, H5 by congruence; reflexivity.
  - intros Hn. destruct no, off as [off|];
      try (apply gca_fixed; [exact H | apply kept_init | right; discriminate | exact Hp]);
      try (apply gca_fixed; [exact H | apply kept_init | left; reflexivity | exact Hp]).
    assert (p <> pv_φ) as Hφ by (intros ->; apply Hn; auto).
    assert (G := gca_fixed o sc K false None (after h) COMMON_ARGUMENTS H kept_init (or_introl eq_refl) p Hp).
    destruct o; cbn in Hp; repeat (destruct Hp as [<- | Hp]); try contradiction; try congruence; exact G.
Qed.
(** C97 (settings): refuted - after one plot, a caller that asks for no offset is given the earlier one, and a second call
    changes the settings a first caller still holds. *)
Definition some_soln (K : R) : psoln := mk_psoln [] [] K 0 1 None (fun _ => 0) None [] None.
Definition plain : plot_args := mk_plot_args false false false false 0 90 "linear" false false.
Theorem C97_settings_refuted :
  (exists h, let used := fst (get_common_arguments ord_B_φ_prime "linear" 4 true None (after h)) in
     let fresh := fst (get_common_arguments ord_B_φ_prime "linear" 4 true None COMMON_ARGUMENTS) in
     s_offset (fresh pv_φ) = None /\ s_offset (used pv_φ) <> None) /\
  (forall st K1 K2 sc, 0 <= K1 < K2 ->
     let '(st1, args) := get_common_arguments ord_B_φ_prime sc K1 false None st in
     let '(st2, _) := get_common_arguments ord_B_φ_prime sc K2 false None st1 in
     In pv_φ args /\ s_offset (st2 pv_φ) <> s_offset (st1 pv_φ)).
Proof.
  split.
  - exists [Cplot plain (some_soln 9) false]. split; [reflexivity|]. cbn. discriminate.
  - intros st K1 K2 sc HK. cbn. split; [tauto|].
    unfold np_sqrt. destruct (Rlt_dec K2 0); [lra|]. destruct (Rlt_dec K1 0); [lra|].
    intros E. injection E. intros E'. apply sqrt_inj in E'; lra.
Qed.

(** ** What is drawn *)
Lemma mask_filter : forall {A B} (f : A -> bool) (g : A -> B) l, mask_list (map f l) (map g l) = Ok (map g (filter f l)).
Proof.
  intros A B f g l. induction l as [|x t IH]; [reflexivity|]. cbn. rewrite IH. cbn. destruct (f x); reflexivity.
Qed.
Lemma points_map : forall {A} (f : A -> R) (g : A -> num) l, points (map f l) (map g l) = Ok (map (fun x => (f x, g x)) l).
Proof. intros A f g l. induction l as [|x t IH]; [reflexivity|]. cbn. rewrite IH. reflexivity. Qed.
Lemma combine_fst : forall {A B} (l : list A) (l' : list B), List.length l = List.length l' -> map fst (combine l l') = l.
Proof. intros A B l. induction l as [|x t IH]; intros [|y t'] H; try discriminate; [reflexivity|]. cbn. rewrite IH; [reflexivity|]. now injection H. Qed.
Lemma combine_snd : forall {A B} (l : list A) (l' : list B), List.length l = List.length l' -> map snd (combine l l') = l'.
Proof. intros A B l. induction l as [|x t IH]; intros [|y t'] H; try discriminate; [reflexivity|]. cbn. rewrite IH; [reflexivity|]. now injection H. Qed.
Lemma in_range_between : forall a b x, in_range a b x = between a b x.
Proof. intros a b x. unfold in_range, between. destruct (Rle_dec a x), (Rle_dec x b); reflexivity. Qed.
Lemma minus_number : forall {A} (f : A -> num) l x, minus_offset (map f l) (Some (Off_number x)) = Ok (map (fun a => num_sub (f a) x) l).
Proof. intros. cbn. rewrite map_map. reflexivity. Qed.
Lemma sub_map : forall {A} (f g : A -> num) l, sub_lists (map f l) (map g l) = Ok (map (fun a => num_sub (f a) (g a)) l).
Proof. intros A f g l. induction l as [|x t IH]; [reflexivity|]. cbn. rewrite IH. reflexivity. Qed.
Lemma lines_map : forall {A} (f : A -> res line) (g : A -> line) l, (forall x, In x l -> f x = Ok (g x)) -> lines_of f l = Ok (map g l).
Proof.
  intros A f g l H. induction l as [|x t IH]; [reflexivity|]. cbn. rewrite (H x (or_introl eq_refl)). cbn.
  rewrite IH; [reflexivity|]. intros y Hy. apply H. right. exact Hy.
Qed.
(** The stored samples of a solution. *)
Definition samples (s : psoln) : list (R * vec) := combine (ps_angles s) (ps_rows s).
(** The curve of a quantity of the rows, against the angle in degrees. *)
Definition angle_curve (s : psoln) (lo hi : R) (q : vec -> num) : list (R * num) :=
  curve deg (fun _ row => q row) lo hi (samples s).
(** A masked column drawn against the angles in degrees. *)
Lemma masked_curve : forall s lo hi (q : vec -> num), List.length (ps_angles s) = List.length (ps_rows s) ->
  let mask := map (fun θ => in_range lo hi (degrees θ)) (ps_angles s) in
  exists x y, mask_list mask (ps_angles s) = Ok x /\ mask_list mask (map q (ps_rows s)) = Ok y /\
    points (map degrees x) y = Ok (angle_curve s lo hi q).
Proof.
  intros s lo hi q H mask. unfold mask.
  set (L := samples s). assert (ps_angles s = map fst L) as E1 by (symmetry; apply combine_fst, H).
  assert (ps_rows s = map snd L) as E2 by (symmetry; apply combine_snd, H).
  rewrite E1, E2. rewrite !map_map.
  exists (map fst (filter (fun p => in_range lo hi (degrees (fst p))) L)),
         (map (fun p => q (snd p)) (filter (fun p => in_range lo hi (degrees (fst p))) L)).
  rewrite !mask_filter. split; [reflexivity|]. split; [reflexivity|].
  rewrite map_map, points_map. unfold angle_curve, curve. fold L. do 2 f_equal.
  apply filter_ext. intros [θ row]. apply in_range_between.
Qed.

(** The lines ds-plot promises in the panel of a label: the curve itself, the wave and sound speeds asked for in the v_θ panel,
    the sonic point and the roots. *)
Definition markers (s : psoln) (a : plot_args) (q : vec -> R) : list line :=
  match ps_sonic s with
  | Some θ => if pa_hide_sonic a then [] else [mk_line None (Some "red") [(deg θ, Some (q (ps_sonic_values s)))]]
  | None => []
  end ++
  match ps_roots s with
  | Some θs => if pa_hide_roots a then [] else
      [mk_line None (Some "black") (map (fun p => (deg (fst p), Some (q (snd p)))) (combine θs (ps_root_values s)))]
  | None => []
  end.
Definition speeds (s : psoln) (a : plot_args) : list line :=
  let speed label q := mk_line (Some label) None (angle_curve s (pa_start a) (pa_stop a) q) in
  (if pa_slow a then [speed "slow" (fun y => np_sqrt (fst (fst (mhd_wave_speeds y 1))))] else []) ++
  (if pa_alfven a then [speed "alfven" (fun y => np_sqrt (snd (fst (mhd_wave_speeds y 1))))] else []) ++
  (if pa_fast a then [speed "fast" (fun y => np_sqrt (snd (mhd_wave_speeds y 1)))] else []) ++
  (if pa_sonic a then [speed "sound" (fun _ => Some 1)] else []).
Definition promised_panel (s : psoln) (a : plot_args) (lq : string * (vec -> R)) : panel :=
  let '(label, q) := lq in
  mk_panel label (axis_scale (pa_v_θ_scale a) label)
    (mk_line (Some label) None (angle_curve s (pa_start a) (pa_stop a) (fun y => Some (q y)))
     :: (if String.eqb label "$v_θ/c_s$" then speeds s a else []) ++ markers s a q).

(** One panel, given what its settings are. *)
Definition off_value (off : option offset) (v : R) : num :=
  match off with Some (Off_number x) => num_sub (Some v) x | _ => Some v end.
Definition scalar (off : option offset) : Prop := match off with Some (Off_array _) => False | _ => True end.
Lemma minus_scalar : forall {A} (f : A -> R) l off, scalar off ->
  minus_offset (map (fun a => Some (f a)) l) off = Ok (map (fun a => off_value off (f a)) l).
Proof.
  intros A f l [[x|x]|] H; [|contradiction|reflexivity].
  apply (minus_number (fun a => Some (f a))).
Qed.
Lemma plot_panel_is : forall a s st i p exq, List.length (ps_angles s) = List.length (ps_rows s) ->
  (forall θs, ps_roots s = Some θs -> pa_hide_roots a = false -> List.length θs = List.length (ps_root_values s)) ->
  scalar (s_offset (st p)) ->
  get_extras (st p) = map (fun lq => mk_extra (fst lq) (map (snd lq) (ps_rows s))) exq ->
  plot_panel a s st i p = Ok (mk_panel (s_name (st p)) (get_scale (st p))
    (mk_line (Some (s_name (st p))) None (angle_curve s (pa_start a) (pa_stop a) (fun y => off_value (s_offset (st p)) (y i)))
     :: map (fun lq => mk_line (Some (fst lq)) None (angle_curve s (pa_start a) (pa_stop a) (snd lq))) exq ++
     match ps_sonic s with
     | Some θ => if pa_hide_sonic a then [] else [mk_line None (Some "red") [(deg θ, off_value (s_offset (st p)) (ps_sonic_values s i))]]
     | None => []
     end ++
     match ps_roots s with
     | Some θs => if pa_hide_roots a then [] else
         [mk_line None (Some "black") (map (fun p' => (deg (fst p'), off_value (s_offset (st p)) (snd p' i))) (combine θs (ps_root_values s)))]
     | None => []
     end)).
Proof.
  intros a s st i p exq HL HR Hoff Hex. unfold plot_panel. cbv zeta.
  destruct (masked_curve s (pa_start a) (pa_stop a) (fun y => off_value (s_offset (st p)) (y i)) HL) as (x & y & E1 & E2 & E3).
  rewrite E1. cbn [rbind].
  unfold column. rewrite (minus_scalar (fun row : vec => row i)) by exact Hoff. cbn [rbind]. rewrite E2. cbn [rbind]. rewrite E3. cbn [rbind].
  rewrite Hex.
  rewrite (lines_map _ (fun e => mk_line (Some (ex_label e)) None
     (match exq with _ => match mask_list (map (fun θ => in_range (pa_start a) (pa_stop a) (degrees θ)) (ps_angles s)) (ex_data e) with
        Ok d => match points (map degrees x) d with Ok r => r | _ => [] end | _ => [] end end))).
  2:{ intros e He. apply in_map_iff in He as (lq & <- & _). cbn [ex_data ex_label].
      destruct (masked_curve s (pa_start a) (pa_stop a) (snd lq) HL) as (x' & y' & F1 & F2 & F3).
      rewrite F2. cbn [rbind]. rewrite E1 in F1. injection F1 as <-. rewrite F3. reflexivity. }
  cbn [rbind]. rewrite map_map.
  assert (map (fun lq => mk_line (Some (fst lq)) None (angle_curve s (pa_start a) (pa_stop a) (snd lq))) exq =
    map (fun x0 => mk_line (Some (ex_label (mk_extra (fst x0) (map (snd x0) (ps_rows s))))) None
      match mask_list (map (fun θ => in_range (pa_start a) (pa_stop a) (degrees θ)) (ps_angles s)) (ex_data (mk_extra (fst x0) (map (snd x0) (ps_rows s)))) with
      | Ok d => match points (map degrees x) d with Ok r => r | Raise _ => [] end | Raise _ => [] end) exq) as ->.
  { apply map_ext. intros lq. cbn [ex_data ex_label].
    destruct (masked_curve s (pa_start a) (pa_stop a) (snd lq) HL) as (x' & y' & F1 & F2 & F3).
    rewrite F2. rewrite E1 in F1. injection F1 as <-. rewrite F3. reflexivity. }
  assert (forall v, marker v (s_offset (st p)) = Ok (off_value (s_offset (st p)) v)) as Hm.
  { intros v. destruct (s_offset (st p)) as [[z|z]|]; [reflexivity|contradiction|reflexivity]. }
  destruct (ps_sonic s) as [θ|]; [destruct (pa_hide_sonic a)|]; cbn [rbind]; rewrite ?Hm; cbn [rbind];
  (destruct (ps_roots s) as [θs|]; [destruct (pa_hide_roots a) eqn:Eh|]; cbn [rbind];
   [reflexivity | | reflexivity];
   rewrite (minus_scalar (fun row : vec => row i)) by exact Hoff; cbn [rbind];
   specialize (HR θs eq_refl eq_refl);
   rewrite <- (combine_fst θs (ps_root_values s) HR) at 1; rewrite <- (combine_snd θs (ps_root_values s) HR) at 2;
   rewrite !map_map, points_map; cbn [rbind]; reflexivity).
Qed.
(** The extras asked for, as labels and quantities. *)
Definition asked (a : plot_args) : list (string * (vec -> num)) :=
  (if pa_slow a then [("slow", fun y => np_sqrt (fst (fst (mhd_wave_speeds y 1))))] else []) ++
  (if pa_alfven a then [("alfven", fun y => np_sqrt (snd (fst (mhd_wave_speeds y 1))))] else []) ++
  (if pa_fast a then [("fast", fun y => np_sqrt (snd (mhd_wave_speeds y 1)))] else []) ++
  (if pa_sonic a then [("sound", fun _ => Some 1)] else []).
Lemma asked_speeds : forall s a,
  map (fun lq => mk_line (Some (fst lq)) None (angle_curve s (pa_start a) (pa_stop a) (snd lq))) (asked a) = speeds s a.
Proof. intros s a. unfold asked, speeds. destruct (pa_slow a), (pa_alfven a), (pa_fast a), (pa_sonic a); reflexivity. Qed.
(** The settings the panels of ds-plot read, in a fresh process. *)
Lemma plot_settings : forall a s e, let st := fst (plot_store a s e COMMON_ARGUMENTS) in
  snd (plot_store a s e COMMON_ARGUMENTS) = PLOT_ORDERINGS (if e then ord_E_r else ord_B_φ_prime) /\
  (forall p, p <> pv_θ -> p <> pv_φ -> st p = COMMON_ARGUMENTS p) /\
  st pv_φ = mk_settings "$(v_φ - v_k)/c_s$" false None (Some (Off_number (np_sqrt (ps_kepler_sq s)))) None /\
  st pv_θ = mk_settings "$v_θ/c_s$" true (Some (pa_v_θ_scale a)) None
              (Some (map (fun lq => mk_extra (fst lq) (map (snd lq) (ps_rows s))) (asked a))).
Proof.
  intros a s e. cbv zeta. rewrite plot_store_eq. cbv zeta. cbn [fst snd]. split; [reflexivity|].
  unfold asked. destruct e, (pa_slow a), (pa_alfven a), (pa_fast a), (pa_sonic a);
    (split; [intros p H1 H2; destruct p; congruence || reflexivity | split; reflexivity]).
Qed.
Lemma marker_eq : forall s a off (f q : vec -> R) , (forall y, off_value off (f y) = Some (q y)) ->
     match ps_sonic s with
     | Some θ => if pa_hide_sonic a then [] else [mk_line None (Some "red") [(deg θ, off_value off (f (ps_sonic_values s)))]]
     | None => []
     end ++
     match ps_roots s with
     | Some θs => if pa_hide_roots a then [] else
         [mk_line None (Some "black") (map (fun p' => (deg (fst p'), off_value off (f (snd p')))) (combine θs (ps_root_values s)))]
     | None => []
     end = markers s a q.
Proof.
  intros s a off f q H. unfold markers. f_equal.
  - destruct (ps_sonic s), (pa_hide_sonic a); try reflexivity. rewrite H. reflexivity.
  - destruct (ps_roots s), (pa_hide_roots a); try reflexivity. do 2 f_equal. apply map_ext. intros p. rewrite H. reflexivity.
Qed.
Lemma curve_eq : forall s lo hi (q q' : vec -> num), (forall y, q y = q' y) -> angle_curve s lo hi q = angle_curve s lo hi q'.
Proof. intros s lo hi q q' H. unfold angle_curve, curve. apply map_ext. intros p. rewrite H. reflexivity. Qed.

(** C97 (ds-plot): after any history, the eight panels show exactly the promised quantities at exactly the samples in range. *)
Theorem C97_plot : forall h a s e,
  List.length (ps_angles s) = List.length (ps_rows s) ->
  (forall θs, ps_roots s = Some θs -> pa_hide_roots a = false -> List.length θs = List.length (ps_root_values s)) ->
  0 <= ps_kepler_sq s ->
  snd (run_command (Cplot a s e) (after h)) = Ok (map (promised_panel s a) (quantities (sqrt (ps_kepler_sq s)) e)).
Proof.
  intros h a s e HL HR HK. rewrite C97_history. cbn [run_command]. unfold generate_plot.
  destruct (plot_settings a s e) as (EA & EO & Eφ & Eθ).
  destruct (plot_store a s e COMMON_ARGUMENTS) as [st args]. cbn [fst snd] in *. subst args.
  assert (forall y, off_value (Some (Off_number (np_sqrt (ps_kepler_sq s)))) y = Some (y - sqrt (ps_kepler_sq s))) as Hφ.
  { intros y. unfold off_value, np_sqrt. destruct (Rlt_dec (ps_kepler_sq s) 0); [lra|reflexivity]. }
  assert (forall i p, p <> pv_θ -> p <> pv_φ -> In p (PLOT_ORDERINGS (if e then ord_E_r else ord_B_φ_prime)) ->
    plot_panel a s st i p = Ok (mk_panel (s_name (COMMON_ARGUMENTS p)) (get_scale (COMMON_ARGUMENTS p))
      (mk_line (Some (s_name (COMMON_ARGUMENTS p))) None (angle_curve s (pa_start a) (pa_stop a) (fun y => Some (y i))) :: markers s a (fun y => y i)))) as Hplain.
  { intros i p H1 H2 H3. rewrite (plot_panel_is a s st i p [] HL HR); rewrite (EO p H1 H2).
    - do 2 f_equal. replace (s_offset (COMMON_ARGUMENTS p)) with (@None offset) by (destruct p; reflexivity).
      cbn [map app]. reflexivity || (f_equal; apply (marker_eq s a None (fun y => y i)); reflexivity).
    - destruct p; exact I.
    - destruct p; reflexivity. }
  assert (plot_panel a s st 4 pv_φ = Ok (promised_panel s a ("$(v_φ - v_k)/c_s$", fun y => y iv_φ - sqrt (ps_kepler_sq s)))) as Pφ.
  { rewrite (plot_panel_is a s st 4 pv_φ [] HL HR); rewrite Eφ; [| exact I | reflexivity].
    unfold promised_panel. cbn [map app s_name s_offset get_scale s_scale String.eqb Ascii.eqb eqb]. do 2 f_equal.
    f_equal; [f_equal; apply curve_eq; intros y; apply Hφ|].
    apply (marker_eq s a _ (fun y => y 4%nat)). intros y. apply Hφ. }
  assert (plot_panel a s st 5 pv_θ = Ok (promised_panel s a ("$v_θ/c_s$", fun y => y iv_θ))) as Pθ.
  { rewrite (plot_panel_is a s st 5 pv_θ (asked a) HL HR); rewrite Eθ; [| exact I | reflexivity].
    unfold promised_panel. cbn [s_name s_offset get_scale s_scale].
    rewrite asked_speeds. reflexivity || (do 2 f_equal; f_equal; cbn [String.eqb Ascii.eqb eqb]; f_equal;
    apply (marker_eq s a None (fun y => y 5%nat)); reflexivity). }
  destruct e; cbn [PLOT_ORDERINGS panels];
    rewrite Pφ, Pθ; rewrite !Hplain by (try discriminate; cbn; tauto); cbn [rbind]; reflexivity.
Qed.

(** ** ds-vert-plot *)
Definition height_curve (s : psoln) (lo hi : R) (q : R -> vec -> num) : list (R * num) :=
  curve (fun θ => tan θ / ps_c_s_on_v_k s) q lo hi (samples s).
(** The radius the code rescales to (it is not the one of a cylinder: C67). *)
Definition rescaled (s : psoln) (θ : R) : R := sqrt (1 + (tan θ / ps_c_s_on_v_k s) ^ 2).
Definition promised_vert (s : psoln) (a : vert_args) (lq : string * (R -> vec -> R)) : panel :=
  let '(label, q) := lq in
  mk_panel label (axis_scale "linear" label)
    (mk_line (Some label) None (height_curve s (va_start a) (va_stop a) (fun θ y => Some (q θ y)))
     :: if va_sonic a && String.eqb label "$v_z/c_s$"
        then [mk_line (Some "sound") None (height_curve s (va_start a) (va_stop a) (fun _ _ => Some 1))] else []).

Lemma rescaled_pos : forall s θ, 0 < rescaled s θ.
Proof. intros s θ. apply sqrt_lt_R0. assert (H := pow2_ge_0 (tan θ / ps_c_s_on_v_k s)). lra. Qed.
(** One converted row. *)
Definition converted (s : psoln) (p : R * vec) : R * pvec :=
  match convert_spherical_to_cylindrical (fst p) (snd p) false (ps_γ s) (ps_c_s_on_v_k s) with
  | Conv_ok hv => hv
  | Conv_error => (0, np_full_nan)
  end.
Lemma convert_rows_ok : forall γ c angles rows, List.length angles = List.length rows ->
  convert_rows angles rows γ c false =
  Ok (map (fun p => match convert_spherical_to_cylindrical (fst p) (snd p) false γ c with
                    | Conv_ok hv => hv | Conv_error => (0, np_full_nan) end) (combine angles rows)).
Proof.
  intros γ c angles. induction angles as [|θ t IH]; intros [|row rows] H; try discriminate; [reflexivity|].
  cbn [convert_rows combine map fst snd]. rewrite IH by (injection H; auto). reflexivity.
Qed.
Lemma converted_value : forall s θ y,
  let q n := match nth_error (vertical_quantities (ps_γ s) 0 (rescaled s)) n with Some lq => snd lq θ y | None => 0 end in
  fst (converted s (θ, y)) = tan θ / ps_c_s_on_v_k s /\
  forall n, (n < 8)%nat -> snd (converted s (θ, y)) n = Some (q n).
Proof.
  intros s θ y q. split; [reflexivity|]. intros n Hn.
  assert (K := sqrt_lt_R0 _ (rescaled_pos s θ)).
  change (Rpower (get_vertical_scaling θ (ps_c_s_on_v_k s))) with (Rpower (rescaled s θ)).
  do 8 (destruct n as [|n]; [cbn; unfold upd; cbn; f_equal;
    change (get_vertical_scaling θ (ps_c_s_on_v_k s)) with (rescaled s θ); field; lra|]).
  lia.
Qed.
Lemma vert_masked : forall s lo hi (q : R -> vec -> num),
  let heights := map fst (map (converted s) (samples s)) in
  let mask := map (in_range lo hi) heights in
  exists x y, mask_list mask heights = Ok x /\ mask_list mask (map (fun p => q (fst p) (snd p)) (samples s)) = Ok y /\
    points x y = Ok (height_curve s lo hi q).
Proof.
  intros s lo hi q heights mask. unfold mask, heights. rewrite !map_map.
  rewrite !mask_filter. eexists _, _. split; [reflexivity|]. split; [reflexivity|].
  rewrite points_map. unfold height_curve, curve. f_equal.
  assert (forall p, fst (converted s p) = tan (fst p) / ps_c_s_on_v_k s) as E by (intros [θ y]; apply (converted_value s θ y)).
  transitivity (map (fun p => (tan (fst p) / ps_c_s_on_v_k s, q (fst p) (snd p)))
    (filter (fun x => in_range lo hi (fst (converted s x))) (samples s))).
  - apply map_ext. intros p. rewrite E. reflexivity.
  - f_equal. apply filter_ext. intros p. rewrite E. apply in_range_between.
Qed.
Lemma vert_panel_is : forall a s st i p q,
  let conv := map (converted s) (samples s) in
  minus_offset (map (fun hv => snd hv i) conv) (s_offset (st p)) = Ok (map (fun p => q (fst p) (snd p)) (samples s)) ->
  get_extras (st p) = [] \/ get_extras (st p) = [mk_extra "sound" (map (fun _ => Some 1) conv)] ->
  vert_panel a conv st i p = Ok (mk_panel (s_name (st p)) (get_scale (st p))
    (mk_line (Some (s_name (st p))) None (height_curve s (va_start a) (va_stop a) q)
     :: match get_extras (st p) with [] => [] | _ => [mk_line (Some "sound") None (height_curve s (va_start a) (va_stop a) (fun _ _ => Some 1))] end)).
Proof.
  intros a s st i p q conv Hoff Hex. unfold vert_panel. cbv zeta.
  destruct (vert_masked s (va_start a) (va_stop a) q) as (x & y & E1 & E2 & E3). unfold conv in *.
  rewrite E1. cbn [rbind]. rewrite Hoff. cbn [rbind]. rewrite E2. cbn [rbind]. rewrite E3. cbn [rbind].
  destruct Hex as [-> | ->]; [reflexivity|]. cbn [lines_of ex_data ex_label].
  destruct (vert_masked s (va_start a) (va_stop a) (fun _ _ => Some 1)) as (x' & y' & F1 & F2 & F3).
  rewrite (map_map (converted s) (fun _ => Some 1)). rewrite E1 in F1. injection F1 as <-.
  match goal with |- context [@mask_list ?A ?m ?l] => let E := fresh in assert (E : @mask_list A m l = Ok y') by exact F2; rewrite E; clear E end.
  cbn [rbind].
  match goal with |- context [points ?u ?v] => let E := fresh in assert (E : points u v = Ok (height_curve s (va_start a) (va_stop a) (fun _ _ => Some 1))) by exact F3; rewrite E end.
  reflexivity.
Qed.
(** C97 (ds-vert-plot): after any history the panels show exactly the converted quantities of the samples whose height is in
    range; the v_φ panel shows the deviation from the Keplerian speed, rescaled like every velocity. *)
Theorem C97_vert : forall h a s,
  List.length (ps_angles s) = List.length (ps_rows s) -> 0 <= ps_kepler_sq s ->
  snd (run_command (Cvert a s false) (after h)) =
  Ok (map (promised_vert s a) (vertical_quantities (ps_γ s) (sqrt (ps_kepler_sq s)) (rescaled s))).
Proof.
  intros h a s HL HK. rewrite C97_history. cbn [run_command]. unfold generate_vert_plot.
  rewrite (convert_rows_ok _ _ _ _ HL). cbv zeta.
  change (map (fun p => match convert_spherical_to_cylindrical (fst p) (snd p) false (ps_γ s) (ps_c_s_on_v_k s) with
    | Conv_ok hv => hv | Conv_error => (0, np_full_nan) end) (combine (ps_angles s) (ps_rows s)))
    with (map (converted s) (samples s)).
  set (conv := map (converted s) (samples s)).
  set (off := map _ (ps_angles s)).
  assert (Hoff : off = map (fun p => np_sqrt (ps_kepler_sq s / rescaled s (fst p))) (samples s)).
  { unfold off. rewrite <- (combine_fst (ps_angles s) (ps_rows s) HL) at 1. rewrite map_map. reflexivity. }
  set (sound := mk_extra "sound" (map (fun _ => Some 1) conv)).
  destruct (get_common_arguments ord_B_φ_prime_vert "linear" (ps_kepler_sq s) false (Some (Off_array off)) COMMON_ARGUMENTS)
    as [st0 args] eqn:Eg.
  assert (args = PLOT_ORDERINGS ord_B_φ_prime_vert) as -> by (unfold get_common_arguments in Eg; congruence).
  set (st := if va_sonic a then _ else _).
  assert (st pv_φ = mk_settings "$(v_φ - v_k)/c_s$" false None (Some (Off_array off)) None /\
          st pv_z = mk_settings "$v_z/c_s$" true None None (Some (if va_sonic a then [sound] else [])) /\
          forall p, p <> pv_φ -> p <> pv_z -> In p (PLOT_ORDERINGS ord_B_φ_prime_vert) -> st p = COMMON_ARGUMENTS p) as (Eφ & Ez & EO).
  { unfold st. replace st0 with (fst (get_common_arguments ord_B_φ_prime_vert "linear" (ps_kepler_sq s) false (Some (Off_array off)) COMMON_ARGUMENTS))
      by (rewrite Eg; reflexivity).
    destruct (va_sonic a); (split; [reflexivity|]; split; [reflexivity|]); intros p H1 H2 H3; destruct p; try congruence; try reflexivity;
      cbn in H3; destruct H3 as [?|[?|[?|[?|[?|[?|[?|[?|[]]]]]]]]]; discriminate. }
  cbn [snd].
  assert (Hcol : forall n, (n < 8)%nat -> map (fun hv : R * pvec => snd hv n) conv =
     map (fun p => Some (match nth_error (vertical_quantities (ps_γ s) 0 (rescaled s)) n with Some lq => snd lq (fst p) (snd p) | None => 0 end)) (samples s)).
  { intros n Hn. unfold conv. rewrite map_map. apply map_ext. intros [θ y]. apply (converted_value s θ y), Hn. }
  assert (Hplain : forall n p, (n < 8)%nat -> p <> pv_φ -> p <> pv_z -> In p (PLOT_ORDERINGS ord_B_φ_prime_vert) ->
    vert_panel a conv st n p = Ok (mk_panel (s_name (COMMON_ARGUMENTS p)) (get_scale (COMMON_ARGUMENTS p))
      [mk_line (Some (s_name (COMMON_ARGUMENTS p))) None (height_curve s (va_start a) (va_stop a)
        (fun θ y => Some (match nth_error (vertical_quantities (ps_γ s) 0 (rescaled s)) n with Some lq => snd lq θ y | None => 0 end)))])).
  { intros n p Hn H1 H2 H3.
    assert (s_offset (COMMON_ARGUMENTS p) = None /\ get_extras (COMMON_ARGUMENTS p) = []) as [A B] by (destruct p; split; reflexivity).
    unfold conv. rewrite (vert_panel_is a s st n p (fun θ y => Some (match nth_error (vertical_quantities (ps_γ s) 0 (rescaled s)) n with
        Some lq => snd lq θ y | None => 0 end))); rewrite (EO p H1 H2 H3).
    - rewrite B. reflexivity.
    - rewrite A. cbn [minus_offset]. rewrite <- Hcol by exact Hn. reflexivity.
    - left. exact B. }
  assert (Pz : vert_panel a conv st 5 pv_z = Ok (promised_vert s a ("$v_z/c_s$", fun θ y => (y iv_θ * cos θ + y iv_r * sin θ) / sqrt (rescaled s θ)))).
  { unfold conv. rewrite (vert_panel_is a s st 5 pv_z (fun θ y => Some ((y iv_θ * cos θ + y iv_r * sin θ) / sqrt (rescaled s θ)))); rewrite Ez.
    - unfold promised_vert. destruct (va_sonic a); reflexivity.
    - cbn [minus_offset s_offset]. fold conv. rewrite Hcol by lia. reflexivity.
    - destruct (va_sonic a); [right|left]; reflexivity. }
  assert (Pφ : vert_panel a conv st 4 pv_φ = Ok (promised_vert s a ("$(v_φ - v_k)/c_s$", fun θ y => (y iv_φ - sqrt (ps_kepler_sq s)) / sqrt (rescaled s θ)))).
  { unfold conv. rewrite (vert_panel_is a s st 4 pv_φ (fun θ y => Some ((y iv_φ - sqrt (ps_kepler_sq s)) / sqrt (rescaled s θ)))); rewrite Eφ.
    - unfold promised_vert. destruct (va_sonic a); reflexivity.
    - cbn [minus_offset s_offset]. fold conv. rewrite Hcol by lia. rewrite Hoff, sub_map. f_equal. apply map_ext. intros [θ y].
      cbn [nth_error vertical_quantities snd fst]. assert (P := rescaled_pos s θ). assert (Q := sqrt_lt_R0 _ P).
      unfold np_sqrt. destruct (Rlt_dec (ps_kepler_sq s / rescaled s θ) 0) as [X|X].
      + exfalso. apply (Rlt_not_le _ _ X). apply Rmult_le_pos; [exact HK|]. apply Rlt_le, Rinv_0_lt_compat, P.
      + cbn [num_sub]. f_equal. rewrite sqrt_div by assumption. field. lra.
    - left. reflexivity. }
  cbn [PLOT_ORDERINGS panels]. rewrite Pφ, Pz. rewrite !Hplain by (try discriminate; try lia; cbn; tauto).
  cbn [rbind]. unfold vertical_quantities. cbn [map].
  unfold promised_vert. destruct (va_sonic a); reflexivity.
Qed.
(** C97 (ds-vert-plot, E_r): a run in the E_r formulation is refused and leaves the shared settings alone. *)
Theorem C97_vert_refused : forall a s st, ps_angles s <> [] -> ps_rows s <> [] ->
  generate_vert_plot a s true st = (st, Raise DiscSolverError).
Proof.
  intros a s st H1 H2. unfold generate_vert_plot.
  destruct (ps_angles s) as [|θ t]; [congruence|]. destruct (ps_rows s) as [|y r]; [congruence|]. reflexivity.
Qed.

(** ** ds-compare-plot *)
(** C97 (colours): with palettes of 10, 20, 10 and 10 colours there are always at least as many colours as asked for, so pairing
    solutions with colours drops none. *)
Theorem C97_colors : forall tab10 tab20 light10 medium10 greys size,
  List.length tab10 = 10%nat -> List.length tab20 = 20%nat -> List.length light10 = 10%nat -> List.length medium10 = 10%nat ->
  (forall n, List.length (greys n) = n) ->
  (size <= List.length (distinct_color_map tab10 tab20 light10 medium10 greys size))%nat /\
  (30 < size -> List.length (distinct_color_map tab10 tab20 light10 medium10 greys size) = size)%nat.
Proof.
  intros tab10 tab20 light10 medium10 greys size H1 H2 H3 H4 H5. unfold distinct_color_map. cbv zeta.
  rewrite !app_length, H1, H2, H3, H4.
  destruct (Nat.leb_spec size 10); [lia|]. destruct (Nat.leb_spec size 20); [lia|].
  destruct (Nat.leb_spec size (10 + (10 + 10))); rewrite ?app_length, ?H5, ?app_length; lia.
Qed.
Definition label_of (n : nat) : string := fst (nth n (quantities 0 false) ("", fun _ => 0)).
Definition quantity_of (K : R) (n : nat) : vec -> R := snd (nth n (quantities (sqrt K) false) ("", fun _ => 0)).
Definition promised_cmp (a : cmp_args) (l : list ((string * psoln) * string)) (n : nat) : panel :=
  mk_panel (label_of n) (axis_scale (ca_v_θ_scale a) (label_of n))
    (map (fun p => let s := snd (fst p) in
            mk_line (Some (fst (fst p))) (Some (snd p))
              (angle_curve s (ca_start a) (ca_stop a) (fun y => Some (quantity_of (ps_kepler_sq s) n y)))) l).
Definition drawable (s : psoln) : Prop := List.length (ps_angles s) = List.length (ps_rows s) /\ 0 <= ps_kepler_sq s.
Lemma cmp_panel_is : forall a name color s st i p, drawable s -> scalar (s_offset (st p)) ->
  cmp_panel a name color s st i p = Ok (mk_panel (s_name (st p)) (get_scale (st p))
    [mk_line (Some name) (Some color) (angle_curve s (ca_start a) (ca_stop a) (fun y => off_value (s_offset (st p)) (y i)))]).
Proof.
  intros a name color s st i p [HL HK] Hoff. unfold cmp_panel. cbv zeta.
  destruct (masked_curve s (ca_start a) (ca_stop a) (fun y => off_value (s_offset (st p)) (y i)) HL) as (x & y & E1 & E2 & E3).
  rewrite E1. cbn [rbind]. unfold column. rewrite (minus_scalar (fun row : vec => row i)) by exact Hoff. cbn [rbind].
  rewrite E2. cbn [rbind]. rewrite E3. reflexivity.
Qed.
(** One solution's figure. *)
Lemma cmp_figure : forall a name color s st, kept st -> drawable s ->
  panels (cmp_panel a name color s (fst (get_common_arguments ord_B_φ_prime (ca_v_θ_scale a) (ps_kepler_sq s) false None st))) 0
    (PLOT_ORDERINGS ord_B_φ_prime) = Ok (map (promised_cmp a [((name, s), color)]) (seq 0 8)).
Proof.
  intros a name color s st Hst Hs.
  set (st0 := fst (get_common_arguments ord_B_φ_prime (ca_v_θ_scale a) (ps_kepler_sq s) false None COMMON_ARGUMENTS)).
  rewrite (panels_ext _ (cmp_panel a name color s st0)).
  2:{ intros j p Hp. apply cmp_panel_st. apply gca_fixed; [exact Hst | apply kept_init | left; reflexivity | exact Hp]. }
  assert (forall y, off_value (Some (Off_number (np_sqrt (ps_kepler_sq s)))) y = Some (y - sqrt (ps_kepler_sq s))) as Hφ.
  { intros y. destruct Hs as [_ HK]. unfold off_value, np_sqrt. destruct (Rlt_dec (ps_kepler_sq s) 0); [lra|reflexivity]. }
  assert (Pφ : cmp_panel a name color s st0 4 pv_φ = Ok (promised_cmp a [((name, s), color)] 4)).
  { rewrite cmp_panel_is; [|exact Hs|exact I]. unfold promised_cmp. cbn [map]. do 3 f_equal. f_equal. apply curve_eq. intros y. apply Hφ. }
  cbn [PLOT_ORDERINGS panels]. rewrite Pφ. rewrite !cmp_panel_is by (exact Hs || exact I). cbn [rbind]. reflexivity.
Qed.
Lemma overlay_promised : forall a l l' ns,
  overlay (map (promised_cmp a l) ns) (map (promised_cmp a l') ns) = map (promised_cmp a (l ++ l')) ns.
Proof.
  intros a l l' ns. induction ns as [|n t IH]; [reflexivity|]. cbn [map overlay]. rewrite IH. f_equal.
  unfold promised_cmp. cbn [p_ylabel p_yscale p_lines]. rewrite map_app. reflexivity.
Qed.
Lemma compare_loop_is : forall a l before st, kept st -> Forall (fun p => drawable (snd (fst p))) l ->
  snd (compare_loop a l (map (promised_cmp a before) (seq 0 8)) st) = Ok (map (promised_cmp a (before ++ l)) (seq 0 8)).
Proof.
  intros a l. induction l as [|[[name s] color] t IH]; intros before st Hst Hl; [rewrite app_nil_r; reflexivity|].
  cbn [compare_loop]. inversion_clear Hl as [|? ? Hs Ht].
  assert (F := cmp_figure a name color s st Hst Hs).
  assert (K := kept_gca ord_B_φ_prime (ca_v_θ_scale a) (ps_kepler_sq s) false None st Hst).
  assert (A := gca_args ord_B_φ_prime (ca_v_θ_scale a) (ps_kepler_sq s) false None st).
  destruct (get_common_arguments _ _ _ _ _ st) as [st1 args]. cbn [fst snd] in *. subst args.
  rewrite F, overlay_promised, (IH (before ++ [((name, s), color)]) st1 K Ht), <- app_assoc. reflexivity.
Qed.
Lemma compare_first : forall a x l st, kept st -> Forall (fun p => drawable (snd (fst p))) (x :: l) ->
  snd (compare_loop a (x :: l) [] st) = Ok (map (promised_cmp a (x :: l)) (seq 0 8)).
Proof.
  intros a [[name s] color] l st Hst Hl. cbn [compare_loop]. inversion_clear Hl as [|? ? Hs Ht].
  assert (F := cmp_figure a name color s st Hst Hs).
  assert (K := kept_gca ord_B_φ_prime (ca_v_θ_scale a) (ps_kepler_sq s) false None st Hst).
  assert (A := gca_args ord_B_φ_prime (ca_v_θ_scale a) (ps_kepler_sq s) false None st).
  destruct (get_common_arguments _ _ _ _ _ st) as [st1 args]. cbn [fst snd] in *. subst args.
  rewrite F. cbn [overlay]. apply (compare_loop_is a l [((name, s), color)] st1 K Ht).
Qed.
(** C97 (ds-compare-plot): with enough colours every solution gets one line in every panel, under its own name, in its own colour,
    measured from its own Keplerian speed; in the order given. *)
Theorem C97_compare : forall h a colors n sols, sols <> [] -> (List.length sols <= List.length (colors n))%nat ->
  Forall (fun p => drawable (snd p)) sols ->
  let drawn := combine sols (colors n) in
  map fst drawn = sols /\
  snd (run_command (Ccompare a colors n sols) (after h)) = Ok (map (promised_cmp a drawn) (seq 0 8)).
Proof.
  intros h a colors n sols Hne Hlen Hall drawn.
  assert (Hfst : map fst drawn = sols).
  { unfold drawn. clear Hne Hall. revert Hlen. generalize (colors n) as cs. induction sols as [|x t IH]; intros cs Hlen; [reflexivity|].
    destruct cs as [|c cs]; cbn in Hlen; [lia|]. cbn. rewrite IH by lia. reflexivity. }
  split; [exact Hfst|]. cbn [run_command]. unfold generate_compare_plot. fold drawn.
  assert (Forall (fun p => drawable (snd (fst p))) drawn) as Hd.
  { rewrite Forall_forall in Hall |- *. intros p Hp. apply Hall. rewrite <- Hfst. apply in_map, Hp. }
  clearbody drawn. destruct drawn as [|x l]; [cbn in Hfst; congruence|].
  apply compare_first; [apply kept_after | exact Hd].
Qed.
(** C97 (labels): refuted for runs in the E_r formulation - where ds-plot labels the last panel E_r, ds-compare-plot draws the same
    curve under B_φ'. *)
Theorem C97_compare_label_refuted : forall h h' a s name color, drawable s ->
  pa_hide_roots a = true -> pa_hide_sonic a = true ->
  let c := mk_cmp_args (pa_start a) (pa_stop a) (pa_v_θ_scale a) in
  exists fig fig' p p', snd (run_command (Cplot a s true) (after h)) = Ok fig /\
    snd (run_command (Ccompare c (fun _ => [color]) 1 [(name, s)]) (after h')) = Ok fig' /\
    nth_error fig 7 = Some p /\ nth_error fig' 7 = Some p' /\
    map l_points (p_lines p) = map l_points (p_lines p') /\
    p_ylabel p = "$E_r/E_0$" /\ p_ylabel p' = "$B_φ'/B_0$".
Proof.
  intros h h' a s name color Hs Hr Hq c.
  assert (P := C97_plot h a s true (proj1 Hs) ltac:(intros; congruence) (proj2 Hs)).
  destruct (C97_compare h' c (fun _ => [color]) 1%nat [(name, s)] ltac:(discriminate) ltac:(cbn; lia)
    ltac:(constructor; [exact Hs|constructor])) as [_ Q].
  eexists _, _, _, _. split; [exact P|]. split; [exact Q|]. split; [reflexivity|]. split; [reflexivity|].
  split; [|split; reflexivity]. cbn. unfold markers. rewrite Hr, Hq.
  destruct (ps_sonic s), (ps_roots s); reflexivity.
Qed.

(** ** ds-derivs-plot and ds-params-plot *)
(** A curve on a logarithmic axis: the values from zero on, and the others with their sign changed. *)
Definition log_curves (angles : list R) (rows : list vec) (lo hi : R) (q : vec -> R) : list (list (R * num)) :=
  let shown := filter (fun p => between lo hi (deg (fst p))) (combine angles rows) in
  [ map (fun p => (deg (fst p), Some (q (snd p)))) (filter (fun p => if Rle_dec 0 (q (snd p)) then true else false) shown);
    map (fun p => (deg (fst p), Some (- q (snd p)))) (filter (fun p => if Rlt_dec (q (snd p)) 0 then true else false) shown) ].
Definition int_curves (nolog : bool) (angles : list R) (rows : list vec) (lo hi : R) (q : vec -> R) : list line :=
  if nolog then [mk_line None None (curve deg (fun _ y => Some (q y)) lo hi (combine angles rows))]
  else map (mk_line None None) (log_curves angles rows lo hi q).
Lemma filter_map_comm : forall {A B} (f : B -> bool) (g : A -> B) l, filter f (map g l) = map g (filter (fun x => f (g x)) l).
Proof. intros A B f g l. induction l as [|x t IH]; [reflexivity|]. cbn. rewrite IH. destruct (f (g x)); reflexivity. Qed.
Lemma int_panel_is : forall a angles rows st i p, List.length angles = List.length rows ->
  int_panel a angles rows st i p = Ok (mk_panel (s_name (st p)) (if ia_nolog a then "linear" else "log")
    (int_curves (ia_nolog a) angles rows (ia_start a) (ia_stop a) (fun y => y i))).
Proof.
  intros a angles rows st i p HL.
  assert (exists L, angles = map fst L /\ rows = map snd L /\ combine angles rows = L) as (L & -> & -> & EL).
  { exists (combine angles rows). rewrite combine_fst, combine_snd by exact HL. auto. }
  unfold int_panel, column. cbv zeta. rewrite !map_map, !mask_filter. cbn [rbind]. rewrite ?mask_filter. cbn [rbind].
  unfold int_curves, log_curves, curve. rewrite EL.
  rewrite (filter_ext _ (fun p => between (ia_start a) (ia_stop a) (deg (fst p)))) by (intros [θ y]; apply in_range_between).
  set (S := filter _ L).
  destruct (ia_nolog a).
  - rewrite map_map, points_map. reflexivity.
  - unfold plot_log_lines. rewrite !map_map, !mask_filter. cbn [rbind].
    rewrite points_map. cbn [rbind]. rewrite ?mask_filter. cbn [rbind]. rewrite map_map, points_map. cbn [rbind map].
    rewrite (filter_ext (fun x : R * vec => negb (non_negative (Some (snd x i)))) (fun p => if Rlt_dec (snd p i) 0 then true else false)).
    + reflexivity.
    + intros [θ y]. cbn. destruct (Rle_dec 0 (y i)), (Rlt_dec (y i) 0); try reflexivity; lra.
Qed.
Definition promised_int (nolog : bool) (angles : list R) (rows : list vec) (lo hi : R) (lq : string * (vec -> R)) : panel :=
  mk_panel (fst lq) (if nolog then "linear" else "log") (int_curves nolog angles rows lo hi (snd lq)).
(** C97 (ds-derivs-plot): after any history every panel shows the recorded derivative of the quantity in its title, in the range,
    each value once, with its sign dropped on the logarithmic axis. *)
Theorem C97_derivs : forall h a s e angles params derivs, ps_internal s = Some (angles, params, derivs) ->
  List.length angles = List.length derivs ->
  snd (run_command (Cderivs a s e) (after h)) =
  Ok (map (promised_int (ia_nolog a) angles derivs (ia_start a) (ia_stop a))
       (map (fun n => (fst (nth n (quantities 0 e) ("", fun _ => 0)), fun y : vec => y n)) (seq 0 8))).
Proof.
  intros h a s e angles params derivs Hi HL. rewrite C97_history. cbn [run_command]. unfold generate_derivs_plot. rewrite Hi. cbv zeta.
  destruct e; cbn [get_common_arguments PLOT_ORDERINGS panels snd]; unfold get_common_arguments; cbn [snd panels PLOT_ORDERINGS];
    rewrite !int_panel_is by exact HL; cbn [rbind]; reflexivity.
Qed.
(** C97 (ds-params-plot): the same for the recorded states ... *)
Theorem C97_params_exact : forall h a s angles params derivs, ps_internal s = Some (angles, params, derivs) ->
  List.length angles = List.length params ->
  snd (run_command (Cparams a s false) (after h)) =
  Ok (map (promised_int false angles params (ia_start a) (ia_stop a))
       (map (fun n => (fst (nth n (quantities 0 false) ("", fun _ => 0)), fun y : vec => y n)) (seq 0 8))).
Proof.
  intros h a s angles params derivs Hi HL. rewrite C97_history. cbn [run_command]. unfold generate_params_plot. rewrite Hi.
  unfold get_common_arguments; cbn [snd panels PLOT_ORDERINGS];
    rewrite !int_panel_is by exact HL; cbn [rbind]; reflexivity.
Qed.
(** ... but refuted for the label: the panel titled (v_φ - v_k)/c_s shows v_φ, whatever the Keplerian speed is. *)
Theorem C97_params_label_refuted : exists s a, forall h, exists fig p,
  snd (run_command (Cparams a s false) (after h)) = Ok fig /\ nth_error fig 4 = Some p /\ p_ylabel p = "$(v_φ - v_k)/c_s$" /\
  sqrt (ps_kepler_sq s) = 3 /\
  map l_points (p_lines p) = log_curves [0] [fun _ => 3] (ia_start a) (ia_stop a) (fun y => y iv_φ) /\
  map l_points (p_lines p) <> log_curves [0] [fun _ => 3] (ia_start a) (ia_stop a) (fun y => y iv_φ - sqrt (ps_kepler_sq s)).
Proof.
  exists (mk_psoln [] [] 9 0 1 None (fun _ => 0) None [] (Some ([0], [fun _ => 3], [fun _ => 0]))), (mk_int_args 0 90 false).
  intros h. eexists _, _. split; [apply (C97_params_exact h _ _ [0] [fun _ => 3] [fun _ => 0]); reflexivity|].
  split; [reflexivity|]. split; [reflexivity|].
  assert (sqrt 9 = 3) as E by (replace 9 with (3 ^ 2) by lra; apply sqrt_pow2; lra).
  split; [exact E|]. split; [reflexivity|]. cbn [ps_kepler_sq ia_start ia_stop].
  unfold promised_int, int_curves. cbn [p_lines snd fst]. rewrite map_map. cbn [map l_points].
  unfold log_curves. cbn [combine filter fst snd].
  assert (deg 0 = 0) as D by (unfold deg, Rdiv; ring). rewrite D.
  assert (between 0 90 0 = true) as B. { unfold between. destruct (Rle_dec 0 0); [|lra]. destruct (Rle_dec 0 90); [reflexivity|lra]. }
  rewrite B, E. cbn [filter fst snd map].
  destruct (Rle_dec 0 3); [|lra]. destruct (Rle_dec 0 (3 - 3)); [|lra].
  cbn [map l_points fst snd]. intros X. injection X. intros. lra.
Qed.

(** The hypotheses are met: a solution with a sample out of range, a sonic point, roots, and an earlier vertical plot. *)
Definition shown_soln : psoln :=
  mk_psoln [0; PI / 4; PI / 2] [(fun _ => 1); (fun _ => 2); (fun _ => 3)] 4 (1 / 10) (1 / 10) (Some (PI / 4)) (fun _ => 2)
    (Some [PI / 4]) [fun _ => 2] None.
Example C97_nonvacuous : exists p x y,
  snd (run_command (Cplot (mk_plot_args true false true true 0 50 "log" false false) shown_soln false)
        (after [Cvert (mk_vert_args true 0 90) shown_soln false])) =
    Ok (map (promised_panel shown_soln (mk_plot_args true false true true 0 50 "log" false false)) (quantities (sqrt 4) false)) /\
  nth_error (map (promised_panel shown_soln (mk_plot_args true false true true 0 50 "log" false false)) (quantities (sqrt 4) false)) 5 = Some p /\
  List.length (p_lines p) = 6%nat /\
  l_points (nth 0 (p_lines p) (mk_line None None [])) = [x; y] /\ snd x = Some 1 /\ snd y = Some 2.
Proof.
  eexists _, _, _. split; [apply C97_plot; cbn; [reflexivity | intros θs E _; injection E as <-; reflexivity | lra]|].
  split; [reflexivity|]. split; [reflexivity|].
  assert (P := PI_RGT_0).
  cbn [promised_panel p_lines nth l_points]. unfold angle_curve, curve, samples, shown_soln. cbn [ps_angles ps_rows combine filter fst pa_start pa_stop].
  assert (deg 0 = 0) as -> by (unfold deg, Rdiv; ring).
  assert (deg (PI / 4) = 45) as -> by (unfold deg; field; lra).
  assert (deg (PI / 2) = 90) as -> by (unfold deg; field; lra).
  unfold between.
  destruct (Rle_dec 0 0); [|lra]. destruct (Rle_dec 0 50); [|lra]. destruct (Rle_dec 0 45); [|lra]. destruct (Rle_dec 45 50); [|lra].
  destruct (Rle_dec 0 90); [|lra]. destruct (Rle_dec 90 50); [lra|].
  cbn [map fst snd]. split; [reflexivity|]. split; reflexivity.
Qed.
