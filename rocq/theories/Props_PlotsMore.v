(** C103: divergence, current and field, validation and ratio plots, and the speed of the jet. *)
From Coq Require Import Reals List Bool String Arith Lra Lia.
From Verif Require Import Lib_Py Model_Index Model_Deriv Model_Ode Model_Waves Model_Array Model_Critical Model_Validate Model_Stats
  Model_Filter Model_Plots Model_PlotsMore Spec_MHD Spec_Ode Spec_Plots Props_Plots Props_PlotsOther Props_Ode Props_Stats Props_Filter Props_Waves Witness_Ode Proofs_Array Proofs_Waves.
Import ListNotations.
Open Scope string_scope.
Open Scope list_scope.
Open Scope R_scope.

(** The samples in range of any table with an angle in each row. *)
Definition in_view {A : Type} (lo hi : R) (angle : A -> R) (l : list A) : list A := filter (fun a => between lo hi (deg (angle a))) l.
Lemma masked_is : forall A lo hi (angle : A -> R) (q : A -> Model_Plots.num) label color l,
  masked_line lo hi (map angle l) label color (map q l) =
  Ok (mk_line label color (map (fun a => (deg (angle a), q a)) (in_view lo hi angle l))).
Proof.
  intros A lo hi angle q label color l. unfold masked_line. cbv zeta. rewrite map_map, !mask_filter. cbn [rbind].
  rewrite map_map, points_map. cbn [rbind]. do 3 f_equal. apply filter_ext. intro a. apply in_range_between.
Qed.
Lemma all_lines_ok : forall l, all_lines (map Ok l) = Ok l.
Proof. induction l as [|a t IH]; [reflexivity|]. cbn. rewrite IH. reflexivity. Qed.

(** ** ds-diverge-plot *)
(** The lines of one solution: v_θ under its name and the wave speeds asked for, all in its colour. *)
Definition promised_diverge (slow alfven fast : bool) (lo hi : R) (p : (string * psoln) * string) : list line :=
  let '((name, s), color) := p in
  let draw label q := mk_line (Some label) (Some color) (angle_curve s lo hi q) in
  draw name (fun y => Some (y iv_θ))
  :: (if slow then [draw "slow" (fun y => np_sqrt (fst (fst (mhd_wave_speeds y 1))))] else [])
  ++ (if alfven then [draw "alfven" (fun y => np_sqrt (snd (fst (mhd_wave_speeds y 1))))] else [])
  ++ (if fast then [draw "fast" (fun y => np_sqrt (snd (mhd_wave_speeds y 1)))] else []).
Lemma column_line : forall s lo hi label color (q : vec -> Model_Plots.num), List.length (ps_angles s) = List.length (ps_rows s) ->
  masked_line lo hi (ps_angles s) label color (map q (ps_rows s)) = Ok (mk_line label color (angle_curve s lo hi q)).
Proof.
  intros s lo hi label color q H. unfold masked_line. destruct (masked_curve s lo hi q H) as (x & y & E1 & E2 & E3).
  cbv zeta in *. rewrite E1. cbn [rbind]. rewrite E2. cbn [rbind]. rewrite E3. reflexivity.
Qed.
Lemma diverge_one : forall slow alfven fast lo hi p, List.length (ps_angles (snd (fst p))) = List.length (ps_rows (snd (fst p))) ->
  diverge_lines slow alfven fast lo hi p = map Ok (promised_diverge slow alfven fast lo hi p).
Proof.
  intros slow alfven fast lo hi [[name s] color] H. cbn [fst snd] in H. unfold diverge_lines, promised_diverge, column, wave_curve.
  rewrite !(column_line s lo hi) by exact H. destruct slow, alfven, fast; reflexivity.
Qed.
(** Every solution given is drawn, each in a colour of its own list position, with the speeds asked for. *)
Theorem C103_diverge : forall slow alfven fast lo hi colors sols, (List.length sols <= List.length (colors (List.length sols)))%nat ->
  Forall (fun p => List.length (ps_angles (snd p)) = List.length (ps_rows (snd p))) sols ->
  let drawn := combine sols (colors (List.length sols)) in
  map fst drawn = sols /\
  generate_diverge_plot slow alfven fast lo hi colors sols =
    Ok (mk_panel "$v_θ / c_s$" "linear" (flat_map (promised_diverge slow alfven fast lo hi) drawn)).
Proof.
  intros slow alfven fast lo hi colors sols Hc Hl drawn. assert (Hf : map fst drawn = sols) by (apply combine_keeps, Hc).
  split; [exact Hf|]. unfold generate_diverge_plot. fold drawn.
  assert (E : flat_map (diverge_lines slow alfven fast lo hi) drawn = map Ok (flat_map (promised_diverge slow alfven fast lo hi) drawn)).
  { assert (Hd : forall p, In p drawn -> List.length (ps_angles (snd (fst p))) = List.length (ps_rows (snd (fst p)))).
    { intros p Hp. rewrite Forall_forall in Hl. apply Hl. rewrite <- Hf. apply in_map, Hp. }
    clearbody drawn. clear - Hd. induction drawn as [|p t IH]; [reflexivity|]. cbn [flat_map]. rewrite map_app, IH.
    - rewrite diverge_one; [reflexivity|]. apply Hd. left. reflexivity.
    - intros q Hq. apply Hd. right. exact Hq. }
  rewrite E, all_lines_ok. reflexivity.
Qed.
(** The command: the selection, and the title. *)
Theorem C103_diverge_command : forall slow alfven fast lo hi colors filename title ids sols,
  (forall n, (n <= List.length (colors n))%nat) ->
  Forall (fun p => List.length (ps_angles (snd p)) = List.length (ps_rows (snd p))) sols ->
  match ids with
  | Some ids => (forall k, In k ids -> dget k sols <> None)
  | None => True
  end ->
  exists shown fig,
    diverge_plot slow alfven fast lo hi colors filename title ids sols =
      Ok (fig, match title with Some "" => None | Some t => Some t | None => Some ("Comparison of v_θ for " ++ filename)%string end) /\
    match ids with
    | None => shown = sols
    | Some ids => map fst shown = ids /\ forall k s, In (k, s) shown -> dget k sols = Some s
    end /\
    p_lines fig = flat_map (promised_diverge slow alfven fast lo hi) (combine shown (colors (List.length shown))).
Proof.
  intros slow alfven fast lo hi colors filename title ids sols Hc Hl Hi.
  assert (HT : forall t, (if String.eqb t "" then None else Some t) = match Some t with Some "" => None | Some t => Some t | None => None end).
  { intros [|c t]; reflexivity. }
  unfold diverge_plot. destruct ids as [ids|].
  - destruct (C58_select _ ids sols) as (S1 & S2 & _). destruct (S2 Hi) as [shown Es]. rewrite Es. cbn [rbind].
    destruct (S1 shown Es) as [N D].
    assert (Hs : Forall (fun p => List.length (ps_angles (snd p)) = List.length (ps_rows (snd p))) shown).
    { rewrite Forall_forall in *. intros [k s] Hp. apply (Hl (k, s)). apply dget_In. apply D. exact Hp. }
    destruct (C103_diverge slow alfven fast lo hi colors shown (Hc _) Hs) as [_ E]. rewrite E. cbn [rbind].
    exists shown, (mk_panel "$v_θ / c_s$" "linear" (flat_map (promised_diverge slow alfven fast lo hi) (combine shown (colors (List.length shown))))). split; [|split; [split; [exact N|exact D]|reflexivity]].
    destruct title as [t|]; [rewrite HT|]; reflexivity.
  - cbn [rbind]. destruct (C103_diverge slow alfven fast lo hi colors sols (Hc _) Hl) as [_ E]. rewrite E. cbn [rbind].
    exists sols, (mk_panel "$v_θ / c_s$" "linear" (flat_map (promised_diverge slow alfven fast lo hi) (combine sols (colors (List.length sols))))). split; [|split; [reflexivity|reflexivity]].
    destruct title as [t|]; [rewrite HT|]; reflexivity.
Qed.

(** ** ds-j-e-plot *)
(** The current is the curl of the magnetic field and the electric field that of generalised Ohm's law, at radius 1 of the fluid. *)
Definition is_current (F : fluid) (θ : R) (J : R * R * R) : Prop :=
  let '(J_r, J_θ, J_φ) := J in curl_is (f_B_r F) (f_B_φ F) (f_B_θ F) 1 θ J_r J_φ J_θ.
Definition is_field (F : fluid) (θ : R) (J E : R * R * R) : Prop :=
  let '(J_r, J_θ, J_φ) := J in
  let ohm f := f (f_v_r F 1 θ) (f_v_φ F 1 θ) (f_v_θ F 1 θ) (f_B_r F 1 θ) (f_B_φ F 1 θ) (f_B_θ F 1 θ) J_r J_φ J_θ
                 (f_η_O F 1 θ) (f_η_A F 1 θ) (f_η_H F 1 θ) in
  E = (ohm ohm_E_r, ohm ohm_E_θ, ohm ohm_E_φ).
Lemma one_power : forall k, Rpower 1 k = 1.
Proof. intro k. unfold Rpower. rewrite ln_1, Rmult_0_r, exp_0. reflexivity. Qed.
Theorem C103_j_e : forall lo hi o y angles s, oa_θ_scale o = 1 -> oa_use_E_r o = false ->
  ps_angles s = angles -> ps_rows s = map y angles ->
  (forall θ, In θ angles -> solves_at o y θ /\ cos θ <> 0 /\ B_nonzero (y θ)) ->
  exists J E : R -> R * R * R,
    (forall θ, In θ angles -> is_current (fluid_of (oa_γ o) y) θ (J θ) /\ is_field (fluid_of (oa_γ o) y) θ (J θ) (E θ)) /\
    let curve_of q := [mk_line None None (map (fun θ => (deg θ, Some (q θ))) (in_view lo hi (fun θ => θ) angles))] in
    generate_j_e_plot lo hi (oa_γ o) s false = Ok
      [ mk_panel "$J_r$" "linear" (curve_of (fun θ => fst (fst (J θ)))); mk_panel "$J_θ$" "linear" (curve_of (fun θ => snd (fst (J θ))));
        mk_panel "$J_φ$" "linear" (curve_of (fun θ => snd (J θ))); mk_panel "$E_r$" "linear" (curve_of (fun θ => fst (fst (E θ))));
        mk_panel "$E_θ$" "linear" (curve_of (fun θ => snd (fst (E θ)))); mk_panel "$E_φ$" "linear" (curve_of (fun θ => snd (E θ))) ].
Proof.
  intros lo hi o y angles s Hsc HE Ha Hr H.
  exists (fun θ => fst (j_e_values (oa_γ o) θ (y θ))), (fun θ => snd (j_e_values (oa_γ o) θ (y θ))). split.
  - intros θ Hθ. destruct (H θ Hθ) as (Hs & Hc & HB).
    destruct (C12_J_is_curl_B o y θ Hsc Hs 1 Rlt_0_1 Hc) as (j_r & j_φ & j_θ & Hcurl & E1 & E2 & E3).
    rewrite one_power in E1, E2, E3. unfold rhs_derivs in E1, E2. rewrite HE in E1, E2. cbn [fst] in E1, E2.
    unfold j_e_values. cbv zeta. unfold J_func.
    set (J_r := J_r_func θ (y θ iB_φ) (y θ iB_φ_prime)) in *.
    set (dBr := deriv_B_r_func _ _ _ _ _ _ _ _ _ _ _ _ _ _).
    split.
    + unfold is_current. cbn [fst].
      replace J_r with j_r by (rewrite E1; unfold J_r; cbn; field).
      replace (J_φ_func (oa_γ o) (y θ iB_θ) dBr) with j_φ by (rewrite E2; unfold dBr; cbn; field).
      replace (J_θ_func (oa_γ o) (y θ iB_φ)) with j_θ by (rewrite E3; field). exact Hcurl.
    + unfold is_field. cbn [fst snd]. cbv zeta. rewrite C12_E_is_ohms_law by exact HB.
      unfold fluid_of, self_similar_fluid, self_similar. cbn [f_v_r f_v_φ f_v_θ f_B_r f_B_φ f_B_θ f_η_O f_η_A f_η_H].
      rewrite !one_power, !Rmult_1_l. reflexivity.
  - unfold generate_j_e_plot. rewrite Ha, Hr.
    assert (Ec : combine angles (map y angles) = map (fun θ => (θ, y θ)) angles).
    { clear. induction angles as [|θ t IH]; [reflexivity|]. cbn. rewrite IH. reflexivity. }
    rewrite Ec. cbv zeta.
    assert (L : forall q : (R * R * R) * (R * R * R) -> R,
      masked_line lo hi angles None None (@map (R * vec) (option R) (fun p => Some (q (j_e_values (oa_γ o) (fst p) (snd p)))) (map (fun θ => (θ, y θ)) angles)) =
      Ok (mk_line None None (map (fun θ => (deg θ, Some (q (j_e_values (oa_γ o) θ (y θ))))) (in_view lo hi (fun θ => θ) angles)))).
    { intro q. rewrite map_map. cbn [fst snd].
      rewrite <- (masked_is R lo hi (fun θ => θ) (fun θ => Some (q (j_e_values (oa_γ o) θ (y θ))))). rewrite map_id. reflexivity. }
    rewrite (L (fun v => fst (fst (fst v)))), (L (fun v => snd (fst (fst v)))), (L (fun v => snd (fst v))),
      (L (fun v => fst (fst (snd v)))), (L (fun v => snd (fst (snd v)))), (L (fun v => snd (snd v))). reflexivity.
Qed.
(** The last curve is zero: the azimuthal field vanishes. *)
Theorem C103_j_e_φ : forall γ θ y, B_nonzero y -> diffusive y -> snd (snd (j_e_values γ θ y)) = 0.
Proof.
  intros γ θ y HB HD. set (o := mk_ode_args γ 1 1 y 1 false false false false None true).
  assert (E := C06_validate_E_φ o θ y _ _ eq_refl HB HD). cbv zeta in E.
  replace (θ * oa_θ_scale o) with θ in E by (cbn; ring). unfold validate_E_φ in E.
  unfold rhs_derivs in E. cbn in E. unfold scaled_to_rad_num in E. rewrite ?Rmult_1_r in E. cbn. rewrite ?Rmult_1_r. exact E.
Qed.
Theorem C103_j_e_refused : forall lo hi γ s, generate_j_e_plot lo hi γ s true = Raise OtherError.
Proof. reflexivity. Qed.

(** ** ds-validate-plot *)
(** The rows recorded by accepted calls of the right-hand side, in a state where every equation is required to hold. *)
Definition recorded (o : ode_args) (row : R * vec * vec) : Prop :=
  exists x p d e, rhs_equation o x p = Rhs_ok d (Some e) /\ row = (ie_angle e, ie_params e, ie_derivs e).
Definition regular (o : ode_args) (p : vec) : Prop :=
  p iv_θ <> 0 /\ p iρ <> 0 /\ p iv_θ ^ 2 <> 1 /\ B_nonzero p /\ diffusive p.
Definition angle_of (row : R * vec * vec) : R := fst (fst row).
Definition values_of (ic : validate_ic) (row : R * vec * vec) : values := get_values ic (fst (fst row)) (snd (fst row)) (snd row).
Lemma recorded_row : forall o x p d e, rhs_equation o x p = Rhs_ok d (Some e) ->
  ie_angle e = x * oa_θ_scale o /\ ie_params e = p /\ ie_derivs e = d.
Proof.
  intros o x p d e H. unfold rhs_equation in H.
  destruct (andb _ _); [discriminate|]. destruct (andb _ _); [discriminate|].
  destruct (rhs_derivs o (scaled_to_rad_num x (oa_θ_scale o)) p) as [d' e'] eqn:E.
  destruct (oa_store_internal o); [|discriminate]. injection H as <- <-. unfold rhs_derivs in E.
  injection E as <- <-. repeat split.
Qed.
Lemma max_of_zeros : forall l, l <> [] -> (forall x, In x l -> x = 0) -> py_max l = Ret 0.
Proof.
  intros [|x t] H Z; [congruence|]. cbn. destruct (max_from_spec t x) as [Hi _]. rewrite (Z _ Hi). reflexivity.
Qed.
Lemma validate_curves_is : forall lo hi ic data l, in_view lo hi angle_of data <> [] ->
  exists printed,
  validate_curves lo hi ic data l =
    Ok (map (fun nf => mk_line (Some (fst nf)) None (map (fun r => (deg (angle_of r), Some (snd nf ic (values_of ic r)))) (in_view lo hi angle_of data))) l,
        printed) /\
  Forall2 (fun nf np => fst nf = fst np /\ greatest (snd np) (map (fun r => Rabs (snd nf ic (values_of ic r))) (in_view lo hi angle_of data))) l printed.
Proof.
  intros lo hi ic data l Hv. induction l as [|[name func] t IH]; [exists []; split; [reflexivity|constructor]|].
  destruct IH as (pr & E & F). cbn [validate_curves]. cbv zeta. rewrite map_map, !mask_filter. cbn [rbind].
  assert (Ef : filter (fun x : R * vec * vec => in_range lo hi (Model_Plots.degrees (fst (fst x)))) data = in_view lo hi angle_of data).
  { apply filter_ext. intro a. apply in_range_between. }
  rewrite Ef. unfold printed_max. rewrite map_map.
  destruct (in_view lo hi angle_of data) as [|r v] eqn:Ev; [congruence|]. rewrite <- Ev in *. clear Ev.
  destruct (map (fun x : R * vec * vec => Rabs (func ic (get_values ic (fst (fst x)) (snd (fst x)) (snd x)))) (in_view lo hi angle_of data)) as [|m ms] eqn:Em.
  { apply map_eq_nil in Em. congruence. }
  cbn [py_max rbind]. rewrite map_map, map_map, points_map. cbn [rbind]. rewrite E. cbn [rbind fst snd map].
  eexists. split; [reflexivity|]. constructor; [|exact F]. split; [reflexivity|]. cbn [snd fst]. unfold values_of. rewrite Em. apply max_from_spec.
Qed.
Definition promised_value (lo hi : R) (ic : validate_ic) (data : list (R * vec * vec)) (label : string) (q : values -> R) : line :=
  mk_line (Some label) None (map (fun r => (deg (angle_of r), Some (q (values_of ic r)))) (in_view lo hi angle_of data)).
Lemma value_line_is : forall lo hi ic data label q, value_line lo hi ic data label q = Ok (promised_value lo hi ic data label q).
Proof. intros. unfold value_line. rewrite (masked_is _ lo hi angle_of). reflexivity. Qed.
(** For every run with internal data and a sample in range: four panels, of the seven residuals, E, E' and J, and the greatest
    modulus of each residual printed under its name. *)
Theorem C103_validate : forall lo hi ic data, in_view lo hi angle_of data <> [] ->
  exists printed,
  generate_validate_plot lo hi false ic (Some data) =
    Ok ([ mk_panel "" "linear" (map (fun nf => promised_value lo hi ic data (fst nf) (snd nf ic)) param_names);
          mk_panel "" "linear" [promised_value lo hi ic data "$E_r$" (fun v => fst (fst (va_E v))); promised_value lo hi ic data "$E_θ$" (fun v => snd (fst (va_E v)))];
          mk_panel "" "linear" [promised_value lo hi ic data "$E_r'$" (fun v => fst (fst (va_E_dash v))); promised_value lo hi ic data "$E_θ'$" (fun v => snd (fst (va_E_dash v)));
                                promised_value lo hi ic data "$E_φ'$" (fun v => snd (va_E_dash v))];
          mk_panel "" "linear" [promised_value lo hi ic data "$J_r$" (fun v => fst (fst (va_J v))); promised_value lo hi ic data "$J_θ$" (fun v => snd (fst (va_J v)));
                                promised_value lo hi ic data "$J_φ$" (fun v => snd (va_J v))] ], printed) /\
  Forall2 (fun nf np => fst nf = fst np /\ greatest (snd np) (map (fun r => Rabs (snd nf ic (values_of ic r))) (in_view lo hi angle_of data))) param_names printed.
Proof.
  intros lo hi ic data Hv. destruct (validate_curves_is lo hi ic data param_names Hv) as (pr & E & F).
  exists pr. split; [|exact F]. unfold generate_validate_plot. rewrite E. cbn [rbind fst snd]. rewrite !value_line_is. reflexivity.
Qed.
(** Every residual but that of polar induction is zero on every row the solver recorded. *)
Theorem C103_validate_zero : forall o data, oa_with_taylor o = false -> oa_deriv_v_θ_func o = None -> 0 <= oa_norm_kepler_sq o ->
  Forall (fun r => recorded o r /\ regular o (snd (fst r))) data ->
  let ic := mk_ic (oa_γ o) (oa_a_0 o) (oa_norm_kepler_sq o) in
  forall name func, In (name, func) param_names -> name <> "polar induction" ->
  forall r, In r data -> func ic (values_of ic r) = 0.
Proof.
  intros o data HT HD HK H ic name func Hn Hp r Hr. rewrite Forall_forall in H. destruct (H r Hr) as ((x & p & d & e & E & ->) & R1 & R2 & R3 & R4 & R5).
  destruct (recorded_row _ _ _ _ _ E) as (E1 & E2 & E3). unfold values_of. cbn [fst snd] in *. rewrite E1, E2, E3 in *. unfold ic.
  cbn [In param_names] in Hn.
  repeat (destruct Hn as [Hn|Hn]; [injection Hn as <- <-|]); try contradiction.
  - eapply C01_validate_continuity; eassumption.
  - eapply C02_validate_solenoid; eassumption.
  - eapply C03_validate_radial; eassumption.
  - eapply C04_validate_azimuthal; eassumption.
  - eapply C05_validate_polar; eassumption.
  - eapply C06_validate_E_φ; eassumption.
Qed.
(** ... so what is printed for it is 0. *)
Theorem C103_validate_printed : forall o lo hi data, oa_with_taylor o = false -> oa_deriv_v_θ_func o = None -> 0 <= oa_norm_kepler_sq o ->
  Forall (fun r => recorded o r /\ regular o (snd (fst r))) data -> in_view lo hi angle_of data <> [] ->
  let ic := mk_ic (oa_γ o) (oa_a_0 o) (oa_norm_kepler_sq o) in
  exists fig printed, generate_validate_plot lo hi false ic (Some data) = Ok (fig, printed) /\
  map fst printed = ["continuity"; "solenoid"; "radial momentum"; "azimuthal momentum"; "polar momentum"; "polar induction"; "E_φ"] /\
  forall name m, In (name, m) printed -> name <> "polar induction" -> m = 0.
Proof.
  intros o lo hi data HT HD HK H Hv ic. destruct (C103_validate lo hi ic data Hv) as (printed & E & F).
  eexists. exists printed. split; [exact E|]. split.
  - clear - F. assert (K : map fst printed = map fst param_names).
    { induction F as [|[n f] [n' m] l l' [E _] F IH]; [reflexivity|]. cbn in *. rewrite IH, E. reflexivity. }
    rewrite K. reflexivity.
  - intros name m Hi Hn.
    assert (K : exists func, In (name, func) param_names /\ greatest m (map (fun r => Rabs (func ic (values_of ic r))) (in_view lo hi angle_of data))).
    { clear - F Hi. induction F as [|[n f] [n' m'] l l' [E G] F IH]; [destruct Hi|]. cbn [fst snd] in *. subst n'. destruct Hi as [Hi|Hi].
      - injection Hi as -> ->. exists f. split; [left; reflexivity|exact G].
      - destruct (IH Hi) as (f' & K1 & K2). exists f'. split; [right; exact K1|exact K2]. }
    destruct K as (func & Kf & [Km _]). apply in_map_iff in Km. destruct Km as (r & <- & Hr). unfold in_view in Hr. apply filter_In in Hr.
    assert (Z := C103_validate_zero o data HT HD HK H name func Kf Hn r (proj1 Hr)). fold ic in Z. rewrite Z. apply Rabs_R0.
Qed.
(** Refusals: an E_r run, one without internal data, and a range that holds no sample. *)
Theorem C103_validate_refused : forall lo hi ic data,
  generate_validate_plot lo hi true ic data = Raise OtherError /\
  generate_validate_plot lo hi false ic None = Raise OtherError /\
  (forall rows, in_view lo hi angle_of rows = [] -> generate_validate_plot lo hi false ic (Some rows) = Raise Lib_Py.ValueError).
Proof.
  intros lo hi ic data. split; [reflexivity|]. split; [reflexivity|]. intros rows Hr. unfold generate_validate_plot.
  unfold param_names at 1. cbn [validate_curves]. cbv zeta. rewrite map_map, !mask_filter. cbn [rbind].
  assert (Ef : filter (fun x : R * vec * vec => in_range lo hi (Model_Plots.degrees (fst (fst x)))) rows = []).
  { rewrite <- Hr. apply filter_ext. intro a. apply in_range_between. }
  rewrite Ef. reflexivity.
Qed.
(** The recorded row of the generic state of [Witness_Ode], in view. *)
Example C103_validate_nonvacuous : let o := mk_ode_args 1 1 1 p_ex 1 false false true false None true in
  exists r, recorded o r /\ regular o (snd (fst r)) /\ in_view 0 90 angle_of [r] <> [].
Proof.
  intro o. destruct (rhs_equation o (1 / 2) p_ex) as [| |d [e|]] eqn:E; try discriminate.
  exists (ie_angle e, ie_params e, ie_derivs e). split; [exists (1 / 2), p_ex, d, e; split; [exact E|reflexivity]|].
  destruct (recorded_row _ _ _ _ _ E) as (E1 & E2 & _). cbn [fst snd]. rewrite E1, E2. split.
  - destruct p_ex_v as (A & B & C). split; [exact A|]. split; [exact B|]. split; [exact C|]. split; [exact p_ex_B|exact p_ex_diffusive].
  - unfold in_view, angle_of. cbn [filter fst oa_θ_scale o].
    assert (H : 0 <= deg (1 / 2 * 1) <= 90).
    { unfold deg. assert (P := PI_RGT_0). assert (P2 := PI2_1). split.
      - apply Rmult_le_pos; [lra|]. left. apply Rinv_0_lt_compat. exact P.
      - apply Rmult_le_reg_r with PI; [exact P|]. replace (1 / 2 * 1 * 180 / PI * PI) with 90 by (field; lra). lra. }
    unfold between. destruct (Rle_dec 0 _) as [H1|H1]; [|lra]. destruct (Rle_dec _ 90) as [H2|H2]; [|lra]. discriminate.
Qed.

(** ** ds-phys-ratio-plot *)
(** The numbers of a list in the order of their first appearance, and the place of a number in such a list. *)
Fixpoint firsts (l : list R) : list R :=
  match l with [] => [] | x :: t => x :: filter (fun y => negb (if Req_EM_T y x then true else false)) (firsts t) end.
Fixpoint place (x : R) (l : list R) : nat := match l with [] => 0%nat | y :: t => if Req_EM_T x y then 0%nat else S (place x t) end.
Definition isin (l : list R) (x : R) : bool := if in_dec Req_EM_T x l then true else false.
Definition cycled (markers : nat -> string) (n : nat) (l : list R) : list (R * string) :=
  combine l (map (fun k => markers (Nat.modulo k n)) (seq 0 (List.length l))).
Definition state_of (markers : nat -> string) (n : nat) (l : list R) : list (R * string) * nat := (cycled markers n l, Nat.modulo (List.length l) n).

Lemma place_in : forall l x, In x l -> (place x l < List.length l)%nat /\ nth_error l (place x l) = Some x.
Proof.
  induction l as [|y t IH]; intros x H; [destruct H|]. cbn. destruct (Req_EM_T x y) as [->|N]; [split; [lia|reflexivity]|].
  destruct H as [H|H]; [congruence|]. destruct (IH x H). split; [lia|assumption].
Qed.
Lemma place_app : forall l m x, In x l -> place x (l ++ m) = place x l.
Proof.
  induction l as [|y t IH]; intros m x H; [destruct H|]. cbn. destruct (Req_EM_T x y); [reflexivity|].
  destruct H as [H|H]; [congruence|]. rewrite IH by exact H. reflexivity.
Qed.
Lemma place_new : forall l x m, ~ In x l -> place x (l ++ x :: m) = List.length l.
Proof.
  induction l as [|y t IH]; intros x m H; cbn; [destruct (Req_EM_T x x); [reflexivity|congruence]|].
  destruct (Req_EM_T x y) as [->|]; [exfalso; apply H; left; reflexivity|]. rewrite IH; [reflexivity|]. intro K. apply H. right. exact K.
Qed.
Lemma rfind_cycled : forall f l s x, rfind x (combine l (map f (seq s (List.length l)))) = if isin l x then Some (f (s + place x l)%nat) else None.
Proof.
  intros f l. induction l as [|y t IH]; intros s x; [reflexivity|]. cbn [List.length seq map combine rfind place]. unfold isin.
  destruct (Req_EM_T x y) as [->|N].
  - destruct (in_dec Req_EM_T y (y :: t)) as [_|K]; [rewrite Nat.add_0_r; reflexivity|]. exfalso. apply K. left. reflexivity.
  - rewrite IH. unfold isin. destruct (in_dec Req_EM_T x t) as [H|H].
    + destruct (in_dec Req_EM_T x (y :: t)) as [_|K]; [do 2 f_equal; lia|]. exfalso. apply K. right. exact H.
    + destruct (in_dec Req_EM_T x (y :: t)) as [[K|K]|_]; [congruence|contradiction|reflexivity].
Qed.
Lemma assign_is : forall markers n ks x, (0 < n)%nat ->
  let ks' := if isin ks x then ks else ks ++ [x] in
  assign markers n x (state_of markers n ks) = (markers (Nat.modulo (place x ks') n), state_of markers n ks').
Proof.
  intros markers n ks x Hn ks'. unfold assign, state_of, cycled. rewrite (rfind_cycled (fun k => markers (Nat.modulo k n))). unfold ks', isin.
  destruct (in_dec Req_EM_T x ks) as [H|H]; [rewrite Nat.add_0_l; reflexivity|].
  rewrite place_new by exact H. rewrite app_length. cbn [List.length]. rewrite Nat.add_mod_idemp_l by lia.
  rewrite seq_app, map_app. cbn [seq map]. rewrite Nat.add_0_l. do 2 f_equal.
  symmetry. assert (K : forall (a : list R) (b : list string) u v, List.length a = List.length b -> combine (a ++ [u]) (b ++ [v]) = combine a b ++ [(u, v)]).
  { induction a as [|p a IHa]; intros [|q b] u v E; try discriminate; [reflexivity|]. cbn. rewrite IHa by (injection E; auto). reflexivity. }
  apply K. rewrite map_length, seq_length. reflexivity.
Qed.
(** The keys after a list of numbers. *)
Lemma firsts_step : forall ks x t, (if isin ks x then ks else ks ++ [x]) ++ filter (fun y => negb (isin (if isin ks x then ks else ks ++ [x]) y)) (firsts t)
  = ks ++ filter (fun y => negb (isin ks y)) (firsts (x :: t)).
Proof.
  intros ks x t. cbn [firsts filter].
  assert (F : forall (f g : R -> bool) l, filter f (filter g l) = filter (fun y => g y && f y) l).
  { intros f g l. induction l as [|y l IH]; [reflexivity|]. cbn. destruct (g y); cbn; [destruct (f y)|]; rewrite IH; reflexivity. }
  rewrite F. destruct (isin ks x) eqn:Ex; cbn [negb]; unfold isin in Ex; destruct (in_dec Req_EM_T x ks) as [H|H]; try discriminate; clear Ex.
  - f_equal. apply filter_ext. intro y. destruct (Req_EM_T y x) as [->|]; cbn; [|reflexivity].
    unfold isin. destruct (in_dec Req_EM_T x ks); [reflexivity|contradiction].
  - rewrite <- app_assoc. cbn [app]. do 2 f_equal. apply filter_ext. intro y. unfold isin.
    destruct (in_dec Req_EM_T y (ks ++ [x])) as [K|K]; destruct (Req_EM_T y x) as [E|N]; destruct (in_dec Req_EM_T y ks) as [L|L]; cbn; try reflexivity.
    all: exfalso; try (apply K, in_or_app; first [left; exact L | right; left; congruence]).
    all: apply in_app_or in K; destruct K as [K|[K|[]]]; congruence.
Qed.
Lemma firsts_In : forall l x, In x (firsts l) <-> In x l.
Proof.
  induction l as [|y t IH]; intro x; [reflexivity|]. cbn [firsts In]. rewrite filter_In, IH.
  destruct (Req_EM_T x y) as [->|N]; cbn; [tauto|]. split; [tauto|]. intros [H|H]; [congruence|right; tauto].
Qed.
Lemma firsts_NoDup : forall l, NoDup (firsts l).
Proof.
  induction l as [|y t IH]; [constructor|]. cbn. constructor; [|apply NoDup_filter, IH].
  intro H. apply filter_In in H. destruct H as [_ H]. destruct (Req_EM_T y y); [discriminate|congruence].
Qed.

(** What one solution shows, given the list of colours and of markers in use. *)
Definition shown (lo hi : R) (s : rsoln) : list (R * vec) := in_view lo hi fst (rs_samples s).
Definition color_of (sols : list (string * rsoln)) (v_r : R) : string :=
  color_number (Nat.modulo (place v_r (firsts (map (fun p => rs_v_r (snd p)) sols))) 10).
Definition marker_of (sols : list (string * rsoln)) (a_0 : R) : string :=
  nth (Nat.modulo (place a_0 (firsts (map (fun p => rs_a_0 (snd p)) sols))) 22) MARKER_LIST "".
Definition drawn_point (simps : list R -> list R -> R) (lo hi : R) (sols : list (string * rsoln)) (p : string * rsoln) (pt : rpoint) : Prop :=
  rp_name pt = fst p /\ rp_color pt = color_of sols (rs_v_r (snd p)) /\ rp_marker pt = marker_of sols (rs_a_0 (snd p)) /\
  rp_x pt = rs_η_A (snd p) / rs_c_s_on_v_k (snd p) /\
  rp_B pt = rs_a_0 (snd p) / compute_Σ (shown lo hi (snd p)) /\
  compute_M_dot_out_on_M_dot_in simps (rs_γ (snd p)) (shown lo hi (snd p)) = Ret (rp_M pt).
Lemma ratio_points_is : forall simps lo hi sols vs as_,
  Forall (fun p => shown lo hi (snd p) <> []) sols ->
  let vs' := vs ++ filter (fun y => negb (isin vs y)) (firsts (map (fun p => rs_v_r (snd p)) sols)) in
  let as' := as_ ++ filter (fun y => negb (isin as_ y)) (firsts (map (fun p => rs_a_0 (snd p)) sols)) in
  exists pts,
  ratio_points simps lo hi sols (state_of color_number 10 vs) (state_of (fun n => nth n MARKER_LIST "") 22 as_) =
    Ret (pts, cycled color_number 10 vs', cycled (fun n => nth n MARKER_LIST "") 22 as') /\
  Forall2 (fun p pt => rp_name pt = fst p /\ rp_color pt = color_number (Nat.modulo (place (rs_v_r (snd p)) vs') 10) /\
    rp_marker pt = nth (Nat.modulo (place (rs_a_0 (snd p)) as') 22) MARKER_LIST "" /\
    rp_x pt = rs_η_A (snd p) / rs_c_s_on_v_k (snd p) /\
    rp_B pt = rs_a_0 (snd p) / compute_Σ (shown lo hi (snd p)) /\
    compute_M_dot_out_on_M_dot_in simps (rs_γ (snd p)) (shown lo hi (snd p)) = Ret (rp_M pt)) sols pts.
Proof.
  intros simps lo hi sols. induction sols as [|[name s] t IH]; intros vs as_ H vs' as'.
  { exists []. unfold vs', as'. cbn [map firsts filter]. rewrite !app_nil_r. split; [reflexivity|constructor]. }
  inversion H as [|? ? Hs Ht]; subst. cbn [ratio_points].
  rewrite (assign_is color_number 10 vs (rs_v_r s)) by lia.
  change (List.length MARKER_LIST) with 22%nat.
  rewrite (assign_is (fun n => nth n MARKER_LIST "") 22 as_ (rs_a_0 s)) by lia.
  set (vs1 := if isin vs (rs_v_r s) then vs else vs ++ [rs_v_r s]).
  set (as1 := if isin as_ (rs_a_0 s) then as_ else as_ ++ [rs_a_0 s]).
  cbv zeta.
  assert (Ef : filter (fun p => in_range lo hi (Model_Plots.degrees (fst p))) (rs_samples s) = shown lo hi s).
  { apply filter_ext. intro a. apply in_range_between. }
  rewrite Ef. cbn [snd] in Hs.
  assert (EM : exists M, compute_M_dot_out_on_M_dot_in simps (rs_γ s) (shown lo hi s) = Ret M).
  { unfold compute_M_dot_out_on_M_dot_in, compute_M_dot_out. destruct (rev (shown lo hi s)) as [|q r] eqn:Er.
    - exfalso. apply Hs. rewrite <- (rev_involutive (shown lo hi s)), Er. reflexivity.
    - eexists. reflexivity. }
  destruct EM as [M EM]. rewrite EM. cbn [pybind].
  destruct (IH vs1 as1 Ht) as (pts & E & F). rewrite E. cbn [pybind].
  assert (Ev : vs1 ++ filter (fun y => negb (isin vs1 y)) (firsts (map (fun p => rs_v_r (snd p)) t)) = vs').
  { unfold vs', vs1. cbn [map snd]. apply firsts_step. }
  assert (Ea : as1 ++ filter (fun y => negb (isin as1 y)) (firsts (map (fun p => rs_a_0 (snd p)) t)) = as').
  { unfold as', as1. cbn [map snd]. apply firsts_step. }
  cbv zeta in F. rewrite Ev, Ea in *. eexists. split; [reflexivity|]. constructor; [|exact F].
  cbn [rp_name rp_color rp_marker rp_x rp_B rp_M fst snd].
  assert (Iv : In (rs_v_r s) vs1).
  { unfold vs1, isin. destruct (in_dec Req_EM_T (rs_v_r s) vs); [assumption|]. apply in_or_app. right. left. reflexivity. }
  assert (Ia : In (rs_a_0 s) as1).
  { unfold as1, isin. destruct (in_dec Req_EM_T (rs_a_0 s) as_); [assumption|]. apply in_or_app. right. left. reflexivity. }
  rewrite <- Ev, <- Ea, !place_app by assumption. repeat (split; [reflexivity|]). exact EM.
Qed.
(** Each solution is one point in each panel; the colour tells v_r and the marker a_0, by the order in which they first appear; the two
    keys are printed. *)
Theorem C103_ratio : forall simps lo hi sols, Forall (fun p => shown lo hi (snd p) <> []) sols ->
  exists pts v_key a_key, generate_ratio_plot simps lo hi sols = Ret (pts, v_key, a_key) /\
  Forall2 (drawn_point simps lo hi sols) sols pts /\
  v_key = map (fun v => (v, color_of sols v)) (firsts (map (fun p => rs_v_r (snd p)) sols)) /\
  a_key = map (fun a => (a, marker_of sols a)) (firsts (map (fun p => rs_a_0 (snd p)) sols)).
Proof.
  intros simps lo hi sols H. destruct (ratio_points_is simps lo hi sols [] [] H) as (pts & E & F). cbv zeta in E, F.
  assert (T : forall l, [] ++ filter (fun y => negb (isin [] y)) l = l).
  { intro l. cbn. induction l as [|y l IH]; [reflexivity|]. cbn. rewrite IH. reflexivity. }
  rewrite !T in *. exists pts. do 2 eexists. split; [exact E|]. split; [exact F|].
  assert (K : forall f n l, NoDup l -> cycled f n l = map (fun x => (x, f (Nat.modulo (place x l) n))) l).
  { intros f n l Hl. unfold cycled.
    assert (G : forall pre, NoDup (pre ++ l) -> combine l (map (fun k => f (Nat.modulo k n)) (seq (List.length pre) (List.length l)))
      = map (fun x => (x, f (Nat.modulo (place x (pre ++ l)) n))) l).
    { clear Hl. induction l as [|y t IH]; intros pre Hp; [reflexivity|]. cbn [List.length seq map combine].
      rewrite place_new by (intro K; apply NoDup_remove_2 in Hp; apply Hp, in_or_app; left; exact K). f_equal.
      specialize (IH (pre ++ [y])). rewrite app_length in IH. cbn [List.length] in IH. rewrite Nat.add_1_r in IH.
      rewrite <- app_assoc in IH. cbn [app] in IH. apply IH. exact Hp. }
    apply (G []). exact Hl. }
  split; rewrite K by apply firsts_NoDup; reflexivity.
Qed.
Print Assumptions C103_ratio.
(** Colours tell v_r apart exactly when at most ten values are plotted. *)
Lemma digit_colors : forall i j, (i < 10)%nat -> (j < 10)%nat -> color_number i = color_number j -> i = j.
Proof.
  intros i j Hi Hj. do 10 (destruct i as [|i]; [do 10 (destruct j as [|j]; [cbn; intro E; first [reflexivity | discriminate E]|]); lia|]). lia.
Qed.
Lemma place_inj : forall l x y, In x l -> In y l -> place x l = place y l -> x = y.
Proof. intros l x y Hx Hy E. apply place_in in Hx, Hy. destruct Hx as [_ Hx], Hy as [_ Hy]. rewrite E in Hx. congruence. Qed.
Lemma place_nth : forall l k x, NoDup l -> nth_error l k = Some x -> place x l = k.
Proof.
  intros l k x Hl H. assert (Hx : In x l) by (eapply nth_error_In; exact H). destruct (place_in l x Hx) as [P1 P2].
  rewrite NoDup_nth_error in Hl. apply Hl; [exact P1|]. congruence.
Qed.
Theorem C103_ratio_colors : forall sols,
  (forall u v, In u (map (fun p => rs_v_r (snd p)) sols) -> In v (map (fun p => rs_v_r (snd p)) sols) -> color_of sols u = color_of sols v -> u = v) <->
  (List.length (firsts (map (fun p => rs_v_r (snd p)) sols)) <= 10)%nat.
Proof.
  intro sols. unfold color_of. set (l := map (fun p => rs_v_r (snd p)) sols). assert (ND := firsts_NoDup l). split.
  - intro H. destruct (le_lt_dec (List.length (firsts l)) 10) as [K|K]; [exact K|]. exfalso.
    destruct (nth_error (firsts l) 0) as [u|] eqn:Eu; [|apply nth_error_None in Eu; lia].
    destruct (nth_error (firsts l) 10) as [v|] eqn:Ev; [|apply nth_error_None in Ev; lia].
    assert (Huv : u = v).
    { apply H; [apply firsts_In; eapply nth_error_In; exact Eu | apply firsts_In; eapply nth_error_In; exact Ev |].
      rewrite (place_nth _ _ _ ND Eu), (place_nth _ _ _ ND Ev). reflexivity. }
    subst v. assert (Z := place_nth _ _ _ ND Eu). rewrite (place_nth _ _ _ ND Ev) in Z. discriminate.
  - intros K u v Hu Hv E. apply firsts_In in Hu, Hv. destruct (place_in _ _ Hu) as [Pu _], (place_in _ _ Hv) as [Pv _].
    apply digit_colors in E; [|apply Nat.mod_upper_bound; lia | apply Nat.mod_upper_bound; lia].
    rewrite !Nat.mod_small in E by lia. exact (place_inj _ _ _ Hu Hv E).
Qed.
Theorem C103_ratio_markers : forall sols,
  (forall u v, In u (map (fun p => rs_a_0 (snd p)) sols) -> In v (map (fun p => rs_a_0 (snd p)) sols) -> marker_of sols u = marker_of sols v -> u = v) <->
  (List.length (firsts (map (fun p => rs_a_0 (snd p)) sols)) <= 22)%nat.
Proof.
  intro sols. unfold marker_of. set (l := map (fun p => rs_a_0 (snd p)) sols). assert (ND := firsts_NoDup l). split.
  - intro H. destruct (le_lt_dec (List.length (firsts l)) 22) as [K|K]; [exact K|]. exfalso.
    destruct (nth_error (firsts l) 0) as [u|] eqn:Eu; [|apply nth_error_None in Eu; lia].
    destruct (nth_error (firsts l) 22) as [v|] eqn:Ev; [|apply nth_error_None in Ev; lia].
    assert (Huv : u = v).
    { apply H; [apply firsts_In; eapply nth_error_In; exact Eu | apply firsts_In; eapply nth_error_In; exact Ev |].
      rewrite (place_nth _ _ _ ND Eu), (place_nth _ _ _ ND Ev). reflexivity. }
    subst v. assert (Z := place_nth _ _ _ ND Eu). rewrite (place_nth _ _ _ ND Ev) in Z. discriminate.
  - intros K u v Hu Hv E. apply firsts_In in Hu, Hv. destruct (place_in _ _ Hu) as [Pu _], (place_in _ _ Hv) as [Pv _].
    rewrite !Nat.mod_small in E by lia.
    assert (N : NoDup MARKER_LIST).
    { unfold MARKER_LIST. repeat (constructor; [cbn; intuition discriminate|]). constructor. }
    apply (proj1 (NoDup_nth MARKER_LIST "")) in E; [|exact N | cbn; lia | cbn; lia]. exact (place_inj _ _ _ Hu Hv E).
Qed.
(** A solution without a sample in range stops the whole plot. *)
Theorem C103_ratio_empty : forall simps lo hi sols1 name s sols2, Forall (fun p => shown lo hi (snd p) <> []) sols1 -> shown lo hi s = [] ->
  generate_ratio_plot simps lo hi (sols1 ++ (name, s) :: sols2) = IndexError.
Proof.
  intros simps lo hi sols1 name s sols2 H Hs. unfold generate_ratio_plot. generalize (@nil (R * string), 0%nat) at 2 as am.
  generalize (@nil (R * string), 0%nat) as vm. induction H as [|[n q] t Hq Ht IH]; intros vm am.
  - cbn [app ratio_points]. destruct (assign color_number 10 (rs_v_r s) vm) as [c vm']. destruct (assign _ _ (rs_a_0 s) am) as [m am'].
    assert (Ef : filter (fun p => in_range lo hi (Model_Plots.degrees (fst p))) (rs_samples s) = shown lo hi s).
    { apply filter_ext. intro a. apply in_range_between. }
    cbv zeta. rewrite Ef, Hs. reflexivity.
  - cbn [app ratio_points]. destruct (assign color_number 10 (rs_v_r q) vm) as [c vm']. destruct (assign _ _ (rs_a_0 q) am) as [m am'].
    cbv zeta. rewrite IH. assert (Ef : filter (fun p => in_range lo hi (Model_Plots.degrees (fst p))) (rs_samples q) = shown lo hi q).
    { apply filter_ext. intro a. apply in_range_between. }
    rewrite Ef. unfold compute_M_dot_out_on_M_dot_in, compute_M_dot_out. destruct (rev (shown lo hi q)) as [|r0 r]; [reflexivity|]. reflexivity.
Qed.
Example C103_ratio_nonvacuous : let s v := mk_rsoln 1 2 v 1 1 [(0, fun _ => 1)] in
  Forall (fun p => shown 0 90 (snd p) <> []) [("a", s 1); ("b", s 2); ("c", s 1)] /\
  map (fun v => color_of [("a", s 1); ("b", s 2); ("c", s 1)] v) [1; 2] = ["C0"; "C1"].
Proof.
  cbv zeta. assert (B : between 0 90 (deg 0) = true).
  { unfold between, deg. replace (0 * 180 / PI) with 0 by (field; apply PI_neq0). destruct (Rle_dec 0 0); [|lra]. destruct (Rle_dec 0 90); [reflexivity|lra]. }
  split.
  - repeat constructor; unfold shown, in_view; cbn [snd rs_samples filter fst]; rewrite B; discriminate.
  - unfold color_of. cbn [map snd rs_v_r firsts filter].
    repeat (destruct (Req_EM_T _ _); try lra; cbn [filter negb place map]). reflexivity.
Qed.

(** ** The top speed of the jet, ds-stats *)
Lemma nanargmax_spec : forall l : list Model_Array.num, (exists v, In (Some v) l) ->
  exists i v, nanargmax l = Ret i /\ nth_error l i = Some (Some v) /\ (forall x, In (Some x) l -> x <= v) /\
  forall j, (j < i)%nat -> nth_error l j <> Some (Some v).
Proof.
  intros l [w Hw]. unfold nanargmax. destruct (numbers l) as [|x t] eqn:E.
  { apply numbers_in in Hw. rewrite E in Hw. destruct Hw. }
  destruct (max_from_spec t x) as [H1 H2]. set (v := max_from x t) in *. clearbody v. rewrite <- E in H1, H2. apply numbers_in in H1.
  destruct (find_index (fun w => neq w (Some v)) l) as [i|] eqn:Ei.
  - exists i, v. split; [reflexivity|].
    assert (Hi : nth_error l i = Some (Some v) /\ forall j, (j < i)%nat -> nth_error l j <> Some (Some v)).
    { clear - Ei. revert i Ei. induction l as [|w l IH]; intros i Ei; [discriminate|]. cbn [find_index] in Ei.
      destruct (neq w (Some v)) eqn:Ew.
      - injection Ei as <-. destruct w as [w|]; [|discriminate]. cbn in Ew. apply Reqb_true in Ew. subst w. split; [reflexivity|]. intros j Hj. lia.
      - destruct (find_index (fun w : Model_Array.num => neq w (Some v)) l) as [i'|]; [|discriminate]. cbn in Ei. injection Ei as <-. destruct (IH i' eq_refl) as [K1 K2].
        split; [exact K1|]. intros [|j] Hj; cbn; [|apply K2; lia]. intro K. injection K as ->. cbn in Ew. apply Reqb_false in Ew. congruence. }
    destruct Hi as [Hi1 Hi2]. split; [exact Hi1|]. split; [intros y Hy; apply H2, numbers_in, Hy | exact Hi2].
  - exfalso. clear - Ei H1. induction l as [|w l IH]; [destruct H1|]. cbn [find_index] in Ei. destruct (neq w (Some v)) eqn:Ew; [discriminate|].
    destruct (find_index (fun w : Model_Array.num => neq w (Some v)) l) as [i|]; [discriminate|]. destruct H1 as [->|H1]; [|exact (IH H1 eq_refl)].
    cbn in Ew. replace (Reqb v v) with true in Ew by (symmetry; apply Reqb_true; reflexivity). discriminate.
Qed.
(** The value stored for one sample, and its height: v_z scaled by the square root of sqrt(1 + (tan θ / c)²). *)
Definition jet_speed (s : psoln) (p : R * vec) : R := (snd p iv_θ * cos (fst p) + snd p iv_r * sin (fst p)) / sqrt (rescaled s (fst p)).
Definition jet_height (s : psoln) (p : R * vec) : R := tan (fst p) / ps_c_s_on_v_k s.
Theorem C103_jet_exact : forall s, List.length (ps_angles s) = List.length (ps_rows s) ->
  match combine (ps_angles s) (ps_rows s) with
  | [] => compute_max_vert_jet_velocity s = ValueError
  | samples => exists p, In p samples /\ compute_max_vert_jet_velocity s = Ret (Some (jet_speed s p), jet_height s p) /\
      forall q, In q samples -> jet_speed s q <= jet_speed s p
  end.
Proof.
  intros s Hl. unfold compute_max_vert_jet_velocity. rewrite convert_rows_ok by exact Hl.
  change (fun p : R * vec => match convert_spherical_to_cylindrical (fst p) (snd p) false (ps_γ s) (ps_c_s_on_v_k s) with
    | Conv_ok hv => hv | Conv_error => (0, np_full_nan) end) with (converted s).
  generalize (combine (ps_angles s) (ps_rows s)) as samples. intro samples.
  assert (EV : forall p, snd (converted s p) cv_z = Some (jet_speed s p)).
  { intros [θ y]. destruct (converted_value s θ y) as [_ K]. specialize (K cv_z). cbv zeta in K. rewrite K by (cbv; lia). reflexivity. }
  assert (EH : forall p, fst (converted s p) = jet_height s p).
  { intros [θ y]. exact (proj1 (converted_value s θ y)). }
  destruct samples as [|p0 ps]; [reflexivity|]. set (samples := p0 :: ps). rewrite map_map.
  rewrite (map_ext _ _ EV). destruct (nanargmax_spec (map (fun p => Some (jet_speed s p)) samples)) as (i & v & E & Hn & Hm & _).
  { exists (jet_speed s p0). left. reflexivity. }
  rewrite E. cbn [pybind]. rewrite nth_error_map in Hn |- *. destruct (nth_error samples i) as [p|] eqn:Ep; [|discriminate]. cbn [option_map] in *.
  injection Hn as Hn. exists p. split; [eapply nth_error_In; exact Ep|]. rewrite EV, EH. split; [reflexivity|].
  intros q Hq. rewrite Hn. apply Hm. apply (in_map (fun p => Some (jet_speed s p))). exact Hq.
Qed.
(** It is meant to be the vertical speed of the flow on the cylinder of radius 1, which the line of latitude θ meets at r = 1 / cos θ; a disc being
    slower than Kepler speed, it is always less. *)
Theorem C103_jet_low : forall s θ y, 0 < θ < PI / 2 -> 0 < ps_c_s_on_v_k s < 1 -> 0 < y θ iv_θ * cos θ + y θ iv_r * sin θ ->
  let F := fluid_of (ps_γ s) y in
  jet_speed s (θ, y θ) < f_v_θ F (1 / cos θ) θ * cos θ + f_v_r F (1 / cos θ) θ * sin θ.
Proof.
  intros s θ y Hθ Hc HX F. unfold jet_speed. cbn [fst snd].
  assert (C : 0 < cos θ) by (apply cos_gt_0; lra). assert (T : 0 < tan θ) by (apply tan_gt_0; lra).
  assert (P : 0 < 1 / cos θ) by (apply Rmult_lt_0_compat; [lra | apply Rinv_0_lt_compat; lra]).
  unfold F, fluid_of, self_similar_fluid, self_similar. cbn [f_v_θ f_v_r].
  rewrite <- !Proofs_Waves.inv_sqrt_Rpower by exact P.
  match goal with |- _ < ?e => replace e with ((y θ iv_θ * cos θ + y θ iv_r * sin θ) / sqrt (1 / cos θ)) end.
  2:{ field. apply Rgt_not_eq, sqrt_lt_R0, P. }
  apply Rmult_lt_compat_l; [exact HX|]. apply Rinv_lt_contravar.
  { apply Rmult_lt_0_compat; apply sqrt_lt_R0; [exact P|apply rescaled_pos]. }
  apply sqrt_lt_1; [lra | left; apply rescaled_pos |].
  apply Rsqr_incrst_0; [|lra | left; apply rescaled_pos]. unfold rescaled. rewrite Rsqr_sqrt; [|assert (Q := pow2_ge_0 (tan θ / ps_c_s_on_v_k s)); lra].
  assert (E : Rsqr (1 / cos θ) = 1 + tan θ ^ 2).
  { unfold tan, Rsqr. pose proof (sin2_cos2 θ) as H. unfold Rsqr in H.
    replace (1 / cos θ * (1 / cos θ)) with ((sin θ * sin θ + cos θ * cos θ) / (cos θ * cos θ)) by (rewrite H; field; lra). field. lra. }
  rewrite E. apply Rplus_lt_compat_l. 
  assert (L : tan θ < tan θ / ps_c_s_on_v_k s).
  { apply Rmult_lt_reg_r with (ps_c_s_on_v_k s); [lra|]. unfold Rdiv. rewrite Rmult_assoc, Rinv_l by lra. nra. }
  nra.
Qed.
Print Assumptions C103_jet_low.
Theorem C103_jet_refuted : exists s θ y, ps_angles s = [θ] /\ ps_rows s = [y θ] /\ 0 < θ < PI / 2 /\ 0 < ps_c_s_on_v_k s < 1 /\
  let F := fluid_of (ps_γ s) y in
  exists m h, compute_max_vert_jet_velocity s = Ret (Some m, h) /\ m < f_v_θ F (1 / cos θ) θ * cos θ + f_v_r F (1 / cos θ) θ * sin θ.
Proof.
  set (y := fun _ : R => state 0 0 1 0 0 1 1 0 1 0 0). assert (Hθ : 0 < PI / 4 < PI / 2) by (pose proof PI_RGT_0; lra).
  set (s := mk_psoln [PI / 4] [y (PI / 4)] 1 1 (1 / 2) None (y 0) None [] None).
  exists s, (PI / 4), y. repeat (split; [first [reflexivity | exact Hθ | cbn; lra]|]). cbv zeta.
  assert (E := C103_jet_exact s eq_refl). cbn [combine ps_angles ps_rows s] in E. destruct E as (p & [<-|[]] & E & _).
  do 2 eexists. split; [exact E|]. apply C103_jet_low; [exact Hθ | cbn; lra |].
  assert (0 < cos (PI / 4)) by (apply cos_gt_0; lra). unfold y, state. cbn. lra.
Qed.
(** The hypotheses of the first theorems are met. *)
Example C103_j_e_nonvacuous : exists y, forall θ, In θ [1 / 2] -> solves_at (o_ex false) y θ /\ cos θ <> 0 /\ B_nonzero (y θ).
Proof.
  destruct (curve_ex false) as (y & H1 & H2 & H3). exists y. intros θ [<-|[]]. split; [exact H2|]. split; [exact H3|]. rewrite H1. exact p_ex_B.
Qed.
Example C103_diverge_nonvacuous : exists fig, diverge_plot true false true 0 90 (fun n => repeat "red" n) "f.hdf5" None (Some ["b"])
  [("a", mk_psoln [0] [p_ex] 1 1 1 None p_ex None [] None); ("b", mk_psoln [1 / 2] [p_ex] 1 1 1 None p_ex None [] None)]
  = Ok (fig, Some "Comparison of v_θ for f.hdf5") /\ map l_label (p_lines fig) = [Some "b"; Some "slow"; Some "fast"].
Proof.
  destruct (C103_diverge_command true false true 0 90 (fun n => repeat "red" n) "f.hdf5" None (Some ["b"])
    [("a", mk_psoln [0] [p_ex] 1 1 1 None p_ex None [] None); ("b", mk_psoln [1 / 2] [p_ex] 1 1 1 None p_ex None [] None)]) as (sh & fig & E & [N D] & F).
  - intro n. rewrite repeat_length. lia.
  - repeat constructor.
  - intros k [<-|[]]. discriminate.
  - exists fig. split; [exact E|]. destruct sh as [|[k s] [|]]; try discriminate. rewrite F. injection N as ->. reflexivity.
Qed.
