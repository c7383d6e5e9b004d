(** Property C95: what a run of the hydrostatic or the mod_hydro method stores and reports. *)
From Coq Require Import String List Bool ZArith Reals Lra Lia.
From Verif Require Import Lib_Py Model_Index Model_Deriv Model_Ode Model_Midplane Model_Containers Spec_Containers Props_Containers Model_Record Model_Run.
From Verif Require Import Model_Solution.
From Verif Require Import Model_Hydro Model_ModHydro Props_Hydro Props_ModHydro.
From Verif Require Import Spec_Ode Model_HydroSolver.
Import ListNotations.
Open Scope string_scope. Open Scope R_scope. Open Scope list_scope.

(** ** Specification *)
(** The solution is what the integrator returned: its flag, its angles, its roots, and the states [y]. *)
Definition records (c : cvode_run) (y : list vec) (i : option internal_data) (s : soln_t) : Prop :=
  s_flag s = cr_flag c /\ s_angles s = cr_t c /\ s_solution s = y /\ s_t_roots s = cr_root_t c /\ s_y_roots s = cr_root_y c /\ s_internal s = i.
(** The run after is the run before with [s] as solution "0" and as the final solution. *)
Definition holds {Inf} (r r' : Model_Run.run soln_t Inf) (s : soln_t) : Prop :=
  r_final r' = Final s /\ dget "0" (r_solutions r') = Some s /\ (forall k, k <> "0" -> dget k (r_solutions r') = dget k (r_solutions r)) /\
  r_info r' = r_info r /\ r_is_post_shock_only r' = r_is_post_shock_only r.
(** The integrator gave up because the stop is too close to the start. *)
Definition too_close (c : cvode_run) : Prop := cr_end c = Failed /\ cr_flag c = TOO_CLOSE.

(** ** Lemmas *)
Lemma to_rad_1 : forall l, to_rad 1 l = l.
Proof. intros l. unfold to_rad, scaled_to_rad_num. rewrite <- (map_id l) at 2. apply map_ext. intro x. ring. Qed.
Lemma store_ok : forall {Inf} (r : Model_Run.run soln_t Inf) s, r_final r = Unset -> exists r', store r s = (r', Ok true) /\ holds r r' s.
Proof.
  intros Inf r s U. unfold store. cbn [with_solutions r_solutions]. unfold dgetitem. rewrite dget_dset_same. unfold set_final.
  cbn [with_solutions r_final]. rewrite U. eexists. split; [reflexivity|]. unfold holds. cbn [with_final with_solutions r_final r_solutions r_info r_is_post_shock_only].
  split; [reflexivity|]. split; [apply dget_dset_same|]. split; [|split; reflexivity]. intros k Hk. apply dget_dset_other. congruence.
Qed.
Lemma assemble_records : forall c y i, records c y i (assemble c y i 1).
Proof.
  intros c y i. unfold records, assemble. cbn [s_flag s_angles s_solution s_t_roots s_y_roots s_internal]. rewrite to_rad_1.
  destruct (cr_root_t c) as [l|]; [rewrite to_rad_1|]; repeat split; reflexivity.
Qed.
Lemma integrate_cases : forall {A} I internal (sys : A) sc angles init,
  let call := mk_hcall sys None None None angles init in let c := I call in
  (too_close c -> integrate I internal sys sc None None None angles init = ([call], Raise OtherError)) /\
  (~ too_close c -> integrate I internal sys sc None None None angles init = ([call], Ok (c, internal (cr_calls c)))).
Proof.
  intros A I internal sys sc angles init call c. unfold integrate. cbn [root_options rad_to_scaled]. fold call. fold c. unfold too_close.
  destruct (cr_end c); (split; [intros [Q1 Q2]; try discriminate Q1 | intros Q; try reflexivity]).
  - rewrite Q2, Z.eqb_refl. reflexivity.
  - destruct (cr_flag c =? TOO_CLOSE)%Z eqn:E; [|reflexivity]. exfalso. apply Q. split; [reflexivity|]. apply Z.eqb_eq. exact E.
Qed.

(** ** C95 *)
(** The hydrostatic method never runs with E_r, nor from an input without a starting velocity: it raises before any integration and leaves the run as
    it is. *)
Theorem C95_hydro_refused : forall Inf I str inp ηd st (r : Model_Run.run soln_t Inf),
  hydrostatic_define_conditions inp = None \/ in_use_E_r inp = true ->
  hydro_solver I str inp ηd st r = ([], (r, Raise SolverError)).
Proof.
  intros Inf I str inp ηd st r [H|H]; unfold hydro_solver; [rewrite H; reflexivity|].
  destruct (hydrostatic_define_conditions inp); [|reflexivity]. unfold hydro_solution. rewrite H. reflexivity.
Qed.
(** Otherwise exactly one integration is started: the system of the input, over its angles, from the midplane, without roots or stop.  If the integrator
    reports the stop as too close the error is passed on and the run left as it is; whatever else it reports, what it returned is stored and the method
    reports success. *)
Theorem C95_hydro : forall Inf I str inp ηd st (r : Model_Run.run soln_t Inf) ic,
  hydrostatic_define_conditions inp = Some ic -> in_use_E_r inp = false -> r_final r = Unset ->
  let sys := mk_hydro_args (c_a_0 ic) (c_norm_kepler_sq ic) (c_init_con ic) 1 ηd st false in
  let call := mk_hcall sys None None None (c_angles ic) (c_init_con ic) in let c := I call in
  (too_close c -> hydro_solver I str inp ηd st r = ([call], (r, Raise OtherError))) /\
  (~ too_close c -> exists r' s, hydro_solver I str inp ηd st r = ([call], (r', Ok true)) /\ holds r r' s /\
     records c (cr_y c) (hydro_internal str sys (cr_calls c)) s).
Proof.
  intros Inf I str inp ηd st r ic Hc HE HU sys call c. unfold hydro_solver. rewrite Hc. unfold hydro_solution. rewrite HE. fold sys.
  destruct (integrate_cases I (hydro_internal str sys) sys 1 (c_angles ic) (c_init_con ic)) as [P Q]. fold call c in P, Q.
  split; intro T.
  - rewrite (P T). reflexivity.
  - rewrite (Q T). cbn [rbind fst snd]. set (s := assemble c (cr_y c) (hydro_internal str sys (cr_calls c)) 1).
    destruct (store_ok r s HU) as (r' & -> & H). exists r', s. split; [reflexivity|]. split; [exact H|]. apply assemble_records.
Qed.
(** Called directly, both methods refuse a root function without its number of values before any integration, and otherwise start exactly one
    integration with the root function, its number and the stop angle as given. *)
Theorem C95_roots_refused : forall I I' str sr ηd st E ic f tstop sc,
  hydro_solution I str false ηd st ic (Some f) None tstop sc = ([], Raise SolverError) /\
  mod_hydro_soln I' sr str E ηd st ic (Some f) None tstop sc = ([], Raise SolverError).
Proof. intros. split; reflexivity. Qed.
Theorem C95_roots : forall I I' str sr ηd st E ic f n tstop sc,
  (exists c r, hydro_solution I str false ηd st ic (Some f) (Some n) tstop sc = ([c], r) /\
     hc_rootfn c = Some f /\ hc_nr_rootfns c = Some n /\ hc_tstop c = option_map (fun t => t / sc) tstop /\ hc_angles c = c_angles ic /\ hc_init c = c_init_con ic) /\
  (exists c r, mod_hydro_soln I' sr str E ηd st ic (Some f) (Some n) tstop sc = ([c], r) /\
     hc_rootfn c = Some f /\ hc_nr_rootfns c = Some n /\ hc_tstop c = option_map (fun t => t / sc) tstop /\ hc_angles c = c_angles ic /\ hc_init c = c_init_con ic).
Proof. intros. split; eexists _, _; (split; [reflexivity|]); repeat split; destruct tstop; reflexivity. Qed.
(** mod_hydro, with or without E_r; the states stored are those of fix_solution (C63_stored). *)
Theorem C95_mod_hydro : forall Inf I solve_root str inp ηd st (r : Model_Run.run soln_t Inf), r_final r = Unset ->
  let ic := mod_hydro_define_conditions inp in
  let sys := mk_mod_hydro_args (c_a_0 ic) (c_norm_kepler_sq ic) (c_init_con ic) 1 ηd st (in_use_E_r inp) in
  let call := mk_hcall sys None None None (c_angles ic) (c_init_con ic) in let c := I call in
  (too_close c -> mod_hydro_solver I solve_root str inp ηd st r = ([call], (r, Raise OtherError))) /\
  (~ too_close c -> exists r' s, mod_hydro_solver I solve_root str inp ηd st r = ([call], (r', Ok true)) /\ holds r r' s /\
     records c (fix_solution solve_root sys (cr_t c) (cr_y c)) (mod_hydro_internal str solve_root sys (cr_calls c)) s).
Proof.
  intros Inf I solve_root str inp ηd st r HU ic sys call c. unfold mod_hydro_solver, mod_hydro_soln. fold ic. fold sys.
  destruct (integrate_cases I (mod_hydro_internal str solve_root sys) sys 1 (c_angles ic) (c_init_con ic)) as [P Q]. fold call c in P, Q.
  split; intro T.
  - rewrite (P T). reflexivity.
  - rewrite (Q T). cbn [rbind fst snd].
    set (s := assemble c (fix_solution solve_root sys (cr_t c) (cr_y c)) (mod_hydro_internal str solve_root sys (cr_calls c)) 1).
    destruct (store_ok r s HU) as (r' & -> & H). exists r', s. split; [reflexivity|]. split; [exact H|]. apply assemble_records.
Qed.
(** A run whose final solution is already set: the integration is made, solution "0" is replaced, and then the method raises. *)
Theorem C95_finished_run : forall Inf I str inp ηd st (r : Model_Run.run soln_t Inf) ic,
  hydrostatic_define_conditions inp = Some ic -> in_use_E_r inp = false -> r_final r <> Unset ->
  forall calls r' res, hydro_solver I str inp ηd st r = (calls, (r', res)) ->
  List.length calls = 1%nat /\ (exists e, res = Raise e) /\ r_final r' = r_final r /\
  (forall k, k <> "0" -> dget k (r_solutions r') = dget k (r_solutions r)).
Proof.
  intros Inf I str inp ηd st r ic Hc HE HU calls r' res H. unfold hydro_solver in H. rewrite Hc in H. unfold hydro_solution in H. rewrite HE in H.
  set (sys := mk_hydro_args (c_a_0 ic) (c_norm_kepler_sq ic) (c_init_con ic) 1 ηd st false) in H.
  set (call := mk_hcall sys None None None (c_angles ic) (c_init_con ic)).
  destruct (integrate_cases I (hydro_internal str sys) sys 1 (c_angles ic) (c_init_con ic)) as [P Q]. fold call in P, Q.
  destruct (cr_end (I call)) eqn:E1; [ | | | destruct (Z.eq_dec (cr_flag (I call)) TOO_CLOSE) as [E2|E2]; [|]].
  4: { rewrite (P (conj E1 E2)) in H. cbn [rbind] in H. injection H as <- <- <-. split; [reflexivity|]. split; [eexists; reflexivity|]. split; [reflexivity|]. reflexivity. }
  all: rewrite Q in H by (unfold too_close; rewrite E1; intros [Z1 Z2]; congruence); cbn [rbind fst snd] in H; unfold store in H;
    cbn [with_solutions r_solutions] in H; unfold dgetitem in H; rewrite dget_dset_same in H; unfold set_final in H; cbn [with_solutions r_final] in H;
    (destruct (r_final r) eqn:F; [congruence| |]); injection H as <- <- <-; cbn [with_solutions r_final r_solutions];
    (split; [reflexivity|]; split; [eexists; reflexivity|]; split; [exact F|]); intros k Hk; apply dget_dset_other; congruence.
Qed.

(** "Success means that the disc was integrated over the angles of the input" is false for both: an integration that failed at its start is stored and
    reported as a success. *)
Definition failed_run : cvode_run := mk_cvode Failed (-4) [0] [fun _ => 0] None None [] [] [].
Theorem C95_success_refuted :
  (exists inp r', snd (hydro_solver (Inf := unit) (fun _ => failed_run) (fun _ => "") inp true true (new_run tt)) = (r', Ok true) /\
     (exists s, r_final r' = Final s /\ s_flag s = (-4)%Z /\ s_angles s = [0]) /\ (forall ic, hydrostatic_define_conditions inp = Some ic -> List.length (c_angles ic) = 10%nat)) /\
  (exists inp r', snd (mod_hydro_solver (Inf := unit) (fun _ => failed_run) (fun _ _ _ _ _ => 0) (fun _ => "") inp true true (new_run tt)) = (r', Ok true) /\
     (exists s, r_final r' = Final s /\ s_flag s = (-4)%Z /\ s_angles s = [0]) /\ List.length (c_angles (mod_hydro_define_conditions inp)) = 10%nat).
Proof.
  assert (NT : ~ too_close failed_run) by (intros [_ Q]; discriminate Q). split.
  - destruct C86_midplane_nonvacuous as (ic & Hc & _).
    destruct (C95_hydro unit (fun _ => failed_run) (fun _ => "") ohmic_inp true true (new_run tt) ic Hc eq_refl eq_refl) as [_ Q].
    destruct (Q NT) as (r' & s & E & (H1 & _) & (R1 & R2 & _)). exists ohmic_inp, r'. rewrite E. split; [reflexivity|]. split.
    + exists s. repeat split; assumption.
    + intros ic' Hc'. unfold hydrostatic_define_conditions in Hc'. destruct (v_φ_boundary_func _ _ _ _ _ _); [|discriminate Hc'].
      apply (f_equal (fun o => match o with Some x => List.length (c_angles x) | None => 10%nat end)) in Hc'. cbn [c_angles] in Hc'. rewrite <- Hc'.
      rewrite map_length. unfold linspace. rewrite map_length, seq_length. reflexivity.
  - destruct (C95_mod_hydro unit (fun _ => failed_run) (fun _ _ _ _ _ => 0) (fun _ => "") (mh_inp false) true true (new_run tt) eq_refl) as [_ Q].
    destruct (Q NT) as (r' & s & E & (H1 & _) & (R1 & R2 & _)). exists (mh_inp false), r'. rewrite E. split; [reflexivity|]. split.
    + exists s. repeat split; assumption.
    + cbn [mod_hydro_define_conditions c_angles]. rewrite map_length. unfold linspace. rewrite map_length, seq_length. reflexivity.
Qed.

(** ** The record of the calls *)
Definition hy_accepted (h : hydro_args) (c : R * vec) : list (R * (row * row)) :=
  match hydro_rhs h (fst c) (snd c) with Hy_ok d _ => [(fst c * ha_θ_scale h, (to_row (snd c), to_row d))] | _ => [] end.
(** The calls with a negative density, under their angle. *)
Definition negative_density (str : R -> string) (scale : R) (k : string) (c : R * vec) : list string :=
  if Rlt_dec (snd c iρ) 0 then if String.eqb (str (fst c * scale)) k then ["negative density"] else [] else [].
Lemma hydro_rhs_cases : forall h x y, match hydro_rhs h x y with
  | Hy_negative_density θ => y iρ < 0 /\ θ = x * ha_θ_scale h
  | Hy_negative_discriminant => ~ y iρ < 0
  | Hy_ok _ θ => ~ y iρ < 0 /\ θ = x * ha_θ_scale h
  end.
Proof.
  intros h x y. unfold hydro_rhs. cbv zeta. destruct (Rlt_dec (y iρ) 0) as [N|N]; [split; [exact N|reflexivity]|].
  match goal with |- context [Rlt_dec ?a 0] => destruct (Rlt_dec a 0) end; [exact N|].
  match goal with |- context [B_unit_derivs ?a ?b ?c ?d ?e ?f ?g ?h ?i] => destruct (B_unit_derivs a b c d e f g h i) as [[? ?] ?] end.
  split; [exact N|reflexivity].
Qed.
Lemma samples_append : forall θ p d i, List.length (id_params i) = List.length (id_angles i) -> List.length (id_derivs i) = List.length (id_angles i) ->
  samples (id_append θ p d i) = samples i ++ [(θ, (to_row p, to_row d))].
Proof.
  intros θ p d i H1 H2. unfold samples, id_append. cbn [id_angles id_params id_derivs].
  rewrite (combine_app _ _ _ _ (id_derivs i)) by congruence. rewrite combine_app by (rewrite combine_length, H1, H2, Nat.min_id; reflexivity). reflexivity.
Qed.
(** What never changes: the six lists of the Taylor comparison are empty, the two others as long as the angles. *)
Definition hydro_shape (i : internal_data) : Prop :=
  List.length (id_params i) = List.length (id_angles i) /\ List.length (id_derivs i) = List.length (id_angles i) /\
  id_v_r_normal i = [] /\ id_v_φ_normal i = [] /\ id_ρ_normal i = [] /\ id_v_r_taylor i = [] /\ id_v_φ_taylor i = [] /\ id_ρ_taylor i = [].
Lemma shape_append : forall θ p d i, hydro_shape i -> hydro_shape (id_append θ p d i).
Proof.
  intros θ p d i (H1 & H2 & H). unfold hydro_shape, id_append. cbn [id_angles id_params id_derivs id_v_r_normal id_v_φ_normal id_ρ_normal id_v_r_taylor id_v_φ_taylor id_ρ_taylor].
  rewrite !app_length, H1, H2. exact (conj eq_refl (conj eq_refl H)).
Qed.
(** The hydrostatic method: every call that succeeds is recorded, in order, with the state and the derivatives; every call with a negative density is
    reported under its angle; nothing else is. *)
Theorem C95_hydro_history : forall str h calls, ha_store_internal h = true -> exists i, hydro_internal str h calls = Some i /\ hydro_shape i /\
  samples i = concat (map (hy_accepted h) calls) /\ forall k, entries k (id_problems i) = concat (map (negative_density str (ha_θ_scale h) k) calls).
Proof.
  intros str h calls Hs. unfold hydro_internal. rewrite Hs.
  assert (G : forall i0, hydro_shape i0 -> let i := fold_left (hydro_record str h) calls i0 in hydro_shape i /\
    samples i = samples i0 ++ concat (map (hy_accepted h) calls) /\
    forall k, entries k (id_problems i) = entries k (id_problems i0) ++ concat (map (negative_density str (ha_θ_scale h) k) calls)).
  { induction calls as [|c t IH]; intros i0 B0; cbv zeta.
    - cbn. rewrite app_nil_r. split; [exact B0|]. split; [reflexivity|]. intro k. rewrite app_nil_r. reflexivity.
    - cbn [fold_left map concat].
      assert (W : hydro_shape (hydro_record str h i0 c) /\ samples (hydro_record str h i0 c) = samples i0 ++ hy_accepted h c /\
        forall k, entries k (id_problems (hydro_record str h i0 c)) = entries k (id_problems i0) ++ negative_density str (ha_θ_scale h) k c).
      { unfold hydro_record, hy_accepted, negative_density. pose proof (hydro_rhs_cases h (fst c) (snd c)) as K.
        destruct (hydro_rhs h (fst c) (snd c)) as [θ| |d θ].
        - destruct K as [K ->]. split; [exact B0|]. split; [rewrite app_nil_r; reflexivity|]. intro k. cbn [id_problem id_problems].
          destruct (Rlt_dec (snd c iρ) 0); [|contradiction]. apply entries_append.
        - split; [exact B0|]. split; [rewrite app_nil_r; reflexivity|]. intro k. destruct (Rlt_dec (snd c iρ) 0); [contradiction|]. rewrite app_nil_r. reflexivity.
        - destruct K as [K ->]. split; [apply shape_append, B0|]. destruct B0 as (B1 & B2 & _). split; [apply samples_append; assumption|].
          intro k. destruct (Rlt_dec (snd c iρ) 0); [contradiction|]. rewrite app_nil_r. reflexivity. }
      destruct W as (W1 & W2 & W3). destruct (IH _ W1) as (J1 & J2 & J3). split; [exact J1|]. split; [rewrite J2, W2, <- app_assoc; reflexivity|].
      intro k. rewrite J3, W3, <- app_assoc. reflexivity. }
  destruct (G id_new) as (G1 & G2 & G3); [repeat split|]. eexists. split; [reflexivity|]. split; [exact G1|]. split; [exact G2|exact G3].
Qed.
(** mod_hydro: the same, with the state as the call leaves it (with E_r its velocities are recomputed) and with one tracker through all calls. *)
Fixpoint mh_accepted (solve_root : cubic_tracker) (m : mod_hydro_args) (root : R) (calls : list (R * vec)) : list (R * (row * row)) :=
  match calls with
  | [] => []
  | c :: t => match mod_hydro_rhs solve_root m root (fst c) (snd c) with
              | Mh_ok d p root _ => (fst c * ma_θ_scale m, (to_row p, to_row d)) :: mh_accepted solve_root m root t
              | _ => mh_accepted solve_root m root t
              end
  end.
Lemma mod_hydro_rhs_cases : forall sr m root x y, match mod_hydro_rhs sr m root x y with
  | Mh_negative_density θ => y iρ < 0 /\ θ = x * ma_θ_scale m
  | Mh_ok _ p root' θ => ~ y iρ < 0 /\ θ = x * ma_θ_scale m /\ (forall i, i <> iv_r -> i <> iv_φ -> p i = y i) /\ (ma_use_E_r m = false -> p = y /\ root' = root)
  end.
Proof.
  intros sr m root x y. unfold mod_hydro_rhs. cbv zeta. destruct (Rlt_dec (y iρ) 0) as [N|N]; [split; [exact N|reflexivity]|].
  destruct (ma_use_E_r m).
  - match goal with |- context [v_r_func ?a ?b ?c ?d ?e ?f ?g ?h ?i ?j ?k ?l ?m ?n ?o ?p ?q ?r ?s] => destruct (v_r_func a b c d e f g h i j k l m n o p q r s) as [v_r root'] end.
    split; [exact N|]. split; [reflexivity|]. split; [|discriminate]. intros i H1 H2. unfold upd.
    destruct (Nat.eqb i iv_φ) eqn:E1; [apply Nat.eqb_eq in E1; congruence|]. destruct (Nat.eqb i iv_r) eqn:E2; [apply Nat.eqb_eq in E2; congruence|]. reflexivity.
  - match goal with |- context [B_unit_derivs ?a ?b ?c ?d ?e ?f ?g ?h ?i] => destruct (B_unit_derivs a b c d e f g h i) as [[? ?] ?] end.
    split; [exact N|]. split; [reflexivity|]. split; [intros; reflexivity|]. intros _. split; reflexivity.
Qed.
Theorem C95_mod_hydro_history : forall str sr m calls, ma_store_internal m = true -> exists i, mod_hydro_internal str sr m calls = Some i /\ hydro_shape i /\
  samples i = mh_accepted sr m (ma_init_con m iv_r) calls /\
  forall k, entries k (id_problems i) = concat (map (negative_density str (ma_θ_scale m) k) calls).
Proof.
  intros str sr m calls Hs. unfold mod_hydro_internal. rewrite Hs.
  assert (G : forall i0 root, hydro_shape i0 -> let i := fst (fold_left (mod_hydro_record str sr m) calls (i0, root)) in hydro_shape i /\
    samples i = samples i0 ++ mh_accepted sr m root calls /\
    forall k, entries k (id_problems i) = entries k (id_problems i0) ++ concat (map (negative_density str (ma_θ_scale m) k) calls)).
  { induction calls as [|c t IH]; intros i0 root B0; cbv zeta.
    - cbn. rewrite app_nil_r. split; [exact B0|]. split; [reflexivity|]. intro k. rewrite app_nil_r. reflexivity.
    - cbn [fold_left map concat mh_accepted]. unfold mod_hydro_record at 2 4 6. cbn [fst snd].
      pose proof (mod_hydro_rhs_cases sr m root (fst c) (snd c)) as K.
      destruct (mod_hydro_rhs sr m root (fst c) (snd c)) as [θ|d p root' θ].
      + destruct K as [K ->].
        destruct (IH (id_problem (KOther (str (fst c * ma_θ_scale m))) "negative density" i0) root B0) as (J1 & J2 & J3).
        split; [exact J1|]. split; [exact J2|]. intro k. rewrite J3. cbn [id_problem id_problems]. rewrite entries_append, <- app_assoc.
        unfold negative_density at 2. destruct (Rlt_dec (snd c iρ) 0); [|contradiction]. reflexivity.
      + destruct K as (K & -> & _). destruct (IH (id_append (fst c * ma_θ_scale m) p d i0) root' (shape_append _ _ _ _ B0)) as (J1 & J2 & J3).
        split; [exact J1|]. destruct B0 as (B1 & B2 & _). split; [rewrite J2, samples_append by assumption; rewrite <- app_assoc; reflexivity|].
        intro k. rewrite J3. unfold negative_density at 2. destruct (Rlt_dec (snd c iρ) 0); [contradiction|]. reflexivity. }
  destruct (G id_new (ma_init_con m iv_r)) as (G1 & G2 & G3); [repeat split|]. eexists. split; [reflexivity|]. split; [exact G1|]. split; [exact G2|exact G3].
Qed.

(** "Every rejected call is in the problem log" is false: where the quadratic of v_φ has no real root the call fails and leaves no trace.
    "The recorded lists belong together" is false: after one accepted call the six Taylor lists are shorter than the angles. *)
Definition at_rest : vec := state 0 0 1 0 0 0 1 0 1 0 0.
Definition rest_args (K : R) : hydro_args := mk_hydro_args 1 K at_rest 1 false true false.
Lemma rest_disc : forall K, (exists d θ, hydro_rhs (rest_args K) 0 at_rest = Hy_ok d θ) /\ 5 / 2 <= K \/ hydro_rhs (rest_args K) 0 at_rest = Hy_negative_discriminant /\ K < 5 / 2.
Proof.
  intros K. unfold hydro_rhs. cbv zeta. change (at_rest iρ) with 1. destruct (Rlt_dec 1 0); [lra|].
  match goal with |- context [Rlt_dec ?a 0] => replace a with (4 * (K - 5 / 2)) end.
  - destruct (Rlt_dec (4 * (K - 5 / 2)) 0); [right; split; [reflexivity|lra]|]. left. split; [|lra].
    match goal with |- context [B_unit_derivs ?a ?b ?c ?d ?e ?f ?g ?h ?i] => destruct (B_unit_derivs a b c d e f g h i) as [[? ?] ?] end. eexists. eexists. reflexivity.
  - unfold b_func, c_func, X_func. change (at_rest iv_r) with 0. change (at_rest iB_r) with 0. change (at_rest iB_φ) with 0. change (at_rest iB_θ) with 1.
    change (at_rest iη_O) with 1. change (at_rest iη_A) with 0. change (at_rest iη_H) with 0. cbn [rest_args ha_a_0 ha_norm_kepler_sq ha_θ_scale].
    unfold scaled_to_rad_num. field. apply Rgt_not_eq. apply sqrt_lt_R0. lra.
Qed.
Theorem C95_rejected_refuted : exists h c, ha_store_internal h = true /\ (forall d θ, hydro_rhs h (fst c) (snd c) <> Hy_ok d θ) /\
  forall str, hydro_internal str h [c] = hydro_internal str h [].
Proof.
  exists (rest_args 0), (0, at_rest). cbn [fst snd]. destruct (rest_disc 0) as [[_ Q]|[Q _]]; [lra|]. split; [reflexivity|]. split; [intros d θ; rewrite Q; discriminate|].
  intro str. unfold hydro_internal. cbn [rest_args ha_store_internal fold_left]. unfold hydro_record. cbn [fst snd]. fold (rest_args 0). rewrite Q. reflexivity.
Qed.
Lemma jacobian_kept : forall str h calls i0, id_jacobian_data (fold_left (hydro_record str h) calls i0) = id_jacobian_data i0.
Proof.
  intros str h calls. induction calls as [|c t IH]; intro i0; [reflexivity|]. cbn [fold_left]. rewrite IH. unfold hydro_record.
  destruct (hydro_rhs h (fst c) (snd c)); reflexivity.
Qed.
Theorem C95_aligned_exact : forall str h calls i, hydro_internal str h calls = Some i -> (aligned i <-> concat (map (hy_accepted h) calls) = []).
Proof.
  intros str h calls i H. assert (Hs : ha_store_internal h = true) by (unfold hydro_internal in H; destruct (ha_store_internal h); [reflexivity|discriminate]).
  destruct (C95_hydro_history str h calls Hs) as (j & E & (S1 & S2 & S3 & S4 & S5 & S6 & S7 & S8) & Sa & _). rewrite H in E. injection E as <-.
  assert (J : id_jacobian_data i = id_jacobian_data id_new) by (unfold hydro_internal in H; rewrite Hs in H; injection H as <-; apply jacobian_kept).
  assert (L : List.length (samples i) = List.length (id_angles i)) by (unfold samples; rewrite !combine_length, S1, S2, !Nat.min_id; reflexivity).
  rewrite Sa in L. unfold aligned, aligned_jd. rewrite J, S1, S2, S3, S4, S5, S6, S7, S8. cbn. split.
  - intros (_ & _ & Q & _). destruct (concat _); [reflexivity|]. rewrite <- L in Q. discriminate Q.
  - intros Q. rewrite Q in L. cbn in L. rewrite <- L. repeat split; reflexivity.
Qed.
Theorem C95_aligned_refuted : exists str h calls i, hydro_internal str h calls = Some i /\ ~ aligned i.
Proof.
  destruct (C95_hydro_history (fun _ => "") (rest_args 100) [(0, at_rest)] eq_refl) as (i & E & _).
  exists (fun _ => ""), (rest_args 100), [(0, at_rest)], i. split; [exact E|]. intro A. apply (C95_aligned_exact _ _ _ _ E) in A. revert A. cbn [map concat]. unfold hy_accepted. cbn [fst snd].
  destruct (rest_disc 100) as [[(d & θ & ->) _]|[_ Q]]; [discriminate|lra].
Qed.

(** The hypotheses are met: a run that finishes, a run that the integrator refuses. *)
Example C95_nonvacuous : exists ic, hydrostatic_define_conditions ohmic_inp = Some ic /\ in_use_E_r ohmic_inp = false /\
  r_final (new_run (Sol := soln_t) tt) = Unset /\ ~ too_close (mk_cvode Finished 0 (c_angles ic) (map (fun _ => c_init_con ic) (c_angles ic)) None None [] [] []) /\
  too_close (mk_cvode Failed TOO_CLOSE [] [] None None [] [] []).
Proof.
  destruct C86_midplane_nonvacuous as (ic & Hc & _). exists ic. split; [exact Hc|]. split; [reflexivity|]. split; [reflexivity|]. split; [intros [Q _]; discriminate Q|split; reflexivity].
Qed.
Print Assumptions C95_hydro. Print Assumptions C95_mod_hydro. Print Assumptions C95_success_refuted. Print Assumptions C95_aligned_refuted. Print Assumptions C95_rejected_refuted.
