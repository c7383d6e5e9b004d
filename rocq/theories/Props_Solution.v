(** C53, C54: assembling a solution from its segments, and conflicting options. *)
From Coq Require Import String List Bool ZArith Reals Sorting Lra Lia.
From Verif Require Import Lib_Py Model_Index Model_Ode Model_Containers Model_Record Model_Solution Spec_Containers Spec_Solution
  Proofs_Ode Proofs_Midplane Props_Containers Props_Record Spec_Ode Witness_Ode.
Import ListNotations.
Open Scope R_scope. Open Scope list_scope.

Lemma bind_ok : forall A B (m : run A) (f : A -> run B) tr b, bind m f = (tr, Ok b) ->
  exists t1 a t2, m = (t1, Ok a) /\ f a = (t2, Ok b) /\ tr = t1 ++ t2.
Proof.
  intros A B [t r] f tr b H. unfold bind in H. cbn [fst snd] in H. destruct r as [a|e]; [|discriminate].
  destruct (f a) as [t2 r2] eqn:F. injection H as <- ->. exists t, a, t2. auto.
Qed.
Lemma ret_ok : forall A (r : res A) tr a, ret r = (tr, Ok a) -> tr = [] /\ r = Ok a.
Proof. intros A r tr a H. injection H as <- ->. auto. Qed.
Lemma bind_ret : forall A B (a : A) (f : A -> run B), bind (ret (Ok a)) f = f a.
Proof. intros. unfold bind, ret. cbn [fst snd]. destruct (f a). reflexivity. Qed.
Lemma bind_raise : forall A B e (f : A -> run B), bind (ret (Raise e)) f = ([], Raise e).
Proof. reflexivity. Qed.

Lemma given_iff : forall A (o : option A), given o = true <-> o <> None.
Proof. intros A []; cbn; split; congruence. Qed.
Lemma roots_iff : forall o, (conflicting o /\ root_arguments o = Raise SolverError) \/
  (~ conflicting o /\ exists f n, root_arguments o = Ok (f, n) /\ asked_root o f /\
     n = match mo_sonic_interp_size o, mo_jump_before_sonic o with None, None => match mo_root_func o with None => None | Some _ => mo_root_func_args o end | _, _ => Some 1%Z end).
Proof.
  intros [onr j ts ont st rf ra si]. unfold conflicting, root_arguments, asked_root. cbn [mo_onroot_func mo_jump_before_sonic mo_tstop mo_ontstop_func mo_store_internal mo_root_func mo_root_func_args mo_sonic_interp_size].
  destruct si as [s|], j as [j|], rf as [rf|], st, onr as [onr|], ra as [ra|]; cbn [given andb negb];
    first [ left; split; [|reflexivity]; intuition congruence
          | right; split; [intuition congruence|]; eexists; eexists; split; [reflexivity|]; split; [|reflexivity];
            first [reflexivity | eexists; split; [reflexivity|]; intros; reflexivity] ].
Qed.

(** C54. Conflicting options, or a grid of fewer than two angles, fail with a solver error before any integration. *)
Theorem C54_rejected : forall I str system angles init o, conflicting o \/ (List.length angles < 2)%nat ->
  main_solution I str system angles init o = ([], Raise SolverError).
Proof.
  intros I str system angles init o H. unfold main_solution. destruct (roots_iff o) as [[_ E]|[N (f & n & E & _)]]; rewrite E.
  - reflexivity.
  - rewrite bind_ret. destruct H as [H|H]; [contradiction|]. apply Nat.ltb_lt in H. rewrite H. reflexivity.
Qed.
(** Compatible options start exactly one integration, of the given system, angles and initial state, that stops at the root
    asked for and at the stop angle asked for. *)
Theorem C54_accepted : forall I str system angles init o, ~ conflicting o -> (2 <= List.length angles)%nat ->
  exists c r, main_solution I str system angles init o = ([c], r) /\ sc_system c = system /\ sc_angles c = angles /\ sc_init c = init /\
    asked_root o (sc_rootfn c) /\ sc_onroot c = mo_onroot_func o /\ sc_ontstop c = mo_ontstop_func o /\
    sc_nr_rootfns c = (match mo_sonic_interp_size o, mo_jump_before_sonic o with
                       | None, None => match mo_root_func o with None => None | Some _ => mo_root_func_args o end
                       | _, _ => Some 1%Z end) /\
    sc_tstop c = match mo_tstop o with None => None | Some t => Some (t / oa_θ_scale system) end /\
    (cr_end (I c) <> Failed -> exists i, r = Ok (I c, i)) /\
    (cr_end (I c) = Failed -> r = Raise OtherError /\ cr_flag (I c) = TOO_CLOSE \/ cr_flag (I c) <> TOO_CLOSE /\ exists i, r = Ok (I c, i)).
Proof.
  intros I str system angles init o N L. unfold main_solution. destruct (roots_iff o) as [[C _]|[_ (f & n & E & A & M)]]; [contradiction|]. rewrite E, bind_ret.
  destruct (Nat.ltb_spec (List.length angles) 2) as [B|_]; [lia|]. cbn [fst snd].
  set (c := mk_call _ _ _ _ _ _ _ _).
  assert (Fin : exists i, finalised (after_calls str system (cr_calls (I c))) = Ok i).
  { destruct (oa_store_internal system) eqn:S.
    - destruct (C77_history str system (cr_calls (I c)) S) as (i & -> & B & _). exists (Some i). cbn [finalised].
      rewrite (id_finalise_shaped i (proj1 (C39_built i B))). reflexivity.
    - rewrite (C77_not_stored _ _ _ S). exists None. reflexivity. }
  destruct Fin as [i Fi]. rewrite Fi. exists c. eexists. split; [reflexivity|].
  split; [reflexivity|]. split; [reflexivity|]. split; [reflexivity|]. split; [exact A|]. split; [reflexivity|]. split; [reflexivity|]. split; [exact M|].
  split; [reflexivity|]. split.
  - intros NF. exists i. cbn [rbind]. destruct (cr_end (I c)); try reflexivity. contradiction.
  - intros ->. cbn [rbind]. destruct (Z.eqb_spec (cr_flag (I c)) TOO_CLOSE) as [T|T]; [left; auto|]. right. split; [exact T|]. exists i. reflexivity.
Qed.
Example C54_nonvacuous : let o := mk_opts None (Some (1/10)) None None true None None None in
  ~ conflicting o /\ conflicting (mk_opts None (Some (1/10)) None None true None None (Some (1/10))) /\
  conflicting (mk_opts (Some "f"%string) (Some (1/10)) None None true None None None).
Proof. cbv zeta. unfold conflicting. cbn. intuition congruence. Qed.

(** The options that [solution] passes to its first main integration. *)
Definition first_options (inp : soln_options) (co : call_options) : main_options :=
  mk_opts (co_onroot_func co) (so_jump_before_sonic inp) (co_tstop co) (co_ontstop_func co) (co_store_internal co) (co_root_func co)
    (co_root_func_args co) (so_sonic_interp_size inp).
(** A solve without Taylor integration (no Taylor start, or a single Taylor step) rejects conflicting options before any integration. *)
Theorem C54_solution_partial : forall I str interp inp ic co, conflicting (first_options inp co) ->
  co_with_taylor co = false \/ so_use_taylor_jump inp = true ->
  solution I str interp inp ic co = ([], Raise SolverError).
Proof.
  intros I str interp inp ic co H T. unfold solution.
  destruct (co_with_taylor co) eqn:W; [destruct T as [T|T]; [discriminate|]; rewrite T; rewrite !bind_ret |
    destruct (co_modified co) as [[a y]|]; rewrite bind_ret ]; fold (first_options inp co); rewrite C54_rejected by (left; exact H); reflexivity.
Qed.
(** With a Taylor integration the conflict shows only after that integration was started. *)
Theorem C54_taylor_refuted : forall I str interp inp ic co, conflicting (first_options inp co) ->
  co_with_taylor co = true -> so_use_taylor_jump inp = false ->
  exists c e, solution I str interp inp ic co = ([c], Raise e) /\ is_main c = false.
Proof.
  intros I str interp inp ic co H W J. unfold solution. rewrite W, J. unfold taylor_solution.
  set (c := mk_call _ _ _ _ _ _ _ _). exists c.
  destruct (cr_end (I c)); try (eexists; split; [reflexivity|reflexivity]).
  destruct (cr_tstop_y (I c)), (cr_tstop_t (I c)); try (eexists; split; [reflexivity|reflexivity]).
  exists SolverError. split; [|reflexivity]. unfold bind at 3. cbn [fst snd ret]. cbn [fst snd bind ret app].
  fold (first_options inp co). rewrite C54_rejected by (left; exact H). reflexivity.
Qed.

Lemma main_inv : forall I str system angles init o tr soln i, main_solution I str system angles init o = (tr, Ok (soln, i)) ->
  exists c, tr = [c] /\ soln = I c /\ i = after_calls str (sc_system c) (cr_calls (I c)) /\ sc_system c = system /\ sc_angles c = angles /\ sc_init c = init /\
    sc_tstop c = rad_to_scaled (mo_tstop o) (oa_θ_scale system) /\ asked_root o (sc_rootfn c).
Proof.
  intros I str system angles init o tr soln i H.
  assert (N : ~ conflicting o /\ (2 <= List.length angles)%nat).
  { split; [intro C | destruct (Nat.lt_ge_cases (List.length angles) 2) as [L|L]; [|exact L]]; rewrite C54_rejected in H by auto; discriminate. }
  unfold main_solution in H. destruct (roots_iff o) as [[C _]|[_ (f & n & E & A & M)]]; [destruct N; contradiction|].
  rewrite E, bind_ret in H. destruct (Nat.ltb_spec (List.length angles) 2) as [B|_]; [lia|]. cbn [fst snd] in H. set (c := mk_call _ _ _ _ _ _ _ _) in H.
  assert (Fin : finalised (after_calls str system (cr_calls (I c))) = Ok (after_calls str system (cr_calls (I c)))).
  { destruct (oa_store_internal system) eqn:S.
    - destruct (C77_history str system (cr_calls (I c)) S) as (j & -> & B & _). cbn [finalised].
      rewrite (id_finalise_shaped j (proj1 (C39_built j B))). reflexivity.
    - rewrite (C77_not_stored _ _ _ S). reflexivity. }
  rewrite Fin in H. cbn [rbind] in H. exists c.
  assert (G : [c] = tr /\ (Ok (I c, after_calls str system (cr_calls (I c))) : res (cvode_run * option internal_data)) = Ok (soln, i)).
  { destruct (cr_end (I c)), (cr_flag (I c) =? TOO_CLOSE)%Z; first [discriminate | injection H as H1 H2 H3; subst; auto]. }
  destruct G as [<- G]. injection G as <- <-. do 7 (split; [reflexivity|]). exact A.
Qed.

(** The calls of the right-hand side that an integration made and that were accepted, in order. *)
Definition recorded (I : integrator) (c : solve_call) : list (R * (row * row)) := flat_map (accepted (sc_system c)) (cr_calls (I c)).
(** What every assembled solution is: how the parts follow one another. *)
Section Cases.
Variables (I : integrator) (str : R -> string) (interp : list R -> list R -> option (R -> R)) (inp : soln_options) (ic : conditions) (co : call_options).
Definition sys : ode_args := mk_ode_args (ic_γ ic) (ic_a_0 ic) (ic_norm_kepler_sq ic) (ic_init_con ic) (co_θ_scale co) false (so_η_derivs inp)
  (co_store_internal co) (so_use_E_r inp) None false.
Definition stop : R := so_taylor_stop_angle inp / co_θ_scale co.
(** The start: calls, the angles and state the main part starts with, what is put before it. *)
Inductive starts : list solve_call -> list R -> vec -> list R -> list vec -> option internal_data -> Prop :=
| st_plain : co_with_taylor co = false -> co_modified co = None -> starts [] (ic_angles ic) (ic_init_con ic) [] [] None
| st_modified : forall a y, co_with_taylor co = false -> co_modified co = Some (a, y) -> starts [] a y [] [] None
| st_step : forall ts, co_with_taylor co = true -> so_use_taylor_jump inp = true -> ts = taylor_jump (ic_angles ic) (ic_init_con ic) (ic_γ ic) (ic_a_0 ic)
    (so_taylor_stop_angle inp) (so_η_derivs inp) (co_θ_scale co) (so_use_E_r inp) ->
    starts [] (angles_gt stop (ic_angles ic)) (ts_new_initial_conditions ts) (to_rad (co_θ_scale co) [0; stop]) (ts_params ts) None
| st_taylor : forall c y, co_with_taylor co = true -> so_use_taylor_jump inp = false -> sc_angles c = ic_angles ic -> sc_tstop c = Some stop ->
    is_main c = false -> oa_store_internal (sc_system c) = co_store_internal co -> nth_error (cr_tstop_y (I c)) 0 = Some y ->
    starts [c] (angles_gt stop (ic_angles ic)) y (to_rad (co_θ_scale co) (cr_t (I c))) (cr_y (I c)) (after_calls str (sc_system c) (cr_calls (I c))).
(** The end: after the first main integration [c1] over [angles]. *)
Inductive ends (c1 : solve_call) (angles : list R) : list solve_call -> Prop :=
| en_none : so_sonic_interp_size inp = None -> so_jump_before_sonic inp = None -> ends c1 angles []
| en_skip : forall s, so_sonic_interp_size inp = Some s -> ends c1 angles []
| en_interp : forall s t1 t2 c2 c3, so_sonic_interp_size inp = Some s -> last_of (cr_t (I c1)) = Ok t1 -> last_of (cr_t (I c2)) = Ok t2 ->
    sc_angles c2 = angles_ge t1 angles -> sc_angles c3 = t2 :: angles_gt t2 angles -> is_main c2 = true -> is_main c3 = true ->
    oa_store_internal (sc_system c2) = co_store_internal co -> oa_store_internal (sc_system c3) = co_store_internal co ->
    (asked_root (first_options inp co) (sc_rootfn c1) /\ last_of (cr_y (I c1)) = Ok (sc_init c2) /\ last_of (cr_y (I c2)) = Ok (sc_init c3) /\
     sc_system c3 = sc_system c1 /\ sc_rootfn c3 = co_root_func co /\
     exists g, sc_rootfn c2 = Some g /\ forall x y, g x y = 1 + (match so_after_sonic inp with None => s | Some a => a end) - y iv_θ) ->
    ends c1 angles [c2; c3]
| en_jump : forall j t y a' y' c2, so_sonic_interp_size inp = None -> so_jump_before_sonic inp = Some j -> last_of (cr_t (I c1)) = Ok t -> last_of (cr_y (I c1)) = Ok y ->
    jump_across_sonic t y angles (ic_init_con ic) (ic_γ ic) (ic_a_0 ic) (ic_norm_kepler_sq ic) (so_η_derivs inp) (co_θ_scale co) (so_use_E_r inp) j (so_after_sonic inp) = Some (a', y') ->
    sc_angles c2 = a' -> is_main c2 = true -> oa_store_internal (sc_system c2) = co_store_internal co ->
    (asked_root (first_options inp co) (sc_rootfn c1) /\ sc_init c2 = y' /\ sc_system c2 = sc_system c1 /\ sc_rootfn c2 = co_root_func co) -> ends c1 angles [c2].
(** Internal data is the sum of the parts. *)
Definition summed (l : list (option internal_data)) (i : option internal_data) : Prop :=
  if co_store_internal co then exists js k, l = map Some js /\ i = Some k /\ Forall built js /\ built k /\ samples k = flat_map samples js else i = None.

Lemma after_built : forall o calls, oa_store_internal o = co_store_internal co -> co_store_internal co = true ->
  exists i, after_calls str o calls = Some i /\ built i /\ samples i = flat_map (accepted o) calls.
Proof. intros o calls E S. destruct (C77_history str o calls) as (i & A & B & C & _); [congruence|]. exists i. rewrite flat_map_concat_map. auto. Qed.
Lemma summed_add : forall l i b k, summed l i -> (co_store_internal co = true -> exists j, b = Some j /\ built j) ->
  add_internal (co_store_internal co) i b = Ok k -> summed (l ++ [b]) k.
Proof.
  intros l i b k S B A. unfold summed in *. destruct (co_store_internal co) eqn:St.
  - destruct S as (js & k0 & -> & -> & F & B0 & Sm). destruct (B eq_refl) as (j & -> & Bj). cbn [add_internal] in A.
    destruct (C39_join k0 j B0 Bj) as (m & M1 & M2 & M3 & _). rewrite M1 in A. cbn [rbind] in A. injection A as <-.
    exists (js ++ [j]), m. split; [rewrite map_app; reflexivity|]. split; [reflexivity|]. split; [apply Forall_app; auto|]. split; [exact M2|].
    rewrite M3, Sm, flat_map_app. cbn [flat_map]. rewrite app_nil_r. reflexivity.
  - subst. cbn [add_internal] in A. injection A as <-. reflexivity.
Qed.

Lemma solution_inv : forall tr s, solution I str interp inp ic co = (tr, Ok s) ->
  exists t0 angles init pa ps ti c1 t2, tr = t0 ++ c1 :: t2 /\ starts t0 angles init pa ps ti /\ sc_system c1 = sys /\ sc_angles c1 = angles /\ sc_init c1 = init /\
    ends c1 angles t2 /\
    s_angles s = pa ++ returned_angles I (co_θ_scale co) (c1 :: t2) /\ s_solution s = ps ++ returned_states I (c1 :: t2) /\
    s_flag s = cr_flag (I c1) /\ s_t_roots s = option_map (to_rad (co_θ_scale co)) (cr_root_t (I c1)) /\ s_y_roots s = cr_root_y (I c1) /\
    summed (map (fun c => after_calls str (sc_system c) (cr_calls (I c))) tr) (s_internal s).
Proof.
  intros tr s H. unfold solution in H. cbv zeta in H.
  apply bind_ok in H. destruct H as (t0 & [[angles init] taylor] & t' & H0 & H & ->).
  apply bind_ok in H. destruct H as (t1 & [soln mi] & t2 & H1 & H & ->).
  apply main_inv in H1. destruct H1 as (c1 & -> & -> & -> & C1 & C2 & C3 & _ & C4). fold (first_options inp co) in C4.
  apply bind_ok in H. destruct H as (t3 & internal & t4 & H2 & H & ->). apply ret_ok in H2. destruct H2 as [-> H2]. cbn [app].
  apply bind_ok in H. destruct H as (t5 & [[internal' angles'] states'] & t6 & H3 & H & ->). apply ret_ok in H. destruct H as [-> H]. rewrite app_nil_r.
  injection H as <-. cbn [s_angles s_solution s_flag s_t_roots s_y_roots s_internal].
  fold sys in H2, H3, C1. rewrite C1 in H2.
  assert (S0 : exists pa ps ti, starts t0 angles init pa ps ti /\ (match taylor with Some (ts, _) => ts_angles ts | None => [] end = pa) /\
            (match taylor with Some (ts, _) => ts_params ts | None => [] end = ps) /\
            match taylor with Some (_, i) => i = ti | None => ti = None end /\
            summed (map (fun c => after_calls str (sc_system c) (cr_calls (I c))) (t0 ++ [c1])) internal).
  { destruct (co_with_taylor co) eqn:W.
    - apply bind_ok in H0. destruct H0 as (a1 & [ts ti] & a2 & H0 & H0' & ->). apply ret_ok in H0'. destruct H0' as [-> H0']. rewrite app_nil_r.
      injection H0' as <- <- <-. cbn [fst] in *. destruct (so_use_taylor_jump inp) eqn:J.
      + apply ret_ok in H0. destruct H0 as [-> H0]. injection H0 as <- <-. eexists; eexists; eexists.
        split; [apply st_step; [exact W | exact J | reflexivity]|]. split; [reflexivity|]. split; [reflexivity|]. split; [reflexivity|].
        injection H2 as <-. cbn [app map]. unfold summed. rewrite C1.
        destruct (co_store_internal co) eqn:St; [|apply C77_not_stored; cbn [sys oa_store_internal]; exact St].
        destruct (after_built sys (cr_calls (I c1)) eq_refl St) as (i & -> & B & _).
        exists [i], i. repeat split; auto. cbn. rewrite app_nil_r. reflexivity.
      + unfold taylor_solution in H0. cbv zeta in H0. set (o := mk_ode_args _ _ _ _ _ true _ _ _ _ _) in H0. set (c := mk_call _ _ _ _ _ _ _ _) in H0.
        destruct (cr_end (I c)) eqn:E; try discriminate. destruct (cr_tstop_y (I c)) as [|y ys] eqn:Y; [discriminate|]. destruct (cr_tstop_t (I c)) as [|q qs]; [discriminate|].
        injection H0 as <- <- <-. cbn [ts_new_angles ts_new_initial_conditions ts_angles ts_params]. exists (to_rad (co_θ_scale co) (cr_t (I c))), (cr_y (I c)). eexists.
        split; [apply (st_taylor c y); [exact W | exact J | reflexivity | reflexivity | reflexivity | reflexivity | rewrite Y; reflexivity]|].
        split; [reflexivity|]. split; [reflexivity|]. split; [reflexivity|].
        cbn [app map]. unfold summed. rewrite C1.
        change o with (sc_system c) in H2.
        destruct (co_store_internal co) eqn:St.
        * destruct (after_built sys (cr_calls (I c1)) eq_refl St) as (i & E1 & B & _).
          destruct (after_built (sc_system c) (cr_calls (I c)) (eq_sym St) St) as (k & E2 & B' & _).
          rewrite E1, E2 in *. destruct (C39_join k i B' B) as (m & M1 & M2 & M3 & _). rewrite M1 in H2. cbn [rbind] in H2. injection H2 as <-.
          exists [k; i], m. repeat split; auto. cbn. rewrite app_nil_r. exact M3.
        * assert (Q : after_calls str (sc_system c) (cr_calls (I c)) = None) by (apply C77_not_stored; cbn; first [exact St | reflexivity]).
          rewrite Q in H2. injection H2 as <-. apply C77_not_stored. exact St.
    - assert (G : t0 = [] /\ taylor = None /\ starts [] angles init [] [] None).
      { destruct (co_modified co) as [[a y]|] eqn:M; apply ret_ok in H0; destruct H0 as [-> H0]; injection H0 as <- <- <-.
        - repeat split. apply st_modified; assumption.
        - repeat split. apply st_plain; assumption. }
      destruct G as (-> & -> & G). exists [], [], None. split; [exact G|]. repeat split.
      injection H2 as <-. cbn [app map]. unfold summed. rewrite C1.
      destruct (co_store_internal co) eqn:St; [|apply C77_not_stored; cbn [sys oa_store_internal]; exact St].
      destruct (after_built sys (cr_calls (I c1)) eq_refl St) as (i & -> & B & _).
      exists [i], i. repeat split; auto. cbn. rewrite app_nil_r. reflexivity. }
  destruct S0 as (pa & ps & ti & S0 & Ea & Ep & _ & Sum). rewrite Ea, Ep in H3. clear Ea Ep.
  assert (RT : forall l, match cr_root_t l with Some t => Some (to_rad (co_θ_scale co) t) | None => None end = option_map (to_rad (co_θ_scale co)) (cr_root_t l)) by (intro l; destruct (cr_root_t l); reflexivity).
  assert (Bu : forall c, oa_store_internal (sc_system c) = co_store_internal co -> co_store_internal co = true ->
     exists j, after_calls str (sc_system c) (cr_calls (I c)) = Some j /\ built j).
  { intros c Ec St. destruct (after_built (sc_system c) (cr_calls (I c)) Ec St) as (j & A & B & _). eauto. }
  exists t0, angles, init, pa, ps, ti, c1, t5.
  assert (Fin : ends c1 angles t5 /\ angles' = pa ++ returned_angles I (co_θ_scale co) (c1 :: t5) /\ states' = ps ++ returned_states I (c1 :: t5) /\
            summed (map (fun c => after_calls str (sc_system c) (cr_calls (I c))) (t0 ++ c1 :: t5)) internal').
  { destruct (so_sonic_interp_size inp) as [size|] eqn:Si.
    - apply bind_ok in H3. destruct H3 as (u1 & crossed & u2 & H4 & H3 & ->). unfold interp_cross_sonic in H4.
      destruct internal as [i0|]; [|discriminate].
      destruct (interp _ _) as [g|].
      2:{ apply ret_ok in H4. destruct H4 as [-> H4]. injection H4 as <-. apply ret_ok in H3. destruct H3 as [-> H3]. injection H3 as <- <- <-.
          split; [eapply en_skip; exact Si|]. unfold returned_angles, returned_states. cbn [flat_map app]. rewrite !app_nil_r. auto. }
      apply bind_ok in H4. destruct H4 as (v1 & ta & v2 & H5 & H4 & ->). apply ret_ok in H5. destruct H5 as [-> H5]. cbn [app].
      apply bind_ok in H4. destruct H4 as (v1 & ya & v3 & H6 & H4 & ->). apply ret_ok in H6. destruct H6 as [-> H6]. cbn [app].
      apply bind_ok in H4. destruct H4 as (v1 & [sn2 i2] & v4 & H7 & H4 & ->). apply main_inv in H7. destruct H7 as (c2 & -> & -> & -> & D1 & D2 & D3 & _ & D4).
      apply bind_ok in H4. destruct H4 as (v1 & tb & v5 & H8 & H4 & ->). apply ret_ok in H8. destruct H8 as [-> H8]. cbn [app].
      apply bind_ok in H4. destruct H4 as (v1 & yb & v6 & H9 & H4 & ->). apply ret_ok in H9. destruct H9 as [-> H9]. cbn [app].
      apply ret_ok in H4. destruct H4 as [-> H4]. injection H4 as <-. cbn [app].
      apply bind_ok in H3. destruct H3 as (w1 & j1 & w2 & A1 & H3 & ->). apply ret_ok in A1. destruct A1 as [-> A1]. cbn [app].
      apply bind_ok in H3. destruct H3 as (w1 & [sn3 i3] & w3 & P3 & H3 & ->). apply main_inv in P3. destruct P3 as (c3 & -> & -> & -> & E1 & E2 & E3 & _ & E4). cbn [fst snd app] in *.
      apply bind_ok in H3. destruct H3 as (w1 & j2 & w4 & A2 & H3 & ->). apply ret_ok in A2. destruct A2 as [-> A2]. apply ret_ok in H3. destruct H3 as [-> H3].
      injection H3 as <- <- <-. cbn [app].
      assert (K2 : oa_store_internal (sc_system c2) = co_store_internal co) by (rewrite D1; reflexivity).
      assert (K3 : oa_store_internal (sc_system c3) = co_store_internal co) by (rewrite E1; reflexivity).
      split; [eapply (en_interp c1 angles size ta tb c2 c3); auto; unfold is_main; [rewrite D1; reflexivity | rewrite E1; reflexivity|]|].
      { split; [exact C4|]. rewrite D3, E3. split; [exact H6|]. split; [exact H9|]. split; [rewrite E1, C1; reflexivity|]. split; [exact E4|].
        unfold asked_root in D4. cbn [mo_sonic_interp_size mo_jump_before_sonic mo_root_func] in D4. eexists. split; [exact D4|]. intros. reflexivity. }
      split; [unfold returned_angles; cbn [flat_map]; rewrite app_nil_r, <- !app_assoc; reflexivity|].
      split; [unfold returned_states; cbn [flat_map]; rewrite app_nil_r, <- !app_assoc; reflexivity|].
      replace (t0 ++ [c1; c2; c3]) with (((t0 ++ [c1]) ++ [c2]) ++ [c3]) by (rewrite <- !app_assoc; reflexivity).
      rewrite map_app. eapply summed_add; [|apply Bu, K3|exact A2]. rewrite map_app. eapply summed_add; [exact Sum|apply Bu, K2|exact A1].
    - destruct (so_jump_before_sonic inp) as [j|] eqn:Jb.
      + apply bind_ok in H3. destruct H3 as (v1 & ta & v2 & H5 & H3 & ->). apply ret_ok in H5. destruct H5 as [-> H5]. cbn [app].
        apply bind_ok in H3. destruct H3 as (v1 & ya & v3 & H6 & H3 & ->). apply ret_ok in H6. destruct H6 as [-> H6]. cbn [app].
        destruct (jump_across_sonic _ _ _ _ _ _ _ _ _ _ _ _) as [[pja pji]|] eqn:Jc; [|discriminate].
        apply bind_ok in H3. destruct H3 as (w1 & [sn2 i2] & w3 & P3 & H3 & ->). apply main_inv in P3. destruct P3 as (c2 & -> & -> & -> & E1 & E2 & E3 & _ & E4). cbn [fst snd app] in *.
        apply bind_ok in H3. destruct H3 as (w1 & j2 & w4 & A2 & H3 & ->). apply ret_ok in A2. destruct A2 as [-> A2]. apply ret_ok in H3. destruct H3 as [-> H3].
        injection H3 as <- <- <-. cbn [app].
        assert (K2 : oa_store_internal (sc_system c2) = co_store_internal co) by (rewrite E1; reflexivity).
        split; [eapply (en_jump c1 angles j ta ya pja pji c2); auto; [unfold is_main; rewrite E1; reflexivity|]; split; [exact C4|]; split; [exact E3|]; split; [rewrite E1, C1; reflexivity | exact E4]|].
        split; [unfold returned_angles; cbn [flat_map]; rewrite app_nil_r, <- !app_assoc; reflexivity|].
        split; [unfold returned_states; cbn [flat_map]; rewrite app_nil_r, <- !app_assoc; reflexivity|].
        replace (t0 ++ [c1; c2]) with ((t0 ++ [c1]) ++ [c2]) by (rewrite <- !app_assoc; reflexivity).
        rewrite map_app. eapply summed_add; [exact Sum|apply Bu, K2|exact A2].
      + apply ret_ok in H3. destruct H3 as [-> H3]. injection H3 as <- <- <-.
        split; [apply en_none; assumption|]. unfold returned_angles, returned_states. cbn [flat_map app]. rewrite !app_nil_r. auto. }
  destruct Fin as (F1 & -> & -> & F4).
  rewrite RT. split; [reflexivity|]. repeat (split; [first [assumption | reflexivity]|]). exact F4.
Qed.
End Cases.

(** C53. A solution holds the angles and states that its integrations returned, in order, after the two points of a Taylor
    step if there was one; it has as many angles as states. *)
Theorem C53_joined : forall I str interp inp ic co tr s, solution I str interp inp ic co = (tr, Ok s) -> co_θ_scale co <> 0 ->
  s_angles s = (if taylor_step_only inp co then [0; so_taylor_stop_angle inp] else []) ++ returned_angles I (co_θ_scale co) tr /\
  exists y, s_solution s = (if taylor_step_only inp co then [ic_init_con ic; y] else []) ++ returned_states I tr.
Proof.
  intros I str interp inp ic co tr s H Hs. destruct (solution_inv _ _ _ _ _ _ _ _ H) as (t0 & angles & init & pa & ps & ti & c1 & t2 & -> & S & _ & _ & _ & _ & -> & -> & _).
  unfold returned_angles, returned_states, taylor_step_only. rewrite !flat_map_app.
  destruct S as [W M|a y W M|ts W J ->|c y W J ? ? ? ? ?]; rewrite W; try rewrite J; cbn [andb app flat_map].
  - split; [reflexivity|]. exists zeros. reflexivity.
  - split; [reflexivity|]. exists zeros. reflexivity.
  - split; [|eexists; reflexivity]. unfold to_rad, stop, scaled_to_rad_num. cbn [map app]. rewrite Rmult_0_l. do 2 f_equal. field. exact Hs.
  - split; [|exists zeros]; rewrite app_nil_r; reflexivity.
Qed.
Theorem C53_aligned : forall I str interp inp ic co tr s, keeps_grid I -> solution I str interp inp ic co = (tr, Ok s) -> co_θ_scale co <> 0 ->
  List.length (s_angles s) = List.length (s_solution s).
Proof.
  intros I str interp inp ic co tr s K H Hs. destruct (C53_joined _ _ _ _ _ _ _ _ H Hs) as [-> [y ->]]. rewrite !app_length. f_equal.
  - destruct (taylor_step_only inp co); reflexivity.
  - unfold returned_angles, returned_states. induction tr as [|c t IH] in |- *; [reflexivity|]. cbn [flat_map]. rewrite !app_length, map_length, IH, (kg_states I K). reflexivity.
Qed.
(** Internal data is that of all integrations, in order. *)
Theorem C53_internal : forall I str interp inp ic co tr s, solution I str interp inp ic co = (tr, Ok s) ->
  if co_store_internal co then exists i, s_internal s = Some i /\ samples i = flat_map (recorded I) tr else s_internal s = None.
Proof.
  intros I str interp inp ic co tr s H. destruct (solution_inv _ _ _ _ _ _ _ _ H) as (t0 & angles & init & pa & ps & ti & c1 & t2 & -> & S & C1 & _ & _ & E & _ & _ & _ & _ & _ & Sum).
  unfold summed in Sum. destruct (co_store_internal co) eqn:St; [|exact Sum]. destruct Sum as (js & k & L & Hk & _ & _ & Sk). exists k. split; [exact Hk|]. rewrite Sk.
  assert (A : Forall (fun c => oa_store_internal (sc_system c) = true) (t0 ++ c1 :: t2)).
  { apply Forall_app. split; [destruct S; repeat constructor; congruence|]. constructor; [rewrite C1; exact St|]. destruct E; repeat constructor; congruence. }
  clear - L A. revert js L. induction A as [|c l Hc A IH]; intros js L; destruct js as [|j js]; try discriminate; [reflexivity|].
  cbn [map] in L. injection L as L1 L2. cbn [flat_map]. rewrite (IH js L2). f_equal.
  destruct (C77_history str (sc_system c) (cr_calls (I c)) Hc) as (i & E & _ & Sm & _). rewrite E in L1. injection L1 as <-. unfold recorded. rewrite Sm, flat_map_concat_map. reflexivity.
Qed.
(** The flag and the roots are those of the first main integration. *)
Theorem C53_flag_exact : forall I str interp inp ic co tr s, solution I str interp inp ic co = (tr, Ok s) ->
  exists c, find is_main tr = Some c /\ s_flag s = cr_flag (I c) /\ s_y_roots s = cr_root_y (I c) /\
    s_t_roots s = option_map (map (fun x => x * co_θ_scale co)) (cr_root_t (I c)).
Proof.
  intros I str interp inp ic co tr s H. destruct (solution_inv _ _ _ _ _ _ _ _ H) as (t0 & angles & init & pa & ps & ti & c1 & t2 & -> & S & C1 & _ & _ & _ & _ & _ & F & T & Y & _).
  exists c1. split; [|split; [exact F|]; split; [exact Y | exact T]].
  assert (G : find is_main (c1 :: t2) = Some c1) by (cbn [find]; unfold is_main; rewrite C1; reflexivity).
  destruct S as [W M|a y W M|ts W J ->|c y W J ? ? Hm ? ?]; try exact G. cbn [app]. cbn [find] in *. rewrite Hm. exact G.
Qed.
(** A Taylor start that does not reach its stop angle fails with a solver error; nothing else is integrated. *)
Theorem C53_taylor_stop : forall I str interp inp ic co, co_with_taylor co = true -> so_use_taylor_jump inp = false ->
  exists c, sc_angles c = ic_angles ic /\ sc_init c = ic_init_con ic /\ sc_tstop c = Some (so_taylor_stop_angle inp / co_θ_scale co) /\
    sc_rootfn c = None /\ is_main c = false /\
    (cr_end (I c) = Failed \/ cr_end (I c) = Finished -> solution I str interp inp ic co = ([c], Raise SolverError)).
Proof.
  intros I str interp inp ic co W J. unfold solution. rewrite W, J. unfold taylor_solution. set (c := mk_call _ _ _ _ _ _ _ _). exists c.
  do 5 (split; [reflexivity|]). intros [E|E]; rewrite E; reflexivity.
Qed.
Lemma starts_no_main : forall I str inp ic co t0 angles init pa ps ti, starts I str inp ic co t0 angles init pa ps ti -> filter is_main t0 = [].
Proof. intros I str inp ic co t0 angles init pa ps ti S. destruct S as [W M|a y W M|ts W J ->|c y W J Ca Ct Hm ? ?]; try reflexivity. cbn [filter]. rewrite Hm. reflexivity. Qed.
(** Crossing the sonic point by interpolation: the first segment stops at the given distance before it, the second starts where that
    ended and stops at the given distance behind it, and the third starts there and stops where the caller asked. *)
Theorem C53_crossing : forall I str interp inp ic co tr s c1 c2 c3, solution I str interp inp ic co = (tr, Ok s) -> filter is_main tr = [c1; c2; c3] ->
  exists size g1 g2, so_sonic_interp_size inp = Some size /\
    sc_rootfn c1 = Some g1 /\ (forall x y, g1 x y = 0 <-> y iv_θ = 1 - size) /\
    sc_rootfn c2 = Some g2 /\ (forall x y, g2 x y = 0 <-> y iv_θ = 1 + match so_after_sonic inp with None => size | Some a => a end) /\
    sc_rootfn c3 = co_root_func co /\ last_of (cr_y (I c1)) = Ok (sc_init c2) /\ last_of (cr_y (I c2)) = Ok (sc_init c3) /\ sc_system c3 = sc_system c1.
Proof.
  intros I str interp inp ic co tr s c1 c2 c3 H F.
  destruct (solution_inv _ _ _ _ _ _ _ _ H) as (t0 & angles & init & pa & ps & ti & d1 & t2 & -> & S & C1 & _ & _ & E & _).
  rewrite filter_app, (starts_no_main _ _ _ _ _ _ _ _ _ _ _ S) in F. cbn [app filter] in F.
  assert (Z1 : is_main d1 = true) by (unfold is_main; rewrite C1; reflexivity). rewrite Z1 in F.
  destruct E as [N1 N2|k N1|k ta tb d2 d3 N1 La Lb A2 A3 M2 M3 _ _ (R1 & Y1 & Y2 & S3 & R3 & g & R2 & G)|j ta ya a' y' d2 N1 N2 Lt Ly Ju A2 M2 _ _]; cbn [filter] in F; try discriminate.
  - rewrite M2, M3 in F. injection F as <- <- <-. unfold asked_root, first_options in R1. cbn [mo_sonic_interp_size] in R1. rewrite N1 in R1. destruct R1 as (g1 & R1 & G1).
    exists k, g1, g. split; [exact N1|]. split; [exact R1|]. split; [intros; rewrite G1; split; intro; lra|]. split; [exact R2|].
    split; [intros; rewrite G; split; intro; lra|]. auto.
  - rewrite M2 in F. discriminate.
Qed.
(** Jumping over it: the first segment stops at the given distance before it, and the second starts from the extrapolated state. *)
Theorem C53_jump : forall I str interp inp ic co tr s c1 c2, solution I str interp inp ic co = (tr, Ok s) -> filter is_main tr = [c1; c2] ->
  exists j g t y, so_jump_before_sonic inp = Some j /\ sc_rootfn c1 = Some g /\ (forall x y, g x y = 0 <-> y iv_θ = 1 - j) /\
    last_of (cr_t (I c1)) = Ok t /\ last_of (cr_y (I c1)) = Ok y /\
    jump_across_sonic t y (sc_angles c1) (ic_init_con ic) (ic_γ ic) (ic_a_0 ic) (ic_norm_kepler_sq ic) (so_η_derivs inp) (co_θ_scale co) (so_use_E_r inp) j (so_after_sonic inp)
      = Some (sc_angles c2, sc_init c2) /\
    sc_rootfn c2 = co_root_func co /\ sc_system c2 = sc_system c1.
Proof.
  intros I str interp inp ic co tr s c1 c2 H F.
  destruct (solution_inv _ _ _ _ _ _ _ _ H) as (t0 & angles & init & pa & ps & ti & d1 & t2 & -> & S & C1 & C2 & _ & E & _).
  rewrite filter_app, (starts_no_main _ _ _ _ _ _ _ _ _ _ _ S) in F. cbn [app filter] in F.
  assert (Z1 : is_main d1 = true) by (unfold is_main; rewrite C1; reflexivity). rewrite Z1 in F.
  destruct E as [N1 N2|k N1|k ta tb d2 d3 N1 La Lb A2 A3 M2 M3 _ _ _|j ta ya a' y' d2 N1 N2 Lt Ly Ju A2 M2 _ (R1 & Y & S2 & R2)]; cbn [filter] in F; try discriminate.
  - rewrite M2, M3 in F. discriminate.
  - rewrite M2 in F. injection F as <- <-. unfold asked_root, first_options in R1. cbn [mo_sonic_interp_size mo_jump_before_sonic] in R1. rewrite N1, N2 in R1. destruct R1 as (g & R1 & G).
    exists j, g, ta, ya. split; [exact N2|]. split; [exact R1|]. split; [intros; rewrite G; split; intro; lra|]. split; [exact Lt|]. split; [exact Ly|].
    rewrite C2, A2, Y. auto.
Qed.
Example C53_taylor_stop_nonvacuous : exists (I : integrator) (inp : soln_options) (ic : conditions) (co : call_options), co_with_taylor co = true /\ so_use_taylor_jump inp = false /\ forall c, cr_end (I c) = Finished.
Proof.
  exists (fun _ => mk_cvode Finished 0%Z [] [] None None [] [] []), (mk_soln_options false (1/10) None None (fun _ => []) None false false),
    (mk_conditions [0; 1] zeros 1 1 1), (mk_call_options None None None None None false true None 1). repeat split.
Qed.
(** So without a crossing of the sonic point the flag is that of the last integration. *)
Theorem C53_flag_partial : forall I str interp inp ic co tr s, solution I str interp inp ic co = (tr, Ok s) ->
  so_sonic_interp_size inp = None -> so_jump_before_sonic inp = None -> exists l c, tr = l ++ [c] /\ s_flag s = cr_flag (I c).
Proof.
  intros I str interp inp ic co tr s H N1 N2. destruct (solution_inv _ _ _ _ _ _ _ _ H) as (t0 & angles & init & pa & ps & ti & c1 & t2 & -> & S & C1 & _ & _ & E & _ & _ & F & _).
  exists t0, c1. split; [|exact F]. destruct E; first [reflexivity | congruence].
Qed.

(** The grid *)
Lemma ss_app : forall (rel : R -> R -> Prop) l m, StronglySorted rel l -> StronglySorted rel m -> (forall x y, In x l -> In y m -> rel x y) -> StronglySorted rel (l ++ m).
Proof.
  intros rel l m Hl Hm H. induction Hl as [|a l Hl IH Ha]; [exact Hm|]. cbn [app]. constructor.
  - apply IH. intros. apply H; [right|]; assumption.
  - apply Forall_app. split; [exact Ha|]. apply Forall_forall. intros. apply H; [left; reflexivity|assumption].
Qed.
Lemma ss_firstn : forall (rel : R -> R -> Prop) n l, StronglySorted rel l -> StronglySorted rel (firstn n l).
Proof.
  intros rel n l Hl. revert n. induction Hl as [|a l Hl IH Ha]; intros [|n]; cbn [firstn]; try constructor; [apply IH|].
  apply Forall_forall. intros x Hx. rewrite Forall_forall in Ha. apply Ha. rewrite <- (firstn_skipn n l). apply in_or_app. left. exact Hx.
Qed.
Lemma ss_filter : forall (rel : R -> R -> Prop) f l, StronglySorted rel l -> StronglySorted rel (filter f l).
Proof.
  intros rel f l Hl. induction Hl as [|a l Hl IH Ha]; cbn [filter]; [constructor|]. destruct (f a); [|exact IH]. constructor; [exact IH|].
  apply Forall_forall. intros x Hx. apply filter_In in Hx. rewrite Forall_forall in Ha. apply Ha, Hx.
Qed.
Lemma in_gt : forall a l x, In x (angles_gt a l) <-> In x l /\ a < x.
Proof. intros. unfold angles_gt. rewrite filter_In. destruct (Rlt_dec a x); intuition congruence. Qed.
Lemma in_ge : forall a l x, In x (angles_ge a l) <-> In x l /\ a <= x.
Proof. intros. unfold angles_ge. rewrite filter_In. destruct (Rle_dec a x); intuition congruence. Qed.
Lemma ss_scale : forall (rel : R -> R -> Prop) k l, (forall x y, rel x y -> rel (x * k) (y * k)) -> StronglySorted rel l -> StronglySorted rel (map (fun x => x * k) l).
Proof.
  intros rel k l Hk Hl. induction Hl as [|a l Hl IH Ha]; cbn [map]; [constructor|]. constructor; [exact IH|].
  apply Forall_forall. intros x Hx. apply in_map_iff in Hx. destruct Hx as (y & <- & Hy). rewrite Forall_forall in Ha. apply Hk, Ha, Hy.
Qed.
Lemma ss_weak : forall l, increasing l -> nondecreasing l.
Proof. intros l Hl. induction Hl as [|a l Hl IH Ha]; constructor; [exact IH|]. eapply Forall_impl; [|exact Ha]. intros. cbv beta in *. lra. Qed.
Lemma last_in : forall A (l : list A) a, last_of l = Ok a -> exists k, l = k ++ [a].
Proof.
  intros A l a H. unfold last_of in H. destruct (rev l) as [|b r] eqn:E; [discriminate|]. injection H as ->. exists (rev r).
  rewrite <- (rev_involutive l), E. reflexivity.
Qed.
Lemma last_max : forall l a x, nondecreasing l -> last_of l = Ok a -> In x l -> x <= a.
Proof.
  intros l a x S H. destruct (last_in _ _ _ H) as [k ->]. clear H. induction k as [|b k IH]; intros Hx.
  - destruct Hx as [<-|[]]. lra.
  - cbn [app] in *. inversion S as [|? ? S' F]; subst. destruct Hx as [<-|Hx]; [|apply IH; assumption].
    rewrite Forall_forall in F. apply F. apply in_or_app. right. left. reflexivity.
Qed.

Section Grid.
Variables (I : integrator) (K : keeps_grid I).
Lemma part_sorted : forall (rel : R -> R -> Prop) c, StronglySorted rel (sc_angles c) -> StronglySorted rel (cr_t (I c)).
Proof. intros rel c H. destruct (kg_grid I K c) as [n ->]. apply ss_firstn, H. Qed.
Lemma part_in : forall c x, In x (cr_t (I c)) -> In x (sc_angles c).
Proof. intros c x H. destruct (kg_grid I K c) as [n E]. rewrite E in H. rewrite <- (firstn_skipn (S n) (sc_angles c)). apply in_or_app. left. exact H. Qed.
Lemma part_head : forall c a l, sc_angles c = a :: l -> exists r, cr_t (I c) = a :: r.
Proof. intros c a l H. destruct (kg_grid I K c) as [n E]. rewrite H in E. cbn [firstn] in E. eauto. Qed.
End Grid.
Lemma head_min : forall a l x, nondecreasing (a :: l) -> In x (a :: l) -> a <= x.
Proof. intros a l x S [<-|H]; [lra|]. inversion S as [|? ? _ F]; subst. rewrite Forall_forall in F. apply F, H. Qed.
Lemma gt_sorted : forall a l, increasing l -> increasing (a :: angles_gt a l).
Proof. intros a l H. constructor; [apply ss_filter, H|]. apply Forall_forall. intros x Hx. apply in_gt in Hx. apply Hx. Qed.
(** A sorted grid from a grid point on starts with that point. *)
Lemma ge_head : forall t l, increasing l -> In t l -> exists r, angles_ge t l = t :: r.
Proof.
  intros t l H. induction H as [|a l H IH F]; intros Hi; [destruct Hi|]. unfold angles_ge. cbn [filter]. destruct (Rle_dec t a) as [L|L].
  - destruct Hi as [->|Hi]; [eauto|]. rewrite Forall_forall in F. specialize (F t Hi). lra.
  - destruct Hi as [->|Hi]; [lra|]. apply IH, Hi.
Qed.

(** The grid that the main part starts with. *)
Definition main_grid (inp : soln_options) (ic : conditions) (co : call_options) : list R :=
  if co_with_taylor co then ic_angles ic else match co_modified co with None => ic_angles ic | Some (a, _) => a end.
(** The jump across the sonic point goes forwards: v_θ is to rise, and it does at the end of the first main integration; the angular
    scale is one, or smaller above the midplane. *)
Definition jumps_forward (I : integrator) (inp : soln_options) (co : call_options) (tr : list solve_call) : Prop :=
  forall j, so_jump_before_sonic inp = Some j -> 0 < j + (match so_after_sonic inp with None => j | Some a => a end) /\
  forall c t y, find is_main tr = Some c -> last_of (cr_t (I c)) = Ok t -> last_of (cr_y (I c)) = Ok y ->
  forall d e, rhs_equation (mk_ode_args (oa_γ (sc_system c)) (oa_a_0 (sc_system c)) (oa_norm_kepler_sq (sc_system c)) (oa_init_con (sc_system c)) (oa_θ_scale (sc_system c))
                              false (oa_η_derivs (sc_system c)) false (oa_use_E_r (sc_system c)) None false) t y = Rhs_ok d e -> 0 < d iv_θ /\ (co_θ_scale co = 1 \/ co_θ_scale co < 1 /\ 0 <= t).

Lemma over_scale : forall a k, 0 < k -> k = 1 \/ k < 1 /\ 0 <= a -> a <= a / k.
Proof.
  intros a k K [->|[L P]]; [right; field|]. apply (Rmult_le_reg_r k); [exact K|]. replace (a / k * k) with a by (field; lra).
  rewrite <- (Rmult_1_r a) at 2. apply Rmult_le_compat_l; lra.
Qed.
Lemma starts_sorted : forall I str inp ic co t0 angles init pa ps ti, keeps_grid I -> increasing (main_grid inp ic co) -> 0 < co_θ_scale co ->
  (co_with_taylor co = true -> 0 < so_taylor_stop_angle inp /\ exists rest, ic_angles ic = 0 :: rest) ->
  starts I str inp ic co t0 angles init pa ps ti -> increasing angles /\ increasing pa /\ forall x y, In x pa -> In y angles -> x < y * co_θ_scale co.
Proof.
  intros I str inp ic co t0 angles init pa ps ti K G Sc T S. unfold main_grid in G.
  assert (P : co_with_taylor co = true -> 0 < stop inp co).
  { intro W. destruct (T W). unfold stop. apply Rdiv_lt_0_compat; assumption. }
  destruct S as [W M|a y W M|ts W J ->|c y W J Ca Ct ? ? ?]; rewrite W in G; try rewrite M in G.
  - split; [exact G|]. split; [constructor|]. intros x y [].
  - split; [exact G|]. split; [constructor|]. intros x z [].
  - specialize (P W). split; [apply ss_filter, G|]. unfold to_rad, scaled_to_rad_num. cbn [map]. split.
    + repeat constructor. apply Rmult_lt_compat_r; assumption.
    + intros x y Hx Hy. apply in_gt in Hy. destruct Hx as [<-|[<-|[]]]; apply Rmult_lt_compat_r; try assumption; lra.
  - specialize (P W). destruct (T W) as [_ [rest Er]]. split; [apply ss_filter, G|]. split.
    + apply ss_scale; [intros; apply Rmult_lt_compat_r; assumption|]. apply part_sorted; [exact K|]. rewrite Ca. exact G.
    + intros x z Hx Hz. apply in_gt in Hz. unfold to_rad, scaled_to_rad_num in Hx. apply in_map_iff in Hx. destruct Hx as (q & <- & Hq).
      apply Rmult_lt_compat_r; [assumption|]. assert (q <= stop inp co); [|lra].
      eapply (kg_stop I K c _ 0 rest q); [exact Ct | rewrite Ca; exact Er | lra | exact Hq].
Qed.

(** The angles never go back: whatever the integrations return, with an increasing grid, a positive scale, a positive Taylor stop on a
    grid that starts in the midplane, and a jump that goes forward. *)
Theorem C53_nondecreasing_partial : forall I str interp inp ic co tr s, keeps_grid I -> solution I str interp inp ic co = (tr, Ok s) ->
  increasing (main_grid inp ic co) -> 0 < co_θ_scale co ->
  (co_with_taylor co = true -> 0 < so_taylor_stop_angle inp /\ exists rest, ic_angles ic = 0 :: rest) -> jumps_forward I inp co tr ->
  nondecreasing (s_angles s) /\ ((forall k, so_sonic_interp_size inp <> Some k) \/ (List.length (filter is_main tr) < 3)%nat -> increasing (s_angles s)).
Proof.
  intros I str interp inp ic co tr s K H G Sc T JF.
  destruct (solution_inv _ _ _ _ _ _ _ _ H) as (t0 & angles & init & pa & ps & ti & c1 & t2 & -> & S & C1 & C2 & _ & E & -> & _ & _ & _ & _ & _).
  destruct (starts_sorted _ _ _ _ _ _ _ _ _ _ _ K G Sc T S) as (SA & SP & SJ).
  assert (M : forall l, (increasing l -> increasing (map (fun x => x * co_θ_scale co) l)) /\ (nondecreasing l -> nondecreasing (map (fun x => x * co_θ_scale co) l))).
  { intro l. split; apply ss_scale; intros; [apply Rmult_lt_compat_r | apply Rmult_le_compat_r]; lra. }
  assert (RE : forall l, returned_angles I (co_θ_scale co) l = map (fun x => x * co_θ_scale co) (flat_map (fun c => cr_t (I c)) l)).
  { intro l. unfold returned_angles. induction l as [|c l IH]; [reflexivity|]. cbn [flat_map]. rewrite IH, map_app. reflexivity. }
  rewrite RE. clear RE.
  assert (Join : forall l, (forall x, In x l -> exists y, In y angles /\ y <= x) ->
     (increasing l -> increasing (pa ++ map (fun x => x * co_θ_scale co) l)) /\ (nondecreasing l -> nondecreasing (pa ++ map (fun x => x * co_θ_scale co) l))).
  { intros l Hl.
    assert (X : forall x y, In x pa -> In y (map (fun x => x * co_θ_scale co) l) -> x < y).
    { intros x y Hx Hy. apply in_map_iff in Hy. destruct Hy as (z & <- & Hz). destruct (Hl z Hz) as (w & Hw & Le). specialize (SJ x w Hx Hw). 
      eapply Rlt_le_trans; [exact SJ|]. apply Rmult_le_compat_r; lra. }
    split; intro Hi; apply ss_app.
    - exact SP. - apply M, Hi. - exact X. - apply ss_weak, SP. - apply M, Hi. - intros. left. apply X; assumption. }
  assert (S1 : increasing (cr_t (I c1))) by (apply (part_sorted I K); rewrite C2; exact SA).
  assert (In1 : forall x, In x (cr_t (I c1)) -> In x angles) by (intros x Hx; rewrite <- C2; apply (part_in I K); assumption).
  destruct E as [N1 N2|k N1|k ta tb c2 c3 N1 La Lb A2 A3 M2 M3 _ _ _|j ta ya a' y' c2 N1 N2 Lt Ly Ju A2 M2 _ _].
  - cbn [flat_map]. rewrite app_nil_r. destruct (Join (cr_t (I c1))) as [J1 J2]; [intros x Hx; exists x; split; [apply In1, Hx | lra]|].
    split; [apply J2, ss_weak, S1 | intros _; apply J1, S1].
  - cbn [flat_map]. rewrite app_nil_r. destruct (Join (cr_t (I c1))) as [J1 J2]; [intros x Hx; exists x; split; [apply In1, Hx | lra]|].
    split; [apply J2, ss_weak, S1 | intros _; apply J1, S1].
  - cbn [flat_map]. rewrite app_nil_r.
    assert (S2 : increasing (cr_t (I c2))) by (apply (part_sorted I K); rewrite A2; apply ss_filter, SA).
    assert (In2 : forall x, In x (cr_t (I c2)) -> In x angles /\ ta <= x) by (intros x Hx; apply in_ge; rewrite <- A2; apply (part_in I K); assumption).
    assert (tb_in : In tb (cr_t (I c2))) by (destruct (last_in _ _ _ Lb) as [q ->]; apply in_or_app; right; left; reflexivity).
    assert (S3 : increasing (cr_t (I c3))) by (apply (part_sorted I K); rewrite A3; apply gt_sorted, SA).
    assert (In3 : forall x, In x (cr_t (I c3)) -> In x angles /\ tb <= x).
    { intros x Hx. apply (part_in I K) in Hx. rewrite A3 in Hx. destruct Hx as [<-|Hx]; [split; [apply In2, tb_in | lra]|]. apply in_gt in Hx. split; [apply Hx | lra]. }
    destruct (Join (cr_t (I c1) ++ cr_t (I c2) ++ cr_t (I c3))) as [_ J2].
    { intros x Hx. exists x. split; [|lra]. apply in_app_or in Hx. destruct Hx as [Hx|Hx]; [apply In1, Hx|]. apply in_app_or in Hx. destruct Hx as [Hx|Hx]; [apply In2, Hx | apply In3, Hx]. }
    split.
    + apply J2. apply ss_app; [apply ss_weak, S1 | apply ss_app; [apply ss_weak, S2 | apply ss_weak, S3 |] |].
      * intros x y Hx Hy. apply (last_max _ _ _ (ss_weak _ S2) Lb) in Hx. apply In3 in Hy. lra.
      * intros x y Hx Hy. apply (last_max _ _ _ (ss_weak _ S1) La) in Hx. apply in_app_or in Hy. destruct Hy as [Hy|Hy]; [apply In2 in Hy; lra|].
        apply In3 in Hy. apply In2 in tb_in. lra.
    + intros [Q|Q]; [destruct (Q k N1)|]. exfalso. rewrite filter_app, app_length in Q. cbn [filter] in Q. rewrite M2, M3 in Q.
      unfold is_main in Q. rewrite C1 in Q. cbn in Q. lia.
  - cbn [flat_map]. rewrite app_nil_r. destruct (JF j N2) as (F1 & F3).
    destruct (jump_facts _ _ _ _ _ _ _ _ _ _ _ _ _ _ Ju) as (d & e & dθ & Hd & Hn & Edθ & Ea & _).
    assert (Fm : find is_main (t0 ++ [c1; c2]) = Some c1).
    { assert (Fm : is_main c1 = true) by (unfold is_main; rewrite C1; reflexivity).
      destruct S as [W M'|a y W M'|ts W J ->|c y W J ? ? Hm ? ?]; cbn [app find]; try rewrite Hm; rewrite Fm; reflexivity. }
    assert (Dp : 0 < d iv_θ /\ (co_θ_scale co = 1 \/ co_θ_scale co < 1 /\ 0 <= ta)).
    { eapply (F3 c1 ta ya); [exact Fm | exact Lt | exact Ly |]. rewrite C1. exact Hd. }
    destruct Dp as [Dp F2].
    assert (P : 0 < dθ) by (rewrite Edθ; apply Rdiv_lt_0_compat; [|exact Dp]; destruct (so_after_sonic inp); exact F1).
    assert (Le : ta + dθ <= (ta + dθ) / co_θ_scale co).
    { apply over_scale; [exact Sc|]. destruct F2 as [F2|[F2 F4]]; [left; exact F2 | right; lra]. }
    rewrite Ea in A2.
    assert (S2 : increasing (cr_t (I c2))).
    { apply (part_sorted I K). rewrite A2. constructor; [apply ss_filter, SA|]. apply Forall_forall. intros x Hx. apply in_gt in Hx. lra. }
    assert (ta_in : In ta (cr_t (I c1))) by (destruct (last_in _ _ _ Lt) as [q ->]; apply in_or_app; right; left; reflexivity).
    assert (In2 : forall x, In x (cr_t (I c2)) -> ta < x).
    { intros x Hx. apply (part_in I K) in Hx. rewrite A2 in Hx. destruct Hx as [<-|Hx]; [lra|]. apply in_gt in Hx. lra. }
    destruct (Join (cr_t (I c1) ++ cr_t (I c2))) as [J1 J2].
    { intros x Hx. apply in_app_or in Hx. destruct Hx as [Hx|Hx]; [exists x; split; [apply In1, Hx | lra]|]. exists ta. split; [apply In1, ta_in | apply In2 in Hx; lra]. }
    assert (SS : increasing (cr_t (I c1) ++ cr_t (I c2))).
    { apply ss_app; [exact S1 | exact S2|]. intros x y Hx Hy. apply (last_max _ _ _ (ss_weak _ S1) Lt) in Hx. apply In2 in Hy. lra. }
    split; [apply J2, ss_weak, SS | intros _; apply J1, SS].
Qed.
(** With an angular scale above one the grid after the jump goes back: it starts at the landing angle and continues with the angles
    beyond that divided by the scale. *)
Theorem C53_scaled_jump_refuted : forall I str interp inp ic co tr s c1 c2 land rest x, solution I str interp inp ic co = (tr, Ok s) -> filter is_main tr = [c1; c2] ->
  sc_angles c2 = land :: rest -> 1 < co_θ_scale co -> In x (sc_angles c1) -> land / co_θ_scale co < x < land -> ~ nondecreasing (sc_angles c2).
Proof.
  intros I str interp inp ic co tr s c1 c2 land rest x H F A Sc Hx [L1 L2] N.
  destruct (C53_jump _ _ _ _ _ _ _ _ _ _ H F) as (j & g & t & y & _ & _ & _ & _ & _ & Ju & _).
  destruct (jump_facts _ _ _ _ _ _ _ _ _ _ _ _ _ _ Ju) as (d & e & dθ & _ & _ & _ & Ea & _).
  rewrite A in Ea. injection Ea as -> Ea. rewrite A in N. inversion N as [|? ? _ Fa]; subst. rewrite Forall_forall in Fa.
  assert (B : In x (angles_gt ((t + dθ) / co_θ_scale co) (sc_angles c1))) by (apply in_gt; split; assumption).
  specialize (Fa x B). lra.
Qed.
(** After crossing the sonic point by interpolation some angle is there twice: the angles are not strictly increasing. *)
Theorem C53_interpolated_refuted : forall I str interp inp ic co tr s, keeps_grid I -> solution I str interp inp ic co = (tr, Ok s) ->
  List.length (filter is_main tr) = 3%nat -> ~ increasing (s_angles s).
Proof.
  intros I str interp inp ic co tr s K H L3.
  destruct (solution_inv _ _ _ _ _ _ _ _ H) as (t0 & angles & init & pa & ps & ti & c1 & t2 & -> & S & C1 & C2 & _ & E & -> & _ & _ & _ & _ & _).
  assert (Z : filter is_main t0 = []).
  { destruct S as [W M|a y W M|ts W J ->|c y W J Ca Ct Hm ? ?]; try reflexivity. cbn [filter]. rewrite Hm. reflexivity. }
  assert (Z1 : is_main c1 = true) by (unfold is_main; rewrite C1; reflexivity).
  rewrite filter_app, Z in L3. cbn [app filter] in L3. rewrite Z1 in L3.
  destruct E as [N1 N2|k N1|k ta tb c2 c3 N1 La Lb A2 A3 M2 M3 _ _ _|j ta ya a' y' c2 N1 N2 Lt Ly Ju A2 M2 _ _]; cbn [filter] in L3; try rewrite M2 in L3; try discriminate.
  unfold returned_angles. cbn [flat_map]. rewrite app_nil_r. destruct (part_head I K c3 _ _ A3) as [r3 E3]. destruct (last_in _ _ _ Lb) as [q E2].
  rewrite E3, E2, map_app. cbn [map app]. intro Bad.
  assert (G : forall (l m : list R) a r, StronglySorted Rlt (l ++ (m ++ [a]) ++ a :: r) -> False).
  { clear. intros l m a r. rewrite app_assoc, app_assoc. rewrite <- (app_assoc (l ++ m)). generalize (l ++ m). clear l m. intro l. cbn [app]. induction l as [|b l IH]; cbn [app]; intro S.
    - inversion S as [|? ? _ F]; subst. inversion F; subst. lra.
    - inversion S; subst. apply IH; assumption. }
  eapply (G (pa ++ map (fun x => x * co_θ_scale co) (cr_t (I c1)))). rewrite <- app_assoc. exact Bad.
Qed.

(** An integration that finishes without meeting the root is followed by the jump all the same: as there is nothing left to integrate
    over, the solve fails and the part already computed is lost. *)
Theorem C53_finished_lost_refuted : forall I str interp inp ic co j, (forall c, cr_end (I c) = Finished /\ cr_t (I c) = sc_angles c /\ cr_y (I c) <> []) ->
  so_jump_before_sonic inp = Some j -> ~ conflicting (first_options inp co) -> co_with_taylor co = false -> co_modified co = None ->
  (2 <= List.length (ic_angles ic))%nat -> increasing (ic_angles ic) -> 0 < co_θ_scale co ->
  (forall c, sc_system c = sys inp ic co -> sc_angles c = ic_angles ic -> sc_init c = ic_init_con ic -> jumps_forward I inp co [c]) ->
  exists c, solution I str interp inp ic co = ([c], Raise SolverError) /\ cr_end (I c) = Finished /\ cr_t (I c) = ic_angles ic.
Proof.
  intros I str interp inp ic co j HI Hj NC W M L G Sc JF.
  assert (Ni : so_sonic_interp_size inp = None).
  { destruct (so_sonic_interp_size inp) as [k|] eqn:E; [|reflexivity]. exfalso. apply NC. right; left. cbn. rewrite E, Hj. split; discriminate. }
  unfold solution. rewrite W, M, bind_ret. cbv beta iota zeta. fold (first_options inp co). fold (sys inp ic co).
  destruct (C54_accepted I str (sys inp ic co) (ic_angles ic) (ic_init_con ic) (first_options inp co) NC L) as (c & r & -> & Cs & Ca & Ci & _ & _ & _ & _ & _ & Hr & _).
  exists c. destruct (HI c) as (E1 & E2 & E3). rewrite Ca in E2. split; [|split; [exact E1 | exact E2]].
  destruct Hr as [i ->]; [rewrite E1; discriminate|]. unfold bind at 1. cbn [snd fst]. rewrite bind_ret. rewrite Ni, Hj, E2.
  destruct (last_of (ic_angles ic)) as [t|e] eqn:Lt.
  2:{ unfold last_of in Lt. destruct (rev (ic_angles ic)) eqn:Er; [|discriminate]. apply (f_equal (@rev R)) in Er. rewrite rev_involutive in Er. rewrite Er in L. cbn in L. lia. }
  rewrite bind_ret. destruct (last_of (cr_y (I c))) as [y|e] eqn:Ly.
  2:{ unfold last_of in Ly. destruct (rev (cr_y (I c))) eqn:Er; [|discriminate]. apply (f_equal (@rev vec)) in Er. rewrite rev_involutive in Er. contradiction. }
  rewrite bind_ret. destruct (JF c Cs Ca Ci j Hj) as (F1 & F3).
  destruct (jump_across_sonic _ _ _ _ _ _ _ _ _ _ _ _) as [[a' y']|] eqn:Ju; [|reflexivity].
  destruct (jump_facts _ _ _ _ _ _ _ _ _ _ _ _ _ _ Ju) as (d & e & dθ & Hd & Hn & Edθ & -> & _).
  assert (Dp : 0 < d iv_θ /\ (co_θ_scale co = 1 \/ co_θ_scale co < 1 /\ 0 <= t)) by (eapply (F3 c t y); [cbn [find]; unfold is_main; rewrite Cs; reflexivity | rewrite E2; exact Lt | exact Ly | rewrite Cs; exact Hd]).
  destruct Dp as [Dp F2].
  assert (P : 0 < dθ) by (rewrite Edθ; apply Rdiv_lt_0_compat; [|exact Dp]; destruct (so_after_sonic inp); exact F1).
  rewrite C54_rejected; [reflexivity|]. right. 
  assert (Le : t + dθ <= (t + dθ) / co_θ_scale co) by (apply over_scale; [exact Sc|]; destruct F2 as [F2|[F2 F4]]; [left; exact F2 | right; lra]).
  assert (Z : angles_gt ((t + dθ) / co_θ_scale co) (ic_angles ic) = []).
  { destruct (angles_gt ((t + dθ) / co_θ_scale co) (ic_angles ic)) as [|x l] eqn:Q; [reflexivity|]. assert (In x (angles_gt ((t + dθ) / co_θ_scale co) (ic_angles ic))) by (rewrite Q; left; reflexivity).
    apply in_gt in H. destruct H as [H1 H2]. apply (last_max _ _ _ (ss_weak _ G) Lt) in H1. lra. }
  rewrite Z. cbn. lia.
Qed.

(** An integrator that returns only the starting point when asked to stop somewhere, and the whole grid otherwise; the last kind of
    integration fails. *)
Definition ex_I : integrator := fun c =>
  let t := match sc_rootfn c, sc_tstop c with None, None => sc_angles c | _, _ => firstn 1 (sc_angles c) end in
  mk_cvode (match sc_rootfn c with None => Failed | _ => FoundRoot end) (match sc_rootfn c with None => (-4)%Z | _ => 2%Z end) t (map (fun _ => sc_init c) t) None None [] [] [].
Lemma ex_keeps : keeps_grid ex_I.
Proof.
  constructor.
  - intro c. unfold ex_I. cbn [cr_y cr_t]. apply map_length.
  - intro c. unfold ex_I. cbn [cr_t]. destruct (sc_rootfn c), (sc_tstop c); try (exists 0%nat; reflexivity).
    exists (List.length (sc_angles c)). symmetry. apply firstn_all2. lia.
  - intros c s a rest x Hs Ha Le. unfold ex_I. cbn [cr_t]. rewrite Hs, Ha. destruct (sc_rootfn c); cbn [firstn]; intros [<-|[]]; exact Le.
Qed.
Definition ex_inp (j i : option R) := mk_soln_options false 0 j None (fun n => seq 0 n) i false false.
Definition ex_p : vec := state 0 0 1 (-1) 0 (1/2) 1 0 1 0 0.
Definition ex_ic := mk_conditions [0; 2] ex_p 1 1 1.
Definition ex_co := mk_call_options None None None None None true false None 1.
Definition ex_str (_ : R) : string := "".
Lemma ge_ex : angles_ge 0 [0; 2] = [0; 2].
Proof. unfold angles_ge. cbn [filter]. destruct (Rle_dec 0 0), (Rle_dec 0 2); try lra. reflexivity. Qed.
Lemma gt_ex : angles_gt 0 [0; 2] = [2].
Proof. unfold angles_gt. cbn [filter]. destruct (Rlt_dec 0 0), (Rlt_dec 0 2); try lra. reflexivity. Qed.
(** A solve with interpolation: three integrations, angles 0, 0, 0, 2. *)
Lemma ex_interp : exists c1 c2 c3 s, solution ex_I ex_str (fun _ _ => Some (fun _ => 0)) (ex_inp None (Some (1/10))) ex_ic ex_co = ([c1; c2; c3], Ok s) /\
  is_main c1 = true /\ is_main c2 = true /\ is_main c3 = true /\
  s_angles s = map (fun x => x * 1) [0; 0; 0; 2] /\ cr_end (ex_I c3) = Failed /\ cr_flag (ex_I c3) = (-4)%Z /\ s_flag s = 2%Z.
Proof.
  unfold solution. cbv beta zeta. unfold interp_cross_sonic. unfold main_solution.
  lazy -[angles_ge angles_gt R1 Rplus Rmult IZR Rdiv ex_p velocity_root Rminus Rinv]. rewrite ge_ex.
  lazy -[angles_ge angles_gt R1 Rplus Rmult IZR Rdiv ex_p velocity_root Rminus Rinv]. rewrite gt_ex.
  lazy -[angles_ge angles_gt R1 Rplus Rmult IZR Rdiv ex_p velocity_root Rminus Rinv].
  do 4 eexists. repeat split.
Qed.
(** The flag of a failed last integration is not reported. *)
Theorem C53_flag_refuted : exists I str interp inp ic co l c s, keeps_grid I /\ solution I str interp inp ic co = (l ++ [c], Ok s) /\
  cr_end (I c) = Failed /\ s_flag s <> cr_flag (I c).
Proof.
  destruct ex_interp as (c1 & c2 & c3 & s & H & _ & _ & _ & _ & F & G & E). exists ex_I. do 5 eexists. exists [c1; c2], c3, s.
  split; [exact ex_keeps|]. split; [exact H|]. split; [exact F|]. rewrite G, E. discriminate.
Qed.
Example C53_interpolated_nonvacuous : exists tr s, keeps_grid ex_I /\
  solution ex_I ex_str (fun _ _ => Some (fun _ => 0)) (ex_inp None (Some (1/10))) ex_ic ex_co = (tr, Ok s) /\ List.length (filter is_main tr) = 3%nat.
Proof.
  destruct ex_interp as (c1 & c2 & c3 & s & H & M1 & M2 & M3 & _). exists [c1; c2; c3], s. split; [exact ex_keeps|]. split; [exact H|].
  cbn [filter]. rewrite M1, M2, M3. reflexivity.
Qed.
Lemma ex_deriv : forall x K d e, rhs_equation (mk_ode_args 1 1 K ex_p 1 false false false false None false) x ex_p = Rhs_ok d e -> x = 0 -> K = 1 -> d iv_θ = 5 / 2.
Proof.
  intros x K d e H -> ->. rewrite (rhs_ok_derivs _ _ _ _ _ H), Rmult_0_l, rhs_v_θ by reflexivity. unfold deriv_v_θ_expr, ex_p. simpl. rewrite tan_0. field.
Qed.
(** A solve with a jump: the first integration stops at once, the jump lands at angle 1 and the second integration goes on from there. *)
Example C53_nondecreasing_nonvacuous : exists tr s, keeps_grid ex_I /\ solution ex_I ex_str (fun _ _ => None) (ex_inp (Some (5/4)) None) ex_ic ex_co = (tr, Ok s) /\
  increasing (main_grid (ex_inp (Some (5/4)) None) ex_ic ex_co) /\ jumps_forward ex_I (ex_inp (Some (5/4)) None) ex_co tr /\
  s_angles s = map (fun x => x * 1) [0; 1; 2].
Proof.
  set (o := mk_ode_args 1 1 1 ex_p 1 false false false false None false).
  destruct (proj2 (rhs_ok_iff o 0 ex_p)) as (d & e & H); [right; simpl; lra|].
  pose proof (ex_deriv 0 1 d e H eq_refl eq_refl) as Hd.
  assert (J : exists y', jump_across_sonic 0 ex_p [0; 2] ex_p 1 1 1 false 1 false (5/4) None = Some ([1; 2], y')).
  { unfold jump_across_sonic. cbv zeta. fold o. rewrite H, Hd. destruct (Req_EM_T (5/2) 0); [lra|]. eexists.
    replace (0 + (5 / 4 + 5 / 4) / (5 / 2)) with 1 by field. unfold rad_to_scaled_num. replace (1 / 1) with 1 by field.
    replace (angles_gt 1 [0; 2]) with [2]; [reflexivity|]. unfold angles_gt. cbn [filter]. destruct (Rlt_dec 1 0), (Rlt_dec 1 2); try lra. reflexivity. }
  destruct J as [y' J].
  unfold solution. cbv beta zeta. unfold main_solution.
  lazy -[jump_across_sonic R1 Rplus Rmult IZR Rdiv ex_p velocity_root Rminus Rinv main_grid increasing jumps_forward].
  change (jump_across_sonic _ _ _ _ _ _ _ _ _ _ _ _) with (jump_across_sonic 0 ex_p [0; 2] ex_p 1 1 1 false 1 false (5/4) None). rewrite J.
  lazy -[jump_across_sonic R1 Rplus Rmult IZR Rdiv ex_p velocity_root Rminus Rinv main_grid increasing jumps_forward].
  do 2 eexists. split; [exact ex_keeps|]. split; [reflexivity|]. split; [repeat constructor; lra|]. split; [|reflexivity].
  intros j Hj. injection Hj as <-. cbn. split; [lra|]. intros c t y Hc Ht Hy d' e' Hr.
  injection Hc as <-. injection Ht as <-. injection Hy as <-. cbn in Hr. rewrite (ex_deriv 0 1 d' e' Hr eq_refl eq_refl). split; [lra | left; reflexivity].
Qed.
Lemma ex_deriv2 : forall d e, rhs_equation (mk_ode_args 1 1 1 ex_p 2 false false false false None false) 0 ex_p = Rhs_ok d e -> d iv_θ = 5 / 2.
Proof.
  intros d e H. apply (ex_deriv 0 1 d e); [|reflexivity|reflexivity]. rewrite <- H. unfold rhs_equation. cbn. rewrite !Rmult_0_l. reflexivity.
Qed.
Example C53_scaled_jump_nonvacuous : exists tr s c1 c2 rest,
  solution ex_I ex_str (fun _ _ => None) (ex_inp (Some (5/4)) None) (mk_conditions [0; 3/4; 2] ex_p 1 1 1) (mk_call_options None None None None None false false None 2) = (tr, Ok s) /\
  filter is_main tr = [c1; c2] /\ sc_angles c2 = 1 :: rest /\ In (3/4) (sc_angles c1) /\ 1 / 2 < 3 / 4 < 1.
Proof.
  set (o := mk_ode_args 1 1 1 ex_p 2 false false false false None false).
  destruct (proj2 (rhs_ok_iff o 0 ex_p)) as (d & e & H); [right; simpl; lra|].
  pose proof (ex_deriv2 d e H) as Hd.
  assert (J : exists y', jump_across_sonic 0 ex_p [0; 3/4; 2] ex_p 1 1 1 false 2 false (5/4) None = Some ([1; 3/4; 2], y')).
  { unfold jump_across_sonic. cbv zeta. fold o. rewrite H, Hd. destruct (Req_EM_T (5/2) 0); [lra|]. eexists.
    replace (0 + (5 / 4 + 5 / 4) / (5 / 2)) with 1 by field. unfold rad_to_scaled_num.
    replace (angles_gt (1 / 2) [0; 3/4; 2]) with [3/4; 2]; [reflexivity|]. unfold angles_gt. cbn [filter]. destruct (Rlt_dec (1/2) 0), (Rlt_dec (1/2) (3/4)), (Rlt_dec (1/2) 2); try lra. reflexivity. }
  destruct J as [y' J].
  unfold solution. cbv beta zeta. unfold main_solution.
  lazy -[jump_across_sonic R1 Rplus Rmult IZR Rdiv ex_p velocity_root Rminus Rinv Rlt].
  change (jump_across_sonic _ _ _ _ _ _ _ _ _ _ _ _) with (jump_across_sonic 0 ex_p [0; 3/4; 2] ex_p 1 1 1 false 2 false (5/4) None). rewrite J.
  lazy -[jump_across_sonic R1 Rplus Rmult IZR Rdiv ex_p velocity_root Rminus Rinv Rlt].
  do 5 eexists. split; [reflexivity|]. split; [reflexivity|]. split; [reflexivity|]. split; [right; left; reflexivity | lra].
Qed.
Example C53_finished_lost_nonvacuous : let I : integrator := fun c => mk_cvode Finished 0%Z (sc_angles c) (map (fun _ => sc_init c) (sc_angles c ++ [0])) None None [] [] [] in
  let inp := ex_inp (Some (5/4)) None in let ic := mk_conditions [-2; 0] ex_p 1 1 1 in
  (forall c, cr_end (I c) = Finished /\ cr_t (I c) = sc_angles c /\ cr_y (I c) <> []) /\ ~ conflicting (first_options inp ex_co) /\
  (2 <= List.length (ic_angles ic))%nat /\ increasing (ic_angles ic) /\
  (forall c, sc_system c = sys inp ic ex_co -> sc_angles c = ic_angles ic -> sc_init c = ic_init_con ic -> jumps_forward I inp ex_co [c]).
Proof.
  cbv zeta. split; [|split; [|split; [|split]]].
  - intro c. split; [reflexivity|]. split; [reflexivity|]. cbn [cr_y]. destruct (sc_angles c); discriminate.
  - unfold conflicting. cbn. intuition congruence.
  - cbn. lia.
  - repeat constructor; cbn; lra.
  - intros c Hs Ha Hi j Hj. injection Hj as <-. cbn. split; [lra|]. intros c' t y Hc Ht Hy d e Hr.
    destruct (is_main c); [|discriminate]. injection Hc as <-. rewrite Ha in Ht. rewrite Ha, Hi in Hy. injection Ht as <-. injection Hy as <-.
    rewrite Hs in Hr. cbn in Hr. rewrite (ex_deriv 0 1 d e Hr eq_refl eq_refl). split; [lra | left; reflexivity].
Qed.
Print Assumptions C53_nondecreasing_partial. Print Assumptions C53_finished_lost_refuted. Print Assumptions C54_accepted. Print Assumptions C53_internal.
