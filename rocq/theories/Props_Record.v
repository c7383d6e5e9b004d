(** Properties C76 (where integration stops) and C77 (what is recorded). *)
From Coq Require Import String List Bool ZArith Reals Lra.
From Verif Require Import Lib_Py Model_Index Model_Ode Model_Containers Spec_Containers Props_Containers Model_Record.
Import ListNotations.
Open Scope string_scope. Open Scope list_scope. Open Scope R_scope.

(** C76. The stopping function vanishes exactly at the target velocity and is positive exactly below it. *)
Theorem C76_zero_iff : forall target y,
  (velocity_stop target y = 0 <-> y iv_θ = target) /\ (0 < velocity_stop target y <-> y iv_θ < target).
Proof. intros. unfold velocity_stop. split; split; intro; lra. Qed.
(** Along any continuous trajectory that starts below the target and reaches it, there is a first angle at which the
    stopping function vanishes; there the velocity is the target, and everywhere before it is below. *)
Theorem C76_first_root : forall target (y : R -> vec) a b, a <= b ->
  (forall t, a <= t <= b -> continuity_pt (fun s => y s iv_θ) t) -> y a iv_θ < target -> target <= y b iv_θ ->
  exists t, a < t <= b /\ velocity_stop target (y t) = 0 /\ y t iv_θ = target /\
    forall s, a <= s < t -> y s iv_θ < target /\ velocity_stop target (y s) <> 0.
Proof.
  intros target y a b Hab Hc Ha Hb. set (f := fun s => y s iv_θ) in *. change (f a < target) in Ha. change (target <= f b) in Hb.
  set (S := fun t => a <= t <= b /\ forall s, a <= s <= t -> f s < target).
  assert (B : bound S) by (exists b; intros t [Ht _]; lra).
  assert (N : exists t, S t) by (exists a; split; [lra|]; intros s Hs; replace s with a by lra; exact Ha).
  destruct (completeness S B N) as (m & [M1 M2]).
  assert (Ham : a <= m) by (destruct N as (t & Ht); specialize (M1 t Ht); destruct Ht; lra).
  assert (Hmb : m <= b) by (apply M2; intros t [Ht _]; lra).
  assert (Hbelow : forall s, a <= s < m -> f s < target).
  { intros s Hs. destruct (Rlt_dec (f s) target) as [|Q]; [assumption|]. exfalso.
    assert (U : is_upper_bound S s). { intros t [Ht1 Ht2]. destruct (Rle_dec t s); [assumption|]. exfalso. apply Q, Ht2. lra. }
    specialize (M2 s U). lra. }
  assert (D : forall t, a <= t <= b -> forall eps, 0 < eps -> exists d, 0 < d /\ forall s, Rabs (s - t) < d -> Rabs (f s - f t) < eps).
  { intros t Ht eps He. destruct (Hc t Ht eps He) as (d & Hd & H). exists d. split; [exact Hd|]. intros s Hs.
    destruct (Req_dec t s) as [->|Nq]; [unfold Rminus; rewrite Rplus_opp_r, Rabs_R0; exact He|].
    apply H. split; [split; [exact I | exact Nq] | exact Hs]. }
  assert (Hm : f m = target).
  { destruct (Rtotal_order (f m) target) as [L|[Q|G]]; [exfalso | exact Q | exfalso].
    - assert (m < b) by (destruct (Req_dec m b) as [Q|]; [rewrite Q in L; lra | lra]).
      destruct (D m (conj Ham Hmb) (target - f m)) as (d & Hd & Hf); [lra|].
      set (t := Rmin (m + d / 2) b).
      assert (Ht : m < t <= b) by (unfold t, Rmin; destruct (Rle_dec (m + d/2) b); lra).
      assert (Ht2 : t <= m + d / 2) by (unfold t; apply Rmin_l).
      assert (St : S t).
      { split; [lra|]. intros s Hs. destruct (Rlt_dec s m); [apply Hbelow; lra|].
        assert (Q : Rabs (s - m) < d) by (rewrite Rabs_right; lra). specialize (Hf s Q). apply Rabs_def2 in Hf. lra. }
      specialize (M1 t St). lra.
    - destruct (D m (conj Ham Hmb) (f m - target)) as (d & Hd & Hf); [lra|].
      assert (a < m) by (destruct (Req_dec a m) as [Q|]; [rewrite <- Q in G; lra | lra]).
      set (t := Rmax (m - d / 2) a).
      assert (Ht : a <= t < m) by (unfold t, Rmax; destruct (Rle_dec (m - d/2) a); lra).
      assert (Ht2 : m - d / 2 <= t) by (unfold t; apply Rmax_l).
      assert (Q : Rabs (t - m) < d) by (rewrite Rabs_left; lra). specialize (Hf t Q). apply Rabs_def2 in Hf.
      pose proof (Hbelow t Ht). lra. }
  assert (Hne : a <> m) by (intros ->; lra).
  exists m. split; [lra|]. split; [unfold velocity_stop; change (target - f m = 0); lra|]. split; [exact Hm|].
  intros s Hs. pose proof (Hbelow s Hs) as Q. split; [exact Q|]. unfold velocity_stop. change (target - f s <> 0). lra.
Qed.
Example C76_nonvacuous : let y := fun t (_ : nat) => t in
  0 <= 1 /\ (forall t, 0 <= t <= 1 -> continuity_pt (fun s => y s iv_θ) t) /\ y 0 iv_θ < 9/10 /\ 9/10 <= y 1 iv_θ.
Proof. cbn. repeat split; try lra. intros t _. apply derivable_continuous_pt, derivable_pt_id. Qed.

(** C77. What each call of the right-hand side records: the state and the derivatives it returned, at the physical
    angle; nothing else. *)
Theorem C77_one_call : forall o x params d stored, rhs_equation o x params = Rhs_ok d stored ->
  (oa_store_internal o = false -> stored = None) /\
  (oa_store_internal o = true -> exists e, stored = Some e /\ ie_params e = params /\ ie_derivs e = d /\ ie_angle e = x * oa_θ_scale o /\
    (oa_with_taylor o = false -> ie_v_r_normal e = d iv_r /\ ie_v_φ_normal e = d iv_φ /\ ie_ρ_normal e = d iρ) /\
    (oa_with_taylor o = true -> ie_v_r_taylor e = d iv_r /\ ie_v_φ_taylor e = d iv_φ /\ ie_ρ_taylor e = d iρ)).
Proof.
  intros o x params d stored H. unfold rhs_equation in H.
  destruct (negb (oa_derivs_post_solution o) && (if Rlt_dec (params iρ) 0 then true else false))%bool; [discriminate H|].
  destruct (negb (oa_derivs_post_solution o) && (if Rlt_dec (params iv_θ) 0 then true else false))%bool; [discriminate H|].
  assert (P : forall θ, let de := rhs_derivs o θ params in ie_params (snd de) = params /\ ie_derivs (snd de) = fst de /\ ie_angle (snd de) = θ /\
    (oa_with_taylor o = false -> ie_v_r_normal (snd de) = fst de iv_r /\ ie_v_φ_normal (snd de) = fst de iv_φ /\ ie_ρ_normal (snd de) = fst de iρ) /\
    (oa_with_taylor o = true -> ie_v_r_taylor (snd de) = fst de iv_r /\ ie_v_φ_taylor (snd de) = fst de iv_φ /\ ie_ρ_taylor (snd de) = fst de iρ)).
  { intro θ. unfold rhs_derivs. cbv zeta. cbn [fst snd ie_params ie_derivs ie_angle ie_v_r_normal ie_v_φ_normal ie_ρ_normal ie_v_r_taylor ie_v_φ_taylor ie_ρ_taylor].
    split; [reflexivity|]. split; [reflexivity|]. split; [reflexivity|].
    split; intro W; rewrite W; destruct (oa_use_E_r o); repeat split; reflexivity. }
  specialize (P (scaled_to_rad_num x (oa_θ_scale o))). cbv zeta in P.
  destruct (rhs_derivs o (scaled_to_rad_num x (oa_θ_scale o)) params) as [d' e]. cbn [fst snd] in P.
  destruct (oa_store_internal o); injection H as <- <-; (split; [intro Q; first [discriminate Q | reflexivity]|]); intro Q; [|discriminate Q].
  exists e. split; [reflexivity|]. exact P.
Qed.
Theorem C77_rejected : forall o x params,
  (rhs_code (rhs_equation o x params) <> 0%Z <-> oa_derivs_post_solution o = false /\ (params iρ < 0 \/ params iv_θ < 0)).
Proof.
  intros o x params. unfold rhs_equation.
  destruct (oa_derivs_post_solution o); cbn [negb andb].
  - destruct (rhs_derivs o _ params). cbn. split; [congruence | intros [Q _]; discriminate Q].
  - destruct (Rlt_dec (params iρ) 0); cbn [andb]; [cbn; split; [intros _; split; auto | discriminate]|].
    destruct (Rlt_dec (params iv_θ) 0); cbn [andb]; [cbn; split; [intros _; split; auto | discriminate]|].
    destruct (rhs_derivs o _ params). cbn. split; [congruence | intros [_ [Q|Q]]; lra].
Qed.

(** The accepted calls of a history as samples, and the problems it reports under a key. *)
Definition accepted (o : ode_args) (c : R * vec) : list (R * (row * row)) :=
  match rhs_equation o (fst c) (snd c) with
  | Rhs_ok d _ => [(fst c * oa_θ_scale o, (to_row (snd c), to_row d))]
  | _ => []
  end.
Definition reported (str : R -> string) (o : ode_args) (k : string) (c : R * vec) : list string :=
  match rhs_equation o (fst c) (snd c) with
  | Rhs_negative_density θ => if String.eqb (str θ) k then ["negative density"] else []
  | Rhs_negative_velocity θ => if String.eqb (str θ) k then ["negative velocity"] else []
  | Rhs_ok _ _ => []
  end.
Theorem C77_history : forall str o calls, oa_store_internal o = true -> exists i, after_calls str o calls = Some i /\ built i /\
  samples i = concat (map (accepted o) calls) /\ forall k, entries k (id_problems i) = concat (map (reported str o k) calls).
Proof.
  intros str o calls Hs. unfold after_calls. rewrite Hs.
  assert (G : forall i0, built i0 -> exists i, fold_left (record_call str o) calls (Some i0) = Some i /\ built i /\
    samples i = samples i0 ++ concat (map (accepted o) calls) /\
    forall k, entries k (id_problems i) = entries k (id_problems i0) ++ concat (map (reported str o k) calls)).
  { induction calls as [|c t IH]; intros i0 B0.
    - exists i0. split; [reflexivity|]. split; [exact B0|]. split; [rewrite app_nil_r; reflexivity | intro k; rewrite app_nil_r; reflexivity].
    - cbn [fold_left record_call].
      assert (W : exists i1, record_call str o (Some i0) c = Some i1 /\ built i1 /\ samples i1 = samples i0 ++ accepted o c /\
        forall k, entries k (id_problems i1) = entries k (id_problems i0) ++ reported str o k c).
      { unfold record_call, accepted, reported. destruct (rhs_equation o (fst c) (snd c)) as [θ|θ|d st] eqn:Q.
        - rewrite Hs. eexists. split; [reflexivity|]. split; [apply b_problem, B0|]. split; [rewrite app_nil_r; reflexivity|].
          intro k. cbn [id_problem id_problems]. apply entries_append.
        - rewrite Hs. eexists. split; [reflexivity|]. split; [apply b_problem, B0|]. split; [rewrite app_nil_r; reflexivity|].
          intro k. cbn [id_problem id_problems]. apply entries_append.
        - destruct (proj2 (C77_one_call o _ _ d st Q) Hs) as (e & -> & E1 & E2 & E3 & _).
          eexists. split; [reflexivity|]. split; [apply b_record; [exact B0 | reflexivity | reflexivity]|]. split.
          + destruct (C39_built i0 B0) as [_ (A1 & A2 & _)]. unfold samples. cbn [id_record id_angles id_params id_derivs rc_θ rc_params rc_derivs].
            rewrite E1, E2, E3. rewrite (combine_app _ _ _ _ (id_derivs i0)) by congruence.
            rewrite combine_app by (rewrite combine_length, A2, A1, Nat.min_id; reflexivity). reflexivity.
          + intro k. rewrite app_nil_r. reflexivity. }
      destruct W as (i1 & W1 & W2 & W3 & W4). cbn [record_call] in W1. rewrite W1. destruct (IH i1 W2) as (i & I1 & I2 & I3 & I4).
      exists i. split; [exact I1|]. split; [exact I2|]. split; [rewrite I3, W3, <- app_assoc; reflexivity|].
      intro k. rewrite I4, W4, <- app_assoc. reflexivity. }
  destruct (G id_new b_new) as (i & I1 & I2 & I3 & I4). exists i. split; [exact I1|]. split; [exact I2|]. split; [exact I3|]. exact I4.
Qed.
(** The columns of the comparison: for every accepted call the derivative it returns, or would return, without and with the Taylor formulae. *)
Definition switched (b : bool) (o : ode_args) : ode_args :=
  mk_ode_args (oa_γ o) (oa_a_0 o) (oa_norm_kepler_sq o) (oa_init_con o) (oa_θ_scale o) b (oa_η_derivs o) (oa_store_internal o) (oa_use_E_r o)
    (oa_deriv_v_θ_func o) (oa_derivs_post_solution o).
Definition returned (o : ode_args) (slot : nat) (c : R * vec) : list R :=
  match rhs_equation o (fst c) (snd c) with Rhs_ok d _ => [d slot] | _ => [] end.
Theorem C77_comparison : forall str o calls, oa_store_internal o = true -> exists i, after_calls str o calls = Some i /\
  id_v_r_normal i = concat (map (returned (switched false o) iv_r) calls) /\ id_v_r_taylor i = concat (map (returned (switched true o) iv_r) calls) /\
  id_v_φ_normal i = concat (map (returned (switched false o) iv_φ) calls) /\ id_v_φ_taylor i = concat (map (returned (switched true o) iv_φ) calls) /\
  id_ρ_normal i = concat (map (returned (switched false o) iρ) calls) /\ id_ρ_taylor i = concat (map (returned (switched true o) iρ) calls).
Proof.
  intros str o calls Hs. unfold after_calls. rewrite Hs.
  assert (D : forall θ p, let e := snd (rhs_derivs o θ p) in let n := fst (rhs_derivs (switched false o) θ p) in let t := fst (rhs_derivs (switched true o) θ p) in
    (ie_v_r_normal e = n iv_r /\ ie_v_r_taylor e = t iv_r) /\ (ie_v_φ_normal e = n iv_φ /\ ie_v_φ_taylor e = t iv_φ) /\ (ie_ρ_normal e = n iρ /\ ie_ρ_taylor e = t iρ)).
  { intros θ p. unfold rhs_derivs. cbv zeta. cbn [fst snd ie_params ie_derivs ie_angle ie_v_r_normal ie_v_φ_normal ie_ρ_normal ie_v_r_taylor ie_v_φ_taylor ie_ρ_taylor].
    cbn [switched oa_use_E_r oa_with_taylor]. destruct (oa_use_E_r o); repeat split; reflexivity. }
  assert (G : forall i0, exists i, fold_left (record_call str o) calls (Some i0) = Some i /\
    id_v_r_normal i = id_v_r_normal i0 ++ concat (map (returned (switched false o) iv_r) calls) /\ id_v_r_taylor i = id_v_r_taylor i0 ++ concat (map (returned (switched true o) iv_r) calls) /\
    id_v_φ_normal i = id_v_φ_normal i0 ++ concat (map (returned (switched false o) iv_φ) calls) /\ id_v_φ_taylor i = id_v_φ_taylor i0 ++ concat (map (returned (switched true o) iv_φ) calls) /\
    id_ρ_normal i = id_ρ_normal i0 ++ concat (map (returned (switched false o) iρ) calls) /\ id_ρ_taylor i = id_ρ_taylor i0 ++ concat (map (returned (switched true o) iρ) calls)).
  { induction calls as [|c t IH]; intro i0.
    - exists i0. cbn. rewrite !app_nil_r. repeat split.
    - cbn [fold_left map concat].
      assert (W : exists i1, record_call str o (Some i0) c = Some i1 /\
        id_v_r_normal i1 = id_v_r_normal i0 ++ returned (switched false o) iv_r c /\ id_v_r_taylor i1 = id_v_r_taylor i0 ++ returned (switched true o) iv_r c /\
        id_v_φ_normal i1 = id_v_φ_normal i0 ++ returned (switched false o) iv_φ c /\ id_v_φ_taylor i1 = id_v_φ_taylor i0 ++ returned (switched true o) iv_φ c /\
        id_ρ_normal i1 = id_ρ_normal i0 ++ returned (switched false o) iρ c /\ id_ρ_taylor i1 = id_ρ_taylor i0 ++ returned (switched true o) iρ c).
      { unfold record_call, returned, rhs_equation. specialize (D (scaled_to_rad_num (fst c) (oa_θ_scale o)) (snd c)). cbv zeta in D.
        cbn [switched oa_derivs_post_solution oa_store_internal oa_θ_scale].
        destruct (negb (oa_derivs_post_solution o) && (if Rlt_dec (snd c iρ) 0 then true else false))%bool.
        { rewrite Hs. eexists. split; [reflexivity|]. rewrite !app_nil_r. repeat split. }
        destruct (negb (oa_derivs_post_solution o) && (if Rlt_dec (snd c iv_θ) 0 then true else false))%bool.
        { rewrite Hs. eexists. split; [reflexivity|]. rewrite !app_nil_r. repeat split. }
        fold (switched false o) (switched true o).
        destruct (rhs_derivs o _ (snd c)) as [d e]. destruct (rhs_derivs (switched false o) _ (snd c)) as [n en]. destruct (rhs_derivs (switched true o) _ (snd c)) as [t' et].
        cbn [fst snd] in D. rewrite Hs. eexists. split; [reflexivity|]. cbn [id_record id_v_r_normal id_v_r_taylor id_v_φ_normal id_v_φ_taylor id_ρ_normal id_ρ_taylor
          rc_v_r_normal rc_v_r_taylor rc_v_φ_normal rc_v_φ_taylor rc_ρ_normal rc_ρ_taylor].
        destruct D as ((-> & ->) & (-> & ->) & -> & ->). repeat split. }
      destruct W as (i1 & W & W1 & W2 & W3 & W4 & W5 & W6). rewrite W. destruct (IH i1) as (i & I & I1 & I2 & I3 & I4 & I5 & I6).
      exists i. split; [exact I|]. rewrite I1, I2, I3, I4, I5, I6, W1, W2, W3, W4, W5, W6, <- !app_assoc. repeat split. }
  destruct (G id_new) as (i & I). exists i. exact I.
Qed.
Print Assumptions C77_comparison.
Theorem C77_not_stored : forall str o calls, oa_store_internal o = false -> after_calls str o calls = None.
Proof. intros str o calls H. unfold after_calls. rewrite H. induction calls; [reflexivity | exact IHcalls]. Qed.
(** A rejected and an accepted call. *)
Example C77_nonvacuous : let o := mk_ode_args 0 1 1 (fun _ => 1) 1 false true true false None false in
  oa_store_internal o = true /\ accepted o (1/2, fun _ => -1) = [] /\ reported (fun _ => "0.5") o "0.5" (1/2, fun _ => -1) = ["negative density"] /\
  exists d, accepted o (1/2, fun _ => 1/2) = [(1/2 * 1, (to_row (fun _ => 1/2), d))].
Proof.
  cbv zeta. unfold accepted, reported, rhs_equation. cbn [fst snd oa_store_internal oa_derivs_post_solution negb andb oa_θ_scale].
  destruct (Rlt_dec (-1) 0); [|lra]. destruct (Rlt_dec (1/2) 0); [lra|]. cbn [andb]. split; [reflexivity|]. split; [reflexivity|]. split; [reflexivity|].
  destruct (rhs_derivs _ _ _) as [d e]. exists (to_row d). reflexivity.
Qed.
