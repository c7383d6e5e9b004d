(** Property C96: the residuals of the hydro-check command. *)
From Coq Require Import String List Bool Reals Lra Lia.
From Verif Require Import Lib_Py Lib_Deriv Model_Index Model_Deriv Model_Validate Model_Ode Model_Hydro Spec_MHD Spec_Ode Proofs_Ode Proofs_MHD Proofs_SelfSimilar.
From Verif Require Import Props_Hydro Props_ModHydro Model_HydroCheck.
Import ListNotations.
Open Scope string_scope. Open Scope R_scope. Open Scope list_scope.

(** ** The curves, at a point of a differentiable curve of states without vertical velocity *)
Section Curve.
Variables (K a_0 : R) (y : R -> vec) (d : vec) (θ r : R).
Hypothesis Hd : forall i, (i < ODE_LEN)%nat -> derivable_pt_lim (fun t => y t i) θ (d i).
Hypotheses (Hcos : cos θ <> 0) (Hr : 0 < r) (Hv_θ : y θ iv_θ = 0) (Hρ : 0 < y θ iρ).
Let F := fluid_of 0 y.
Let p := y θ.
Let ic := mk_ic 0 a_0 K.
Let v := get_values ic θ p d.

(** C96: the first curve vanishes exactly where the azimuthal momentum equation holds. *)
Theorem C96_azimuthal : check_azimuthal ic v = 0 <-> momentum_φ a_0 F r θ.
Proof.
  unfold F. rewrite (momentum_φ_iff 0 y d θ r Hd Hcos Hr). fold p. change (y θ iv_θ) with (p iv_θ) in Hv_θ. change (y θ iρ) with (p iρ) in Hρ. rewrite Hv_θ.
  unfold check_azimuthal, v, get_values, ic, mk_ic. cbn. 
  match goal with |- ?l = 0 <-> ?a = ?b => assert (E : p iρ * l = a - b) by (field; lra) end.
  split; intro H.
  - rewrite H in E. lra.
  - apply Rminus_diag_eq in H. rewrite H in E. apply Rmult_integral in E. destruct E; [lra|assumption].
Qed.
(** C96: where it holds, the second curve is twice the share of the two terms it leaves out: it vanishes exactly where these cancel. *)
Theorem C96_approximate_exact : momentum_φ a_0 F r θ -> p iv_r <> 0 -> p iv_φ <> 0 ->
  check_approximate ic v = - 2 * a_0 * p iB_φ * (p iB_r / 4 + tan θ * p iB_θ) / (p iρ * p iv_r * p iv_φ).
Proof.
  intros Hm Hr0 Hp0. apply C96_azimuthal in Hm. revert Hm. change (y θ iρ) with (p iρ) in Hρ.
  unfold check_azimuthal, check_approximate, v, get_values, ic, mk_ic. cbn. intros Hm.
  match goal with |- ?a = ?b => assert (E : p iv_r * p iv_φ * (a - b) = 2 * (1 / 2 * p iv_r * p iv_φ - a_0 / p iρ * (p iB_θ * d iB_φ + (1 - (5 / 4 - 0)) * p iB_r * p iB_φ - tan θ * p iB_θ * p iB_φ))) by
    (field; repeat split; try assumption; lra) end.
  rewrite Hm in E. rewrite Rmult_0_r in E. apply Rmult_integral in E. destruct E as [E|E]; [|lra].
  apply Rmult_integral in E. destruct E; contradiction.
Qed.

Hypotheses (HK : 0 < K) (HB : B_nonzero (y θ)) (HD : diffusive (y θ)).
(** What the right-hand side of mod_hydro and Ohm's law make of the radial equation. *)
Lemma radial_form : E_φ_vanishes F r θ -> p iρ * (2 * sqrt K * check_radial ic v) =
  p iρ * (2 * sqrt K * (sqrt K - p iv_φ) - p iv_r ^ 2 / 2 - 5 / 2) - a_0 * (p iB_φ ^ 2 / 4 + p iB_θ * (d iB_r + p iB_θ / 4)).
Proof.
  intros HE. apply (E_φ_B_r y d θ r Hd Hcos Hr Hv_θ HB HD) in HE. cbv zeta in HE. fold p in HE. rewrite HE.
  destruct (hydro_unit p HB) as (Hm & _ & Hn). specialize (Hn HD). change (y θ iρ) with (p iρ) in Hρ.
  assert (Hk : 0 < sqrt K) by (apply sqrt_lt_R0; exact HK).
  unfold check_radial, v, get_values, ic, mk_ic. cbn -[pow sqrt X_func p]. unfold X_func.
  set (m := sqrt (p iB_r ^ 2 + p iB_φ ^ 2 + p iB_θ ^ 2)) in *.
  set (b_r := p iB_r / m) in *. set (b_φ := p iB_φ / m) in *. set (b_θ := p iB_θ / m) in *. clearbody b_r b_φ b_θ.
  field. repeat split; try exact Hn; lra.
Qed.
(** C96: for mod_hydro, where E_φ vanishes the third curve vanishes exactly where the radial equation of that method holds. *)
Theorem C96_radial_mod : E_φ_vanishes F r θ -> (check_radial ic v = 0 <-> momentum_r_linear K a_0 F r θ).
Proof.
  intros HE. pose proof (radial_form HE) as E. unfold F. rewrite (momentum_r_linear_iff 0 y d θ r K a_0 Hd Hcos Hr (Rlt_le _ _ HK)). cbv zeta. fold p.
  change (y θ iv_θ) with (p iv_θ) in Hv_θ. change (y θ iρ) with (p iρ) in Hρ. rewrite Hv_θ.
  assert (Hk : 0 < sqrt K) by (apply sqrt_lt_R0; exact HK). assert (Hkk : sqrt K * sqrt K = K) by (apply sqrt_sqrt; lra).
  match goal with |- _ <-> ?a = ?b => assert (G : p iρ * (2 * sqrt K * check_radial ic v) = a - b) end.
  { rewrite E. replace (2 * sqrt K * (sqrt K - p iv_φ)) with (2 * (sqrt K * sqrt K) - 2 * sqrt K * p iv_φ) by ring. rewrite Hkk. field. }
  split; intro H.
  - rewrite H in G. lra.
  - apply Rminus_diag_eq in H. rewrite H in G. apply Rmult_integral in G. destruct G as [G|G]; [lra|].
    apply Rmult_integral in G. destruct G as [G|G]; [lra|exact G].
Qed.
(** C96: for the hydrostatic method, where the radial momentum equation holds the third curve is (v_k - v_φ)²/(2 v_k). *)
Theorem C96_radial_exact : E_φ_vanishes F r θ -> momentum_r K a_0 F r θ -> check_radial ic v = (sqrt K - p iv_φ) ^ 2 / (2 * sqrt K).
Proof.
  intros HE HM. pose proof (radial_form HE) as E. unfold F in HM. apply (momentum_r_iff 0 y d θ r Hd Hcos Hr) in HM. fold p in HM.
  change (y θ iv_θ) with (p iv_θ) in Hv_θ. change (y θ iρ) with (p iρ) in Hρ. rewrite Hv_θ in HM.
  assert (Hk : 0 < sqrt K) by (apply sqrt_lt_R0; exact HK). assert (Hkk : sqrt K * sqrt K = K) by (apply sqrt_sqrt; lra).
  apply Rmult_eq_reg_l with (p iρ * (2 * sqrt K)); [|apply Rgt_not_eq; apply Rmult_lt_0_compat; lra].
  replace (p iρ * (2 * sqrt K) * check_radial ic v) with (p iρ * (2 * sqrt K * check_radial ic v)) by ring. rewrite E.
  replace (p iρ * (2 * sqrt K) * ((sqrt K - p iv_φ) ^ 2 / (2 * sqrt K))) with (p iρ * (sqrt K * sqrt K - 2 * sqrt K * p iv_φ + p iv_φ ^ 2)) by (field; lra).
  replace (2 * sqrt K * (sqrt K - p iv_φ)) with (2 * (sqrt K * sqrt K) - 2 * sqrt K * p iv_φ) by ring. rewrite Hkk. lra.
Qed.
End Curve.

(** C96 fails for the hydrostatic method: a state that satisfies all of its equations shows a residual of 1/6. *)
Theorem C96_radial_refuted :
  momentum_φ 1 (fluid_of 0 static_y) 1 0 /\ momentum_r 9 1 (fluid_of 0 static_y) 1 0 /\ momentum_θ 1 (fluid_of 0 static_y) 1 0 /\
  E_φ_vanishes (fluid_of 0 static_y) 1 0 /\ solenoidal (fluid_of 0 static_y) 1 0 /\
  check_radial (mk_ic 0 1 9) (get_values (mk_ic 0 1 9) 0 (static_y 0) static_d) = 1 / 6.
Proof.
  destruct C62_nonvacuous as (Hd & Hv & Hρ & HB & HD & _ & HE & Hφ & Hrr & Hs & Hθ & _).
  assert (Hc : cos 0 <> 0) by (rewrite cos_0; lra).
  refine (conj Hφ (conj Hrr (conj Hθ (conj HE (conj Hs _))))).
  rewrite (C96_radial_exact 9 1 static_y static_d 0 1 Hd Hc Rlt_0_1 Hv Hρ ltac:(lra) HB HD HE Hrr).
  replace 9 with (3 ^ 2) by ring. rewrite sqrt_pow2 by lra. change (static_y 0 iv_φ) with 2. field.
Qed.

(** ** The numbers printed *)
(** One number per curve, in order: the greatest absolute value among the rows in the range, taken on by one of them; solutions with E_r or without
    internal data and ranges without rows are refused. *)
Lemma max_from_spec : forall l m, m <= max_from m l /\ (forall x, In x l -> x <= max_from m l) /\ (max_from m l = m \/ In (max_from m l) l).
Proof.
  induction l as [|x t IH]; intros m; cbn [max_from]; [split; [lra|]; split; [intros x []|left; reflexivity]|].
  destruct (IH (if Rlt_dec m x then x else m)) as (A & B & C). destruct (Rlt_dec m x) as [L|L].
  - split; [lra|]. split; [intros z [<-|Hz]; [exact A|apply B, Hz]|]. destruct C as [C|C]; [right; left; congruence|right; right; exact C].
  - split; [exact A|]. split; [intros z [<-|Hz]; [lra|apply B, Hz]|]. destruct C as [C|C]; [left; exact C|right; right; exact C].
Qed.
Definition inside (start stop : R) (rows : list values) (v : values) : Prop := In v rows /\ start <= va_angle v * 180 / PI <= stop.
Lemma inside_filter : forall start stop rows v, In v (filter (in_range start stop) rows) <-> inside start stop rows v.
Proof.
  intros start stop rows v. rewrite filter_In. unfold inside, in_range, degrees.
  destruct (Rle_dec start (va_angle v * 180 / PI)), (Rle_dec (va_angle v * 180 / PI) stop); intuition congruence.
Qed.
Theorem C96_printed : forall ic rows start stop out, generate_hydro_check false ic (Some rows) start stop = Ok out ->
  exists m1 m2 m3, out = [("azimuthal momentum", m1); ("approximate momenta", m2); ("radial momentum (approx method)", m3)] /\
  forall m f, In (m, f) [(m1, check_azimuthal); (m2, check_approximate); (m3, check_radial)] ->
    (forall v, inside start stop rows v -> Rabs (f ic v) <= m) /\ exists v, inside start stop rows v /\ Rabs (f ic v) = m.
Proof.
  intros ic rows start stop out H. unfold generate_hydro_check, param_names in H. cbn [print_all] in H.
  destruct (filter (in_range start stop) rows) as [|v0 t] eqn:E; [discriminate H|]. cbn [map py_max rbind] in H. injection H as <-.
  do 3 eexists. split; [reflexivity|].
  assert (G : forall f : validate_ic -> values -> R, (forall v, inside start stop rows v -> Rabs (f ic v) <= max_from (Rabs (f ic v0)) (map (fun v => Rabs (f ic v)) t)) /\
    exists v, inside start stop rows v /\ Rabs (f ic v) = max_from (Rabs (f ic v0)) (map (fun v => Rabs (f ic v)) t)).
  { intro f. destruct (max_from_spec (map (fun v => Rabs (f ic v)) t) (Rabs (f ic v0))) as (A & B & C). split.
    - intros v Hv. apply inside_filter in Hv. rewrite E in Hv. destruct Hv as [<-|Hv]; [exact A|]. apply B, in_map_iff. exists v. split; [reflexivity|exact Hv].
    - destruct C as [C|C].
      + exists v0. split; [apply inside_filter; rewrite E; left; reflexivity|]. symmetry. exact C.
      + apply in_map_iff in C. destruct C as (v & C1 & C2). exists v. split; [apply inside_filter; rewrite E; right; exact C2|exact C1]. }
  intros m f [Q|[Q|[Q|[]]]]; injection Q as <- <-; apply G.
Qed.
Theorem C96_refused : forall use_E_r ic rows start stop, (exists e, generate_hydro_check use_E_r ic rows start stop = Raise e) <->
  use_E_r = true \/ rows = None \/ exists l, rows = Some l /\ forall v, ~ inside start stop l v.
Proof.
  intros use_E_r ic rows start stop. unfold generate_hydro_check. destruct use_E_r; [split; [intros _; left; reflexivity|intros _; eexists; reflexivity]|].
  destruct rows as [l|]; [|split; [intros _; right; left; reflexivity|intros _; eexists; reflexivity]].
  unfold param_names. cbn [print_all]. destruct (filter (in_range start stop) l) as [|v0 t] eqn:E; cbn [map py_max rbind].
  - split; [|intros _; eexists; reflexivity]. intros _. right. right. exists l. split; [reflexivity|]. intros v Hv. apply inside_filter in Hv. rewrite E in Hv. exact Hv.
  - split; [intros [e Q]; discriminate Q|]. intros [Q|[Q|(l' & Q & N)]]; try discriminate Q. injection Q as <-. exfalso. apply (N v0). apply inside_filter. rewrite E. left. reflexivity.
Qed.
(** The hypotheses are met by the state of C62_nonvacuous; a command on its one row prints three numbers. *)
Example C96_nonvacuous : exists out, generate_hydro_check false (mk_ic 0 1 9) (Some [get_values (mk_ic 0 1 9) 0 (static_y 0) static_d]) 0 90 = Ok out /\
  static_y 0 iv_r <> 0 /\ static_y 0 iv_φ <> 0.
Proof.
  set (v := get_values (mk_ic 0 1 9) 0 (static_y 0) static_d).
  destruct (generate_hydro_check false (mk_ic 0 1 9) (Some [v]) 0 90) as [out|e] eqn:E.
  - exists out. split; [reflexivity|]. split; unfold static_y; cbn; lra.
  - exfalso. destruct (proj1 (C96_refused _ _ _ _ _) (ex_intro _ e E)) as [Q|[Q|(l & Q & N)]]; try discriminate Q. injection Q as <-. apply (N v).
    split; [left; reflexivity|]. change (va_angle v) with 0. replace (0 * 180 / PI) with 0 by (field; apply PI_neq0). lra.
Qed.
Print Assumptions C96_azimuthal. Print Assumptions C96_radial_mod. Print Assumptions C96_radial_refuted. Print Assumptions C96_printed.
