(** Vocabulary of C131: set-ups that depend on one number, and gas that slows down. *)
From Coq Require Import Reals.
From Verif Require Import Model_Index Model_Midplane Model_Ode Spec_Ode Spec_Midplane Spec_Error Spec_Param Spec_Exist.
Open Scope R_scope.

(** From the state [p] at the angle [a] the gas slows down at some angle up to [b] (what the step method calls a sign flip), and
    has met no singular state before. *)
Definition slows (o : ode_args) (p : vec) (a b : R) : Prop :=
  exists m M y x1 x2, 0 < m /\ a <= x1 /\ x1 < x2 /\ x2 <= b /\ (forall i, (i < ODE_LEN)%nat -> y a i = p i) /\
    (forall x, a <= x <= x2 -> solves_at o y x /\ margin o m M x (y x) /\ ambipolar_from o m (y x)) /\ y x2 iv_θ < y x1 iv_θ.

(** Set-ups and starts that depend continuously on a number between [g0] and [g1]. *)
Definition continuous_family (O : R -> ode_args) (P : R -> vec) (g0 g1 : R) : Prop :=
  forall g, g0 <= g <= g1 -> forall δ, 0 < δ -> exists η, 0 < η /\
    forall g', g0 <= g' <= g1 -> Rabs (g' - g) < η -> nearby (O g) (P g) δ (O g') (P g').

(** ** The set-ups of the step search: one input, γ varied *)
Definition with_γ (inp : cond_input) (g : R) : cond_input :=
  mk_cond_input (in_v_rin_on_c_s inp) (in_v_a_on_c_s inp) (in_c_s_on_v_k inp) g (in_η_O inp) (in_η_A inp) (in_η_H inp) (in_use_E_r inp)
    (in_start inp) (in_stop inp) (in_num_angles inp).
(** The midplane conditions (none: zeros; the claims are about γ that have some). *)
Definition conditions_for (inp : cond_input) (g : R) : conditions :=
  match define_conditions (with_γ inp g) with Some c => c | None => mk_conditions 0 0 zeros nil 0 end.
(** The system that is integrated, and the state at the stop angle where the integration starts after the Taylor jump. *)
Definition system_for (inp : cond_input) (ηd : bool) (g : R) : ode_args := system_of (conditions_for inp g) (in_use_E_r inp) false ηd.
Definition start_for (inp : cond_input) (ηd : bool) (stop g : R) : vec :=
  let c := conditions_for inp g in
  ts_new_initial_conditions (taylor_jump (c_angles c) (c_init_con c) (c_γ c) (c_a_0 c) stop ηd 1 (in_use_E_r inp)).
(** The midplane rotates, and the two denominators of the Taylor coefficients are not zero. *)
Definition regular_midplane (inp : cond_input) (g : R) : Prop :=
  let v_r := - in_v_rin_on_c_s inp in
  let a_0 := in_v_a_on_c_s inp ^ 2 in
  let η_P := in_η_O inp + in_η_A inp in
  let η_H := in_η_H inp in
  let Z_5 := midplane_Z_5_func (η_P ^ 2 + η_H ^ 2) η_P in
  let Y_5 := Y_5_func a_0 v_r g Z_5 in
  0 < v_φ_radicand v_r η_H η_P (1 / in_c_s_on_v_k inp ^ 2) a_0 g /\ Y_5 <> 0 /\
  Y_6_func (c_init_con (conditions_for inp g) iv_φ) Y_5 a_0 (midplane_C_func η_H η_P) Z_5 g v_r η_P η_H <> 0.
