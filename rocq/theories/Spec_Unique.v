(** Vocabulary of C122: curves that solve the system on a closed interval and stay where it is regular. *)
From Coq Require Import Reals.
From Verif Require Import Model_Index Model_Ode Spec_Ode.
Open Scope R_scope.

(** The state is not one of the singular ones: there is a field, there is gas, the field is diffusive (by Ohm's law, or by
    ambipolar diffusion together with a vertical field), the angle is not the axis, the gas moves vertically (not asked in Taylor
    mode) and not at the sound speed (not asked where v_θ' is interpolated). *)
Definition regular (o : ode_args) (x : R) (p : vec) : Prop :=
  cos (x * oa_θ_scale o) <> 0 /\ B_nonzero p /\ p iρ <> 0 /\
  0 <= p iη_O /\ 0 <= p iη_A /\ (0 < p iη_O \/ (0 < p iη_A /\ p iB_θ <> 0)) /\
  (oa_with_taylor o = false -> p iv_θ <> 0) /\ (oa_deriv_v_θ_func o = None -> p iv_θ ^ 2 <> 1).

(** A solution at every angle from [a] to [b]. *)
Definition solves_from_to (o : ode_args) (y : R -> vec) (a b : R) : Prop :=
  forall x, a <= x <= b -> solves_at o y x /\ regular o x (y x).

(** An interpolated v_θ', where one is used, is continuous. *)
Definition interpolant_continuous (o : ode_args) (a b : R) : Prop :=
  forall f, oa_deriv_v_θ_func o = Some f -> forall x, a <= x <= b -> continuity_pt f (x * oa_θ_scale o).

(** The squared distance between two states, all eleven slots counted. *)
Definition dist_sq (p q : vec) : R := sum_f_R0 (fun i => (p i - q i) ^ 2) (pred ODE_LEN).
