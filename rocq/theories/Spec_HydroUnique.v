(** Vocabulary of C136: curves that solve the hydrostatic system on a closed interval and stay where it is regular. *)
From Coq Require Import Reals.
From Verif Require Import Model_Index Model_Deriv Model_Ode Model_Hydro Spec_Ode.
Open Scope R_scope.

(** A curve solves the system at [x]: the call there returns derivatives, and they are those of the curve. *)
Definition hydro_solves_at (h : hydro_args) (y : R -> vec) (x : R) : Prop :=
  exists d θ, hydro_rhs h x (y x) = Hy_ok d θ /\ forall i, (i < ODE_LEN)%nat -> derivable_pt_lim (fun t => y t i) x (d i).

(** The three numbers of the method that must not vanish at a state [p] and an angle [θ]: the discriminant of the quadratic whose
    root is v_φ, the determinant of the two equations for v_r' and v_φ' (hydrostatic.py:346-347), and the coefficient of B_φ'' in
    the induction equation after v_φ' is eliminated (Z_6, hydrostatic.py:244-250). *)
Section Numbers.
Variables (h : hydro_args) (θ : R) (p : vec).
Definition unit (i : nat) : R := p i / sqrt (p iB_r ^ 2 + p iB_φ ^ 2 + p iB_θ ^ 2).
Definition the_X : R := X_func (p iη_O) (p iη_A) (p iη_H) (unit iB_θ) (unit iB_r) (unit iB_φ).
Definition the_b : R := b_func the_X (p iv_r).
Definition the_c : R := c_func θ (ha_norm_kepler_sq h) (ha_a_0 h) the_X (p iv_r) (p iB_φ) (p iB_θ) (p iB_r) (p iρ)
  (p iη_A) (p iη_O) (p iη_H) (unit iB_φ) (unit iB_r) (unit iB_θ).
Definition the_C : R := C_func (p iη_O) (p iη_A) (p iη_H) (unit iB_θ) (unit iB_r) (unit iB_φ).
Definition the_Z_3 : R := Z_3_func the_X (p iv_r) (ha_a_0 h) (p iB_θ) (p iρ) (p iη_O) (p iη_A) (unit iB_φ) the_b the_c.
Definition the_Z_4 : R := Z_4_func (p iB_θ) (p iB_r) (p iB_φ) (p iB_φ_prime) θ.
Definition the_Z_5 : R := Z_5_func (p iη_O) (p iη_A) (p iη_H) (unit iB_r) (unit iB_θ) (unit iB_φ) the_C.
Definition discriminant : R := the_b ^ 2 - 4 * the_c.
Definition determinant : R := p iv_φ ^ 2 * p iρ + 2 * ha_a_0 h * the_Z_3 * the_Z_4.
Definition coefficient : R := Z_6_func the_C the_Z_3 the_Z_4 the_Z_5 (ha_a_0 h) (p iB_θ) (p iv_φ) (p iρ).
End Numbers.

(** The state is not one of the singular ones: the angle is not the axis, there is a field, there is gas, the azimuthal current
    meets a resistance, the gas orbits, and the three numbers do not vanish. *)
Definition hydro_regular (h : hydro_args) (x : R) (p : vec) : Prop :=
  cos (x * ha_θ_scale h) <> 0 /\ B_nonzero p /\ 0 < p iρ /\
  p iη_O + p iη_A * (1 - unit p iB_φ ^ 2) <> 0 /\ p iv_φ <> 0 /\
  0 < discriminant h (x * ha_θ_scale h) p /\ determinant h (x * ha_θ_scale h) p <> 0 /\ coefficient h (x * ha_θ_scale h) p <> 0.

(** A solution at every angle from [a] to [b]. *)
Definition hydro_solves (h : hydro_args) (y : R -> vec) (a b : R) : Prop :=
  forall x, a <= x <= b -> hydro_solves_at h y x /\ hydro_regular h x (y x).
