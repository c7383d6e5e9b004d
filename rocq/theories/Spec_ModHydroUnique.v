(** Vocabulary of C140: curves that solve the system of the modified hydrostatic method without E_r, and the states at which it is
    regular. *)
From Coq Require Import Reals.
From Verif Require Import Model_Index Model_Deriv Model_Ode Model_Hydro Model_ModHydro Spec_Ode Spec_HydroUnique.
Open Scope R_scope.

(** A curve solves the system at [x]: the call there returns derivatives, and they are those of the curve.  Without E_r no root of
    the cubic is looked for: the solver of cubics and the root it holds do not matter. *)
Definition mod_solves_at (m : mod_hydro_args) (y : R -> vec) (x : R) : Prop :=
  forall solve_root root, exists d q root' θ, mod_hydro_rhs solve_root m root x (y x) = Mh_ok d q root' θ /\
  forall i, (i < ODE_LEN)%nat -> derivable_pt_lim (fun t => y t i) x (d i).

(** The numbers of the method that must not vanish at a state [p] and an angle [θ]: the determinant of the two equations for v_r' and
    v_φ' (mod_hydro.py:306), the denominator in Z_6 (mod_hydro.py:180), and Z_6, which B_φ'' is divided by. *)
Section Numbers.
Variables (m : mod_hydro_args) (θ : R) (p : vec).
Definition kepler : R := sqrt (ma_norm_kepler_sq m).
Definition mod_Z_3 : R := Model_ModHydro.Z_3_func (p iv_r) (p iB_θ) kepler (p iη_O) (p iη_A) (unit p iB_φ).
Definition mod_determinant : R := p iv_φ ^ 2 * p iρ * kepler - the_Z_4 θ p * ma_a_0 m * p iv_r.
Definition mod_denominator : R := p iv_φ ^ 2 * p iρ - mod_Z_3 * the_Z_4 θ p * ma_a_0 m * p iv_r.
Definition mod_coefficient : R := Model_ModHydro.Z_6_func (ma_a_0 m) (the_X p) (p iv_r) (p iB_θ) (p iρ) mod_Z_3 (the_Z_5 p) kepler (the_C p) (p iv_φ) (the_Z_4 θ p).
End Numbers.

(** The state is not one of the singular ones: the angle is not the axis, there is a field, there is gas, the azimuthal current
    meets a resistance, there is a Keplerian velocity, the gas orbits, and the three numbers do not vanish. *)
Definition mod_regular (m : mod_hydro_args) (x : R) (p : vec) : Prop :=
  cos (x * ma_θ_scale m) <> 0 /\ B_nonzero p /\ 0 < p iρ /\
  p iη_O + p iη_A * (1 - unit p iB_φ ^ 2) <> 0 /\ 0 < ma_norm_kepler_sq m /\ p iv_φ <> 0 /\
  mod_determinant m (x * ma_θ_scale m) p <> 0 /\ mod_denominator m (x * ma_θ_scale m) p <> 0 /\ mod_coefficient m (x * ma_θ_scale m) p <> 0.

(** A solution at every angle from [a] to [b]. *)
Definition mod_solves (m : mod_hydro_args) (y : R -> vec) (a b : R) : Prop :=
  forall x, a <= x <= b -> mod_solves_at m y x /\ mod_regular m x (y x).
