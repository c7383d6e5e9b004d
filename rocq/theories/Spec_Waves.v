(** Independent specification for shocks and linear waves; nothing here refers to the code. *)
From Coq Require Import Reals List.
From Verif Require Import Model_Index.
Open Scope R_scope.

(** Rankine-Hugoniot conditions of an isothermal shock with unit sound speed whose normal is the θ direction, in
    a fluid with magnetic coupling a_0: fluxes of mass and of the three momentum components, the normal
    field and (the fluid being resistive) the tangential field are continuous. *)
Definition mass_flux (p : vec) : R := p iρ * p iv_θ.
Definition momentum_flux_θ (a_0 : R) (p : vec) : R :=
  p iρ * p iv_θ ^ 2 + p iρ + a_0 * ((p iB_r ^ 2 + p iB_φ ^ 2 + p iB_θ ^ 2) / 2 - p iB_θ ^ 2).
Definition momentum_flux_r (a_0 : R) (p : vec) : R := p iρ * p iv_θ * p iv_r - a_0 * p iB_θ * p iB_r.
Definition momentum_flux_φ (a_0 : R) (p : vec) : R := p iρ * p iv_θ * p iv_φ - a_0 * p iB_θ * p iB_φ.
Definition jump_conditions (a_0 : R) (p q : vec) : Prop :=
  mass_flux p = mass_flux q /\ momentum_flux_θ a_0 p = momentum_flux_θ a_0 q /\
  momentum_flux_r a_0 p = momentum_flux_r a_0 q /\ momentum_flux_φ a_0 p = momentum_flux_φ a_0 q /\
  p iB_r = q iB_r /\ p iB_φ = q iB_φ /\ p iB_θ = q iB_θ.

(** A plane wave of phase speed u along z in uniform ideal isothermal MHD with density ρ, field (B_x,B_y,B_z),
    sound speed c and magnetic coupling a: perturbations proportional to exp(i k (z - u t)) of
      ∂_t ρ + ∂_z(ρ v_z) = 0,   ρ ∂_t v = -c² ∂_z ρ ẑ + a (∇×B)×B,   ∂_t B = ∇×(v×B)
    linearised about rest (div B = 0 forces δB_z = 0). *)
Definition wave (a c ρ B_x B_y B_z u dρ dv_x dv_y dv_z db_x db_y : R) : Prop :=
  - u * dρ + ρ * dv_z = 0 /\
  - u * ρ * dv_x = a * B_z * db_x /\
  - u * ρ * dv_y = a * B_z * db_y /\
  - u * ρ * dv_z = - c ^ 2 * dρ - a * (B_x * db_x + B_y * db_y) /\
  - u * db_x = B_z * dv_x - B_x * dv_z /\
  - u * db_y = B_z * dv_y - B_y * dv_z.
(** u is the speed of some nonzero wave along the θ direction in a fluid in state p. *)
Definition wave_speed (a c : R) (p : vec) (u : R) : Prop :=
  exists dρ dv_x dv_y dv_z db_x db_y,
    (dρ <> 0 \/ dv_x <> 0 \/ dv_y <> 0 \/ dv_z <> 0 \/ db_x <> 0 \/ db_y <> 0) /\
    wave a c (p iρ) (p iB_r) (p iB_φ) (p iB_θ) u dρ dv_x dv_y dv_z db_x db_y.
