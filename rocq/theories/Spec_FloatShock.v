(** Specification for the jump of a shock in floating-point arithmetic. *)
From Coq Require Import Reals.
Local Open Scope R_scope.

(** The flux of mass and the flux of momentum through a shock, of a flow with this density and this velocity (in units of the speed of
    sound), exactly. *)
Definition mass_flux (ρ v : R) : R := ρ * v.
Definition momentum_flux (ρ v : R) : R := ρ * (1 + v ^ 2).
(** Two numbers differ by at most this fraction of the second. *)
Definition within (e x y : R) : Prop := Rabs (x - y) <= e * Rabs y.
