(** Vocabulary of C146: the azimuthal force balance of a disc without vertical motion, as a radial velocity. *)
From Coq Require Import Reals.
From Verif Require Import Model_Index.
Open Scope R_scope.

(** The gas flows inwards as fast as the field takes angular momentum from it: ρ v_r v_φ / 2 is the torque
    a_0 (B_θ B_φ' - B_r B_φ / 4 - B_θ B_φ tan θ) of the field exactly if v_r is this velocity. *)
Definition balance_speed (a_0 θ : R) (p : vec) : R :=
  2 * a_0 * (p iB_θ * p iB_φ_prime - p iB_r * p iB_φ / 4 - p iB_θ * p iB_φ * tan θ) / (p iρ * p iv_φ).
(** How much faster than that the gas flows outwards. *)
Definition excess_speed (a_0 θ : R) (p : vec) : R := p iv_r - balance_speed a_0 θ p.
