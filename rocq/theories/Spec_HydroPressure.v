(** Vocabulary of C147: what the gas above a cone weighs, in a disc without vertical motion. *)
From Coq Require Import Reals.
From Verif Require Import Model_Index.
Open Scope R_scope.

(** The pressure of the gas (the speed of sound is one) and of the field along the cone. *)
Definition total_pressure (a_0 : R) (p : vec) : R := p iρ + a_0 * (p iB_r ^ 2 + p iB_φ ^ 2) / 2.
(** What pulls towards the midplane, per angle: gravity, whose part across the orbit is ρ v_φ² tan θ, and the tension of a field bent outwards, less
    the tension of the field wound round the axis. *)
Definition weight (a_0 θ : R) (p : vec) : R := p iρ * p iv_φ ^ 2 * tan θ + a_0 * (p iB_r * p iB_θ / 4 - p iB_φ ^ 2 * tan θ).
