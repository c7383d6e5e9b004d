(** Vocabulary of C129: states that a solution can start from. *)
From Coq Require Import Reals.
From Verif Require Import Model_Index Model_Ode.
Open Scope R_scope.

(** The code accepts the state and its neighbours: it does not look at the signs of density and vertical velocity, or the density is
    not negative and the gas rises at [m] at least. *)
Definition accepted_from (o : ode_args) (m : R) (p : vec) : Prop :=
  oa_derivs_post_solution o = true \/ (0 <= p iρ /\ m <= p iv_θ).
(** The ambipolar diffusivity cannot become negative at once: it is [m] at least, or constant. *)
Definition ambipolar_from (o : ode_args) (m : R) (p : vec) : Prop :=
  m <= p iη_A \/ oa_η_derivs o = false \/ oa_init_con o iη_A = 0.
