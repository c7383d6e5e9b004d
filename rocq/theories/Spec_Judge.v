(** Vocabulary of C134: the vertical speed of a curve, sampled at the angles of a grid. *)
From Coq Require Import Reals List Sorted.
From Verif Require Import Model_Array.
Open Scope R_scope.

(** The column v_θ of a stored solution whose gas has the vertical speed [v θ] at the angle [θ]. *)
Definition sampled (v : R -> R) (angles : list R) : list num := map (fun θ => Some (v θ)) angles.
(** The angles increase, and lie between [a] and [b]. *)
Definition grid (a b : R) (angles : list R) : Prop := StronglySorted Rlt angles /\ Forall (fun θ => a <= θ <= b) angles.
Definition between (a b θ : R) : Prop := a <= θ <= b.
(** No angle between [a] and [b] is further than [δ] from the grid. *)
Definition as_fine_as (δ a b : R) (angles : list R) : Prop := forall θ, a <= θ <= b -> exists t, In t angles /\ Rabs (t - θ) < δ.
(** Among the angles that meet [P], the gas comes near to the sound speed; exceeds it; slows down while near to it. *)
Definition comes_near (c : R) (v : R -> R) (P : R -> Prop) : Prop := exists θ, P θ /\ c < v θ < 1.
Definition exceeds (v : R -> R) (P : R -> Prop) : Prop := exists θ, P θ /\ 1 < v θ.
Definition slows_near (c : R) (v : R -> R) (P : R -> Prop) : Prop := exists θ1 θ2, P θ1 /\ P θ2 /\ θ1 < θ2 /\ c < v θ2 /\ v θ2 < v θ1 /\ v θ1 < 1.
