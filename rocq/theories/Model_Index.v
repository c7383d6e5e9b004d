(** Array slots and vectors.

    Models src/disc_solver/utils.py lines 48-104 (MHD_Wave_Index, ODEIndex, CylindricalODEIndex and the
    index groups).  numpy vectors are modelled as total functions from the slot number to a value; only
    slots 0..10 are meaningful.  [upd] models [array[i] = v]. *)
From Coq Require Import Reals List Arith.
Import ListNotations.

(** utils.py:57-72, class ODEIndex(IntEnum). *)
Definition iB_r : nat := 0.
Definition iB_φ : nat := 1.
Definition iB_θ : nat := 2.
Definition iv_r : nat := 3.
Definition iv_φ : nat := 4.
Definition iv_θ : nat := 5.
Definition iρ : nat := 6.
Definition iB_φ_prime : nat := 7.
Definition iE_r : nat := 7.          (* alias of B_φ_prime, as in the IntEnum *)
Definition iη_O : nat := 8.
Definition iη_A : nat := 9.
Definition iη_H : nat := 10.

(** utils.py:75-90, class CylindricalODEIndex(IntEnum). *)
Definition cB_r : nat := 0.
Definition cB_φ : nat := 1.
Definition cB_z : nat := 2.
Definition cv_r : nat := 3.
Definition cv_φ : nat := 4.
Definition cv_z : nat := 5.
Definition cρ : nat := 6.
Definition cB_φ_prime : nat := 7.
Definition cE_r : nat := 7.
Definition cη_O : nat := 8.
Definition cη_A : nat := 9.
Definition cη_H : nat := 10.

(** len(ODEIndex): the number of distinct members. *)
Definition ODE_LEN : nat := 11.

(** utils.py:93-104. *)
Definition MAGNETIC_INDEXES : list nat := [iB_r; iB_φ; iB_θ].
Definition VELOCITY_INDEXES : list nat := [iv_r; iv_φ; iv_θ].
Definition DIFFUSIVE_INDEXES : list nat := [iη_O; iη_A; iη_H].

(** A vector of values of type [V] (numpy 1-d array of length 11). *)
Definition arr (V : Type) := nat -> V.
Definition vec := arr R.

(** [array[i] = v] (functional update). *)
Definition upd {V : Type} (i : nat) (v : V) (a : arr V) : arr V :=
  fun j => if Nat.eqb j i then v else a j.

(** numpy.zeros(11). *)
Definition zeros : vec := fun _ => 0%R.
