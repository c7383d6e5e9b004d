(** Specification for scaled angles in floating-point arithmetic. *)
From Coq Require Import ZArith Reals.
From Flocq Require Import Core.
Local Open Scope R_scope.

(** The number is above the range in which the format loses digits. *)
Definition normal (emin prec : Z) (x : R) : Prop := bpow radix2 (emin + prec) <= Rabs x.
(** A conversion keeps the order of angles (it may make two of them equal). *)
Definition keeps_order (f : option R -> option R) : Prop :=
  forall x y x' y', x <= y -> f (Some x) = Some x' -> f (Some y) = Some y' -> x' <= y'.
