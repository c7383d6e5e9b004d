(** Specification for the step search in floating-point arithmetic. *)
From Coq Require Import ZArith Reals.
From Flocq Require Import Core.
From Verif Require Import Model_Stepper.
Local Open Scope R_scope.

(** The judge answers one of the two types.  Below [lo] it says that the velocity changes sign, above [hi] that it diverges; between the
    two it may say either, in any pattern. *)
Definition settled (lo hi : R) (ty : R -> SplitterStatus) : Prop :=
  (forall γ, ty γ = DIVERGE \/ ty γ = SIGN_FLIP) /\ (forall γ, γ < lo -> ty γ = SIGN_FLIP) /\ (forall γ, hi < γ -> ty γ = DIVERGE).
(** x is a number of the floating-point format with prec bits and least exponent emin. *)
Definition representable (emin prec : Z) (x : R) : Prop := exists m k : Z, x = IZR m * bpow radix2 k /\ (Z.abs m < 2 ^ prec)%Z /\ (emin <= k)%Z.
